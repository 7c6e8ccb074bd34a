(** Generators that panic, for [UInt] and [Int]. *)
From Coq Require Import Permutation.
From Verif Require Export LForeign LUnwindTyped2 MForeignTyped.
Open Scope list_scope.
Open Scope Z_scope.

Lemma rel_norm k c w u : rel c (w, u mod 2 ^ w) -> tholds (Some (wrap k c)) (Some (mk_tval k w (norm k w u))).
Proof. intros H. destruct k; cbn [tholds wrap norm]; [exact H|exact (to_int c w u H)]. Qed.
Lemma low_mod k w z v n : 0 < w -> least k w <= z <= greatest k w -> 0 <= v < 2 ^ (64 * Z.of_nat n) -> 64 * Z.of_nat n < w ->
  low_replaced v n z mod 2 ^ w = v + 2 ^ (64 * Z.of_nat n) * (z mod 2 ^ w / 2 ^ (64 * Z.of_nat n)) /\ norm k w (low_replaced v n z) = low_replaced v n z.
Proof.
  intros Hw Hz Hv Hn. unfold low_replaced. set (e := 64 * Z.of_nat n) in *. assert (He : 0 <= e) by (unfold e; lia).
  assert (Q : 2 ^ w = 2 ^ e * 2 ^ (w - e)) by (rewrite <- Z.pow_add_r by lia; f_equal; lia).
  assert (Q1 : 2 ^ (w - 1) = 2 ^ e * 2 ^ (w - 1 - e)) by (rewrite <- Z.pow_add_r by lia; f_equal; lia).
  assert (D : 2 ^ (w - e) = 2 * 2 ^ (w - 1 - e)) by (rewrite <- Z.pow_succ_r by lia; f_equal; lia).
  assert (P : 0 < 2 ^ e) by (apply Z.pow_pos_nonneg; lia). assert (P1 : 0 < 2 ^ (w - 1 - e)) by (apply Z.pow_pos_nonneg; lia).
  pose proof (Z.div_mod z (2 ^ e) ltac:(lia)) as Ez. pose proof (Z.mod_pos_bound z (2 ^ e) P) as Rz.
  assert (F : z mod 2 ^ w / 2 ^ e = z / 2 ^ e mod 2 ^ (w - e)).
  { rewrite Q. rewrite Z.rem_mul_r by lia. rewrite Z.mul_comm, Z.div_add by lia. rewrite (Z.div_small (z mod 2 ^ e)) by lia. lia. }
  split.
  - rewrite F. rewrite Q. rewrite Z.rem_mul_r by lia. f_equal.
    + rewrite Z.mul_comm, Z.mod_add by lia. now apply Z.mod_small.
    + do 2 f_equal. rewrite Z.mul_comm, Z.div_add by lia. rewrite (Z.div_small v) by lia. reflexivity.
  - destruct k; cbn [norm least greatest] in *.
    + apply Z.mod_small. rewrite Q, D in *. generalize dependent (2 ^ e). intros b. generalize dependent (2 ^ (w - 1 - e)). intros c. intros.
      assert (0 <= z / b) by (apply Z.div_pos; lia). assert (z / b < 2 * c) by (apply Z.div_lt_upper_bound; lia). nia.
    + apply wrap_signed_small; [exact Hw|]. rewrite Q1 in *. generalize dependent (2 ^ e). intros b. generalize dependent (2 ^ (w - 1 - e)). intros c. intros.
      assert (- c <= z / b) by (apply Z.div_le_lower_bound; nia). assert (z / b < c) by (apply Z.div_lt_upper_bound; lia). nia.
Qed.

Lemma tget_owned hs ts L s x : Forall2 tholds ts s -> tsown all_owned hs ts L ->
  match nth_error hs x with
  | Some (Some (mk_htvar k a)) => exists c w z La Lr, nth_error ts x = Some (Some (wrap k c)) /\ nth_error s x = Some (Some (mk_tval k w z)) /\
      tholds (Some (wrap k c)) (Some (mk_tval k w z)) /\ Permutation L (La ++ Lr) /\ repr a c La /\ tsown all_owned (update x None hs) (update x None ts) Lr
  | _ => forall v, nth_error s x <> Some (Some v)
  end.
Proof.
  intros H So. pose proof (forall2_get _ _ _ x H) as G.
  assert (Gone : (forall v, nth_error hs x <> Some (Some v)) -> forall v, nth_error s x <> Some (Some v)).
  { intros E v F. pose proof (tsown_gone _ _ _ _ x So E) as Q. rewrite F in G. destruct (nth_error ts x) as [[t|]|]; try contradiction. exact (Q t eq_refl). }
  destruct (nth_error hs x) as [[[k a]|]|] eqn:E; [|apply Gone; discriminate|apply Gone; discriminate].
  destruct (tsown_take _ _ _ L x k a So E) as (c & La & Lr & Ec & P & Ha & Hs). rewrite Ec in G.
  destruct (nth_error s x) as [[[k' w z]|]|] eqn:F; [| |contradiction].
  - pose proof (wrap_holds k c (mk_tval k' w z) G) as (K & _). cbn [tkind] in K. subst k'. exists c, w, z, La, Lr. auto 8.
  - destruct k; contradiction.
Qed.
Lemma tholds_update ts s x v u : Forall2 tholds ts s -> tholds (Some v) (Some u) -> Forall2 tholds (update x (Some v) ts) (update x (Some u) s).
Proof. intros H K. revert x. induction H; intros [|i]; cbn; constructor; auto. Qed.
Lemma tsown_back hs ts L x k a c La : tsown all_owned (update x None hs) (update x None ts) L -> (exists b, nth_error hs x = Some b) -> repr a c La ->
  tsown all_owned (update x (Some (mk_htvar k a)) hs) (update x (Some (wrap k c)) ts) (La ++ L).
Proof.
  intros H (b & E) Ha. pose proof (tsown_fill all_owned _ _ L x k a c La H (nth_update_same x None b hs E) Ha) as R. now rewrite !update_twice in R.
Qed.
Lemma pull_short {S : Type} (next : S -> drawn S) n s v k s' : generator_ok next -> pull next n s = (v, k, s') -> (k <= n)%nat /\ 0 <= v < 2 ^ (64 * Z.of_nat k).
Proof.
  intros Hn E. destruct (f_draw_spec next Hn n s) as (ds & s1 & _ & E1 & Hd & Hl). rewrite E1 in E. injection E as <- <- <-. split; [exact Hl|].
  rewrite <- P_pow. exact (uval_bound ds Hd).
Qed.

Lemma ref_ht_random {S : Type} (next : S -> drawn S) k w s L : generator_ok next -> 0 < w ->
  let '(v, n, s') := pull next (word_count w) s in
  refines (ht_random next k w s) L (Val (Nat.eqb n (word_count w), s')) (fun p q L' => snd p = snd q /\ exists L2, L' = L2 ++ L /\
    match fst p, fst q with
    | Some a, true => hkind a = k /\ exists c, repr (hval a) c L2 /\ rel c (w, v mod 2 ^ w)
    | None, false => L2 = []
    | _, _ => False
    end).
Proof.
  intros Hn Hw. pose proof (ref_random next w s Hn Hw) as R. destruct (pull next (word_count w) s) as [[v n] g'].
  apply (ref_frame _ [] L) in R. unfold ht_random. eapply ref_step; [exact R|]. intros [r g2] L1 (L2 & -> & Eg & K). cbn [fst snd] in *. subst g2.
  apply ref_ret. cbn [fst snd]. split; [reflexivity|]. exists L2. split; [reflexivity|]. destruct r as [a|], (Nat.eqb n (word_count w)); cbn [option_map]; try tauto.
Qed.
Lemma ref_ht_randomize {S : Type} (next : S -> drawn S) k a x L F s w u : generator_ok next -> repr a x L -> rel x (w, u) ->
  let '(v, n, s') := pull next (word_count w) s in
  refines (ht_randomize next (mk_htvar k a) s) (L ++ F) (Val (s', Nat.eqb n (word_count w)))
    (fun p q L' => snd p = q /\ hkind (fst p) = k /\ exists c L2, L' = L2 ++ F /\ repr (hval (fst p)) c L2 /\
       rel c (w, if Nat.eqb n (word_count w) then v mod 2 ^ w
                 else v + 2 ^ (64 * Z.of_nat n) * (u / 2 ^ (64 * Z.of_nat n)))).
Proof.
  intros Hn Ha Hr. pose proof (ref_randomize next a x L s w u Hn Ha Hr) as R. destruct (pull next (word_count w) s) as [[v n] g'].
  apply (ref_frame _ L F) in R. unfold ht_randomize. cbn [hval]. eapply ref_step; [exact R|]. intros [a' q] L1 (L2 & -> & Eg & c & K & Q). cbn [fst snd] in *. subst q.
  apply ref_ret. cbn [fst snd hkind hval]. split; [reflexivity|]. split; [reflexivity|]. exists c, L2. auto.
Qed.

Lemma tforeign_step {S : Type} (next : S -> drawn S) hs ts L s g c : generator_ok next -> tfcmd_ok c ->
  Forall2 tholds ts s -> tsown all_owned hs ts L ->
  refines (htstep_foreign next hs g c) L (Val (snd (tastep_foreign next s g c))) (tapost (fst (tastep_foreign next s g c))).
Proof.
  intros Hn Hc H So. destruct c as [c|k w|x]; cbn [htstep_foreign tastep_foreign].
  - destruct (tcatch_step hs ts L s c Hc H So) as (ts1 & R1 & H1). destruct (tacatch s c) as [s1 o1]. cbn [fst snd] in *.
    eapply ref_step; [exact R1|]. intros [hs1 o'] L1 (Eo & S1). cbn [fst snd] in *. subst o'. apply ref_ret.
    split; [reflexivity|]. exists ts1. auto.
  - cbn [tfcmd_ok] in Hc. unfold bitwidth_new. destruct (Z.eqb_spec w 0) as [->|N].
    + apply ref_ret. split; [reflexivity|]. exists ts. auto.
    + pose proof (ref_ht_random next k w g L Hn ltac:(lia)) as R. destruct (pull next (word_count w) g) as [[v n] g'].
      eapply ref_step; [exact R|]. intros [r g2] L1 (Eg & L2 & -> & K). cbn [fst snd] in *. subst g2.
      destruct r as [[k' a]|], (Nat.eqb n (word_count w)); try tauto.
      * cbn [hkind hval] in K. destruct K as (-> & c & Ha & Hc'). apply ref_ret. split; [reflexivity|]. exists (ts ++ [Some (wrap k c)]). split.
        -- apply Forall2_app; [exact H|]. constructor; [|constructor]. exact (rel_norm k c w v Hc').
        -- apply (tsown_append all_owned hs ts L k a c L2 So Ha).
      * subst L2. apply ref_ret. split; [reflexivity|]. exists ts. auto.
  - pose proof (tget_owned hs ts L s x H So) as G. destruct (nth_error hs x) as [[[k a]|]|] eqn:Eh.
    2,3: destruct (nth_error s x) as [[t|]|]; [now destruct (G t)| |]; apply ref_ret; split; [reflexivity|exists ts; auto|reflexivity|exists ts; auto].
    destruct G as (c & w & z & La & Lr & Ec & Es & Hr & P & Ha & Sr). rewrite Es.
    pose proof (wrap_holds k c _ Hr) as (_ & Hr'). cbn [twidth tvalue] in Hr'.
    pose proof (ref_ht_randomize next k a c La Lr g w (z mod 2 ^ w) Hn Ha Hr') as R.
    destruct (pull next (word_count w) g) as [[v n] g'] eqn:Ep. destruct (pull_short next _ _ _ _ _ Hn Ep) as (Ln & Rv).
    eapply ref_perm; [exact P|].
    eapply ref_step; [exact R|]. intros [[k' a'] [g2 ok]] L1 (Eg & Ek & c' & L2 & -> & Ha' & Hc'). cbn [fst snd hkind hval] in *. injection Eg as -> ->. subst k'.
    apply ref_ret. destruct (Nat.eqb_spec n (word_count w)) as [Q|Q].
    + split; [reflexivity|]. exists (update x (Some (wrap k c')) ts). split; [apply tholds_update; [exact H|exact (rel_norm k c' w v Hc')]|].
      cbn [fst]. apply tsown_back; eauto.
    + split; [reflexivity|]. exists (update x (Some (wrap k c')) ts). split; [|cbn [fst]; apply tsown_back; eauto].
      apply tholds_update; [exact H|].
      assert (T : in_type (mk_tval k w z)).
      { pose proof (tholds_in_type [Some (wrap k c)] [Some (mk_tval k w z)] ltac:(constructor; [exact Hr|constructor])) as F. now inversion F. }
      destruct T as (Hw & Rz). cbn [twidth tkind tvalue] in *.
      assert (Hlt : 64 * Z.of_nat n < w).
      { unfold word_count in *. assert (Z.of_nat n < (w + 63) / 64) by lia. pose proof (Z.div_mod (w + 63) 64 ltac:(lia)). pose proof (Z.mod_pos_bound (w + 63) 64 ltac:(lia)). lia. }
      destruct (low_mod k w z v n Hw Rz Rv Hlt) as (M1 & M2). rewrite <- M2. apply rel_norm. rewrite M1. exact Hc'.
Qed.

Lemma tforeign_run {S : Type} (next : S -> drawn S) p : generator_ok next -> Forall tfcmd_ok p ->
  forall hs ts L s g, Forall2 tholds ts s -> tsown all_owned hs ts L ->
  refines (htrun_foreign next hs g p) L (Val (snd (tarun_foreign next s g p))) (tapost (fst (tarun_foreign next s g p))).
Proof.
  intros Hn. induction 1 as [|c p Hc Hp IH]; intros hs ts L s g H So; cbn [htrun_foreign tarun_foreign].
  - apply ref_ret. split; [reflexivity|]. exists ts. auto.
  - pose proof (tforeign_step next hs ts L s g c Hn Hc H So) as R1. destruct (tastep_foreign next s g c) as [s1 [g1 o1]]. cbn [fst snd] in *.
    eapply ref_step; [exact R1|]. intros [hs1 [g' o']] L1 (Eo & ts1 & H1 & S1). cbn [fst snd] in *. injection Eo as -> ->.
    specialize (IH hs1 ts1 L1 s1 g1 H1 S1). destruct (tarun_foreign next s1 g1 p) as [s2 [g2 os]]. cbn [fst snd] in *.
    eapply ref_step; [exact IH|]. intros [hs2 [g2' os']] L2 (Eo & K). cbn [fst snd] in *. injection Eo as -> ->. apply ref_ret. split; [reflexivity|exact K].
Qed.
Lemma tforeign_states {S : Type} (next : S -> drawn S) g p slack : generator_ok next -> Forall tfcmd_ok p ->
  exists vs m ts, exec (htrun_foreign next [] g p) (empty_memory slack) = MVal (vs, snd (tarun_foreign next [] g p)) m /\
    Forall2 tholds ts (fst (tarun_foreign next [] g p)) /\ Forall2 (in_memory m) vs (fst (tarun_foreign next [] g p)) /\ owned_once m (inside vs).
Proof.
  intros Hn Hp. pose proof (tforeign_run next p Hn Hp [] [] [] [] g ltac:(constructor) tsown_nil) as R.
  pose proof (ref_exec _ _ _ _ [] (empty_memory slack) R (live_empty slack)) as (r & m & L & E & K & Hm).
  destruct r as [vs os]. destruct K as (Eo & ts & Hts & So & Kd). cbn [fst snd] in *. subst os. rewrite app_nil_r in Hm.
  destruct (sown_order _ _ _ L m Hm So (inv_inside ts _ Hts)) as (A & C).
  exists vs, m, ts. split; [exact E|]. split; [exact Hts|]. split; [|exact C]. exact (in_memory_fact m ts _ vs Hts Kd A).
Qed.
Lemma tforeign_fact {S : Type} (next : S -> drawn S) g p slack : generator_ok next -> Forall tfcmd_ok p ->
  exists vs m, exec (htrun_foreign next [] g p) (empty_memory slack) = MVal (vs, snd (tarun_foreign next [] g p)) m /\
    Forall2 (in_memory m) vs (fst (tarun_foreign next [] g p)) /\ owned_once m (inside vs).
Proof. intros Hn Hp. destruct (tforeign_states next g p slack Hn Hp) as (vs & m & ts & E & _ & A & C). eauto. Qed.
Lemma tforeign_range_fact {S : Type} (next : S -> drawn S) g p : generator_ok next -> Forall tfcmd_ok p ->
  Forall (fun o => match o with Some v => in_type v | None => True end) (fst (tarun_foreign next [] g p)).
Proof. intros Hn Hp. destruct (tforeign_states next g p (fun n => n) Hn Hp) as (vs & m & ts & _ & H & _). exact (tholds_in_type ts _ H). Qed.
Lemma tarun_foreign_app {S : Type} (next : S -> drawn S) p q : forall s g, tarun_foreign next s g (p ++ q) =
  let '(s1, (g1, os)) := tarun_foreign next s g p in let '(s2, (g2, os2)) := tarun_foreign next s1 g1 q in (s2, (g2, os ++ os2)).
Proof.
  induction p as [|c p IH]; intros s g; cbn [app tarun_foreign].
  - now destruct (tarun_foreign next s g q) as [s1 [g1 os]].
  - destruct (tastep_foreign next s g c) as [s1 [g1 o]]. rewrite IH. destruct (tarun_foreign next s1 g1 p) as [s2 [g2 os]].
    destruct (tarun_foreign next s2 g2 q) as [s3 [g3 os3]]. reflexivity.
Qed.
Lemma tarun_foreign_calls {S : Type} (next : S -> drawn S) p : forall s g, fst (tarun_foreign next s g (map TFCall p)) = fst (tacatches s p).
Proof.
  induction p as [|c p IH]; intros s g; cbn [map tarun_foreign tacatches]; [reflexivity|]. cbn [tastep_foreign].
  destruct (tacatch s c) as [s1 o]. specialize (IH s1 g). destruct (tarun_foreign next s1 g (map TFCall p)) as [s2 [g2 os]].
  destruct (tacatches s1 p). exact IH.
Qed.
Lemma tforeign_no_leak_fact {S : Type} (next : S -> drawn S) g p slack : generator_ok next -> Forall tfcmd_ok p ->
  exists vs r m,
    exec (htrun_foreign next [] g (p ++ map (fun i => TFCall (TDrop i)) (seq 0 (length (fst (tarun_foreign next [] g p)))))) (empty_memory slack) = MVal (vs, r) m /\
    all_freed m.
Proof.
  intros Hn Hp. set (n := length (fst (tarun_foreign next [] g p))). rewrite <- (map_map TDrop TFCall). set (q := map TDrop (seq 0 n)).
  assert (Hq : Forall tfcmd_ok (p ++ map TFCall q)).
  { apply Forall_app. split; [exact Hp|]. unfold q. clear. induction (seq 0 n); constructor; [exact Logic.I|exact IHl]. }
  assert (E : fst (tarun_foreign next [] g (p ++ map TFCall q)) = repeat None n).
  { rewrite tarun_foreign_app. unfold n, q, n. destruct (tarun_foreign next [] g p) as [s [g1 os]]. cbn [fst].
    pose proof (tarun_foreign_calls next (map TDrop (seq 0 (length s))) s g1) as Q.
    destruct (tarun_foreign next s g1 _) as [s2 [g2 os2]]. cbn [fst] in *. rewrite Q.
    destruct (tarun_drops s (length s) 0 ltac:(lia) ltac:(intros; lia)) as (os3 & D). rewrite (tacatches_some _ _ _ _ D). reflexivity. }
  destruct (tforeign_fact next g (p ++ map TFCall q) slack Hn Hq) as (vs & m & X & S' & O). rewrite E in S'.
  eexists. eexists. exists m. split; [exact X|]. intros b ds Hb. destruct (O b ds Hb) as (i & (a & Ei & _) & _).
  clear - S' Ei. revert i Ei. remember (repeat (@None tval) n) as l eqn:El.
  assert (A : forall c, In c l -> c = None) by (intros c Hc; rewrite El in Hc; now apply repeat_spec in Hc). clear El.
  induction S' as [|v c vs l Hv S' IH]; intros [|i] Ei; cbn in Ei; try discriminate.
  - rewrite (A c ltac:(now left)) in Hv. destruct v as [v|]; [exact Hv|discriminate].
  - apply (IH ltac:(intros; apply A; now right) i Ei).
Qed.

(** What is left of an integer when the generator panics. *)
Lemma tinterrupted_fact {S : Type} (next : S -> drawn S) g p slack vs g1 os m x vs' g2 m' i v t : generator_ok next -> Forall tfcmd_ok p ->
  exec (htrun_foreign next [] g p) (empty_memory slack) = MVal (vs, (g1, os)) m ->
  exec (htrun_foreign next [] g (p ++ [TFRandomize x])) (empty_memory slack) = MVal (vs', (g2, os ++ [TFPanicked])) m' ->
  nth_error vs i = Some v -> in_type t -> in_memory m v (Some t) ->
  exists v' t', nth_error vs' i = Some v' /\ in_memory m' v' (Some t') /\ in_type t' /\ (i <> x -> t' = t) /\
    (i = x -> tkind t' = tkind t /\ twidth t' = twidth t /\
      exists u k, pull next (word_count (twidth t)) g1 = (u, k, g2) /\ (k < word_count (twidth t))%nat /\ tvalue t' = low_replaced u k (tvalue t)).
Proof.
  intros Hn Hp E1 E2 Ei Tt St.
  destruct (tforeign_states next g p slack Hn Hp) as (vs1 & m1 & ts1 & X1 & H1 & S1 & _). rewrite E1 in X1. injection X1 as <- Eo <-.
  destruct (tforeign_states next g (p ++ [TFRandomize x]) slack Hn ltac:(apply Forall_app; split; [exact Hp|repeat constructor])) as (vs2 & m2 & ts2 & X2 & H2 & S2 & _).
  rewrite E2 in X2. injection X2 as <- Eo2 <-. rewrite tarun_foreign_app in H2, S2, Eo2. destruct (tarun_foreign next [] g p) as [s [g0 os1]]. cbn [fst snd] in *.
  injection Eo as <- <-. cbn [tarun_foreign tastep_foreign] in H2, S2, Eo2.
  pose proof (tholds_in_type ts1 s H1) as T1.
  pose proof (forall2_get _ _ _ i S1) as G1. rewrite Ei in G1. destruct (nth_error s i) as [[t0|]|] eqn:Et; [| |contradiction].
  2: { destruct v; contradiction. }
  assert (t0 = t). { apply (in_memory_unique m v); auto. rewrite Forall_forall in T1. exact (T1 _ (nth_error_In _ _ Et)). } subst t0.
  destruct (nth_error s x) as [[[k w z]|]|] eqn:Ex.
  2,3: cbn [fst snd] in Eo2; injection Eo2 as _ Eo2; apply app_inv_head in Eo2; discriminate.
  destruct (pull next (word_count w) g1) as [[u n] g'] eqn:Ep. destruct (pull_short next _ _ _ _ _ Hn Ep) as (Ln & _).
  destruct (Nat.eqb_spec n (word_count w)) as [Q|Q]; cbn [fst snd] in *; [injection Eo2 as _ Eo2; apply app_inv_head in Eo2; discriminate|].
  assert (g' = g2) by congruence. subst g'. pose proof (tholds_in_type ts2 _ H2) as T2. rewrite Forall_forall in T2.
  pose proof (forall2_get _ _ _ i S2) as G2. destruct (Nat.eq_dec i x) as [->|N].
  - rewrite Et in Ex. injection Ex as ->. rewrite (nth_update_same x _ _ s Et) in G2. destruct (nth_error vs' x) as [v'|]; [|contradiction].
    exists v', (mk_tval k w (low_replaced u n z)). split; [reflexivity|]. split; [exact G2|].
    split; [exact (T2 _ (nth_error_In _ _ (nth_update_same x _ _ s Et)))|]. split; [contradiction|]. intros _. cbn [tkind twidth tvalue].
    split; [reflexivity|]. split; [reflexivity|]. exists u, n. split; [exact Ep|]. split; [lia|reflexivity].
  - assert (Et' : nth_error (update x (Some (mk_tval k w (low_replaced u n z))) s) i = Some (Some t)) by (rewrite nth_update_other; auto).
    rewrite Et' in G2. destruct (nth_error vs' i) as [v'|]; [|contradiction].
    exists v', t. split; [reflexivity|]. split; [exact G2|]. split; [exact Tt|]. split; [reflexivity|contradiction].
Qed.
