(** Programs on [UInt] and [Int] that catch panics: whole programs. *)
From Verif Require Export LUnwindTyped.

Definition tapost {R : Type} (s : tstore) (p : htvars * R) (o : R) (L : list cell) : Prop :=
  snd p = o /\ exists ts, Forall2 tholds ts s /\ tsown all_owned (fst p) ts L.

Lemma tcatch_run p : Forall tcmd_ok p -> forall hs ts L s, Forall2 tholds ts s -> tsown all_owned hs ts L ->
  refines (htcatches hs p) L (Val (snd (tacatches s p))) (tapost (fst (tacatches s p))).
Proof.
  induction 1 as [|c p Hc Hp IH]; intros hs ts L s H So; cbn [htcatches tacatches].
  - apply ref_ret. split; [reflexivity|]. exists ts. auto.
  - destruct (tcatch_step hs ts L s c Hc H So) as (ts1 & R1 & H1). destruct (tacatch s c) as [s1 o1]. cbn [fst snd] in *.
    eapply ref_step; [exact R1|]. intros [hs1 o'] L1 (Eo & S1). cbn [fst snd] in *. subst o'.
    specialize (IH hs1 ts1 L1 s1 H1 S1). destruct (tacatches s1 p) as [s2 os]. cbn [fst snd] in *.
    eapply ref_step; [exact IH|]. intros [hs2 os'] L2 (Eo & K). cbn [fst snd] in *. subst os'. apply ref_ret. split; [reflexivity|exact K].
Qed.

Lemma tcatch_states p slack : Forall tcmd_ok p ->
  exists vs m ts, exec (htcatches [] p) (empty_memory slack) = MVal (vs, snd (tacatches [] p)) m /\
    Forall2 tholds ts (fst (tacatches [] p)) /\ Forall2 (in_memory m) vs (fst (tacatches [] p)) /\ owned_once m (inside vs).
Proof.
  intros Hp. pose proof (tcatch_run p Hp [] [] [] [] ltac:(constructor) tsown_nil) as R.
  pose proof (ref_exec _ _ _ _ [] (empty_memory slack) R (live_empty slack)) as (r & m & L & E & K & Hm).
  destruct r as [vs os]. destruct K as (Eo & ts & Hts & So & Kd). cbn [fst snd] in *. subst os. rewrite app_nil_r in Hm.
  destruct (sown_order _ _ _ L m Hm So (inv_inside ts _ Hts)) as (A & C).
  exists vs, m, ts. split; [exact E|]. split; [exact Hts|]. split; [|exact C]. exact (in_memory_fact m ts _ vs Hts Kd A).
Qed.
Lemma tcatch_fact p slack : Forall tcmd_ok p ->
  exists vs m, exec (htcatches [] p) (empty_memory slack) = MVal (vs, snd (tacatches [] p)) m /\
    Forall2 (in_memory m) vs (fst (tacatches [] p)) /\ owned_once m (inside vs).
Proof. intros Hp. destruct (tcatch_states p slack Hp) as (vs & m & ts & E & _ & A & C). eauto. Qed.

Lemma tholds_in_type ts s : Forall2 tholds ts s -> Forall (fun o => match o with Some v => in_type v | None => True end) s.
Proof.
  intros H. induction H as [|a v cs s Ha H IH]; constructor; auto. destruct v as [[[|] w z]|]; [| |exact I]; destruct a as [[a|a]|]; try contradiction;
    unfold in_type; cbn [tholds twidth tkind tvalue least greatest] in *.
  - apply is_uint_range in Ha. lia.
  - apply is_int_range in Ha. lia.
Qed.
Lemma tcatch_range_fact p : Forall tcmd_ok p ->
  Forall (fun o => match o with Some v => in_type v | None => True end) (fst (tacatches [] p)).
Proof. intros Hp. destruct (tcatch_states p (fun n => n) Hp) as (vs & m & ts & _ & H & _). exact (tholds_in_type ts _ H). Qed.

Lemma tacatches_app p q : forall s, tacatches s (p ++ q) =
  let (s1, os) := tacatches s p in let (s2, os2) := tacatches s1 q in (s2, os ++ os2).
Proof.
  induction p as [|c p IH]; intros s; cbn [app tacatches].
  - now destruct (tacatches s q).
  - destruct (tacatch s c) as [s1 o]. rewrite IH. destruct (tacatches s1 p) as [s2 os]. destruct (tacatches s2 q). reflexivity.
Qed.
Lemma tacatches_some p s0 s os : tarun s0 p = Some (s, os) -> tacatches s0 p = (s, map Some os).
Proof.
  revert s0 s os. induction p as [|c p IH]; intros s0 s os; cbn [tarun tacatches].
  - intros E. injection E as <- <-. reflexivity.
  - unfold tacatch. destruct (tastep s0 c) as [[s1 o]|]; cbn [opt_bind]; [|discriminate]. destruct (tarun s1 p) as [[s2 os']|] eqn:E; [|discriminate].
    intros F. injection F as <- <-. rewrite (IH _ _ _ E). reflexivity.
Qed.

Lemma tcatch_no_leak_fact p slack : Forall tcmd_ok p ->
  exists vs os m, exec (htcatches [] (p ++ map TDrop (seq 0 (length (fst (tacatches [] p)))))) (empty_memory slack) = MVal (vs, os) m /\ all_freed m.
Proof.
  intros Hp. set (n := length (fst (tacatches [] p))). set (q := map TDrop (seq 0 n)).
  assert (Hq : Forall tcmd_ok (p ++ q)).
  { apply Forall_app. split; [exact Hp|]. unfold q. clear. induction (seq 0 n); constructor; [exact Logic.I|exact IHl]. }
  assert (E : fst (tacatches [] (p ++ q)) = repeat None n).
  { rewrite tacatches_app. unfold n, q, n. destruct (tacatches [] p) as [s os]. cbn [fst].
    destruct (tarun_drops s (length s) 0 ltac:(lia) ltac:(intros; lia)) as (os2 & D). rewrite (tacatches_some _ _ _ _ D). reflexivity. }
  destruct (tcatch_fact (p ++ q) slack Hq) as (vs & m & X & S & O). rewrite E in S.
  eexists. eexists. exists m. split; [exact X|]. intros b ds Hb. destruct (O b ds Hb) as (i & (a & Ei & _) & _).
  clear - S Ei. revert i Ei. remember (repeat (@None tval) n) as l eqn:El.
  assert (A : forall c, In c l -> c = None) by (intros c Hc; rewrite El in Hc; now apply repeat_spec in Hc). clear El.
  induction S as [|v c vs l Hv S IH]; intros [|i] Ei; cbn in Ei; try discriminate.
  - rewrite (A c ltac:(now left)) in Hv. destruct v as [v|]; [exact Hv|discriminate].
  - apply (IH ltac:(intros; apply A; now right) i Ei).
Qed.

(** Nothing panics: it does not matter whether panics are caught. *)
Lemma tcatch_same_fact p slack vs os m : Forall tcmd_ok p -> exec (htrun [] p) (empty_memory slack) = MVal (vs, os) m ->
  exists vs' m', exec (htcatches [] p) (empty_memory slack) = MVal (vs', map Some os) m'.
Proof.
  intros Hp E. pose proof (typed_heap_fact p slack Hp) as F. destruct (tarun [] p) as [[s os']|] eqn:Ea; [|congruence].
  destruct F as (vs1 & m1 & F & _). assert (os' = os) by congruence. subst os'.
  destruct (tcatch_fact p slack Hp) as (vs2 & m2 & X & _). rewrite (tacatches_some p [] s os Ea) in X. eauto.
Qed.

(** * What a panic does *)
Lemma in_type_unique k w z z' : in_type (mk_tval k w z) -> in_type (mk_tval k w z') -> z mod 2 ^ w = z' mod 2 ^ w -> z = z'.
Proof.
  unfold in_type. cbn [twidth tkind tvalue]. intros (W & R) (_ & R') E.
  assert (P : 0 < 2 ^ (w - 1)) by (apply Z.pow_pos_nonneg; lia).
  assert (Q : 2 ^ w = 2 * 2 ^ (w - 1)) by (rewrite <- Z.pow_succ_r by lia; f_equal; lia).
  assert (D : exists q, z - z' = q * 2 ^ w).
  { exists (z / 2 ^ w - z' / 2 ^ w). pose proof (Z.div_mod z (2 ^ w) ltac:(lia)). pose proof (Z.div_mod z' (2 ^ w) ltac:(lia)).
    rewrite E in *. generalize dependent (z / 2 ^ w). generalize dependent (z' / 2 ^ w). clear - z z'. intros. lia. }
  destruct D as (q & D). set (n := 2 ^ (w - 1)) in *. rewrite Q in *. destruct k; cbn [least greatest] in *; fold n in R, R'; try rewrite Q in *;
    assert (q = 0) by nia; subst q; lia.
Qed.
Lemma in_memory_unique m v t t' : in_type t -> in_type t' -> in_memory m v (Some t) -> in_memory m v (Some t') -> t = t'.
Proof.
  destruct v as [a|], t as [k w z], t' as [k' w' z']; cbn [in_memory tkind twidth tvalue]; try tauto. intros T T' (E & c & Hc & S) (E' & c' & Hc' & S').
  pose proof (stored_unique m _ _ _ S S') as Ec. injection Ec as <-. destruct Hc as (_ & L & U). destruct Hc' as (_ & L' & U').
  subst k' k. rewrite <- L, <- L' in *. rewrite U in U'. rewrite (in_type_unique _ _ _ _ T T' U'). reflexivity.
Qed.

(** What a variable holds after a call that panics. *)
Lemma panic_tstore s c i t : tastep s c = None -> nth_error s i = Some (Some t) ->
  nth_error (after_tpanic s c) i =
  match c with
  | TInto _ _ x | TIntoBin _ _ x _ => if Nat.eqb i x then Some None else Some (Some t)
  | TBin _ o x y =>
      if Nat.eqb i x then
        match nth_error s y with
        | Some (Some u) => match tabin o t u with None => Some (Some (without_sign t)) | Some _ => Some (Some t) end
        | _ => Some (Some t)
        end
      else Some (Some t)
  | _ => Some (Some t)
  end.
Proof.
  intros P E. destruct c as [k n|x|x|f m x|f m x|m x|f o x y|f o x y|x y|x y|o x y|o x y|x y|x y|x|k x|q x]; cbn [after_tpanic]; auto.
  - destruct (Nat.eqb_spec i x) as [->|N]; [exact (nth_update_same x _ _ s E)|]. now rewrite nth_update_other by auto.
  - destruct (Nat.eqb_spec i x) as [->|N].
    + rewrite E. destruct (nth_error s y) as [[u|]|]; auto. destruct (tabin o t u); auto. exact (nth_update_same x _ _ s E).
    + destruct (nth_error s x) as [[a|]|]; auto. destruct (nth_error s y) as [[u|]|]; auto. destruct (tabin o a u); auto. now rewrite nth_update_other by auto.
  - destruct (Nat.eqb_spec i x) as [->|N]; [exact (nth_update_same x _ _ s E)|]. now rewrite nth_update_other by auto.
Qed.

Lemma tpanic_effect_fact p c slack vs os m vs' m' i v t : Forall tcmd_ok p -> tcmd_ok c ->
  exec (htcatches [] p) (empty_memory slack) = MVal (vs, os) m ->
  exec (htcatches [] (p ++ [c])) (empty_memory slack) = MVal (vs', os ++ [None]) m' ->
  nth_error vs i = Some v -> in_type t -> in_memory m v (Some t) ->
  exists v', nth_error vs' i = Some v' /\
    match c with
    | TInto _ _ x | TIntoBin _ _ x _ => if Nat.eqb i x then v' = None else in_memory m' v' (Some t)
    | TBin _ (TDiv | TRem) x y =>
        if Nat.eqb i x then
          forall u, in_type u -> (exists b, nth_error vs y = Some b /\ in_memory m b (Some u)) ->
            in_memory m' v' (Some (match tkind t with
              | KU => t
              | KI => if tvalue u =? 0 then t else if twidth t =? twidth u then t else without_sign t
              end))
        else in_memory m' v' (Some t)
    | _ => in_memory m' v' (Some t)
    end.
Proof.
  intros Hp Hc E1 E2 Ei Tt St.
  destruct (tcatch_states p slack Hp) as (vs1 & m1 & ts1 & X1 & H1 & S1 & _). rewrite E1 in X1. injection X1 as <- Eo <-.
  destruct (tcatch_states (p ++ [c]) slack ltac:(apply Forall_app; auto)) as (vs2 & m2 & ts2 & X2 & H2 & S2 & _).
  rewrite E2 in X2. injection X2 as <- Eo2 <-. rewrite tacatches_app in H2, S2, Eo2. destruct (tacatches [] p) as [s os1]. cbn [fst snd] in *. subst os1.
  cbn [tacatches] in H2, S2, Eo2. destruct (tacatch s c) as [s' o] eqn:Ec. cbn [fst snd] in *.
  apply app_inv_head in Eo2. injection Eo2 as <-. unfold tacatch in Ec. destruct (tastep s c) as [[? ?]|] eqn:Es; [discriminate|]. injection Ec as <-.
  pose proof (tholds_in_type ts1 s H1) as T1.
  assert (G : forall j b u, nth_error vs j = Some b -> in_type u -> in_memory m b (Some u) -> nth_error s j = Some (Some u)).
  { intros j b u Ej Tu Su. pose proof (forall2_get _ _ _ j S1) as G1. rewrite Ej in G1. destruct (nth_error s j) as [[u'|]|] eqn:Eu; [| |contradiction].
    - do 2 f_equal. apply (in_memory_unique m b); auto. rewrite Forall_forall in T1. exact (T1 _ (nth_error_In _ _ Eu)).
    - destruct b; contradiction. }
  pose proof (G i v t Ei Tt St) as Et. pose proof (panic_tstore s c i t Es Et) as P. pose proof (forall2_get _ _ _ i S2) as G4. rewrite P in G4. clear P.
  destruct (nth_error vs' i) as [v'|].
  2: { exfalso. destruct c as [k n|x|x|f n x|f n x|n x|f o x y|f o x y|x y|x y|o x y|o x y|x y|x y|x|k x|q x]; try exact G4;
       destruct (Nat.eqb i x); try exact G4. destruct (nth_error s y) as [[u|]|]; try exact G4. destruct (tabin o t u); exact G4. }
  exists v'. split; [reflexivity|].
  destruct c as [k n|x|x|f n x|f n x|n x|f o x y|f o x y|x y|x y|o x y|o x y|x y|x y|x|k x|q x]; try exact G4.
  - destruct (Nat.eqb i x); [destruct v'; [contradiction|reflexivity]|exact G4].
  - destruct (Nat.eqb i x) eqn:Ix; [|destruct o; exact G4]. apply Nat.eqb_eq in Ix. subst x.
    assert (Gu : forall u, tabin o t u <> None -> nth_error s y = Some (Some u) -> in_memory m' v' (Some t)).
    { intros u N Eu. rewrite Eu in G4. destruct (tabin o t u); [exact G4|contradiction]. }
    cbn [tastep] in Es. unfold tget2', tget2, tget1 in Es. destruct (Nat.eqb i y); [discriminate|]. rewrite Et in Es.
    destruct (nth_error s y) as [[u0|]|] eqn:Ey; try discriminate. destruct (same_kind (tkind t) (tkind u0)); [|discriminate].
    assert (Gt : tabin o t u0 <> None -> in_memory m' v' (Some t)) by (intros N; exact (Gu u0 N eq_refl)).
    destruct o; try (apply Gt; cbn; discriminate).
    + intros u Tu (b & Eb & Sb). pose proof (G y b u Eb Tu Sb) as Eu. rewrite Ey in Eu. injection Eu as ->.
      cbn [tabin tdivide] in G4, Es. unfold tdivide in *. destruct (tkind t); [exact G4|]. destruct (tvalue u =? 0); [exact G4|].
      destruct (twidth t =? twidth u); exact G4.
    + intros u Tu (b & Eb & Sb). pose proof (G y b u Eb Tu Sb) as Eu. rewrite Ey in Eu. injection Eu as ->.
      cbn [tabin tdivide] in G4, Es. unfold tdivide in *. destruct (tkind t); [exact G4|]. destruct (tvalue u =? 0); [exact G4|].
      destruct (twidth t =? twidth u); exact G4.
  - destruct (Nat.eqb i x); [destruct v'; [contradiction|reflexivity]|exact G4].
Qed.

(** An operand behind [&mut] is unchanged, except a negative [Int] that is divided. *)
Lemma tpanic_unchanged_fact p f o x y slack vs os m vs' m' v t : Forall tcmd_ok p ->
  exec (htcatches [] p) (empty_memory slack) = MVal (vs, os) m ->
  exec (htcatches [] (p ++ [TBin f o x y])) (empty_memory slack) = MVal (vs', os ++ [None]) m' ->
  nth_error vs x = Some v -> in_type t -> in_memory m v (Some t) ->
  tkind t = KU \/ o <> TDiv /\ o <> TRem \/ 0 <= tvalue t ->
  exists v', nth_error vs' x = Some v' /\ in_memory m' v' (Some t).
Proof.
  intros Hp E1 E2 Ei Tt St D. assert (Hc : tcmd_ok (TBin f o x y)) by exact Logic.I. remember (TBin f o x y) as c eqn:Dc.
  destruct (tcatch_states p slack Hp) as (vs1 & m1 & ts1 & X1 & H1 & S1 & _). rewrite E1 in X1. injection X1 as <- Eo <-.
  destruct (tcatch_states (p ++ [c]) slack ltac:(apply Forall_app; auto)) as (vs2 & m2 & ts2 & X2 & H2 & S2 & _).
  rewrite E2 in X2. injection X2 as <- Eo2 <-. rewrite tacatches_app in H2, S2, Eo2. destruct (tacatches [] p) as [s os1]. cbn [fst snd] in *. subst os1.
  cbn [tacatches] in H2, S2, Eo2. destruct (tacatch s c) as [s' o'] eqn:Ec. cbn [fst snd] in *.
  apply app_inv_head in Eo2. injection Eo2 as <-. unfold tacatch in Ec. destruct (tastep s c) as [[? ?]|] eqn:Es; [discriminate|]. injection Ec as <-.
  pose proof (tholds_in_type ts1 s H1) as T1.
  pose proof (forall2_get _ _ _ x S1) as G1. rewrite Ei in G1. destruct (nth_error s x) as [[t'|]|] eqn:Et; [| |contradiction].
  2: { destruct v; contradiction. }
  assert (t' = t). { apply (in_memory_unique m v); auto. rewrite Forall_forall in T1. exact (T1 _ (nth_error_In _ _ Et)). } subst t'.
  pose proof (panic_tstore s c x t Es Et) as P.
  pose proof (forall2_get _ _ _ x S2) as G4. rewrite P, Dc, Nat.eqb_refl in G4.
  assert (Ht : forall u, tabin o t u = None -> tkind t = KI /\ (o = TDiv \/ o = TRem)).
  { intros u. destruct o; cbn [tabin]; try discriminate; unfold tdivide; destruct (tkind t); try discriminate; auto. }
  assert (Ks : 0 <= tvalue t -> tkind t = KI -> without_sign t = t).
  { intros Hz Hk. destruct t as [k w z]. unfold without_sign. cbn [tkind twidth tvalue] in *. subst k. f_equal. rewrite Z.abs_eq by exact Hz.
    cbn [norm]. destruct Tt as (Hw & R1 & R2). cbn [tkind twidth tvalue least greatest] in *. apply wrap_signed_small; lia. }
  destruct (nth_error vs' x) as [v'|].
  - exists v'. split; [reflexivity|]. destruct (nth_error s y) as [[u|]|]; try exact G4. destruct (tabin o t u) eqn:Eo'; [exact G4|].
    destruct (Ht u Eo') as (K & Q). destruct D as [D|[D|D]]; [congruence|tauto|]. now rewrite (Ks D K) in G4.
  - exfalso. destruct (nth_error s y) as [[u|]|]; try exact G4. destruct (tabin o t u); exact G4.
Qed.

Lemma tpanic_changes_fact : exists p c vs os m vs' m' v v' t t',
  Forall tcmd_ok p /\ tcmd_ok c /\
  exec (htcatches [] p) (empty_memory (fun n => n)) = MVal (vs, os) m /\
  exec (htcatches [] (p ++ [c])) (empty_memory (fun n => n)) = MVal (vs', os ++ [None]) m' /\
  nth_error vs 0 = Some v /\ in_memory m v (Some t) /\ in_type t /\ nth_error vs' 0 = Some v' /\ in_memory m' v' (Some t') /\ in_type t' /\
  tvalue t = -5 /\ tvalue t' = 5.
Proof.
  exists [TNew KI (TPrim W8 (-5)); TNew KI (TPrim W16 7)], (TBin Operator TRem 0 1).
  do 5 eexists. exists (Some (mk_htvar KI (mk_hapint 8 (UInl 251)))), (Some (mk_htvar KI (mk_hapint 8 (UInl 5)))), (mk_tval KI 8 (-5)), (mk_tval KI 8 5).
  split; [repeat constructor; cbn; lia|]. split; [exact Logic.I|].
  split; [vm_compute; reflexivity|]. split; [vm_compute; reflexivity|].
  assert (W : forall d, In d [251; 5] -> wf (mk_apint 8 [d])).
  { intros d [<-|[<-|[]]]; (split; [reflexivity|]; split; [reflexivity|]; split; [repeat constructor; discriminate|reflexivity]). }
  split; [reflexivity|]. split.
  { split; [reflexivity|]. exists (mk_apint 8 [251]). split; [split; [apply W; cbn; auto|split; reflexivity]|].
    split; [reflexivity|split; [reflexivity|split; [intros _; exists 251; auto|cbn; lia]]]. }
  split; [unfold in_type; cbn; lia|]. split; [reflexivity|]. split.
  { split; [reflexivity|]. exists (mk_apint 8 [5]). split; [split; [apply W; cbn; auto|split; reflexivity]|].
    split; [reflexivity|split; [reflexivity|split; [intros _; exists 5; auto|cbn; lia]]]. }
  split; [unfold in_type; cbn; lia|]. split; reflexivity.
Qed.
