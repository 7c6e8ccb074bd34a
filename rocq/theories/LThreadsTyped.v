(** Threads on [UInt] and [Int] in which calls panic: facts about all schedules. *)
From Coq Require Import Permutation.
From Verif Require Export LUnwindTyped2 LThreadsUnwind MThreadsTyped SpecThreadsTyped.

Lemma tastep_length s c s' o : tastep s c = Some (s', o) -> (length s <= length s')%nat.
Proof.
  destruct c as [k n|x|x|f m x|f m x|m x|f p x y|f p x y|x y|x y|p x y|p x y|x y|x y|x|k x|q x]; cbn [tastep];
    unfold tget2', tget2, tget1, tchange, tcreate, opt_bind, option_map, rejected; intros E;
    repeat match type of E with
    | context [if ?b then _ else _] => destruct b
    | context [match ?e with _ => _ end] => destruct e
    end; try discriminate; injection E as <- _; rewrite ?app_length, ?update_length; cbn; lia.
Qed.
Lemma tacatch_length s c : (length s <= length (fst (tacatch s c)))%nat.
Proof.
  unfold tacatch. destruct (tastep s c) as [[s' o]|] eqn:E; cbn [fst]; [exact (tastep_length s c s' o E)|].
  destruct c; cbn [after_tpanic]; rewrite ?update_length; auto.
  destruct (nth_error s x) as [[a|]|]; auto. destruct (nth_error s y) as [[b|]|]; auto. destruct (tabin o a b); rewrite ?update_length; auto.
Qed.
Lemma tsown_length g hs ts L : tsown g hs ts L -> length hs = length ts.
Proof. intros (_ & K). apply (f_equal (@length _)) in K. rewrite !map_length in K. exact K. Qed.

(** * A thread that dies *)
Lemma abandon_tholds owns ts s : Forall2 tholds ts s -> forall k, Forall2 tholds (abandon owns k ts) (abandon owns k s).
Proof. induction 1 as [|c a cs s Ha H IH]; intros k; cbn [abandon]; constructor; auto. destruct (owns k); [exact Logic.I|exact Ha]. Qed.

Lemma ref_tunwind hs : forall g ts L, srepr g (inside hs) (vinside ts) L -> map (option_map hkind) hs = map (option_map kind_of) ts ->
  forall owns k, (forall n, owns (k + n)%nat = g n) ->
  refines (ht_unwind owns k hs) L (Val (abandon owns k ts))
    (fun hs' ts' L' => srepr g (inside hs') (vinside ts') L' /\ map (option_map hkind) hs' = map (option_map kind_of) ts').
Proof.
  induction hs as [|h hs IH]; intros g [|t ts] L H K owns k E; cbn [inside vinside map] in H, K; try discriminate; cbn [ht_unwind abandon].
  - apply ref_ret. split; [exact H|reflexivity].
  - fold (inside hs) in H. fold (vinside ts) in H.
    assert (E' : forall n, owns (S k + n)%nat = g (S n)) by (intros n; rewrite <- E; f_equal; lia).
    assert (E0 : owns k = g 0%nat) by (specialize (E 0%nat); now rewrite Nat.add_0_r in E).
    injection K as K0 K. destruct h as [h|], t as [t|]; cbn [option_map] in H, K0; try discriminate.
    + inversion H as [| |? ? ? ? ? ? ? Ha Hr]; subst.
      eapply ref_perm; [apply Permutation_app_comm|].
      eapply ref_step; [apply ref_frame; exact (IH _ ts _ Hr K owns (S k) E')|]. intros hs' L' (L1 & -> & H' & K'). cbn beta in *.
      eapply ref_perm; [apply Permutation_app_comm|]. rewrite E0 in *. destruct (g 0%nat) eqn:G.
      * eapply ref_step; [apply ref_frame; exact (ref_drop _ _ _ Ha)|]. intros [] L2 (L3 & -> & ->). cbn [app]. apply ref_ret.
        split; [now constructor|]. cbn [map option_map]. now rewrite K'.
      * apply ref_ret. split; [apply srepr_some; [now rewrite G|exact H']|]. cbn [map option_map]. now rewrite K0, K'.
    + inversion H as [|? ? ? ? Hr|]; subst.
      eapply ref_step; [exact (IH _ ts _ Hr K owns (S k) E')|]. intros hs' L' (H' & K'). apply ref_ret.
      assert (Eq : (if owns k then None else None) = @None tvar) by (destruct (owns k); reflexivity). rewrite Eq.
      split; [now constructor|]. cbn [map option_map]. now rewrite K'.
Qed.

(** * One thread *)
Definition ttpost {R : Type} (g : nat -> bool) (s : tstore) (p : htvars * R) (o : R) (L : list cell) : Prop :=
  snd p = o /\ exists ts, Forall2 tholds ts s /\ tsown g (fst p) ts L.

Lemma ref_tthread g p : Forall tcmd_ok (map snd p) -> Forall (tallowed g) (map snd p) -> forall hs ts L s,
  Forall2 tholds ts s -> opens g (length hs) -> tsown g hs ts L ->
  refines (htthread g hs p) L (Val (snd (tathread g s p))) (ttpost g (fst (tathread g s p))).
Proof.
  induction p as [|[caught c] p IH]; intros Hc Hw hs ts L s H G So; cbn [htthread tathread].
  - apply ref_ret. split; [reflexivity|]. exists ts. auto.
  - cbn [map snd] in Hc, Hw. apply Forall_cons_iff in Hc as (Hc & Hp), Hw as (Hw & Wp).
    destruct (tcatch_step_g g hs ts L s c Hc H G Hw So) as (ts1 & R1 & H1). pose proof (tacatch_length s c) as Ln.
    destruct (tacatch s c) as [s1 o]. cbn [fst snd] in *.
    eapply ref_step; [exact R1|]. intros [hs1 o'] L1 (Eo & S1). cbn [fst snd] in *. subst o'.
    assert (G1 : opens g (length hs1)).
    { intros k Hk. apply G. rewrite (tsown_length _ _ _ _ So), (forall2_same_length _ _ _ H). rewrite (tsown_length _ _ _ _ S1), (forall2_same_length _ _ _ H1) in Hk. lia. }
    assert (Go : refines (let* (s, r) := htthread g hs1 p in hret (s, (o :: fst r, snd r))) L1
      (Val (snd (let (s, r) := tathread g s1 p in (s, (o :: fst r, snd r))))) (ttpost g (fst (let (s, r) := tathread g s1 p in (s, (o :: fst r, snd r)))))).
    { specialize (IH Hp Wp hs1 ts1 L1 s1 H1 G1 S1). destruct (tathread g s1 p) as [s2 r]. cbn [fst snd] in *.
      eapply ref_step; [exact IH|]. intros [hs2 r'] L2 (Eo & K). cbn [fst snd] in *. subst r'. apply ref_ret. split; [reflexivity|exact K]. }
    destruct o as [o|]; [exact Go|]. destruct caught; [exact Go|]. cbn [fst snd].
    destruct S1 as ((L2 & P2 & S2) & K2). eapply ref_perm; [exact P2|].
    eapply ref_step; [exact (ref_tunwind hs1 g ts1 L2 S2 K2 g 0 ltac:(reflexivity))|]. intros hs2 L3 (S3 & K3). apply ref_ret. split; [reflexivity|].
    exists (abandon g 0 ts1). split; [now apply abandon_tholds|]. cbn [fst]. split; [exists L3; split; [reflexivity|exact S3]|exact K3].
Qed.

(** * All threads *)
Lemma hand_map {A B} (f : A -> B) i give : forall vs, hand i give (map (option_map f) vs) = map (option_map f) (hand i give vs).
Proof.
  induction give as [|[j|] give IH]; intros [|v vs]; cbn [hand map]; auto; rewrite IH; [|reflexivity]. destruct (Nat.eqb i j); reflexivity.
Qed.
Lemma hand_tholds i give : forall ts s, Forall2 tholds ts s -> Forall2 tholds (hand i give ts) (hand i give s).
Proof.
  induction give as [|[j|] give IH]; intros ts s H; destruct H as [|t v ts s Ht H]; cbn [hand]; constructor; auto.
  destruct (Nat.eqb i j); [exact Ht|exact Logic.I].
Qed.
Lemma keeper_tallowed give c : (forall x, In x (twrites c) -> ~ borrowed give x) -> tallowed (keeper give) c.
Proof. intros H x Hx. specialize (H x Hx). rewrite keeper_borrowed in H. destruct (keeper give x); congruence. Qed.
Lemma tspawn_nth give vs programs : forall k i, nth_error (tspawn k give vs programs) i =
  match nth_error programs i with Some p => Some (htthread (keeper give) (hand (k + i) give vs) p) | None => None end.
Proof.
  induction programs as [|p programs IH]; intros k [|i]; cbn [tspawn nth_error]; auto.
  - now rewrite Nat.add_0_r.
  - rewrite IH. now replace (S k + i)%nat with (k + S i)%nat by lia.
Qed.
Lemma tspawn_length give vs programs : forall k, length (tspawn k give vs programs) = length programs.
Proof. induction programs as [|p programs IH]; intros k; cbn; auto. Qed.

Definition typed_post (give : sharing) (s : tstore) (i : nat) (p : list (bool * tcmd)) : ends (htvars * (list (option tobs) * bool)) :=
  ending (Val (snd (tathread (keeper give) (hand i give s) p))) (ttpost (keeper give) (fst (tathread (keeper give) (hand i give s) p))) [].
Fixpoint typed_posts (k : nat) (give : sharing) (s : tstore) (programs : list (list (bool * tcmd))) : list (ends (htvars * (list (option tobs) * bool))) :=
  match programs with [] => [] | p :: programs => typed_post give s k p :: typed_posts (S k) give s programs end.
Lemma typed_posts_nth give s programs : forall k i, nth_error (typed_posts k give s programs) i =
  match nth_error programs i with Some p => Some (typed_post give s (k + i) p) | None => None end.
Proof.
  induction programs as [|p programs IH]; intros k [|i]; cbn [typed_posts nth_error]; auto.
  - now rewrite Nat.add_0_r.
  - rewrite IH. now replace (S k + i)%nat with (k + S i)%nat by lia.
Qed.

Lemma tforked_ok setup slack give programs vs m : tforked setup slack give programs vs m ->
  exists ts S Ls, Forall2 tholds ts (fst (tacatches [] setup)) /\ map (option_map hkind) vs = map (option_map kind_of) ts /\
    Forall2 (stored m) (inside vs) (vinside ts) /\
    pool_ok S (typed_posts 0 give (fst (tacatches [] setup)) programs) Ls (m, tspawn 0 give vs programs) /\
    owned S = [] /\ (forall p, In p (map addr S) <-> exists x, borrowed give x /\ points_to (inside vs) x p) /\
    (forall x y p, points_to (inside vs) x p -> points_to (inside vs) y p -> x = y).
Proof.
  intros (H1 & (os & H2) & H3 & H4 & H5). set (s := fst (tacatches [] setup)).
  pose proof (tcatch_run setup H1 [] [] [] [] ltac:(constructor) tsown_nil) as R.
  pose proof (ref_exec _ _ _ _ [] (empty_memory slack) R (live_empty slack)) as (r & m' & L & E & K & Hm).
  destruct r as [vs' os']. destruct K as (_ & ts & Hts & So & Kd). cbn [fst snd] in *. rewrite app_nil_r in Hm.
  rewrite H2 in E. injection E as <- _ <-. fold s in Hts.
  pose proof (sown_order _ _ _ L m Hm So (inv_inside ts _ Hts)) as (St & _).
  destruct So as (L0 & P0 & Hs). apply (live_perm m L L0 P0) in Hm.
  destruct (start_ok give (inside vs) (vinside ts) L0 m (typed_posts 0 give s programs) (tspawn 0 give vs programs) Hs Hm) as (S & Ls & K).
  - unfold inside. now rewrite map_length.
  - rewrite tspawn_length. exact H4.
  - intros i h. rewrite tspawn_nth, typed_posts_nth. destruct (nth_error programs i) as [p|] eqn:Ep; [|discriminate]. intros E. injection E as <-.
    eexists. split; [reflexivity|]. intros L1 So. cbn [Nat.add].
    assert (Hp : Forall tcmd_ok (map snd p) /\ trespects give (map snd p)) by (rewrite Forall_forall in H5; apply H5; exact (nth_error_In _ i Ep)).
    destruct Hp as (Hp & Hr).
    assert (Rf : refines (htthread (keeper give) (hand i give vs) p) L1 (Val (snd (tathread (keeper give) (hand i give s) p))) (ttpost (keeper give) (fst (tathread (keeper give) (hand i give s) p)))).
    { apply (ref_tthread (keeper give) p Hp) with (ts := hand i give ts); [|now apply hand_tholds|now apply keeper_opens|].
      - unfold trespects in Hr. eapply Forall_impl; [|exact Hr]. intros c. apply keeper_tallowed.
      - split; [|now rewrite <- !hand_map, Kd]. unfold inside, vinside in *. rewrite <- !hand_map. exact So. }
    pose proof (Rf []) as R'. rewrite app_nil_r in R'. exact R'.
  - exists ts, S, Ls. auto 8.
Qed.

Lemma typed_end give s i p h L : safe h L (typed_post give s i p) ->
  match h with
  | HRet (vs', r) => r = snd (tathread (keeper give) (hand i give s) p) /\
      exists ts', Forall2 tholds ts' (fst (tathread (keeper give) (hand i give s) p)) /\ tsown (keeper give) vs' ts' L
  | HPanic | HFuel | HUndef => False
  | _ => True
  end.
Proof.
  destruct h as [[vs' r]| | | | | | | |]; cbn [safe]; unfold typed_post; cbn [ending]; auto; try (intros (a & L' & E & _); discriminate).
  intros ([vs1 r1] & L' & E & P & (Eo & ts' & Hh & So)). cbn [fst snd] in *. apply Val_inj in E. injection E as -> ->.
  rewrite app_nil_r in P. split; [exact Eo|]. exists ts'. split; [exact Hh|]. exact (tsown_perm _ _ _ _ _ P So).
Qed.

(** * Facts *)
Lemma typed_race_free_pool S setup give programs Ls m ts : pool_ok S (typed_posts 0 give (fst (tacatches [] setup)) programs) Ls (m, ts) ->
  ~ data_race ts /\ ~ In HUndef ts /\ ~ In HPanic ts /\ ~ In HFuel ts.
Proof.
  intros P'. pose proof (pool_race _ _ _ _ P') as (R & U). cbn [snd] in *. split; [exact R|]. split; [exact U|].
  assert (T : forall h, In h ts -> match h with HPanic | HFuel => False | _ => True end).
  { intros h I. apply In_nth_error in I as (i & E). destruct (pool_safe _ _ _ _ P' i h E) as (L & post & _ & EP & Sf & _).
    rewrite typed_posts_nth in EP. destruct (nth_error programs i) as [p|]; [|discriminate]. injection EP as <-.
    apply typed_end in Sf. now destruct h. }
  split; intros I; exact (T _ I).
Qed.
Lemma tpool_race_free_fact setup slack give programs vs m schedule : tforked setup slack give programs vs m ->
  let '(m', ts) := interleave schedule (m, tspawn 0 give vs programs) in
  ~ data_race ts /\ ~ In HUndef ts /\ ~ In HPanic ts /\ ~ In HFuel ts.
Proof.
  intros H. destruct (tforked_ok _ _ _ _ _ _ H) as (cs & S & Ls & _ & _ & _ & P & _).
  destruct (interleave_ok schedule _ _ _ _ P) as (Ls' & P'). destruct (interleave schedule _) as (m' & ts).
  exact (typed_race_free_pool _ _ _ _ _ _ _ P').
Qed.

Lemma typed_isolated_pool S setup give programs Ls m' ts i p vs' r :
  pool_ok S (typed_posts 0 give (fst (tacatches [] setup)) programs) Ls (m', ts) ->
  nth_error programs i = Some p -> nth_error ts i = Some (HRet (vs', r)) ->
  let (s', r') := tathread (keeper give) (hand i give (fst (tacatches [] setup))) p in
  r = r' /\ Forall2 (in_memory m') vs' s'.
Proof.
  intros P' Ep Er. destruct (pool_safe _ _ _ _ P' i _ Er) as (L & post & EL & EP & Sf & _).
  rewrite typed_posts_nth, Ep in EP. cbn [Nat.add] in EP. injection EP as <-. apply typed_end in Sf.
  destruct (tathread (keeper give) (hand i give (fst (tacatches [] setup))) p) as [s' r']. cbn [fst snd] in Sf.
  destruct Sf as (Eo & ts' & Hh & So & Kd). split; [exact Eo|]. apply (in_memory_fact m' ts' s' vs' Hh Kd).
  apply (sown_stored (keeper give) (inside vs') (vinside ts') L m'); [|exact So|exact (inv_inside ts' s' Hh)].
  intros b q ds I. destruct (pool_has S _ Ls m' ts i L b q ds P' EL I) as (X & Y).
  apply (live_in m' _ b q ds Y). apply in_or_app. now left.
Qed.
Lemma tpool_isolated_fact setup slack give programs vs m schedule m' ts i p vs' r : tforked setup slack give programs vs m ->
  interleave schedule (m, tspawn 0 give vs programs) = (m', ts) ->
  nth_error programs i = Some p -> nth_error ts i = Some (HRet (vs', r)) ->
  let (s', r') := tathread (keeper give) (hand i give (fst (tacatches [] setup))) p in
  r = r' /\ Forall2 (in_memory m') vs' s'.
Proof.
  intros H Ei Ep Er. destruct (tforked_ok _ _ _ _ _ _ H) as (cs & S & Ls & _ & _ & _ & P & _).
  destruct (interleave_ok schedule _ _ _ _ P) as (Ls' & P'). rewrite Ei in P'.
  exact (typed_isolated_pool _ _ _ _ _ _ _ _ _ _ _ P' Ep Er).
Qed.

Lemma typed_lent_pool S posts Ls m ts0 Ls' m' ts vs cs (s : tstore) give : pool_ok S posts Ls (m, ts0) -> pool_ok (R := htvars * (list (option tobs) * bool)) S posts Ls' (m', ts) ->
  (forall p, In p (map addr S) <-> exists x, borrowed give x /\ points_to (inside vs) x p) ->
  Forall2 (stored m) (inside vs) (vinside cs) -> Forall2 tholds cs s -> map (option_map hkind) vs = map (option_map kind_of) cs ->
  forall x v t, borrowed give x -> nth_error vs x = Some v -> nth_error s x = Some t -> in_memory m' v t.
Proof.
  intros P P' K6 St Hh Kd x v t B Ev Et. pose proof (lent_pool S _ Ls m _ Ls' m' ts (inside vs) (vinside cs) give P P' K6 St x) as Q.
  pose proof (tget_sim cs _ x Hh) as G. rewrite Et in G.
  destruct (nth_error cs x) as [c|] eqn:Ec.
  2:{ exfalso. apply nth_error_None in Ec. pose proof (forall2_same_length _ _ _ Hh) as Ln.
      assert (x < length s)%nat by (apply nth_error_Some; congruence). lia. }
  assert (Hc : tholds c t). { destruct c, t; try contradiction; exact G. }
  assert (F : Forall2 (in_memory m') [v] [t]).
  { apply (in_memory_fact m' [c] [t] [v]); [now constructor| |].
    - apply (f_equal (fun l => nth_error l x)) in Kd. rewrite !nth_error_map, Ev, Ec in Kd. cbn in *. now injection Kd as ->.
    - constructor; [|constructor]. apply Q; [exact B| |]; unfold inside, vinside; rewrite nth_error_map, ?Ev, ?Ec; reflexivity. }
  inversion F. assumption.
Qed.
Lemma tpool_lent_fact setup slack give programs vs m schedule : tforked setup slack give programs vs m ->
  let '(m', ts) := interleave schedule (m, tspawn 0 give vs programs) in
  forall x v t, borrowed give x -> nth_error vs x = Some v -> nth_error (fst (tacatches [] setup)) x = Some t -> in_memory m' v t.
Proof.
  intros H. destruct (tforked_ok _ _ _ _ _ _ H) as (cs & S & Ls & Hh & Kd & St & P & KO & K6 & KU).
  destruct (interleave_ok schedule _ _ _ _ P) as (Ls' & P'). destruct (interleave schedule _) as (m' & ts).
  exact (typed_lent_pool S _ Ls m _ Ls' m' ts vs cs _ give P P' K6 St Hh Kd).
Qed.

Lemma tpool_progress_fact setup slack give programs vs m schedule i : tforked setup slack give programs vs m -> (i < length programs)%nat ->
  exists n r, nth_error (snd (interleave (schedule ++ repeat i n) (m, tspawn 0 give vs programs))) i = Some (HRet r).
Proof.
  intros H Hi. set (s0 := (m, tspawn 0 give vs programs)).
  destruct (nth_error (snd (interleave schedule s0)) i) as [h|] eqn:E;
    [|apply nth_error_None in E; rewrite interleave_length in E; unfold s0 in E; cbn [snd] in E; rewrite tspawn_length in E; lia].
  destruct (tick_ends h (fst (interleave schedule s0))) as (n & Hn).
  pose proof (turns_iter i n _ h E) as E'. rewrite <- interleave_app in E'. exists n.
  pose proof (tpool_race_free_fact _ _ _ _ _ _ (schedule ++ repeat i n) H) as R. fold s0 in R.
  destruct (interleave (schedule ++ repeat i n) s0) as (m' & ts). cbn [snd] in *. destruct R as (_ & R1 & R2 & R3). apply nth_error_In in E' as I.
  destruct (fst (Nat.iter n _ _)) as [a| | | |ds k|q j k|q j k|q new k|j k]; try contradiction. eauto.
Qed.

Lemma typed_join_pool S setup give programs vs Ls m' ts :
  pool_ok S (typed_posts 0 give (fst (tacatches [] setup)) programs) Ls (m', ts) ->
  (forall p, In p (map addr S) <-> exists x, borrowed give x /\ points_to (inside vs) x p) ->
  (forall x y p, points_to (inside vs) x p -> points_to (inside vs) y p -> x = y) ->
  Forall (fun h => exists r, h = HRet r) ts ->
  forall p ds, nth_error (blocks m') p = Some (Some ds) -> exists! o, towner give vs ts o p.
Proof.
  intros P' K6 KU Hr p ds Hp.
  set (has := fun i v => exists vs' r, nth_error ts i = Some (HRet (vs', r)) /\ v = inside vs').
  assert (Eq : forall o, owner_by has give (inside vs) o p <-> towner give vs ts o p).
  { intros [[i|] x]; cbn [owner_by towner]; [|tauto]. split.
    - intros (B & v & (vs' & r & E & ->) & Q). eauto 6.
    - intros (B & vs' & r & E & Q). split; [exact B|]. exists (inside vs'). split; [now exists vs', r|exact Q]. }
  destruct (join_pool_by has S _ Ls m' ts give (inside vs) P' K6 KU) with (p := p) (ds := ds) as (o & O1 & U); [| | |exact Hp|].
  - intros i v (vs' & r & E & _). apply nth_error_Some. congruence.
  - intros i v1 v2 (u1 & r1 & E1 & ->) (u2 & r2 & E2 & ->). congruence.
  - intros i L h post Eh EP Sf. rewrite Forall_forall in Hr. destruct (Hr h (nth_error_In _ i Eh)) as ([vs' r] & ->).
    rewrite typed_posts_nth in EP. destruct (nth_error programs i) as [q|]; [|discriminate]. injection EP as <-.
    apply typed_end in Sf. destruct Sf as (_ & ts' & _ & (L' & PL & So) & _). exists (inside vs'), (vinside ts'), L'. split; [now exists vs', r|auto].
  - exists o. split; [now apply Eq|]. intros o' O2. apply U. now apply Eq.
Qed.
Lemma tpool_join_fact setup slack give programs vs m schedule m' ts : tforked setup slack give programs vs m ->
  interleave schedule (m, tspawn 0 give vs programs) = (m', ts) -> Forall (fun h => exists r, h = HRet r) ts ->
  forall p ds, nth_error (blocks m') p = Some (Some ds) -> exists! o, towner give vs ts o p.
Proof.
  intros H Ei Hr. destruct (tforked_ok _ _ _ _ _ _ H) as (cs & S & Ls & _ & _ & _ & P & KO & K6 & KU).
  destruct (interleave_ok schedule _ _ _ _ P) as (Ls' & P'). rewrite Ei in P'.
  exact (typed_join_pool _ _ _ _ _ _ _ _ P' K6 KU Hr).
Qed.

Lemma tathread_died owns p : forall s s' os, tathread owns s p = (s', (os, true)) ->
  forall x a, nth_error s' x = Some (Some a) -> owns x = false.
Proof.
  induction p as [|[caught c] p IH]; intros s s' os; cbn [tathread]; [discriminate|]. destruct (tacatch s c) as [s1 o].
  assert (Go : (let (s, r) := tathread owns s1 p in (s, (o :: fst r, snd r))) = (s', (os, true)) -> forall x a, nth_error s' x = Some (Some a) -> owns x = false).
  { destruct (tathread owns s1 p) as [s2 [os2 d]] eqn:E. cbn [fst snd]. intros F. injection F as <- _ ->. exact (IH _ _ _ E). }
  destruct o as [o|]; [exact Go|]. destruct caught; [exact Go|]. intros E. injection E as <- _. intros x a. exact (abandon_nth owns s1 0 x a).
Qed.
Lemma tpool_dead_fact setup slack give programs vs m schedule m' ts i vs' os x a : tforked setup slack give programs vs m ->
  interleave schedule (m, tspawn 0 give vs programs) = (m', ts) ->
  nth_error ts i = Some (HRet (vs', (os, true))) -> nth_error vs' x = Some (Some a) -> borrowed give x.
Proof.
  intros H Ei Er Ex. destruct (nth_error programs i) as [p|] eqn:Ep.
  - pose proof (tpool_isolated_fact _ _ _ _ _ _ _ _ _ _ _ _ _ H Ei Ep Er) as Q.
    destruct (tathread (keeper give) (hand i give (fst (tacatches [] setup))) p) as [s' r'] eqn:Ea. destruct Q as (<- & Hh).
    apply keeper_borrowed. pose proof (forall2_get _ _ _ x Hh) as G. rewrite Ex in G. destruct (nth_error s' x) as [[b|]|] eqn:Eb; try contradiction.
    exact (tathread_died _ _ _ _ _ Ea x b Eb).
  - exfalso. apply nth_error_None in Ep. pose proof (interleave_length schedule (m, tspawn 0 give vs programs)) as Ln. rewrite Ei in Ln.
    cbn [snd] in Ln. rewrite tspawn_length in Ln. assert (i < length ts)%nat by (apply nth_error_Some; congruence). lia.
Qed.

Lemma tpool_no_leak_fact setup slack give programs vs m schedule m' ts : tforked setup slack give programs vs m ->
  interleave schedule (m, tspawn 0 give vs programs) = (m', ts) -> Forall (fun h => exists vs' os, h = HRet (vs', (os, true))) ts ->
  forall p ds, nth_error (blocks m') p = Some (Some ds) -> exists x, borrowed give x /\ points_to (inside vs) x p.
Proof.
  intros H Ei Hr p ds Hp.
  assert (Hr' : Forall (fun h => exists r, h = HRet r) ts) by (eapply Forall_impl; [|exact Hr]; intros h (vs' & os & ->); eauto).
  destruct (tpool_join_fact _ _ _ _ _ _ _ _ _ H Ei Hr' p ds Hp) as ([[i|] x] & O & _); [|exists x; exact O].
  destruct O as (B & vs' & r & Er & (a & Ea & _)). exfalso. apply B.
  rewrite Forall_forall in Hr. destruct (Hr _ (nth_error_In _ i Er)) as (vs1 & os & E). injection E as <- ->.
  unfold inside in Ea. rewrite nth_error_map in Ea. destruct (nth_error vs' x) as [[b|]|] eqn:Eb; try discriminate.
  exact (tpool_dead_fact _ _ _ _ _ _ _ _ _ _ _ _ _ _ H Ei Er Eb).
Qed.
