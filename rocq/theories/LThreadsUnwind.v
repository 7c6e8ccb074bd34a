(** Threads in which calls panic: facts about all schedules. *)
From Coq Require Import Permutation.
From Verif Require Export LUnwind LThreads MThreadsUnwind SpecThreadsUnwind.

Lemma forall2_same_length {A B} (R : A -> B -> Prop) l l' : Forall2 R l l' -> length l = length l'.
Proof. induction 1; cbn; auto. Qed.
Lemma disturb_length s x : length (disturb s x) = length s.
Proof. unfold disturb. destruct (nth_error s x) as [[a|]|]; auto. apply update_length. Qed.
Lemma acatch_length cs s c : cmd_ok c -> Forall2 holds cs s -> (length s <= length (fst (acatch s c)))%nat.
Proof.
  intros Hc H. unfold acatch. pose proof (step_sim cs s c Hc H) as Sm. destruct (astep s c) as [[s' o]|]; cbn [fst].
  - destruct Sm as (cs' & E & H'). apply cstep_length in E. rewrite <- (forall2_same_length _ _ _ H), <- (forall2_same_length _ _ _ H'). exact E.
  - destruct c; cbn [after_panic]; rewrite ?update_length, ?disturb_length; auto.
Qed.

(** * A thread that dies *)
Lemma abandon_holds owns cs s : Forall2 holds cs s -> forall k, Forall2 holds (abandon owns k cs) (abandon owns k s).
Proof. induction 1 as [|c a cs s Ha H IH]; intros k; cbn [abandon]; constructor; auto. destruct (owns k); [exact Logic.I|exact Ha]. Qed.

Lemma ref_unwind g hs cs L : srepr g hs cs L -> forall owns k, (forall n, owns (k + n)%nat = g n) ->
  refines (h_unwind owns k hs) L (Val (abandon owns k cs)) (fun hs' cs' L' => srepr g hs' cs' L').
Proof.
  induction 1 as [g|g hs cs L H IH|g a x La hs cs L Ha H IH]; intros owns k E; cbn [h_unwind abandon].
  - apply ref_ret. constructor.
  - assert (E' : forall n, owns (S k + n)%nat = g (S n)) by (intros n; rewrite <- E; f_equal; lia).
    eapply ref_step; [exact (IH owns (S k) E')|]. intros hs' L' H'. apply ref_ret. destruct (owns k); now constructor.
  - assert (E' : forall n, owns (S k + n)%nat = g (S n)) by (intros n; rewrite <- E; f_equal; lia).
    assert (E0 : owns k = g 0%nat) by (specialize (E 0%nat); now rewrite Nat.add_0_r in E).
    eapply ref_perm; [apply Permutation_app_comm|].
    eapply ref_step; [apply ref_frame; exact (IH owns (S k) E')|]. intros hs' L' (L1 & -> & H'). cbn beta in *.
    eapply ref_perm; [apply Permutation_app_comm|]. rewrite E0 in *. destruct (g 0%nat) eqn:G.
    + eapply ref_step; [apply ref_frame; exact (ref_drop a x La Ha)|]. intros [] L2 (L3 & -> & ->). cbn [app]. apply ref_ret. now constructor.
    + apply ref_ret. apply srepr_some; [now rewrite G|exact H'].
Qed.

(** * One thread *)
Definition tpost {R : Type} (g : nat -> bool) (s : store) (p : hvars * R) (o : R) (L : list cell) : Prop :=
  snd p = o /\ exists cs, Forall2 holds cs s /\ sown g (fst p) cs L.

Lemma ref_thread g p : Forall cmd_ok (map snd p) -> Forall (allowed g) (map snd p) -> forall hs cs L s,
  Forall2 holds cs s -> opens g (length hs) -> sown g hs cs L ->
  refines (hthread g hs p) L (Val (snd (athread g s p))) (tpost g (fst (athread g s p))).
Proof.
  induction p as [|[caught c] p IH]; intros Hc Hw hs cs L s H G So; cbn [hthread athread].
  - apply ref_ret. split; [reflexivity|]. exists cs. auto.
  - cbn [map snd] in Hc, Hw. apply Forall_cons_iff in Hc as (Hc & Hp), Hw as (Hw & Wp).
    destruct (catch_step_g g hs cs L s c Hc H G Hw So) as (cs1 & R1 & H1). pose proof (acatch_length cs s c Hc H) as Ln.
    destruct (acatch s c) as [s1 o]. cbn [fst snd] in *.
    eapply ref_step; [exact R1|]. intros [hs1 o'] L1 (Eo & S1). cbn [fst snd] in *. subst o'.
    assert (G1 : opens g (length hs1)).
    { intros k Hk. apply G. rewrite (sown_length _ _ _ _ So), (forall2_same_length _ _ _ H). rewrite (sown_length _ _ _ _ S1), (forall2_same_length _ _ _ H1) in Hk. lia. }
    assert (Go : refines (let* (s, r) := hthread g hs1 p in hret (s, (o :: fst r, snd r))) L1
      (Val (snd (let (s, r) := athread g s1 p in (s, (o :: fst r, snd r))))) (tpost g (fst (let (s, r) := athread g s1 p in (s, (o :: fst r, snd r)))))).
    { specialize (IH Hp Wp hs1 cs1 L1 s1 H1 G1 S1). destruct (athread g s1 p) as [s2 r]. cbn [fst snd] in *.
      eapply ref_step; [exact IH|]. intros [hs2 r'] L2 (Eo & K). cbn [fst snd] in *. subst r'. apply ref_ret. split; [reflexivity|exact K]. }
    destruct o as [o|]; [exact Go|]. destruct caught; [exact Go|]. cbn [fst snd].
    destruct S1 as (L2 & P2 & S2). eapply ref_perm; [exact P2|].
    eapply ref_step; [exact (ref_unwind g hs1 cs1 L2 S2 g 0 ltac:(reflexivity))|]. intros hs2 L3 S3. apply ref_ret. split; [reflexivity|].
    exists (abandon g 0 cs1). split; [now apply abandon_holds|]. cbn [fst]. exists L3. split; [reflexivity|exact S3].
Qed.

(** * All threads *)
Lemma spawn_catching_nth give vs programs : forall k i, nth_error (spawn_catching k give vs programs) i =
  match nth_error programs i with Some p => Some (hthread (keeper give) (hand (k + i) give vs) p) | None => None end.
Proof.
  induction programs as [|p programs IH]; intros k [|i]; cbn [spawn_catching nth_error]; auto.
  - now rewrite Nat.add_0_r.
  - rewrite IH. now replace (S k + i)%nat with (k + S i)%nat by lia.
Qed.
Lemma spawn_catching_length give vs programs : forall k, length (spawn_catching k give vs programs) = length programs.
Proof. induction programs as [|p programs IH]; intros k; cbn; auto. Qed.

Definition catching_post (give : sharing) (s : store) (i : nat) (p : list (bool * cmd)) : ends (hvars * (list (option obs) * bool)) :=
  ending (Val (snd (athread (keeper give) (hand i give s) p))) (tpost (keeper give) (fst (athread (keeper give) (hand i give s) p))) [].
Fixpoint catching_posts (k : nat) (give : sharing) (s : store) (programs : list (list (bool * cmd))) : list (ends (hvars * (list (option obs) * bool))) :=
  match programs with [] => [] | p :: programs => catching_post give s k p :: catching_posts (S k) give s programs end.
Lemma catching_posts_nth give s programs : forall k i, nth_error (catching_posts k give s programs) i =
  match nth_error programs i with Some p => Some (catching_post give s (k + i) p) | None => None end.
Proof.
  induction programs as [|p programs IH]; intros k [|i]; cbn [catching_posts nth_error]; auto.
  - now rewrite Nat.add_0_r.
  - rewrite IH. now replace (S k + i)%nat with (k + S i)%nat by lia.
Qed.

Lemma forked_catching_ok setup slack give programs vs m : forked_catching setup slack give programs vs m ->
  exists cs S Ls, Forall2 holds cs (fst (acatches [] setup)) /\ Forall2 (stored m) vs cs /\
    pool_ok S (catching_posts 0 give (fst (acatches [] setup)) programs) Ls (m, spawn_catching 0 give vs programs) /\
    owned S = [] /\ (forall p, In p (map addr S) <-> exists x, borrowed give x /\ points_to vs x p) /\
    (forall x y p, points_to vs x p -> points_to vs y p -> x = y).
Proof.
  intros (H1 & (os & H2) & H3 & H4 & H5). set (s := fst (acatches [] setup)).
  pose proof (catch_run setup H1 [] [] [] [] ltac:(constructor) (sown_nil _)) as R.
  pose proof (ref_exec _ _ _ _ [] (empty_memory slack) R (live_empty slack)) as (r & m' & L & E & K & Hm).
  destruct r as [vs' os']. destruct K as (_ & cs & Hcs & So). cbn [fst snd] in *. rewrite app_nil_r in Hm.
  rewrite H2 in E. injection E as <- _ <-. fold s in Hcs.
  pose proof (sown_order _ vs cs L m Hm So ltac:(now exists s)) as (St & _).
  destruct So as (L0 & P0 & Hs). apply (live_perm m L L0 P0) in Hm.
  destruct (start_ok give vs cs L0 m (catching_posts 0 give s programs) (spawn_catching 0 give vs programs) Hs Hm H3) as (S & Ls & K).
  - rewrite spawn_catching_length. exact H4.
  - intros i h. rewrite spawn_catching_nth, catching_posts_nth. destruct (nth_error programs i) as [p|] eqn:Ep; [|discriminate]. intros E. injection E as <-.
    eexists. split; [reflexivity|]. intros L1 So. cbn [Nat.add].
    assert (Hp : Forall cmd_ok (map snd p) /\ respects give (map snd p)) by (rewrite Forall_forall in H5; apply H5; exact (nth_error_In _ i Ep)).
    destruct Hp as (Hp & Hr).
    assert (Rf : refines (hthread (keeper give) (hand i give vs) p) L1 (Val (snd (athread (keeper give) (hand i give s) p))) (tpost (keeper give) (fst (athread (keeper give) (hand i give s) p)))).
    { apply (ref_thread (keeper give) p Hp) with (cs := hand i give cs); [|now apply hand_holds|now apply keeper_opens|exact So].
      unfold respects in Hr. eapply Forall_impl; [|exact Hr]. intros c. apply keeper_allowed. }
    pose proof (Rf []) as R'. rewrite app_nil_r in R'. exact R'.
  - exists cs, S, Ls. auto 6.
Qed.

Lemma catching_end give s i p h L : safe h L (catching_post give s i p) ->
  match h with
  | HRet (vs', r) => r = snd (athread (keeper give) (hand i give s) p) /\
      exists cs', Forall2 holds cs' (fst (athread (keeper give) (hand i give s) p)) /\ sown (keeper give) vs' cs' L
  | HPanic | HFuel | HUndef => False
  | _ => True
  end.
Proof.
  destruct h as [[vs' r]| | | | | | | |]; cbn [safe]; unfold catching_post; cbn [ending]; auto; try (intros (a & L' & E & _); discriminate).
  intros ([vs1 r1] & L' & E & P & (Eo & cs' & Hh & So)). cbn [fst snd] in *. apply Val_inj in E. injection E as -> ->.
  rewrite app_nil_r in P. split; [exact Eo|]. exists cs'. split; [exact Hh|]. exact (sown_perm _ _ _ _ _ P So).
Qed.

(** What a thread has is allocated. *)
Lemma pool_has {R} S (posts : list (ends R)) Ls m ts i L b q ds : pool_ok S posts Ls (m, ts) -> nth_error Ls i = Some L -> In (b, q, ds) L ->
  nth_error (blocks m) q = Some (Some ds) /\ live m (L ++ concat (map owned (update i [] Ls))).
Proof.
  intros P EL I. pose proof (pool_live _ _ _ _ P) as Hm. cbn [fst] in Hm.
  assert (Li : (i < length ts)%nat). { rewrite <- (pool_length _ _ _ _ P : length Ls = length ts). apply nth_error_Some. congruence. }
  destruct (nth_error ts i) as [h|] eqn:Eh; [|apply nth_error_None in Eh; lia].
  destruct (pool_safe _ _ _ _ P i h Eh) as (L1 & post & EL1 & _ & _ & Pl). assert (L1 = L) by congruence. subst L1.
  apply (live_perm m _ (L ++ concat (map owned (update i [] Ls)))) in Hm.
  - split; [|exact Hm]. apply (live_in m _ b q ds Hm). apply in_or_app. now left.
  - rewrite <- (update_id i L Ls EL) at 1. exact (pool_focus S Ls i L EL Pl L Pl).
Qed.

(** * Facts *)
Lemma catching_race_free_pool S setup give programs Ls m ts : pool_ok S (catching_posts 0 give (fst (acatches [] setup)) programs) Ls (m, ts) ->
  ~ data_race ts /\ ~ In HUndef ts /\ ~ In HPanic ts /\ ~ In HFuel ts.
Proof.
  intros P'. pose proof (pool_race _ _ _ _ P') as (R & U). cbn [snd] in *. split; [exact R|]. split; [exact U|].
  assert (T : forall h, In h ts -> match h with HPanic | HFuel => False | _ => True end).
  { intros h I. apply In_nth_error in I as (i & E). destruct (pool_safe _ _ _ _ P' i h E) as (L & post & _ & EP & Sf & _).
    rewrite catching_posts_nth in EP. destruct (nth_error programs i) as [p|]; [|discriminate]. injection EP as <-.
    apply catching_end in Sf. now destruct h. }
  split; intros I; exact (T _ I).
Qed.
Lemma catching_race_free_fact setup slack give programs vs m schedule : forked_catching setup slack give programs vs m ->
  let '(m', ts) := interleave schedule (m, spawn_catching 0 give vs programs) in
  ~ data_race ts /\ ~ In HUndef ts /\ ~ In HPanic ts /\ ~ In HFuel ts.
Proof.
  intros H. destruct (forked_catching_ok _ _ _ _ _ _ H) as (cs & S & Ls & _ & _ & P & _).
  destruct (interleave_ok schedule _ _ _ _ P) as (Ls' & P'). destruct (interleave schedule _) as (m' & ts).
  exact (catching_race_free_pool _ _ _ _ _ _ _ P').
Qed.

Lemma catching_isolated_pool S setup give programs Ls m' ts i p vs' r :
  pool_ok S (catching_posts 0 give (fst (acatches [] setup)) programs) Ls (m', ts) ->
  nth_error programs i = Some p -> nth_error ts i = Some (HRet (vs', r)) ->
  let (s', r') := athread (keeper give) (hand i give (fst (acatches [] setup))) p in
  r = r' /\ exists cs', Forall2 holds cs' s' /\ Forall2 (stored m') vs' cs'.
Proof.
  intros P' Ep Er. destruct (pool_safe _ _ _ _ P' i _ Er) as (L & post & EL & EP & Sf & _).
  rewrite catching_posts_nth, Ep in EP. cbn [Nat.add] in EP. injection EP as <-. apply catching_end in Sf.
  destruct (athread (keeper give) (hand i give (fst (acatches [] setup))) p) as [s' r']. cbn [fst snd] in Sf.
  destruct Sf as (Eo & cs' & Hh & So). split; [exact Eo|]. exists cs'. split; [exact Hh|].
  apply (sown_stored (keeper give) vs' cs' L m'); [|exact So|exists s'; exact Hh].
  intros b q ds I. destruct (pool_has S _ Ls m' ts i L b q ds P' EL I) as (X & Y).
  apply (live_in m' _ b q ds Y). apply in_or_app. now left.
Qed.
Lemma catching_isolated_fact setup slack give programs vs m schedule m' ts i p vs' r : forked_catching setup slack give programs vs m ->
  interleave schedule (m, spawn_catching 0 give vs programs) = (m', ts) ->
  nth_error programs i = Some p -> nth_error ts i = Some (HRet (vs', r)) ->
  let (s', r') := athread (keeper give) (hand i give (fst (acatches [] setup))) p in
  r = r' /\ exists cs', Forall2 holds cs' s' /\ Forall2 (stored m') vs' cs'.
Proof.
  intros H Ei Ep Er. destruct (forked_catching_ok _ _ _ _ _ _ H) as (cs & S & Ls & _ & _ & P & _).
  destruct (interleave_ok schedule _ _ _ _ P) as (Ls' & P'). rewrite Ei in P'.
  exact (catching_isolated_pool _ _ _ _ _ _ _ _ _ _ _ P' Ep Er).
Qed.

Lemma catching_lent_fact setup slack give programs vs m schedule : forked_catching setup slack give programs vs m ->
  exists cs, Forall2 holds cs (fst (acatches [] setup)) /\ Forall2 (stored m) vs cs /\
  let '(m', ts) := interleave schedule (m, spawn_catching 0 give vs programs) in
  forall x v c, borrowed give x -> nth_error vs x = Some v -> nth_error cs x = Some c -> stored m' v c.
Proof.
  intros H. destruct (forked_catching_ok _ _ _ _ _ _ H) as (cs & S & Ls & Hh & St & P & KO & K6 & KU).
  exists cs. split; [exact Hh|]. split; [exact St|].
  destruct (interleave_ok schedule _ _ _ _ P) as (Ls' & P'). destruct (interleave schedule _) as (m' & ts).
  exact (lent_pool S _ Ls m _ Ls' m' ts vs cs give P P' K6 St).
Qed.

Lemma interleave_length {R} sch : forall s1 : pool R, length (snd (interleave sch s1)) = length (snd s1).
Proof.
  induction sch as [|j sch IH]; intros s1; [reflexivity|]. cbn [interleave]. rewrite IH. unfold turn.
  destruct (nth_error (snd s1) j); [|reflexivity]. destruct (tick h (fst s1)). cbn [snd]. apply update_length.
Qed.

Lemma catching_progress_fact setup slack give programs vs m schedule i : forked_catching setup slack give programs vs m -> (i < length programs)%nat ->
  exists n r, nth_error (snd (interleave (schedule ++ repeat i n) (m, spawn_catching 0 give vs programs))) i = Some (HRet r).
Proof.
  intros H Hi. set (s0 := (m, spawn_catching 0 give vs programs)).
  destruct (nth_error (snd (interleave schedule s0)) i) as [h|] eqn:E;
    [|apply nth_error_None in E; rewrite interleave_length in E; unfold s0 in E; cbn [snd] in E; rewrite spawn_catching_length in E; lia].
  destruct (tick_ends h (fst (interleave schedule s0))) as (n & Hn).
  pose proof (turns_iter i n _ h E) as E'. rewrite <- interleave_app in E'. exists n.
  pose proof (catching_race_free_fact _ _ _ _ _ _ (schedule ++ repeat i n) H) as R. fold s0 in R.
  destruct (interleave (schedule ++ repeat i n) s0) as (m' & ts). cbn [snd] in *. destruct R as (_ & R1 & R2 & R3). apply nth_error_In in E' as I.
  destruct (fst (Nat.iter n _ _)) as [a| | | |ds k|q j k|q j k|q new k|j k]; try contradiction. eauto.
Qed.

Lemma catching_join_pool S setup give programs vs Ls m' ts :
  pool_ok S (catching_posts 0 give (fst (acatches [] setup)) programs) Ls (m', ts) ->
  (forall p, In p (map addr S) <-> exists x, borrowed give x /\ points_to vs x p) ->
  (forall x y p, points_to vs x p -> points_to vs y p -> x = y) ->
  Forall (fun h => exists r, h = HRet r) ts ->
  forall p ds, nth_error (blocks m') p = Some (Some ds) -> exists! o, owner give vs ts o p.
Proof.
  intros P' K6 KU Hr.
  apply (join_pool S _ Ls m' ts give vs P' K6 KU Hr). intros i L vs' r post Eh EP Sf.
  rewrite catching_posts_nth in EP. destruct (nth_error programs i) as [q|]; [|discriminate]. injection EP as <-.
  apply catching_end in Sf. destruct Sf as (_ & cs' & _ & L' & PL & So). eauto.
Qed.
Lemma catching_join_fact setup slack give programs vs m schedule m' ts : forked_catching setup slack give programs vs m ->
  interleave schedule (m, spawn_catching 0 give vs programs) = (m', ts) -> Forall (fun h => exists r, h = HRet r) ts ->
  forall p ds, nth_error (blocks m') p = Some (Some ds) -> exists! o, owner give vs ts o p.
Proof.
  intros H Ei Hr. destruct (forked_catching_ok _ _ _ _ _ _ H) as (cs & S & Ls & _ & _ & P & KO & K6 & KU).
  destruct (interleave_ok schedule _ _ _ _ P) as (Ls' & P'). rewrite Ei in P'.
  exact (catching_join_pool _ _ _ _ _ _ _ _ P' K6 KU Hr).
Qed.

(** * A thread that died has nothing left *)
Lemma abandon_nth {A} owns (s : list (option A)) : forall k x a, nth_error (abandon owns k s) x = Some (Some a) -> owns (k + x)%nat = false.
Proof.
  induction s as [|v s IH]; intros k [|x] a E; cbn [abandon nth_error] in E; try discriminate.
  - rewrite Nat.add_0_r. destruct (owns k); [discriminate|reflexivity].
  - rewrite <- Nat.add_succ_comm. exact (IH (S k) x a E).
Qed.
Lemma athread_died owns p : forall s s' os, athread owns s p = (s', (os, true)) ->
  forall x a, nth_error s' x = Some (Some a) -> owns x = false.
Proof.
  induction p as [|[caught c] p IH]; intros s s' os; cbn [athread]; [discriminate|]. destruct (acatch s c) as [s1 o].
  assert (Go : (let (s, r) := athread owns s1 p in (s, (o :: fst r, snd r))) = (s', (os, true)) -> forall x a, nth_error s' x = Some (Some a) -> owns x = false).
  { destruct (athread owns s1 p) as [s2 [os2 d]] eqn:E. cbn [fst snd]. intros F. injection F as <- _ ->. exact (IH _ _ _ E). }
  destruct o as [o|]; [exact Go|]. destruct caught; [exact Go|]. intros E. injection E as <- _. intros x a. exact (abandon_nth owns s1 0 x a).
Qed.

Lemma catching_dead_fact setup slack give programs vs m schedule m' ts i vs' os x a : forked_catching setup slack give programs vs m ->
  interleave schedule (m, spawn_catching 0 give vs programs) = (m', ts) ->
  nth_error ts i = Some (HRet (vs', (os, true))) -> nth_error vs' x = Some (Some a) -> borrowed give x.
Proof.
  intros H Ei Er Ex. destruct (nth_error programs i) as [p|] eqn:Ep.
  - pose proof (catching_isolated_fact _ _ _ _ _ _ _ _ _ _ _ _ _ H Ei Ep Er) as Q.
    destruct (athread (keeper give) (hand i give (fst (acatches [] setup))) p) as [s' r'] eqn:Ea. destruct Q as (<- & cs' & Hh & St).
    apply keeper_borrowed. pose proof (forall2_get _ _ _ x St) as G. rewrite Ex in G. destruct (nth_error cs' x) as [[y|]|] eqn:Ey; try contradiction.
    pose proof (get_sim cs' s' x Hh) as G2. rewrite Ey in G2. destruct (nth_error s' x) as [[b|]|] eqn:Eb; try contradiction.
    exact (athread_died _ _ _ _ _ Ea x b Eb).
  - exfalso. apply nth_error_None in Ep. pose proof (interleave_length schedule (m, spawn_catching 0 give vs programs)) as Ln. rewrite Ei in Ln.
    cbn [snd] in Ln. rewrite spawn_catching_length in Ln. assert (i < length ts)%nat by (apply nth_error_Some; congruence). lia.
Qed.

Lemma catching_no_leak_fact setup slack give programs vs m schedule m' ts : forked_catching setup slack give programs vs m ->
  interleave schedule (m, spawn_catching 0 give vs programs) = (m', ts) -> Forall (fun h => exists vs' os, h = HRet (vs', (os, true))) ts ->
  forall p ds, nth_error (blocks m') p = Some (Some ds) -> exists x, borrowed give x /\ points_to vs x p.
Proof.
  intros H Ei Hr p ds Hp.
  assert (Hr' : Forall (fun h => exists r, h = HRet r) ts) by (eapply Forall_impl; [|exact Hr]; intros h (vs' & os & ->); eauto).
  destruct (catching_join_fact _ _ _ _ _ _ _ _ _ H Ei Hr' p ds Hp) as ([[i|] x] & O & _); [|exists x; exact O].
  destruct O as (B & vs' & r & Er & (a & Ea & _)). exfalso. apply B.
  rewrite Forall_forall in Hr. destruct (Hr _ (nth_error_In _ i Er)) as (vs1 & os & E). injection E as <- ->.
  exact (catching_dead_fact _ _ _ _ _ _ _ _ _ _ _ _ _ _ H Ei Er Ea).
Qed.
