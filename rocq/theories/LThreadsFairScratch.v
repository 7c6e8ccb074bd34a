(** Fair schedules for threads whose calls use buffers as scratch space. *)
From Verif Require Export LThreadsFair LThreadsScratch.
From Coq Require Import Lia.

Lemma done_other {R} junk i e (s : dpool R) : e <> Goes i -> nth_error (snd (MThreadsScratch.done junk e s)) i = nth_error (snd s) i.
Proof.
  intros N. destruct e as [j|j p l d]; cbn [MThreadsScratch.done].
  - apply dturn_other. congruence.
  - destruct (nth_error (snd s) j) as [t|]; [|reflexivity]. destruct (scratch p l t (fst s)); [|reflexivity].
    now destruct (digit_store p l d (fst s)).
Qed.
Definition sends {R} junk i (t : dthread R) : Prop := forall f s, recurs f (Goes i) -> nth_error (snd s) i = Some t ->
  exists n t', nth_error (snd (carry_on junk (first n f) s)) i = Some t' /\ over t'.
Lemma goes_dec (e : deed) i : e = Goes i \/ e <> Goes i.
Proof. destruct e as [j|j p l d]; [|right; discriminate]. destruct (Nat.eq_dec j i) as [->|N]; [now left|right; congruence]. Qed.
Lemma sends_step {R} junk i (t : dthread R) : (forall m, sends junk i (fst (dtick junk t m))) -> sends junk i t.
Proof.
  intros H. assert (Go : forall f s, recurs f (Goes i) -> nth_error (snd s) i = Some t -> f O = Goes i ->
    exists n t', nth_error (snd (carry_on junk (first n f) s)) i = Some t' /\ over t').
  { intros f s F E E0. destruct (H (fst s) (fun k => f (S k)) (dturn junk i s) (recurs_step f _ F) (dturn_same junk i s t E)) as (n & t' & Q).
    exists (S n), t'. rewrite first_step. cbn [carry_on]. now rewrite E0. }
  intros f s F. destruct (F O) as (k & _ & Ek). revert f s F Ek. induction k as [|k IH]; intros f s F Ek E; [now apply Go|].
  destruct (goes_dec (f O) i) as [E0|N]; [now apply Go|].
  destruct (IH (fun k => f (S k)) (MThreadsScratch.done junk (f O) s) (recurs_step f _ F) Ek) as (n & t' & Q).
  { rewrite done_other by auto. exact E. }
  exists (S n), t'. rewrite first_step. exact Q.
Qed.
Lemma sends_over {R} junk i (t : dthread R) : over t -> sends junk i t.
Proof. intros H f s F E. exists O, t. auto. Qed.
Lemma sends_load {R} junk i p n (k : list Z -> HM R) : (forall ds, sends junk i (DAt (k ds))) ->
  forall c got, (n <= length got + c)%nat -> sends junk i (DLoad p n got k).
Proof.
  intros K c. induction c as [|c IH]; intros got H; apply sends_step; intros m; cbn [dtick]; unfold go_load;
    (destruct (digit_load p (length got) m) as [d|]; cbn [fst snd]; [|now apply sends_over]);
    (destruct (Nat.ltb_spec (length (got ++ [d])) n) as [Hl|Hl]; [|apply K]); rewrite app_length in Hl; cbn in Hl; [lia|].
  apply IH. rewrite app_length. cbn. lia.
Qed.
Lemma sends_store {R} junk i p new (k : HM R) : sends junk i (DAt k) -> forall c j, (length new <= j + c)%nat -> sends junk i (DStore p new j k).
Proof.
  intros K c. induction c as [|c IH]; intros j H; apply sends_step; intros m; cbn [dtick]; unfold go_store;
    (destruct (nth_error new j) as [d|] eqn:E; [|apply K]); (destruct (digit_store p j d m) as [m'|]; cbn [fst snd]; [|now apply sends_over]);
    (destruct (Nat.ltb_spec (S j) (length new)) as [Hl|Hl]; [|apply K]); [lia|].
  apply IH. lia.
Qed.
Lemma sends_at {R} junk i (h : HM R) : sends junk i (DAt h).
Proof.
  induction h as [a| | | |ds k IH|p n k IH|p n k IH|p new k IH|n k IH]; try (apply sends_over; exact I); apply sends_step; intros m; cbn [dtick].
  - cbn [mem_malloc]. destruct (Nat.ltb 0 (length ds)); cbn [fst snd]; [|apply IH].
    apply (sends_store junk i _ ds (k _) (IH _) (length ds)). lia.
  - cbn [tick]. destruct (mem_free p n m); cbn [fst snd]; [apply IH|now apply sends_over].
  - destruct (Nat.ltb 0 n); cbn [fst snd]; [|apply IH]. unfold go_load. destruct (digit_load p _ m) as [d|]; cbn [fst snd]; [|now apply sends_over].
    destruct (Nat.ltb _ n); cbn [fst snd]; [|apply IH]. apply (sends_load junk i p n k IH n). lia.
  - unfold go_store. destruct (nth_error new 0) as [d|]; cbn [fst snd]; [|apply IH]. destruct (digit_store p 0 d m) as [m'|]; cbn [fst snd]; [|now apply sends_over].
    destruct (Nat.ltb _ _); cbn [fst snd]; [|apply IH]. apply (sends_store junk i p new k IH (length new)). lia.
  - cbn [tick fst snd]. apply IH.
Qed.
Lemma sends_all {R} junk i (t : dthread R) : sends junk i t.
Proof.
  destruct t as [h|p n got k|p new j k]; [apply sends_at| |].
  - apply (sends_load junk i p n k (fun ds => sends_at junk i (k ds)) n). lia.
  - apply (sends_store junk i p new k (sends_at junk i k) (length new)). lia.
Qed.
Lemma sover_stays {R} junk history : forall (s : dpool R) i t, nth_error (snd s) i = Some t -> over t -> nth_error (snd (carry_on junk history s)) i = Some t.
Proof.
  induction history as [|e history IH]; intros s i t E O; [exact E|]. cbn [carry_on]. apply IH; [|exact O].
  destruct (goes_dec e i) as [->|N]; [|rewrite done_other by auto; exact E]. cbn [MThreadsScratch.done]. rewrite (dturn_same junk i s t E). f_equal.
  destruct t as [[]| |]; try contradiction; reflexivity.
Qed.
Lemma sfair_over {R} junk f (s : dpool R) : (forall i, (i < length (snd s))%nat -> recurs f (Goes i)) ->
  exists N, forall n, (N <= n)%nat -> Forall over (snd (carry_on junk (first n f) s)).
Proof.
  intros F. destruct (common_bound (fun i n => exists t, nth_error (snd (carry_on junk (first n f) s)) i = Some t /\ over t) (length (snd s))) as (N & HN).
  - intros i n m L (t & E & O). exists t. split; [|exact O]. replace m with (n + (m - n))%nat by lia. rewrite first_app, carry_on_app.
    now apply sover_stays.
  - intros i Hi. destruct (nth_error (snd s) i) as [t|] eqn:E; [|apply nth_error_None in E; lia].
    destruct (sends_all junk i t f s (F i Hi) E) as (n & t' & H). eauto.
  - exists N. intros n L. apply Forall_forall. intros t I. apply In_nth_error in I as (i & E).
    assert (Hi : (i < length (snd s))%nat) by (rewrite <- (carry_on_length junk (first n f) s); apply nth_error_Some; congruence).
    destruct (HN i Hi) as (t' & E' & O). replace n with (N + (n - N))%nat in E by lia. rewrite first_app, carry_on_app in E.
    rewrite (sover_stays junk _ _ i t' E' O) in E. now injection E as <-.
Qed.
Lemma scratch_fair_fact junk setup slack give programs vs m f :
  forked_catching setup slack give programs vs m -> (forall i, (i < length programs)%nat -> recurs f (Goes i)) ->
  exists N, forall n, (N <= n)%nat ->
  let '(m', ts) := carry_on junk (first n f) (m, map DAt (spawn_catching 0 give vs programs)) in
  length ts = length programs /\ forall i p, nth_error programs i = Some p ->
  let (s', r') := athread (keeper give) (hand i give (fst (acatches [] setup))) p in
  exists vs' cs', nth_error ts i = Some (DAt (HRet (vs', r'))) /\ Forall2 holds cs' s' /\ Forall2 (stored m') vs' cs'.
Proof.
  intros K F. destruct (sfair_over junk f (m, map DAt (spawn_catching 0 give vs programs))) as (N & HN).
  { cbn [snd]. rewrite map_length, spawn_catching_length. exact F. }
  exists N. intros n L. specialize (HN n L). pose proof (scratch_race_free_fact junk setup slack give programs vs m (first n f) K) as RF.
  pose proof (scratch_isolated_fact junk setup slack give programs vs m (first n f)) as Is.
  pose proof (carry_on_length junk (first n f) (m, map DAt (spawn_catching 0 give vs programs))) as Len.
  destruct (carry_on junk (first n f) (m, map DAt (spawn_catching 0 give vs programs))) as [m' ts]. cbn [snd] in *.
  rewrite map_length, spawn_catching_length in Len. split; [exact Len|]. destruct RF as (_ & U & P & Fu).
  pose proof (over_returned ts HN U P Fu) as Rt. intros i p Ep. destruct (nth_error ts i) as [t|] eqn:Et.
  2: { apply nth_error_None in Et. assert (i < length programs)%nat by (apply nth_error_Some; congruence). lia. }
  rewrite Forall_forall in Rt. destruct (Rt t (nth_error_In _ _ Et)) as ([vs' r] & ->).
  specialize (Is m' ts i p vs' r K eq_refl Ep Et). destruct (athread _ _ p) as [s' r']. destruct Is as (-> & cs' & H). exists vs', cs'. tauto.
Qed.
Lemma tscratch_fair_fact junk setup slack give programs vs m f :
  tforked setup slack give programs vs m -> (forall i, (i < length programs)%nat -> recurs f (Goes i)) ->
  exists N, forall n, (N <= n)%nat ->
  let '(m', ts) := carry_on junk (first n f) (m, map DAt (tspawn 0 give vs programs)) in
  length ts = length programs /\ forall i p, nth_error programs i = Some p ->
  let (s', r') := tathread (keeper give) (hand i give (fst (tacatches [] setup))) p in
  exists vs', nth_error ts i = Some (DAt (HRet (vs', r'))) /\ Forall2 (in_memory m') vs' s'.
Proof.
  intros K F. destruct (sfair_over junk f (m, map DAt (tspawn 0 give vs programs))) as (N & HN).
  { cbn [snd]. rewrite map_length, tspawn_length. exact F. }
  exists N. intros n L. specialize (HN n L). pose proof (tscratch_race_free_fact junk setup slack give programs vs m (first n f) K) as RF.
  pose proof (tscratch_isolated_fact junk setup slack give programs vs m (first n f)) as Is.
  pose proof (carry_on_length junk (first n f) (m, map DAt (tspawn 0 give vs programs))) as Len.
  destruct (carry_on junk (first n f) (m, map DAt (tspawn 0 give vs programs))) as [m' ts]. cbn [snd] in *.
  rewrite map_length, tspawn_length in Len. split; [exact Len|]. destruct RF as (_ & U & P & Fu).
  pose proof (over_returned ts HN U P Fu) as Rt. intros i p Ep. destruct (nth_error ts i) as [t|] eqn:Et.
  2: { apply nth_error_None in Et. assert (i < length programs)%nat by (apply nth_error_Some; congruence). lia. }
  rewrite Forall_forall in Rt. destruct (Rt t (nth_error_In _ _ Et)) as ([vs' r] & ->).
  specialize (Is m' ts i p vs' r K eq_refl Ep Et). destruct (tathread _ _ p) as [s' r']. destruct Is as (-> & H). exists vs'. tauto.
Qed.
