(** Fair schedules on flat memory. *)
From Verif Require Export LThreadsFlat SpecFair.
From Verif Require LThreadsFair.
From Coq Require Import Lia.

Lemma ftick_total {R} w t (h : HM R) m : generous w -> exists h' m', ftick w t h m = Some (h', m').
Proof.
  intros (G1 & G2). unfold ftick. rewrite G2. destruct h as [a| | | |ds k|p n k|p n k|p new k|n k]; cbv beta iota zeta; eauto.
  - destruct ds as [|d ds]; eauto. destruct (place w t (disturbed w t m) _) eqn:E; [eauto|]. exfalso. exact (G1 _ _ _ E).
  - destruct (give_back p n _); eauto.
  - destruct (covers _ p n); eauto.
  - destruct (covers _ p _); eauto.
Qed.
Lemma fturn_total {R} w t i (s : fpool R) : generous w -> exists s', fturn w t i s = Some s'.
Proof.
  intros G. unfold fturn. destruct (nth_error (snd s) i) as [h|]; [|eauto]. destruct (ftick_total w t h (fst s) G) as (h' & m' & ->). eauto.
Qed.
Lemma finterleave_total {R} w sch : generous w -> forall t (s : fpool R), exists s', finterleave w t sch s = Some s'.
Proof.
  intros G. induction sch as [|i sch IH]; intros t s; cbn [finterleave]; [eauto|]. destruct (fturn_total w t i s G) as (s' & ->). apply IH.
Qed.
Lemma fturn_other {R} w t i j (s s' : fpool R) : i <> j -> fturn w t j s = Some s' -> nth_error (snd s') i = nth_error (snd s) i.
Proof.
  intros N. unfold fturn. destruct (nth_error (snd s) j) as [h|]; [|now intros [= <-]]. destruct (ftick w t h (fst s)) as [[h' m']|]; [|discriminate].
  intros [= <-]. cbn [snd]. now apply nth_update_other; auto.
Qed.
Lemma fturn_same {R} w t i (s s' : fpool R) h : nth_error (snd s) i = Some h -> fturn w t i s = Some s' ->
  exists h', ftick w t h (fst s) = Some (h', fst s') /\ nth_error (snd s') i = Some h'.
Proof.
  intros E. unfold fturn. rewrite E. destruct (ftick w t h (fst s)) as [[h' m']|]; [|discriminate]. intros [= <-]. exists h'.
  split; [reflexivity|]. exact (nth_update_same _ _ _ _ E).
Qed.

Definition fends {R} w i (h : HM R) : Prop := forall f t s, recurs f i -> nth_error (snd s) i = Some h ->
  exists n s' h', finterleave w t (first n f) s = Some s' /\ nth_error (snd s') i = Some h' /\ at_end h'.
Lemma fends_step {R} w i (h : HM R) : generous w -> (forall t m h' m', ftick w t h m = Some (h', m') -> fends w i h') -> fends w i h.
Proof.
  intros G H. assert (Go : forall f t s, recurs f i -> nth_error (snd s) i = Some h -> f O = i ->
    exists n s' h', finterleave w t (first n f) s = Some s' /\ nth_error (snd s') i = Some h' /\ at_end h').
  { intros f t s F E E0. destruct (fturn_total w t i s G) as (s1 & T). destruct (fturn_same w t i s s1 h E T) as (h1 & T1 & E1).
    destruct (H t (fst s) h1 (fst s1) T1 (fun k => f (S k)) (S t) s1 (LThreadsFair.recurs_step f i F) E1) as (n & s' & h' & Q).
    exists (S n), s', h'. rewrite LThreadsFair.first_step. cbn [finterleave]. now rewrite E0, T. }
  intros f t s F. destruct (F O) as (k & _ & Ek). revert f t s F Ek. induction k as [|k IH]; intros f t s F Ek E; [now apply Go|].
  destruct (Nat.eq_dec (f O) i) as [E0|N]; [now apply Go|].
  destruct (fturn_total w t (f O) s G) as (s1 & T).
  destruct (IH (fun k => f (S k)) (S t) s1 (LThreadsFair.recurs_step f i F) Ek) as (n & s' & h' & Q).
  { rewrite (fturn_other w t i (f O) s s1) by auto. exact E. }
  exists (S n), s', h'. rewrite LThreadsFair.first_step. cbn [finterleave]. now rewrite T.
Qed.
Lemma fends_end {R} w i (h : HM R) : at_end h -> fends w i h.
Proof. intros H f t s F E. exists O, s, h. auto. Qed.
Lemma fends_all {R} w i (h : HM R) : generous w -> fends w i h.
Proof.
  intros G. induction h as [a| | | |ds k IH|p n k IH|p n k IH|p new k IH|n k IH]; try (apply fends_end; exact I);
    apply fends_step; try exact G; intros t m h' m' T; unfold ftick in T; rewrite (proj2 G) in T; cbv beta iota zeta in T.
  - destruct ds as [|d ds]; [injection T as <- <-; now apply fends_end|]. destruct (place w t (disturbed w t m) _); [|discriminate].
    injection T as <- <-. apply IH.
  - destruct (give_back p n _); injection T as <- <-; [exact IH|now apply fends_end].
  - destruct (covers _ p n); injection T as <- <-; [apply IH|now apply fends_end].
  - destruct (covers _ p _); injection T as <- <-; [exact IH|now apply fends_end].
  - injection T as <- <-. apply IH.
Qed.
Lemma fend_stays {R} w sch : forall t (s s' : fpool R) i h, finterleave w t sch s = Some s' -> nth_error (snd s) i = Some h -> at_end h -> nth_error (snd s') i = Some h.
Proof.
  induction sch as [|j sch IH]; intros t s s' i h; cbn [finterleave]; [now intros [= <-]|]. destruct (fturn w t j s) as [s1|] eqn:T; [|discriminate].
  intros Q E D. apply (IH (S t) s1 s' i h Q); [|exact D]. destruct (Nat.eq_dec j i) as [->|N]; [|rewrite (fturn_other w t i j s s1); auto].
  destruct (fturn_same w t i s s1 h E T) as (h1 & T1 & E1). rewrite E1. f_equal.
  unfold ftick in T1. destruct (killed w t); [discriminate|]. destruct h; try contradiction; now injection T1 as <- _.
Qed.
Lemma ffair_end {R} w f t (s : fpool R) : generous w -> fair (length (snd s)) f ->
  exists N, forall n s', (N <= n)%nat -> finterleave w t (first n f) s = Some s' -> Forall at_end (snd s').
Proof.
  intros G F. destruct (LThreadsFair.common_bound (fun i n => exists s' h, finterleave w t (first n f) s = Some s' /\ nth_error (snd s') i = Some h /\ at_end h) (length (snd s))) as (N & HN).
  - intros i n m L (s' & h & Q & E & O). replace m with (n + (m - n))%nat by lia. rewrite LThreadsFair.first_app, finterleave_app, Q.
    destruct (finterleave_total w (map f (seq n (m - n))) G (t + length (first n f)) s') as (s'' & Q'').
    exists s'', h. split; [exact Q''|]. split; [|exact O]. exact (fend_stays w _ _ s' s'' i h Q'' E O).
  - intros i Hi. destruct (nth_error (snd s) i) as [h|] eqn:E; [|apply nth_error_None in E; lia].
    destruct (fends_all w i h G f t s (F i Hi) E) as (n & s' & h' & H). eauto.
  - exists N. intros n s' L Q. apply Forall_forall. intros h I. apply In_nth_error in I as (i & E).
    assert (Hi : (i < length (snd s))%nat) by (rewrite <- (finterleave_length w (first n f) t s s' Q); apply nth_error_Some; congruence).
    destruct (HN i Hi) as (s1 & h' & Q1 & E' & O). replace n with (N + (n - N))%nat in Q by lia. rewrite LThreadsFair.first_app, finterleave_app, Q1 in Q.
    rewrite (fend_stays w _ _ s1 s' i h' Q E' O) in E. now injection E as <-.
Qed.
Lemma end_returned {R} (ts : list (HM R)) i h : Forall at_end ts -> ~ In HUndef ts -> ~ In HPanic ts -> ~ In HFuel ts -> nth_error ts i = Some h -> exists r, h = HRet r.
Proof.
  intros F U P Fu E. pose proof (nth_error_In _ _ E) as I. rewrite Forall_forall in F. pose proof (F h I) as O. destruct h; try contradiction. eauto.
Qed.

Lemma fthreads_fair_fact w0 m0 setup give programs vs m w t f :
  forked_flat w0 m0 setup give programs vs m -> honest w -> generous w -> fair (length programs) f ->
  exists N, forall n, (N <= n)%nat -> exists m' ts,
  finterleave w t (first n f) (m, spawn_catching 0 give vs programs) = Some (m', ts) /\ length ts = length programs /\
  forall i p, nth_error programs i = Some p ->
  let (s', r') := athread (keeper give) (hand i give (fst (acatches [] setup))) p in
  exists vs' cs', nth_error ts i = Some (HRet (vs', r')) /\ Forall2 holds cs' s' /\ Forall2 (fstored m') vs' cs'.
Proof.
  intros K Ho G F. destruct (ffair_end w f t (m, spawn_catching 0 give vs programs) G) as (N & HN).
  { cbn [snd]. rewrite spawn_catching_length. exact F. }
  exists N. intros n L. destruct (finterleave_total w (first n f) G t (m, spawn_catching 0 give vs programs)) as ([m' ts] & Q).
  exists m', ts. split; [exact Q|]. specialize (HN n _ L Q). pose proof (finterleave_length w _ t _ _ Q) as Len. cbn [snd] in *.
  rewrite spawn_catching_length in Len. split; [exact Len|].
  destruct (fthreads_race_free_fact w0 m0 setup give programs vs m w t (first n f) m' ts K Ho Q) as (_ & U & P & Fu).
  intros i p Ep. destruct (nth_error ts i) as [h|] eqn:Et.
  2: { apply nth_error_None in Et. assert (i < length programs)%nat by (apply nth_error_Some; congruence). lia. }
  destruct (end_returned ts i h HN U P Fu Et) as ([vs' r] & ->).
  pose proof (fthreads_isolated_fact w0 m0 setup give programs vs m w t (first n f) m' ts i p vs' r K Ho Q Ep Et) as Is.
  destruct (athread _ _ p) as [s' r']. destruct Is as (-> & cs' & H). exists vs', cs'. tauto.
Qed.
Lemma tfthreads_fair_fact w0 m0 setup give programs vs m w t f :
  tforked_flat w0 m0 setup give programs vs m -> honest w -> generous w -> fair (length programs) f ->
  exists N, forall n, (N <= n)%nat -> exists m' ts,
  finterleave w t (first n f) (m, tspawn 0 give vs programs) = Some (m', ts) /\ length ts = length programs /\
  forall i p, nth_error programs i = Some p ->
  let (s', r') := tathread (keeper give) (hand i give (fst (tacatches [] setup))) p in
  exists vs', nth_error ts i = Some (HRet (vs', r')) /\ Forall2 (fin_memory m') vs' s'.
Proof.
  intros K Ho G F. destruct (ffair_end w f t (m, tspawn 0 give vs programs) G) as (N & HN).
  { cbn [snd]. rewrite tspawn_length. exact F. }
  exists N. intros n L. destruct (finterleave_total w (first n f) G t (m, tspawn 0 give vs programs)) as ([m' ts] & Q).
  exists m', ts. split; [exact Q|]. specialize (HN n _ L Q). pose proof (finterleave_length w _ t _ _ Q) as Len. cbn [snd] in *.
  rewrite tspawn_length in Len. split; [exact Len|].
  destruct (tfthreads_race_free_fact w0 m0 setup give programs vs m w t (first n f) m' ts K Ho Q) as (_ & U & P & Fu).
  intros i p Ep. destruct (nth_error ts i) as [h|] eqn:Et.
  2: { apply nth_error_None in Et. assert (i < length programs)%nat by (apply nth_error_Some; congruence). lia. }
  destruct (end_returned ts i h HN U P Fu Et) as ([vs' r] & ->).
  pose proof (tfthreads_isolated_fact w0 m0 setup give programs vs m w t (first n f) m' ts i p vs' r K Ho Q Ep Et) as Is.
  destruct (tathread _ _ p) as [s' r']. destruct Is as (-> & H). exists vs'. tauto.
Qed.
