(** Ownership of heap buffers: a small program logic and the storage functions. *)
From Coq Require Import Permutation.
From Verif Require Export LMach4 MHeap.

(** A buffer that one may use: whether it may be written and freed, its address
    and its digits. *)
Definition cell : Type := bool * nat * list Z.
Definition addr (c : cell) : nat := snd (fst c).
(** The allocated buffers are exactly those listed, each once. *)
Definition live (m : mem) (L : list cell) : Prop :=
  NoDup (map addr L) /\ forall p ds, nth_error (blocks m) p = Some (Some ds) <-> exists b, In (b, p, ds) L.

Lemma live_perm m L L' : Permutation L L' -> live m L -> live m L'.
Proof.
  intros P (N & H). split.
  - eapply Permutation_NoDup; [|exact N]. now apply Permutation_map.
  - intros p ds. rewrite H. split; intros (b & I); exists b; revert I; apply Permutation_in; [exact P|now symmetry].
Qed.

(** [h], which may use the buffers [L], never goes wrong, whatever addresses it
    gets, and ends as [post] says. *)
Fixpoint safe {A : Type} (h : HM A) (L : list cell) (post : outcome A -> list cell -> Prop) : Prop :=
  match h with
  | HRet a => post (Val a) L
  | HPanic => post Panic L
  | HFuel => post OutOfFuel L
  | HUndef => False
  | HMalloc ds k => ds <> [] /\ forall p, ~ In p (map addr L) -> safe (k p) ((true, p, ds) :: L) post
  | HFree p n k => exists ds L', Permutation L ((true, p, ds) :: L') /\ length ds = n /\ safe k L' post
  | HLoad p n k => exists b ds, In (b, p, ds) L /\ (n <= length ds)%nat /\ safe (k (firstn n ds)) L post
  | HStore p new k =>
      exists ds L', Permutation L ((true, p, ds) :: L') /\ (length new <= length ds)%nat /\
        safe k ((true, p, new ++ skipn (length new) ds) :: L') post
  | HSlack n k => forall e, safe (k e) L post
  end.

Lemma safe_bind {A B} (h : HM A) (k : A -> HM B) post post' : forall L, safe h L post ->
  (forall o L', post o L' -> match o with Val a => safe (k a) L' post' | Stop b => post' (Stop b) L' | OutOfFuel => post' OutOfFuel L' end) ->
  safe (hbind h k) L post'.
Proof.
  induction h as [a| | | |ds k' IH|p n k' IH|p n k' IH|p new k' IH|n k' IH]; intros L H K; cbn [hbind safe] in *.
  - exact (K _ _ H).
  - exact (K _ _ H).
  - exact (K _ _ H).
  - exact H.
  - destruct H as (Hd & H). split; [exact Hd|]. intros p N. apply IH; auto.
  - destruct H as (ds & L' & P & E & H). exists ds, L'. auto.
  - destruct H as (b & ds & I & E & H). exists b, ds. auto.
  - destruct H as (ds & L' & P & E & H). exists ds, L'. auto.
  - intros e. apply IH; auto.
Qed.

Lemma safe_perm {A} (h : HM A) (post : outcome A -> list cell -> Prop) : (forall o L1 L2, Permutation L1 L2 -> post o L1 -> post o L2) ->
  forall L L', Permutation L L' -> safe h L post -> safe h L' post.
Proof.
  intros I. induction h as [a| | | |ds k' IH|p n k' IH|p n k' IH|p new k' IH|n k' IH]; intros L L' P H; cbn [safe] in *.
  - exact (I _ _ _ P H).
  - exact (I _ _ _ P H).
  - exact (I _ _ _ P H).
  - exact H.
  - destruct H as (Hd & H). split; [exact Hd|]. intros p N. apply (IH p ((true, p, ds) :: L)); [now constructor|]. apply H. intros K. apply N.
    revert K. apply Permutation_in. now apply Permutation_map.
  - destruct H as (ds & L1 & P1 & E & H). exists ds, L1. split; [|auto]. transitivity L; [now symmetry|exact P1].
  - destruct H as (b & ds & K & E & H). exists b, ds. split; [|split; [exact E|exact (IH _ L L' P H)]].
    revert K. apply Permutation_in. exact P.
  - destruct H as (ds & L1 & P1 & E & H). exists ds, L1. split; [|auto]. transitivity L; [now symmetry|exact P1].
  - intros e. exact (IH e L L' P (H e)).
Qed.

Definition ending {A B : Type} (f : outcome B) (Q : A -> B -> list cell -> Prop) (F : list cell) (o : outcome A) (L : list cell) : Prop :=
  match f with
  | Val b => exists a L', o = Val a /\ Permutation L (L' ++ F) /\ Q a b L'
  | Stop _ => o = Panic
  | OutOfFuel => o = OutOfFuel
  end.
(** [h], using the buffers [L], does what [f] does, and leaves the buffers
    that [Q] says; whatever else is allocated is left alone. *)
Definition refines {A B : Type} (h : HM A) (L : list cell) (f : outcome B) (Q : A -> B -> list cell -> Prop) : Prop :=
  forall F, safe h (L ++ F) (ending f Q F).

Lemma ending_perm {A B} (f : outcome B) (Q : A -> B -> list cell -> Prop) F o L1 L2 :
  Permutation L1 L2 -> ending f Q F o L1 -> ending f Q F o L2.
Proof.
  intros P. destruct f as [b| |]; cbn; auto. intros (a & L' & E & P' & H). exists a, L'. split; [exact E|].
  split; [|exact H]. transitivity L1; [now symmetry|exact P'].
Qed.
Lemma safe_ending {A B} (h : HM A) (f : outcome B) Q F L L' : Permutation L L' -> safe h L' (ending f Q F) -> safe h L (ending f Q F).
Proof. intros P. apply safe_perm; [apply ending_perm|now symmetry]. Qed.
Lemma safe_mono {A} (h : HM A) (post post' : outcome A -> list cell -> Prop) : (forall o L, post o L -> post' o L) ->
  forall L, safe h L post -> safe h L post'.
Proof.
  intros I. induction h as [a| | | |ds k' IH|p n k' IH|p n k' IH|p new k' IH|n k' IH]; intros L H; cbn [safe] in *; auto.
  - destruct H as (Hd & H). auto.
  - destruct H as (ds & L1 & P1 & E & H). exists ds, L1. auto.
  - destruct H as (b & ds & K & E & H). exists b, ds. auto.
  - destruct H as (ds & L1 & P1 & E & H). exists ds, L1. auto.
Qed.

Lemma ref_ret {A B} (a : A) (b : B) L (Q : A -> B -> list cell -> Prop) : Q a b L -> refines (hret a) L (Val b) Q.
Proof. intros H F. exists a, L. auto. Qed.

Lemma ref_bind {A B A' B'} (h : HM A) (k : A -> HM A') L (f : outcome B) (g : B -> outcome B') Q R :
  refines h L f Q -> (forall a b L', f = Val b -> Q a b L' -> refines (k a) L' (g b) R) -> refines (hbind h k) L (bind f g) R.
Proof.
  intros H K F. eapply safe_bind; [exact (H F)|]. intros o L1 E. destruct f as [b| |]; cbn [ending bind] in *.
  - destruct E as (a & L' & -> & P & HQ). eapply safe_ending; [exact P|]. exact (K a b L' eq_refl HQ F).
  - rewrite E. reflexivity.
  - rewrite E. reflexivity.
Qed.

Lemma ref_step {A B A' B'} (h : HM A) (k : A -> HM A') L (b : B) (g : outcome B') Q R :
  refines h L (Val b) Q -> (forall a L', Q a b L' -> refines (k a) L' g R) -> refines (hbind h k) L g R.
Proof.
  intros H K F. eapply safe_bind; [exact (H F)|]. intros o L1 (a & L' & -> & P & HQ).
  eapply safe_ending; [exact P|]. exact (K a L' HQ F).
Qed.

Lemma ref_conseq {A B} (h : HM A) L (f : outcome B) (Q R : A -> B -> list cell -> Prop) :
  refines h L f Q -> (forall a b L', Q a b L' -> exists L'', Permutation L' L'' /\ R a b L'') -> refines h L f R.
Proof.
  intros H K F. eapply safe_mono; [|exact (H F)]. intros o L1. destruct f as [b| |]; cbn [ending]; auto.
  intros (a & L' & -> & P & HQ). destruct (K a b L' HQ) as (L'' & P' & HR). exists a, L''. split; [reflexivity|].
  split; [|exact HR]. rewrite P. now apply Permutation_app_tail.
Qed.

(** The same, knowing how [f] ends. *)
Lemma ref_mono {A B C} (h : HM A) L (f : outcome B) (g : outcome C) (Q : A -> B -> list cell -> Prop) (R : A -> C -> list cell -> Prop) :
  refines h L f Q -> (forall F o L', ending f Q F o L' -> ending g R F o L') -> refines h L g R.
Proof. intros H K F. eapply safe_mono; [|exact (H F)]. intros o L1. apply K. Qed.

Lemma ref_frame {A B} (h : HM A) L G (f : outcome B) Q :
  refines h L f Q -> refines h (L ++ G) f (fun a b L' => exists L'', L' = L'' ++ G /\ Q a b L'').
Proof.
  intros H F. rewrite <- app_assoc. eapply safe_mono; [|exact (H (G ++ F))]. intros o L1. destruct f as [b| |]; cbn [ending]; auto.
  intros (a & L' & -> & P & HQ). exists a, (L' ++ G). split; [reflexivity|]. split; [now rewrite <- app_assoc|eauto].
Qed.

Lemma ref_perm {A B} (h : HM A) L L' (f : outcome B) Q : Permutation L L' -> refines h L' f Q -> refines h L f Q.
Proof. intros P H F. eapply safe_ending; [|exact (H F)]. now apply Permutation_app_tail. Qed.

Lemma ref_lift {A} (f : outcome A) L : refines (lift f) L f (fun a b L' => a = b /\ L' = L).
Proof. intros F. destruct f as [a| |]; cbn; [|reflexivity|reflexivity]. exists a, L. auto. Qed.

Lemma ref_panic {A B} b L (Q : A -> B -> list cell -> Prop) : refines hpanic L (Stop b) Q.
Proof. intros F. reflexivity. Qed.
Lemma ref_fuel {A B} L (Q : A -> B -> list cell -> Prop) : refines HFuel L OutOfFuel Q.
Proof. intros F. reflexivity. Qed.

(** * The allocator *)
Lemma ref_malloc ds L : ds <> [] -> refines (malloc ds) L (Val tt) (fun p _ L' => L' = (true, p, ds) :: L).
Proof. intros Hd F. split; [exact Hd|]. intros p N. exists p, ((true, p, ds) :: L). auto. Qed.

Lemma ref_slack n L : refines (ask_slack n) L (Val tt) (fun _ _ L' => L' = L).
Proof. intros F e. exists e, L. auto. Qed.

Lemma ref_free p ds n L : length ds = n -> refines (free p n) ((true, p, ds) :: L) (Val tt) (fun _ _ L' => L' = L).
Proof. intros E F. exists ds, (L ++ F). split; [reflexivity|]. split; [exact E|]. exists tt, L. auto. Qed.

Lemma ref_load b p ds n L : length ds = n ->
  refines (load p n) ((b, p, ds) :: L) (Val ds) (fun a b' L' => a = b' /\ L' = (b, p, ds) :: L).
Proof.
  intros E F. exists b, ds. split; [now left|]. split; [lia|]. rewrite firstn_all2 by lia.
  exists ds, ((b, p, ds) :: L). auto.
Qed.

Lemma ref_store p ds es L : length ds = length es ->
  refines (hstore p es) ((true, p, ds) :: L) (Val tt) (fun _ _ L' => L' = (true, p, es) :: L).
Proof.
  intros E F. exists ds, (L ++ F). split; [reflexivity|]. split; [lia|]. rewrite <- E, skipn_all, app_nil_r.
  exists tt, ((true, p, es) :: L). auto.
Qed.

(** * Memory *)
Lemma nth_update {A} p q (v : A) l : (p < length l)%nat ->
  nth_error (update p v l) q = if Nat.eqb p q then Some v else nth_error l q.
Proof.
  revert p q. induction l as [|a l IH]; intros [|p] [|q] H; cbn in *; try lia; auto. apply IH. lia.
Qed.

Lemma live_in m L b p ds : live m L -> In (b, p, ds) L -> nth_error (blocks m) p = Some (Some ds) /\ (p < length (blocks m))%nat.
Proof.
  intros (_ & H) I. assert (E : nth_error (blocks m) p = Some (Some ds)) by (apply H; eauto). split; [exact E|].
  apply nth_error_Some. congruence.
Qed.

Lemma live_malloc m L ds : live m L ->
  ~ In (fst (mem_malloc ds m)) (map addr L) /\ live (snd (mem_malloc ds m)) ((true, fst (mem_malloc ds m), ds) :: L).
Proof.
  intros (N & H). cbn [mem_malloc fst snd].
  assert (X : ~ In (length (blocks m)) (map addr L)).
  { intros I. apply in_map_iff in I as (((b & p) & es) & E & I). cbn in E. subst p.
    assert (E0 : nth_error (blocks m) (length (blocks m)) = Some (Some es)) by (apply H; eauto).
    assert (nth_error (blocks m) (length (blocks m)) = None) by (apply nth_error_None; lia). congruence. }
  split; [exact X|]. split; [cbn [map]; constructor; assumption|]. cbn [blocks]. intros p es.
  destruct (Nat.lt_ge_cases p (length (blocks m))) as [L1|L1].
  - rewrite nth_error_app1 by exact L1. rewrite H. split; [intros (b & I); exists b; now right|].
    intros (b & [E|I]); [injection E as _ <- _; lia|eauto].
  - rewrite nth_error_app2 by exact L1. assert (E0 : nth_error (blocks m) p = None) by (apply nth_error_None; lia).
    assert (NI : forall b, ~ In (b, p, es) L).
    { intros b I. assert (nth_error (blocks m) p = Some (Some es)) by (apply H; eauto). congruence. }
    destruct (p - length (blocks m))%nat as [|k] eqn:Ek; cbn [nth_error].
    + split; [intros E; exists true; left; f_equal; [f_equal; lia|congruence]|].
      intros (b & [E|I]); [|exfalso; exact (NI b I)]. injection E as _ _ ->. reflexivity.
    + destruct k; cbn; split; try discriminate; intros (b & [E|I]); try (exfalso; exact (NI b I)); injection E as _ E _; lia.
Qed.

Lemma live_free m L p ds n : live m ((true, p, ds) :: L) -> length ds = n ->
  exists m', mem_free p n m = Some m' /\ live m' L.
Proof.
  intros Hm E. pose proof (live_in m _ true p ds Hm ltac:(left; reflexivity)) as (Ep & Lp). destruct Hm as (N & H).
  unfold mem_free. rewrite Ep, E, Nat.eqb_refl. eexists. split; [reflexivity|].
  cbn [map] in N. apply NoDup_cons_iff in N as (N1 & N2). split; [exact N2|]. cbn [blocks]. intros q es.
  rewrite nth_update by exact Lp. destruct (Nat.eqb_spec p q) as [<-|D].
  - split; [discriminate|]. intros (b & I). exfalso. apply N1. apply in_map_iff. exists (b, p, es). auto.
  - rewrite H. split; intros (b & I); exists b; [|now right]. destruct I as [K|K]; [congruence|exact K].
Qed.

Lemma live_load m L b p ds n : live m L -> In (b, p, ds) L -> (n <= length ds)%nat -> mem_load p n m = Some (firstn n ds).
Proof.
  intros Hm I E. pose proof (live_in m _ b p ds Hm I) as (Ep & Lp). unfold mem_load. rewrite Ep.
  destruct (Nat.leb_spec n (length ds)); [reflexivity|lia].
Qed.

Lemma live_store m L p ds es : live m ((true, p, ds) :: L) -> (length es <= length ds)%nat ->
  exists m', mem_store p es m = Some m' /\ live m' ((true, p, es ++ skipn (length es) ds) :: L).
Proof.
  intros Hm E. pose proof (live_in m _ true p ds Hm ltac:(left; reflexivity)) as (Ep & Lp). destruct Hm as (N & H).
  unfold mem_store. rewrite Ep. destruct (Nat.leb_spec (length es) (length ds)); [|lia]. eexists. split; [reflexivity|].
  split; [exact N|]. cbn [blocks]. intros q fs. cbn [map] in N. apply NoDup_cons_iff in N as (N1 & N2).
  rewrite nth_update by exact Lp. destruct (Nat.eqb_spec p q) as [<-|D].
  - split; [intros K; exists true; left; congruence|]. intros (b & [K|K]); [congruence|]. exfalso. apply N1.
    apply in_map_iff. exists (b, p, fs). auto.
  - rewrite H. split; intros (b & [K|K]); exists b; try congruence; now right.
Qed.

(** What is safe runs. *)
Lemma safe_exec {A} (h : HM A) post : forall L F m, safe h L post -> live m (L ++ F) ->
  match exec h m with
  | MVal a m' => exists L', post (Val a) L' /\ live m' (L' ++ F)
  | MPanic => exists L', post Panic L'
  | MFuel => exists L', post OutOfFuel L'
  | MUndefined => False
  end.
Proof.
  induction h as [a| | | |ds k' IH|p n k' IH|p n k' IH|p new k' IH|n k' IH]; intros L F m H Hm; cbn [exec safe] in *; eauto.
  - destruct H as (_ & H). destruct (live_malloc m (L ++ F) ds Hm) as (N & Hm'). destruct (mem_malloc ds m) as (p & m'). cbn [fst snd] in *.
    apply (IH p ((true, p, ds) :: L)); [|exact Hm']. apply H. intros I. apply N. rewrite map_app. apply in_or_app. now left.
  - destruct H as (ds & L' & P & E & H). assert (Hm1 : live m ((true, p, ds) :: L' ++ F)).
    { eapply live_perm; [|exact Hm]. change ((true, p, ds) :: L' ++ F) with (((true, p, ds) :: L') ++ F). now apply Permutation_app_tail. }
    destruct (live_free m _ p ds n Hm1 E) as (m' & -> & Hm'). exact (IH L' F m' H Hm').
  - destruct H as (b & ds & I & E & H). rewrite (live_load m (L ++ F) b p ds n Hm ltac:(apply in_or_app; now left) E).
    exact (IH _ L F m H Hm).
  - destruct H as (ds & L' & P & E & H). assert (Hm1 : live m ((true, p, ds) :: L' ++ F)).
    { eapply live_perm; [|exact Hm]. change ((true, p, ds) :: L' ++ F) with (((true, p, ds) :: L') ++ F). now apply Permutation_app_tail. }
    destruct (live_store m _ p ds new Hm1 E) as (m' & -> & Hm'). exact (IH _ F m' H Hm').
  - exact (IH _ L F m (H _) Hm).
Qed.

Lemma ref_exec {A B} (h : HM A) L (f : outcome B) Q F m : refines h L f Q -> live m (L ++ F) ->
  match f with
  | Val b => exists a m' L', exec h m = MVal a m' /\ Q a b L' /\ live m' (L' ++ F)
  | Stop _ => exec h m = MPanic
  | OutOfFuel => exec h m = MFuel
  end.
Proof.
  intros H Hm. pose proof (H F) as S. rewrite <- (app_nil_r (L ++ F)) in Hm.
  pose proof (safe_exec h _ _ [] m S Hm) as R. destruct f as [b| |]; cbn [ending] in R; destruct (exec h m) as [a m'| | |]; try tauto;
    try (destruct R as (L' & R); discriminate).
  - destruct R as (L1 & (a' & L' & E & P & HQ) & Hm'). rewrite app_nil_r in Hm'. exists a, m', L'. split; [reflexivity|].
    split; [congruence|]. now apply (live_perm m' L1).
  - destruct R as (L1 & (a' & L' & E & _)). discriminate.
  - destruct R as (L1 & (a' & L' & E & _)). discriminate.
  - destruct R as (L1 & R & _). discriminate.
  - destruct R as (L1 & R & _). discriminate.
Qed.

(** * Integers in memory *)
(** [a] in memory is the integer [x], with its buffer in [L]: owned, if [b]. *)
Definition reprb (b : bool) (a : hapint) (x : apint) (L : list cell) : Prop :=
  hlen a = len x /\ 0 < len x /\ length (digits x) = required_digits (len x) /\
  match storage (len x) with
  | SInl => exists d, digits x = [d] /\ hdata a = UInl d /\ L = []
  | SExt => exists p, hdata a = UExt p /\ L = [(b, p, digits x)]
  end.
Notation repr := (reprb true).

Definition rres (r : result hapint) (s : result apint) (L : list cell) : Prop :=
  match r, s with
  | Ok a, Ok x => repr a x L
  | Err e, Err e' => e = e' /\ L = []
  | _, _ => False
  end.
Definition rmut {R : Type} (r : hapint * R) (s : apint * R) (L : list cell) : Prop := snd r = snd s /\ repr (fst r) (fst s) L.

Lemma repr_eta b a x L : reprb b a x L -> mk_apint (hlen a) (digits x) = x.
Proof. intros (E & _). destruct x. cbn in *. congruence. Qed.

Lemma storage_digits w : 0 < w -> match storage w with SInl => required_digits w = 1%nat | SExt => (2 <= required_digits w)%nat end.
Proof.
  intros H. unfold storage. destruct (Z.leb_spec w 64).
  - apply required_digits_1; lia.
  - unfold required_digits. assert (1 <= (w - 1) / 64) by (apply Z.div_le_lower_bound; lia). lia.
Qed.

Lemma ref_slice b a x L : reprb b a x L ->
  refines (h_as_digit_slice a) L (Val (digits x)) (fun r ds L' => r = ds /\ L' = L).
Proof.
  intros (E & H0 & H1 & H2). unfold h_as_digit_slice, h_len_digits. rewrite E. destruct (storage (len x)).
  - destruct H2 as (d & -> & Ed & ->). unfold h_read_inl. rewrite Ed. apply (ref_ret [d]). auto.
  - destruct H2 as (p & Ep & ->). unfold h_read_ext. rewrite Ep.
    exact (ref_load b p (digits x) (required_digits (len x)) [] H1).
Qed.

Lemma ref_write a x L ds : repr a x L -> length ds = length (digits x) ->
  refines (h_write_digits a ds) L (Val (mk_apint (len x) ds)) (fun a' x' L' => repr a' x' L').
Proof.
  intros (E & H0 & H1 & H2) Hl. unfold h_write_digits, h_len_digits. rewrite E.
  pose proof (storage_digits (len x) H0) as SD. destruct (storage (len x)) eqn:St.
  - destruct H2 as (d & Ed & Ea & ->). unfold h_read_inl. rewrite Ea. destruct ds as [|d' [|? ?]]; cbn in Hl; try (rewrite Ed in Hl; cbn in Hl; lia).
    apply (ref_ret _ _ []). unfold reprb. cbn [hlen len digits hdata]. rewrite St. split; [exact eq_refl|]. split; [exact H0|]. split; [cbn; lia|].
    exists d'. auto.
  - destruct H2 as (p & Ep & ->). unfold h_read_ext. rewrite Ep. rewrite <- H1, <- Hl, Nat.eqb_refl.
    change (refines (let* _ := hstore p ds in hret a) [(true, p, digits x)] (Val (mk_apint (len x) ds)) repr).
    eapply ref_step; [exact (ref_store p (digits x) ds [] ltac:(lia))|]. intros _ L' ->. apply ref_ret.
    unfold reprb. cbn [len digits]. rewrite St. split; [exact E|]. split; [exact H0|]. split; [lia|]. exists p. auto.
Qed.

Lemma ref_drop a x L : repr a x L -> refines (h_drop_digits a) L (Val tt) (fun _ _ L' => L' = []).
Proof.
  intros (E & H0 & H1 & H2). unfold h_drop_digits, h_len_digits. rewrite E. destruct (storage (len x)).
  - destruct H2 as (d & _ & _ & ->). apply ref_ret. reflexivity.
  - destruct H2 as (p & Ep & ->). unfold h_read_ext. rewrite Ep. exact (ref_free p (digits x) _ [] H1).
Qed.

Lemma ref_modify {R} (f : apint -> outcome (apint * R)) a x L : repr a x L ->
  (forall y r, f x = Val (y, r) -> len y = len x /\ length (digits y) = length (digits x)) ->
  refines (h_modify f a) L (f x) rmut.
Proof.
  intros Ha Hf. unfold h_modify. apply (ref_step _ _ _ (digits x) _ (fun r ds L' => r = ds /\ L' = L)); [exact (ref_slice true a x L Ha)|].
  intros ds L' [-> ->]. rewrite (repr_eta true a x L Ha).
  destruct (f x) as [[y r]| |] eqn:Ef; [|exact (ref_panic _ _ _)|exact (ref_fuel _ _)].
  destruct (Hf y r eq_refl) as (Hl & Hd).
  change (refines (let* a' := h_write_digits a (digits y) in hret (a', r)) L (Val (y, r)) rmut).
  eapply ref_step; [exact (ref_write a x L (digits y) Ha Hd)|]. intros a' L' Hr. apply ref_ret. split; [reflexivity|].
  cbn [fst]. rewrite <- Hl in Hr. destruct y. exact Hr.
Qed.

Lemma ref_ask {R} (f : apint -> outcome R) b a x L : reprb b a x L ->
  refines (h_ask f a) L (f x) (fun r s L' => r = s /\ L' = L).
Proof.
  intros Ha. unfold h_ask. apply (ref_step _ _ _ (digits x) _ (fun r ds L' => r = ds /\ L' = L)); [exact (ref_slice b a x L Ha)|].
  intros ds L' [-> ->]. rewrite (repr_eta b a x L Ha). apply ref_lift.
Qed.

Lemma repr_inl b w d : 0 < w -> storage w = SInl -> reprb b (mk_hapint w (UInl d)) (mk_apint w [d]) [].
Proof.
  intros H S. pose proof (storage_digits w H) as D. unfold reprb. cbn [hlen hdata len digits]. rewrite S in *. rewrite D.
  split; [reflexivity|]. split; [exact H|]. split; [reflexivity|]. eauto.
Qed.
Lemma repr_ext b w p ds : 0 < w -> storage w = SExt -> length ds = required_digits w ->
  reprb b (mk_hapint w (UExt p)) (mk_apint w ds) [(b, p, ds)].
Proof.
  intros H S E. unfold reprb. cbn [hlen hdata len digits]. rewrite S. eauto 8.
Qed.

Lemma ref_new_inl w d : 0 < w -> refines (h_new_inl w d) [] (new_inl w d) repr.
Proof.
  intros H. unfold h_new_inl, new_inl. destruct (storage w) eqn:S; [|apply ref_panic].
  apply ref_ret. now apply repr_inl.
Qed.

Lemma ref_from_iter ds : refines (h_from_iter ds) [] (from_iter ds) rres.
Proof.
  unfold h_from_iter, from_iter, sv_collect. destruct ds as [|d1 [|d2 ds']].
  - apply (ref_ret (Err ExpectedNonEmptyDigits) _ []). split; reflexivity.
  - apply (ref_ret (Ok (mk_hapint 64 (UInl d1))) _ []). apply repr_inl; [lia|reflexivity].
  - remember (d1 :: d2 :: ds') as ds eqn:Eds. set (k := length ds').
    assert (Ln : length ds = S (S k)) by (rewrite Eds; reflexivity).
    assert (Lb : Nat.leb (length ds) 1 = false) by (rewrite Ln; reflexivity). rewrite Lb.
    set (w := Z.of_nat (S (S k)) * 64).
    assert (Bw : bitwidth_new w = Ok w) by (unfold bitwidth_new; destruct (Z.eqb_spec w 0); [unfold w in *; lia|reflexivity]).
    assert (Rw : required_digits w = length ds).
    { unfold required_digits. rewrite Ln. unfold w. replace (Z.of_nat (S (S k)) * 64 - 1) with (63 + (Z.of_nat (S (S k)) - 1) * 64) by lia.
      rewrite Z.div_add by lia. rewrite (Z.div_small 63 64) by lia. lia. }
    assert (Sw : storage w = SExt) by (unfold storage; destruct (Z.leb_spec w 64); [unfold w in *; lia|reflexivity]).
    assert (W0 : 0 < w) by (unfold w; lia).
    apply (ref_step _ _ _ tt _ (fun v _ L => exists p extra, v = SmallHeap p (length ds + extra) ds /\ L = [(true, p, ds ++ repeat 0 extra)])).
    { eapply ref_step; [apply ref_slack|]. intros extra L' ->. eapply ref_step; [apply ref_malloc; rewrite Eds; discriminate|]. intros p L' ->.
      apply ref_ret. eauto. }
    intros v L (p & extra & -> & ->). rewrite Ln. fold w. rewrite Bw.
    assert (Lx : length (ds ++ repeat 0 extra) = (length ds + extra)%nat) by (rewrite app_length, repeat_length; lia).
    cbn [unwrap bind]. rewrite Rw, <- Ln, Nat.eqb_refl. unfold new_ext. rewrite Sw. cbn [bind].
    change (lift (Val w)) with (hret w). change (hbind (hret w) ?f) with (f w). cbv beta zeta. rewrite Rw.
    apply (ref_step _ _ _ tt _ (fun v _ L => exists p, v = SmallHeap p (length ds) ds /\ L = [(true, p, ds)])).
    + unfold sv_shrink_to_fit. destruct (Nat.ltb_spec (length ds) (length ds + extra)) as [C|C].
      * eapply ref_step; [apply ref_malloc; rewrite Eds; discriminate|]. intros q L' ->. eapply ref_perm; [apply perm_swap|].
        eapply ref_step; [exact (ref_free p _ (length ds + extra) _ Lx)|]. intros _ L' ->. apply ref_ret. eauto.
      * assert (extra = 0%nat) as -> by lia. apply ref_ret. exists p. rewrite Nat.add_0_r. cbn [repeat]. rewrite app_nil_r. auto.
    + intros v L (q & -> & ->). rewrite Nat.eqb_refl. cbn [andb]. unfold h_new_ext. rewrite Sw.
      apply (ref_ret (Ok (mk_hapint w (UExt q)))). cbn [rres]. now apply repr_ext.
Qed.

Lemma clone_id b a x L : reprb b a x L -> clone x = Val x.
Proof.
  intros (_ & H0 & H1 & H2). unfold clone, len_digits. destruct (storage (len x)) eqn:S.
  - destruct H2 as (d & Ed & _). unfold read_inl, new_inl. rewrite Ed, S. cbn [bind]. rewrite <- Ed. now destruct x.
  - unfold as_digit_slice, new_ext. rewrite H1, Nat.eqb_refl, S. now destruct x.
Qed.

Lemma ref_clone b a x L : reprb b a x L ->
  refines (h_clone a) L (Val x) (fun c y L' => exists Lc, L' = Lc ++ L /\ repr c y Lc).
Proof.
  intros Ha. pose proof Ha as (E & H0 & H1 & H2). unfold h_clone, h_len_digits. rewrite E.
  destruct (storage (len x)) eqn:S.
  - destruct H2 as (d & Ed & Ea & ->). unfold h_read_inl. rewrite Ea. unfold h_new_inl. rewrite S.
    apply (ref_ret (mk_hapint (len x) (UInl d)) x []). exists []. split; [reflexivity|].
    replace x with (mk_apint (len x) [d]) at 2 by (rewrite <- Ed; now destruct x). now apply repr_inl.
  - eapply ref_step; [exact (ref_slice b a x L Ha)|]. intros ds L' [-> ->].
    assert (Hd : digits x <> []) by (intros K; rewrite K in H1; unfold required_digits in H1; cbn in H1; pose proof (Z.div_pos (len x - 1) 64); lia).
    eapply ref_step; [apply (ref_malloc _ _ Hd)|]. intros p L' ->. rewrite H1, Nat.eqb_refl. unfold h_new_ext. rewrite S. apply ref_ret.
    exists [(true, p, digits x)]. split; [reflexivity|].
    replace x with (mk_apint (len x) (digits x)) at 2 by (now destruct x). now apply repr_ext.
Qed.

(** The target may change its storage class. *)
Lemma ref_assign a x La g b y Lb : repr a x La -> reprb g b y Lb ->
  refines (h_assign a b) (La ++ Lb) (assign x y) (fun c z L' => exists Lc, L' = Lc ++ Lb /\ repr c z Lc).
Proof.
  intros Ha Hb. pose proof Ha as (E & H0 & H1 & H2). pose proof Hb as (E' & H0' & H1' & H2').
  unfold h_assign, assign, h_len_digits, len_digits. rewrite E, E'.
  destruct (Nat.eqb_spec (required_digits (len x)) (required_digits (len y))) as [D|D].
  - apply (ref_step _ _ _ (digits x) _ (fun r ds L' => r = ds /\ L' = La ++ Lb)).
    { eapply ref_conseq; [apply ref_frame, (ref_slice true a x La Ha)|]. intros r ds L' (L'' & -> & -> & ->). eauto. }
    intros ds L' [-> ->].
    apply (ref_step _ _ _ (digits y) _ (fun r ds L' => r = ds /\ L' = Lb ++ La)).
    { eapply ref_perm; [apply Permutation_app_comm|].
      eapply ref_conseq; [apply ref_frame, (ref_slice g b y Lb Hb)|]. intros r ds L' (L'' & -> & -> & ->). eauto. }
    intros ds L' [-> ->]. unfold as_digit_slice, copy_from_slice.
    rewrite H1, H1', D, Nat.eqb_refl. cbn [bind]. change (hbind (lift (Val ?v)) ?f) with (f v). cbv beta.
    apply (ref_step _ _ _ (mk_apint (len x) (digits y)) _ (fun a' x' L' => exists L'', L' = L'' ++ Lb /\ repr a' x' L'')).
    { eapply ref_perm; [apply Permutation_app_comm|].
      eapply ref_conseq; [apply ref_frame, (ref_write a x La (digits y) Ha ltac:(lia))|].
      intros a' x' L' (L'' & -> & Hr). eauto. }
    intros a' L' (L'' & -> & Hr). apply ref_ret. exists L''. split; [reflexivity|].
    destruct Hr as (_ & _ & _ & R4). cbn [len digits] in R4. unfold reprb. cbn [hlen hdata len digits].
    split; [reflexivity|]. split; [exact H0'|]. split; [exact H1'|].
    assert (S : storage (len x) = storage (len y)).
    { pose proof (storage_digits (len x) H0) as S1. pose proof (storage_digits (len y) H0') as S2.
      destruct (storage (len x)), (storage (len y)); auto; lia. }
    rewrite <- S. exact R4.
  - apply (ref_step _ _ _ tt _ (fun _ _ L' => L' = Lb)).
    { eapply ref_conseq; [apply ref_frame, (ref_drop a x La Ha)|]. intros r ds L' (L'' & -> & ->). eauto. }
    intros _ L' ->. destruct (storage (len y)) eqn:S.
    + destruct H2' as (d & Ed & Eb & ->). unfold h_read_inl. rewrite Eb. unfold read_inl. rewrite Ed. cbn [bind].
      apply (ref_ret _ _ []). exists []. split; [reflexivity|]. now apply repr_inl.
    + rewrite (clone_id g b y Lb Hb). cbn [bind].
      eapply ref_step; [exact (ref_clone g b y Lb Hb)|]. intros c L' (Lc & -> & Hr). pose proof Hr as (R1 & R2 & R3 & R4).
      rewrite S in R4. destruct R4 as (p & Ep & ->). unfold h_read_ext. rewrite Ep. apply (ref_ret _ _ ([(true, p, digits y)] ++ Lb)).
      exists [(true, p, digits y)]. split; [reflexivity|]. now apply repr_ext.
Qed.
