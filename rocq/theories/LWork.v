(** How many digits are read, written and allocated: the rules. *)
From Verif Require Export SpecWork LWatchMul3.
From Coq Require Import Lia ZArith List Bool.
Import ListNotations.
Open Scope Z_scope.

Lemma read_app x y : digits_read (x ++ y) = digits_read x + digits_read y.
Proof. induction x as [|[] x IH]; cbn [app digits_read]; lia. Qed.
Lemma written_app x y : digits_written (x ++ y) = digits_written x + digits_written y.
Proof. induction x as [|[] x IH]; cbn [app digits_written]; lia. Qed.
Lemma allocated_app x y : digits_allocated (x ++ y) = digits_allocated x + digits_allocated y.
Proof. induction x as [|[] x IH]; cbn [app digits_allocated]; lia. Qed.
Lemma work_app x y r w k r' w' k' : work x r w k -> work y r' w' k' -> work (x ++ y) (r + r') (w + w') (k + k').
Proof. intros (A & B & C) (A' & B' & C'). unfold work. rewrite read_app, written_app, allocated_app. lia. Qed.
Lemma work_is x r w k r' w' k' : work x r w k -> r = r' -> w = w' -> k = k' -> work x r' w' k'.
Proof. now intros H -> -> ->. Qed.
Lemma work_nil : work [] 0 0 0. Proof. now repeat split. Qed.
Lemma work_reads p lo n : work (reads p lo n) (Z.of_nat n) 0 0.
Proof.
  unfold reads. revert lo. induction n as [|n IH]; intros lo; [exact work_nil|]. cbn [seq map]. destruct (IH (S lo)) as (A & B & C).
  unfold work. cbn [digits_read digits_written digits_allocated]. lia.
Qed.
Lemma work_writes p lo n : work (writes p lo n) 0 (Z.of_nat n) 0.
Proof.
  unfold writes. revert lo. induction n as [|n IH]; intros lo; [exact work_nil|]. cbn [seq map]. destruct (IH (S lo)) as (A & B & C).
  unfold work. cbn [digits_read digits_written digits_allocated]. lia.
Qed.
Lemma work_pairs (p q : place) (f : nat -> nat) n : forall lo, work (flat_map (fun i => [Read p i; Write q (f i)]) (seq lo n)) (Z.of_nat n) (Z.of_nat n) 0.
Proof.
  induction n as [|n IH]; intros lo; [exact work_nil|]. cbn [seq flat_map app]. destruct (IH (S lo)) as (A & B & C).
  unfold work. cbn [digits_read digits_written digits_allocated]. lia.
Qed.
Lemma work_copies p q n : work (copies p q n) (Z.of_nat n) (Z.of_nat n) 0.
Proof. exact (work_pairs p q (fun i => i) n 0). Qed.
Lemma work_rev x r w k : work x r w k -> work (rev x) r w k.
Proof.
  assert (forall x, digits_read (rev x) = digits_read x /\ digits_written (rev x) = digits_written x /\ digits_allocated (rev x) = digits_allocated x) as H.
  { clear. induction x as [|e x (A & B & C)]; [now repeat split|]. cbn [rev]. rewrite read_app, written_app, allocated_app, A, B, C.
    destruct e; cbn [digits_read digits_written digits_allocated]; lia. }
  unfold work. destruct (H x) as (-> & -> & ->). tauto.
Qed.

(** If the call returns, this much work was done and the result is like this. *)
Definition yields {A} (m : watched A) (r w k : Z) (P : A -> Prop) : Prop := forall v, snd m = Val v -> P v /\ work (fst m) r w k.

Lemma y_is {A} (m : watched A) r w k r' w' k' P : yields m r w k P -> r = r' -> w = w' -> k = k' -> yields m r' w' k' P.
Proof. now intros H -> -> ->. Qed.
Lemma y_weak {A} (m : watched A) r w k (P Q : A -> Prop) : yields m r w k P -> (forall v, P v -> Q v) -> yields m r w k Q.
Proof. intros H W v E. destruct (H v E). auto. Qed.
Lemma y_bind {A C} (m : watched A) (f : A -> watched C) r w k r' w' k' P Q :
  yields m r w k P -> (forall a, P a -> yields (f a) r' w' k' Q) -> yields (wbind m f) (r + r') (w + w') (k + k') Q.
Proof.
  intros H F v. unfold wbind. destruct (snd m) as [a| |] eqn:E; cbn [snd fst]; try discriminate. intros V. destruct (H a E) as [Pa Wa].
  destruct (F a Pa v V) as [Qv Wv]. split; [exact Qv|]. now apply work_app.
Qed.
Lemma y_val {A} (a : A) : yields (wval a) 0 0 0 (fun v => v = a).
Proof. intros v E. cbn in E. injection E as <-. split; [reflexivity|exact work_nil]. Qed.
Lemma y_lift {A} (o : outcome A) : yields (wlift o) 0 0 0 (fun v => o = Val v).
Proof. intros v E. cbn in E. split; [exact E|exact work_nil]. Qed.
Lemma y_branch b : yields (branch b) 0 0 0 (fun v => v = b).
Proof. intros v E. cbn in E. injection E as <-. split; [reflexivity|]. now repeat split. Qed.
Lemma y_see es r w k : work es r w k -> yields (see es) r w k (fun _ => True).
Proof. intros W v _. now split. Qed.
Lemma y_see_now es : yields (see es) (digits_read es) (digits_written es) (digits_allocated es) (fun _ => True).
Proof. apply y_see. now repeat split. Qed.
Lemma y_idx p ds i : yields (w_idx p ds i) 1 0 0 (fun v => idx ds i = Val v).
Proof. intros v E. split; [exact E|]. now repeat split. Qed.
Lemma y_upd p ds i x : yields (w_upd p ds i x) 0 1 0 (fun l => List.length l = List.length ds).
Proof.
  intros v E. split; [|now repeat split]. cbn in E. unfold upd in E. destruct (Nat.ltb_spec i (List.length ds)); [|discriminate]. injection E as <-.
  pose proof (updl_length ds i x H) as U. exact U.
Qed.
(** A loop; [R i], [W i] and [K i] add up what is done before round [i]. *)
Lemma y_for {S} n lo (body : nat -> S -> watched S) (R W K : nat -> Z) (I : S -> Prop) :
  (forall i s, (lo <= i < lo + n)%nat -> I s -> yields (body i s) (R (Datatypes.S i) - R i) (W (Datatypes.S i) - W i) (K (Datatypes.S i) - K i) I) ->
  forall s, I s -> yields (w_for_range n lo body s) (R (lo + n)%nat - R lo) (W (lo + n)%nat - W lo) (K (lo + n)%nat - K lo) I.
Proof.
  revert lo. induction n as [|n IH]; intros lo B s Is; cbn [w_for_range].
  - rewrite Nat.add_0_r. eapply y_is; [eapply y_weak; [apply y_val|intros v ->; exact Is]| | |]; lia.
  - eapply y_is; [eapply y_bind; [apply B; [lia|exact Is]|]| | |].
    + intros s' Is'. apply (IH (Datatypes.S lo)); [|exact Is']. intros i s2 Hi. apply B. lia.
    + replace (Datatypes.S lo + n)%nat with (lo + Datatypes.S n)%nat by lia. lia.
    + replace (Datatypes.S lo + n)%nat with (lo + Datatypes.S n)%nat by lia. lia.
    + replace (Datatypes.S lo + n)%nat with (lo + Datatypes.S n)%nat by lia. lia.
Qed.
Lemma y_times {S} n lo (body : nat -> S -> watched S) r w k (I : S -> Prop) :
  (forall i s, (lo <= i < lo + n)%nat -> I s -> yields (body i s) r w k I) ->
  forall s, I s -> yields (w_for_range n lo body s) (Z.of_nat n * r) (Z.of_nat n * w) (Z.of_nat n * k) I.
Proof.
  intros B s Is. eapply y_is; [apply (y_for n lo body (fun i => Z.of_nat i * r) (fun i => Z.of_nat i * w) (fun i => Z.of_nat i * k) I); [|exact Is]| | |].
  - intros i s2 Hi J. eapply y_is; [now apply B| | |]; lia.
  - lia.
  - lia.
  - lia.
Qed.

Ltac evald := cbn [digits_read digits_written digits_allocated app fst snd].
(** One step of a call. *)
Ltac ystep :=
  lazymatch goal with
  | |- yields (wbind (see _) _) _ _ _ _ => eapply y_bind; [eapply y_is; [apply y_see_now|evald; reflexivity..]|intros _ _]
  | |- yields (wbind (wlift _) _) _ _ _ _ => eapply y_bind; [apply y_lift|let H := fresh "H" in intros ? H; cbv beta in H]
  | |- yields (wbind (wval _) _) _ _ _ _ => eapply y_bind; [apply y_val|intros ? ->]
  | |- yields (wbind (branch _) _) _ _ _ _ => eapply y_bind; [apply y_branch|intros ? ->]
  | |- yields (wbind (w_idx _ _ _) _) _ _ _ _ => eapply y_bind; [apply y_idx|let H := fresh "H" in intros ? H; cbv beta in H]
  | |- yields (wbind (w_upd _ _ _ _) _) _ _ _ _ => eapply y_bind; [apply y_upd|let H := fresh "H" in intros ? H; cbv beta in H]
  | |- yields (wval _) _ _ _ _ => eapply y_weak; [apply y_val|intros ? ->]
  | |- yields (wlift _) _ _ _ _ => eapply y_weak; [apply y_lift|let H := fresh "H" in intros ? H; cbv beta in H]
  | |- yields (w_upd _ _ _ _) _ _ _ _ => eapply y_weak; [apply y_upd|let H := fresh "H" in intros ? H; cbv beta in H]
  | |- yields (w_idx _ _ _) _ _ _ _ => eapply y_weak; [apply y_idx|let H := fresh "H" in intros ? H; cbv beta in H]
  end.

(** * Sizes *)
Definition Nd (a : apint) : Z := digit_count (len a).
Definition Xd (a : apint) : Z := partly_used (len a).
Lemma many_digits a : wf a -> Z.of_nat (List.length (digits a)) = Nd a.
Proof. intros (_ & H & _). exact H. Qed.
Lemma one_digit a : wf a -> len a <= 64 -> Nd a = 1.
Proof. intros W L. destruct (small_storage a W L) as (d & _ & E). rewrite <- (many_digits a W), E. reflexivity. Qed.
Lemma more_digits a : wf a -> 64 < len a -> 2 <= Nd a.
Proof. intros _ L. unfold Nd, digit_count. apply Z.div_le_lower_bound; lia. Qed.
Lemma excess_some a : 0 < len a -> match excess_bits (width a) with Some _ => Xd a = 1 | None => Xd a = 0 end.
Proof.
  intros L. unfold excess_bits, Xd, partly_used, width. destruct (Z.eqb_spec (len a mod 64) 0); reflexivity.
Qed.
