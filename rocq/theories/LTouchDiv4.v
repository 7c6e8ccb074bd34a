(** What a division accesses is all that matters to it: the calls. *)
From Verif Require Export LTouchDiv3 LTouch5 SpecTouchDiv.
From Coq Require Import Lia ZArith.

(** * Unsigned division *)
Lemma dep_zip_both {A} s o o' b b' a a' c c' (Q : A -> A -> Prop) k k' : held s Self o o' a a' -> held s Other b b' c c' ->
  (forall e, dep s Q (k (Err e)) (k' (Err e))) ->
  (forall l r, List.length (digits o) = 1%nat -> List.length (digits b) = 1%nat -> dep s Q (k (Ok (ZInl l r))) (k' (Ok (ZInl l r)))) ->
  (len a = len c -> dep s Q (k (Ok (ZExt (digits a) (digits c)))) (k' (Ok (ZExt (digits a') (digits c'))))) ->
  dep s Q (wbind (w_zip_access_data a c) k) (wbind (w_zip_access_data a' c') k').
Proof.
  intros H H2 K0 K1 K2. pose proof H2 as (_ & _ & K).
  assert (forall l r, snd (w_zip_access_data a c) = Val (Ok (ZInl l r)) -> List.length (digits b) = 1%nat) as B.
  { intros l r E. destruct (lists_length _ _ _ _ _ _ K) as [_ M]. rewrite <- M. revert E. unfold w_zip_access_data, zip_access_data, branch, wbind, see, wlift, wval. cbn [fst snd]. destruct (width a =? width c); cbn [negb]; [|discriminate]. destruct (storage (len a)); cbn [fst snd]; [|discriminate].
    unfold read_inl. destruct (digits a) as [|x [|? ?]]; cbn; try discriminate. destruct (digits c) as [|y [|? ?]]; cbn; try discriminate. reflexivity. }
  apply (dep_bind s (fun x y => (exists e, x = Err e /\ y = Err e) \/ (exists l r, x = Ok (ZInl l r) /\ y = Ok (ZInl l r) /\ List.length (digits o) = 1%nat /\ List.length (digits b) = 1%nat) \/ (x = Ok (ZExt (digits a) (digits c)) /\ y = Ok (ZExt (digits a') (digits c')) /\ len a = len c))).
  2:{ intros ? ? [(e & -> & ->)|[(l & r & -> & -> & E & E2)|(-> & -> & E)]]; [apply K0|now apply K1|now apply K2]. }
  assert (dep s (fun x y => (exists e, x = Err e /\ y = Err e) \/ (exists l r, x = Ok (ZInl l r) /\ y = Ok (ZInl l r) /\ List.length (digits o) = 1%nat) \/ (x = Ok (ZExt (digits a) (digits c)) /\ y = Ok (ZExt (digits a') (digits c')) /\ len a = len c)) (w_zip_access_data a c) (w_zip_access_data a' c')) as D.
  { assert (forall V (m : watched V), wbind m wval = m) as Bv. { intros V [es [v| |]]; unfold wbind, wval; cbn; rewrite ?app_nil_r; reflexivity. } rewrite <- (Bv _ (w_zip_access_data a c)), <- (Bv _ (w_zip_access_data a' c')). apply (dep_zip s o o' b b' a a' c c' _ _ _ H H2).
    - intros e. apply dep_val. left. eauto.
    - intros l r E. apply dep_val. right. left. exists l, r. auto.
    - intros E _. apply dep_val. right. right. auto. }
  intros W. destruct (D W) as (E1 & O & R). split; [exact E1|]. split; [|exact R]. revert O. destruct (snd (w_zip_access_data a c)) as [x| |] eqn:X, (snd (w_zip_access_data a' c')) as [y| |]; cbn; auto. intros [L|[(l & r & -> & -> & E)|L]]; [now left| |now right; right]. right. left. exists l, r. repeat (split; [auto|]). now apply (B l r).
Qed.
Lemma dep_by_zero s op o o' a a' : free s New -> held s Self o o' a a' -> dep s eq (w_division_by_zero op a) (w_division_by_zero op a').
Proof. intros F H. unfold w_division_by_zero. apply (dep_bind _ _ _ _ _ _ _ (dep_clone s Self o o' a a' F H)). intros ? ? [[<- _] _]. now apply dep_val. Qed.
Definition both (s : scope) (o o' v v' : apint) (x y : apint * apint * result unit) : Prop := held s Self o o' (fst (fst x)) (fst (fst y)) /\ held s Other v v' (snd (fst x)) (snd (fst y)) /\ snd x = snd y.
Lemma lengths_equal s o o' v v' a a' b b' : held s Self o o' a a' -> held s Other v v' b b' -> (len a = len b -> List.length (digits a) = List.length (digits b)) -> len a = len b -> List.length (digits v) = List.length (digits o).
Proof. intros (_ & _ & H) (_ & _ & K) E L. destruct (lists_length _ _ _ _ _ _ H), (lists_length _ _ _ _ _ _ K). specialize (E L). lia. Qed.
Ltac scoped := first [assumption|exact I].
Lemma dep_udivrem s o o' v v' a a' b b' : open s Self -> open s Other -> free s New -> free s Sub -> free s Quo -> held s Self o o' a a' -> held s Other v v' b b' -> (len a = len b -> List.length (digits a) = List.length (digits b)) ->
  dep s (both s o o' v v') (w_wrapping_udivrem_assign a b) (w_wrapping_udivrem_assign a' b').
Proof.
  intros P1 P2 F F1 F2 H1 H2 E. unfold w_wrapping_udivrem_assign. apply (dep_zip_both s o o' v v' a a' b b' _ _ _ H1 H2).
  - intros e. apply dep_val. now split.
  - intros l r L1 L2. go. go; [|apply dep_eq; [now apply dep_by_zero with (2 := H1)|intros; apply dep_val; now split]]. repeat go. seen. split; [roomy; (split; [|assumption]); [now apply (held_room _ _ _ _ _ _ _ H1); lia|apply (held_room _ _ _ _ _ _ _ H2); lia]|]. apply dep_val. split; [now apply held_inl|]. split; [now apply held_inl|reflexivity].
  - intros L. pose proof (lengths_equal _ _ _ _ _ _ _ _ _ H1 H2 E L) as LV. pose proof H1 as (_ & _ & K1). pose proof H2 as (_ & _ & K2). apply (dep_bind _ _ _ _ _ _ _ (dep_divrem s Other _ _ _ _ _ _ _ _ P1 P2 F1 F2 LV K1 K2)). intros ? ? ?. pairs. go.
    pose proof (held_ext _ _ _ _ _ _ _ _ H1 H) as X1. go.
    + apply dep_val. split; [exact X1|]. split; [now apply held_ext|reflexivity].
    + apply dep_eq; [now apply dep_by_zero with (2 := X1)|]. intros. apply dep_val. split; [exact X1|]. split; [now apply held_ext|reflexivity].
Qed.
Lemma dep_uremdiv s o o' v v' a a' b b' : open s Self -> open s Other -> free s New -> free s Sub -> free s Quo -> held s Self o o' a a' -> held s Other v v' b b' -> (len a = len b -> List.length (digits a) = List.length (digits b)) ->
  dep s (both s o o' v v') (w_wrapping_uremdiv_assign a b) (w_wrapping_uremdiv_assign a' b').
Proof.
  intros P1 P2 F F1 F2 H1 H2 E. unfold w_wrapping_uremdiv_assign. apply (dep_zip_both s o o' v v' a a' b b' _ _ _ H1 H2).
  - intros e. apply dep_val. now split.
  - intros l r L1 L2. go. go; [|apply dep_eq; [now apply dep_by_zero with (2 := H1)|intros; apply dep_val; now split]]. repeat go. seen. split; [roomy; (split; [|assumption]); [now apply (held_room _ _ _ _ _ _ _ H1); lia|apply (held_room _ _ _ _ _ _ _ H2); lia]|]. apply dep_val. split; [now apply held_inl|]. split; [now apply held_inl|reflexivity].
  - intros L. pose proof (lengths_equal _ _ _ _ _ _ _ _ _ H1 H2 E L) as LV. pose proof H1 as (_ & _ & K1). pose proof H2 as (_ & _ & K2). apply (dep_bind _ _ _ _ _ _ _ (dep_remdiv s Other _ _ _ _ _ _ _ _ P1 P2 F1 F2 LV K1 K2)). intros ? ? ?. pairs. go.
    pose proof (held_ext _ _ _ _ _ _ _ _ H1 H) as X1. go.
    + apply dep_val. split; [exact X1|]. split; [now apply held_ext|reflexivity].
    + apply dep_eq; [now apply dep_by_zero with (2 := X1)|]. intros. apply dep_val. split; [exact X1|]. split; [now apply held_ext|reflexivity].
Qed.
(** The copy of the divisor: all of it was read and all of the copy written. *)
Lemma copied s v v' xs ys : free s New -> lists s Other v v' xs ys -> within s (copies Other New (List.length xs)) -> ys = xs /\ lists s New v v' xs xs.
Proof.
  intros F H W. rewrite within_copies in W. destruct (lists_len4 _ _ _ _ _ _ H) as (A & B & C). split; [symmetry; apply (lists_equal _ _ _ _ _ _ H); intros; apply W; lia|]. apply lists_fresh; [lia|lia|]. intros i I. split; [apply W; lia|apply F].
Qed.
Lemma dep_udiv s o o' v v' a a' b b' : open s Self -> free s New -> free s Sub -> free s Quo -> held s Self o o' a a' -> held s Other v v' b b' -> (len a = len b -> List.length (digits a) = List.length (digits b)) ->
  dep s (paired s o o') (w_wrapping_udiv_assign a b) (w_wrapping_udiv_assign a' b').
Proof.
  intros P1 F F1 F2 H1 H2 E. unfold w_wrapping_udiv_assign. apply (dep_zip_both s o o' v v' a a' b b' _ _ _ H1 H2).
  - intros e. apply dep_val. now split.
  - intros l r L1 L2. go. go; [|apply dep_eq; [now apply dep_by_zero with (2 := H1)|intros; apply dep_val; now split]]. repeat go. seen. split; [roomy; split; [apply (held_room _ _ _ _ _ _ _ H1); lia|assumption]|]. apply dep_val. split; [now apply held_inl|reflexivity].
  - intros L. pose proof (lengths_equal _ _ _ _ _ _ _ _ _ H1 H2 E L) as LV. pose proof H1 as (_ & _ & K1). pose proof H2 as (_ & _ & K2). destruct (lists_length _ _ _ _ _ _ K2) as [M M2]. rewrite <- M. apply dep_see. intros W. unfold within in W. apply Forall_cons_iff in W as [_ W]. destruct (copied _ _ _ _ _ F K2 W) as [-> K3].
    split; [apply Forall_cons; [exact I|]; apply roomy_copies; [apply F|]; intros i Hi; split; [apply (lists_room _ _ _ _ _ _ _ K2); lia|apply F]|].
    apply (dep_bind _ _ _ _ _ _ _ (dep_divrem s New _ _ _ _ _ _ _ _ P1 (proj1 F) F1 F2 LV K1 K3)). intros ? ? ?. pairs. go.
    pose proof (held_ext _ _ _ _ _ _ _ _ H1 H) as X1. go.
    + apply dep_val. now split.
    + apply dep_eq; [now apply dep_by_zero with (2 := X1)|]. intros. apply dep_val. now split.
Qed.
Lemma dep_urem s o o' v v' a a' b b' : open s Self -> free s New -> free s Sub -> free s Quo -> held s Self o o' a a' -> held s Other v v' b b' -> (len a = len b -> List.length (digits a) = List.length (digits b)) ->
  dep s (paired s o o') (w_wrapping_urem_assign a b) (w_wrapping_urem_assign a' b').
Proof.
  intros P1 F F1 F2 H1 H2 E. unfold w_wrapping_urem_assign. apply (dep_zip_both s o o' v v' a a' b b' _ _ _ H1 H2).
  - intros e. apply dep_val. now split.
  - intros l r L1 L2. go. go; [|apply dep_eq; [now apply dep_by_zero with (2 := H1)|intros; apply dep_val; now split]]. repeat go. seen. split; [roomy; split; [apply (held_room _ _ _ _ _ _ _ H1); lia|assumption]|]. apply dep_val. split; [now apply held_inl|reflexivity].
  - intros L. pose proof (lengths_equal _ _ _ _ _ _ _ _ _ H1 H2 E L) as LV. pose proof H1 as (_ & _ & K1). pose proof H2 as (_ & _ & K2). destruct (lists_length _ _ _ _ _ _ K2) as [M M2]. rewrite <- M. apply dep_see. intros W. unfold within in W. apply Forall_cons_iff in W as [_ W]. destruct (copied _ _ _ _ _ F K2 W) as [-> K3].
    split; [apply Forall_cons; [exact I|]; apply roomy_copies; [apply F|]; intros i Hi; split; [apply (lists_room _ _ _ _ _ _ _ K2); lia|apply F]|].
    apply (dep_bind _ _ _ _ _ _ _ (dep_remdiv s New _ _ _ _ _ _ _ _ P1 (proj1 F) F1 F2 LV K1 K3)). intros ? ? ?. pairs. go.
    pose proof (held_ext _ _ _ _ _ _ _ _ H1 H) as X1. go.
    + apply dep_val. now split.
    + apply dep_eq; [now apply dep_by_zero with (2 := X1)|]. intros. apply dep_val. now split.
Qed.
