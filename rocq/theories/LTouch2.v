(** What a call accesses is all that matters to it: arithmetic, bitwise, comparisons. *)
From Verif Require Export LTouch.
From Coq Require Import Lia ZArith.

Definition paired (s : scope) (o o' : apint) (x y : apint * result unit) : Prop := held s Self o o' (fst x) (fst y) /\ snd x = snd y.

(** * Loops over digits *)
Ltac cut H := inversion H as [|? ? ? ? ? ? ? ? ? ? HC HT]; subst.
Lemma cell_room s p i o o' x y : cell s p i o o' x y -> room s p i. Proof. now intros (R & _). Qed.
Lemma cell_eq s p i o o' x y : cell s p i o o' x y -> rd s p i -> x = y. Proof. intros (R & [V|[V _]] & _) W; [exact V|contradiction]. Qed.
Lemma cell_new s p i o o' x y v : cell s p i o o' x y -> wr s p i -> cell s p i o o' v v.
Proof. intros (R & _) W. split; [exact R|]. split; [now left|contradiction]. Qed.
Lemma cells_lift s p i is o o' x y a a' (m m' : watched (list Z)) v : cell s p i a a' x y -> wr s p i -> dep s (cells s p is o o') m m' ->
  dep s (cells s p (i :: is) (a :: o) (a' :: o')) (let& r := m in wval (v :: r)) (let& r := m' in wval (v :: r)).
Proof. intros C W H. apply (dep_bind s _ _ _ _ _ _ H). intros. apply dep_val. constructor; [|assumption]. now apply cell_new with (1 := C). Qed.

Lemma dep_map s f (P : open s Self) : forall n i o o' xs ys, cells s Self (seq i n) o o' xs ys -> dep s (cells s Self (seq i n) o o') (w_map f i xs) (w_map f i ys).
Proof.
  induction n as [|n IH]; intros i o o' xs ys H; cut H; cbn [w_map seq]; [now apply dep_val|].
  seen. split; [roomy; [now apply cell_room in HC|split; [now apply cell_room in HC|exact P]]|]. rewrite (cell_eq _ _ _ _ _ _ _ HC SV). apply cells_lift with (1 := HC); [exact SV0|now apply IH].
Qed.
Lemma dep_modify_digits s f o o' a a' : open s Self -> held s Self o o' a a' -> dep s (held s Self o o') (w_modify_digits f a) (w_modify_digits f a').
Proof.
  intros P H. unfold w_modify_digits. apply (dep_access s Self o o' a a' _ _ _ H).
  - intros d E. seen. split; [roomy; split; [apply (held_room _ _ _ _ _ _ _ H); lia|exact P]|]. apply dep_val. now apply held_inl.
  - intros L. apply (dep_bind s _ _ _ _ _ _ (dep_map s f P _ _ _ _ _ _ L)). intros. apply dep_val. now apply held_ext.
Qed.
Lemma dep_zip_update s f (P : open s Self) : forall n i o o' b b' xs ys us vs, cells s Self (seq i n) o o' xs ys -> cells s Other (seq i n) b b' us vs ->
  dep s (cells s Self (seq i n) o o') (w_zip_update f i xs us) (w_zip_update f i ys vs).
Proof.
  induction n as [|n IH]; intros i o o' b b' xs ys us vs H H2; cut H; inversion H2 as [|? ? ? ? ? ? ? ? ? ? HC2 HT2]; subst; cbn [w_zip_update seq]; [now apply dep_val|].
  seen. split; [roomy; [now apply cell_room in HC|now apply cell_room in HC2|split; [now apply cell_room in HC|exact P]]|]. rewrite (cell_eq _ _ _ _ _ _ _ HC SV), (cell_eq _ _ _ _ _ _ _ HC2 SV0). apply cells_lift with (1 := HC); [exact SV1|]. now apply IH with (2 := HT2).
Qed.
Lemma dep_modify_zipped s f o o' b b' a a' c c' : open s Self -> held s Self o o' a a' -> held s Other b b' c c' -> (len a = len c -> List.length (digits o) = List.length (digits b)) ->
  dep s (paired s o o') (w_modify_zipped_digits f a c) (w_modify_zipped_digits f a' c').
Proof.
  intros P H H2 E. unfold w_modify_zipped_digits. apply (dep_zip s o o' b b' a a' c c' _ _ _ H H2).
  - intros e. apply dep_val. now split.
  - intros l r E1. seen. split; [roomy; split; [apply (held_room _ _ _ _ _ _ _ H); lia|exact P]|]. apply dep_val. split; [now apply held_inl|reflexivity].
  - intros W _. destruct H as (L & N & H). destruct H2 as (L2 & N2 & H2). unfold lists in H2. rewrite <- (E W) in H2. apply (dep_bind s _ _ _ _ _ _ (dep_zip_update s f P _ _ _ _ _ _ _ _ _ _ H H2)). intros. apply dep_val. split; [|reflexivity]. cbn [fst]. split; [exact L|]. split; [exact N|assumption].
Qed.
Lemma last_seq n : forall i, last (seq i (S n)) 0%nat = (i + n)%nat.
Proof. induction n as [|n IH]; intros i; [cbn; lia|]. change (seq i (S (S n))) with (i :: seq (S i) (S n)). change (last (seq (S i) (S n)) 0%nat = (i + S n)%nat). rewrite IH. lia. Qed.
Lemma cells_modify_last s p f is o o' xs ys : cells s p is o o' xs ys -> rd s p (last is 0%nat) ->
  okay (fun u v => wr s p (last is 0%nat) -> cells s p is o o' u v) (modify_last f xs) (modify_last f ys).
Proof.
  induction 1 as [|i is o os o' os' x xs y ys C H IH]; intros R; [reflexivity|]. inversion H as [|i2 is2 ? ? ? ? x2 xs2 y2 ys2 C2 H2]; subst.
  - cbn [modify_last]. cbn in R. rewrite (cell_eq _ _ _ _ _ _ _ C R). destruct (f y); cbn; try reflexivity. intros W. constructor; [now apply cell_new with (1 := C)|constructor].
  - change (last (i :: i2 :: is2) 0%nat) with (last (i2 :: is2) 0%nat) in *. specialize (IH R).
    change (modify_last f (x :: x2 :: xs2)) with (let! r' := modify_last f (x2 :: xs2) in Val (x :: r')). change (modify_last f (y :: y2 :: ys2)) with (let! r' := modify_last f (y2 :: ys2) in Val (y :: r')).
    destruct (modify_last f (x2 :: xs2)), (modify_last f (y2 :: ys2)); cbn in IH |- *; try contradiction; try exact IH. intros W. constructor; auto.
Qed.
Lemma cells_last s p is o o' xs ys : cells s p is o o' xs ys -> rd s p (last is 0%nat) -> last_digit xs = last_digit ys.
Proof.
  induction 1 as [|i is o os o' os' x xs y ys C H IH]; intros R; [reflexivity|]. inversion H as [|i2 is2 ? ? ? ? x2 xs2 y2 ys2 C2 H2]; subst.
  - cbn in R |- *. now rewrite (cell_eq _ _ _ _ _ _ _ C R).
  - exact (IH R).
Qed.
Lemma lists_last s p o o' xs ys : lists s p o o' xs ys -> (0 < List.length o)%nat -> rd s p (List.length xs - 1) -> last_digit xs = last_digit ys.
Proof.
  intros H N R. destruct (lists_length _ _ _ _ _ _ H) as [L L2]. apply (cells_last _ _ _ _ _ _ _ H). destruct (List.length o) as [|n] eqn:E; [lia|]. rewrite last_seq. replace (0 + n)%nat with (List.length xs - 1)%nat by lia. exact R.
Qed.
Lemma dep_msd s o o' a a' : held s Self o o' a a' -> dep s eq (w_most_significant_digit a) (w_most_significant_digit a').
Proof.
  intros H. unfold w_most_significant_digit. apply (dep_access s Self o o' a a' _ _ _ H); [intros; now apply dep_val|].
  intros L. destruct (lists_length _ _ _ _ _ _ L) as [M M2]. rewrite <- M. seen. destruct H as (L0 & N & _). split; [roomy; apply (lists_room _ _ _ _ _ _ _ L); lia|]. rewrite (lists_last _ _ _ _ _ _ L N SV). apply dep_lift, okay_eq.
Qed.
Lemma dep_modify_msd s p f o o' a a' : open s p -> held s p o o' a a' -> dep s (held s p o o') (w_modify_most_significant_digit p f a) (w_modify_most_significant_digit p f a').
Proof.
  intros P H. unfold w_modify_most_significant_digit. apply (dep_access s p o o' a a' _ _ _ H).
  - intros d E. apply dep_lift_eq. intros d'. seen. split; [roomy; split; [apply (held_room _ _ _ _ _ _ _ H); lia|exact P]|]. apply dep_val. now apply held_inl.
  - intros L. destruct (lists_length _ _ _ _ _ _ L) as [M M2]. rewrite <- M. seen. pose proof H as (L0 & N & _). split; [roomy; apply (lists_room _ _ _ _ _ _ _ L); lia|].
    assert (last (seq 0 (List.length (digits o))) 0%nat = (List.length (digits a) - 1)%nat) as LS by (destruct (List.length (digits o)) as [|n] eqn:E; [lia|rewrite last_seq; lia]).
    eapply dep_bind; [apply dep_lift, (cells_modify_last _ _ _ _ _ _ _ _ L); rewrite LS; exact SV|]. intros u v K. cbv beta in K. rewrite LS in K. seen. split; [roomy; split; [apply (lists_room _ _ _ _ _ _ _ L); lia|exact P]|]. apply dep_val. apply held_ext; [exact H|exact (K SV0)].
Qed.
Lemma dep_clear s p o o' a a' : open s p -> held s p o o' a a' -> dep s (held s p o o') (w_clear_unused_bits p a) (w_clear_unused_bits p a').
Proof.
  intros P H. pose proof H as (L & _). unfold w_clear_unused_bits, width. rewrite <- L. destruct (excess_bits (len a)); seen; (split; [roomy|]); [now apply dep_modify_msd|now apply dep_val].
Qed.
Lemma dep_lsd s o o' a a' : held s Self o o' a a' -> dep s eq (w_least_significant_digit a) (w_least_significant_digit a').
Proof. intros H. unfold w_least_significant_digit. apply (dep_access s Self o o' a a' _ _ _ H); [intros; now apply dep_val|]. intros L. apply (dep_idx _ _ _ _ _ _ _ L). Qed.
Lemma dep_msb s o o' a a' : held s Self o o' a a' -> dep s eq (w_msb a) (w_msb a').
Proof. intros H. pose proof H as (L & _). unfold w_msb, width. rewrite <- L. apply dep_eq; [now apply dep_msd with (1 := H)|]. intros d. apply dep_lift_eq. intros r. apply dep_lift, okay_eq. Qed.
Lemma dep_lsb s o o' a a' : held s Self o o' a a' -> dep s eq (w_lsb a) (w_lsb a').
Proof. intros H. apply dep_eq; [now apply dep_lsd with (1 := H)|]. intros. now apply dep_val. Qed.
Lemma dep_all_zero s : forall n i o o' xs ys, cells s Self (seq i n) o o' xs ys -> dep s eq (w_all_zero i xs) (w_all_zero i ys).
Proof.
  induction n as [|n IH]; intros i o o' xs ys H; cut H; cbn [w_all_zero]; [now apply dep_val|]. seen. split; [roomy; now apply cell_room in HC|]. rewrite (cell_eq _ _ _ _ _ _ _ HC SV). apply dep_branch. destruct (d_is_zero y); [now apply IH with (1 := HT)|now apply dep_val].
Qed.
Lemma dep_is_zero s o o' a a' : held s Self o o' a a' -> dep s eq (w_is_zero a) (w_is_zero a').
Proof. intros H. unfold w_is_zero. apply (dep_access s Self o o' a a' _ _ _ H); [intros; now apply dep_val|]. intros L. now apply dep_all_zero with (1 := L). Qed.
Lemma dep_all_read {A} s o o' a a' (f : apint -> A) (X : held s Self o o' a a') : dep s eq (let& _ := see (reads Self 0 (List.length (as_digit_slice a))) in wval (f a)) (let& _ := see (reads Self 0 (List.length (as_digit_slice a'))) in wval (f a')).
Proof.
  destruct X as (L & N & H). destruct (lists_length _ _ _ _ _ _ H) as [M M2]. unfold as_digit_slice. rewrite <- M. apply dep_see. intros W. rewrite within_reads in W. split; [apply roomy_reads; intros; apply (lists_room _ _ _ _ _ _ _ H); lia|].
  apply dep_val. f_equal. destruct a as [la da], a' as [la' da']. cbn in *. subst la'. f_equal. apply (lists_equal _ _ _ _ _ _ H). intros. apply W. lia.
Qed.
Lemma dep_all_read_lift {A} s o o' a a' (f : apint -> outcome A) (X : held s Self o o' a a') : dep s eq (let& _ := see (reads Self 0 (List.length (as_digit_slice a))) in wlift (f a)) (let& _ := see (reads Self 0 (List.length (as_digit_slice a'))) in wlift (f a')).
Proof.
  destruct X as (L & N & H). destruct (lists_length _ _ _ _ _ _ H) as [M M2]. unfold as_digit_slice. rewrite <- M. apply dep_see. intros W. rewrite within_reads in W. split; [apply roomy_reads; intros; apply (lists_room _ _ _ _ _ _ _ H); lia|].
  assert (a = a') as <-; [|apply dep_lift, okay_eq]. destruct a as [la da], a' as [la' da']. cbn in *. subst la'. f_equal. apply (lists_equal _ _ _ _ _ _ H). intros. apply W. lia.
Qed.
Lemma dep_inc_loop s (P : open s Self) : forall n i o o' xs ys, cells s Self (seq i n) o o' xs ys -> dep s (cells s Self (seq i n) o o') (w_inc_loop i xs) (w_inc_loop i ys).
Proof.
  induction n as [|n IH]; intros i o o' xs ys H; cut H; cbn [w_inc_loop seq]; [now apply dep_val|]. seen. split; [roomy; now apply cell_room in HC|]. pose proof (cell_eq _ _ _ _ _ _ _ HC SV). subst. destruct (d_overflowing_add y ONE) as [v c]. apply dep_branch.
  seen. split; [roomy; split; [now apply cell_room in HC|exact P]|]. destruct c; [apply cells_lift with (1 := HC); [exact SV0|now apply IH]|]. apply dep_val. constructor; [now apply cell_new with (1 := HC)|exact HT].
Qed.
Lemma dep_dec_loop s (P : open s Self) : forall n i o o' xs ys, cells s Self (seq i n) o o' xs ys -> dep s (cells s Self (seq i n) o o') (w_dec_loop i xs) (w_dec_loop i ys).
Proof.
  induction n as [|n IH]; intros i o o' xs ys H; cut H; cbn [w_dec_loop seq]; [now apply dep_val|]. seen. split; [roomy; now apply cell_room in HC|]. pose proof (cell_eq _ _ _ _ _ _ _ HC SV). subst. destruct (d_overflowing_sub y ONE) as [v c]. apply dep_branch.
  seen. split; [roomy; split; [now apply cell_room in HC|exact P]|]. destruct c; [apply cells_lift with (1 := HC); [exact SV0|now apply IH]|]. apply dep_val. constructor; [now apply cell_new with (1 := HC)|exact HT].
Qed.
Ltac small H P := intros; seen; (split; [roomy; split; [apply (held_room _ _ _ _ _ _ _ H); lia|exact P]|]); apply dep_val; now apply held_inl.
Lemma dep_inc s o o' a a' : open s Self -> held s Self o o' a a' -> dep s (held s Self o o') (w_wrapping_inc a) (w_wrapping_inc a').
Proof.
  intros P H. unfold w_wrapping_inc. apply (dep_access s Self o o' a a' _ _ _ H).
  - intros d E. apply (dep_bind s (held s Self o o')); [small H P|]. intros. now apply dep_clear.
  - intros L. apply (dep_bind s (held s Self o o')); [|intros; now apply dep_clear]. apply (dep_bind s _ _ _ _ _ _ (dep_inc_loop s P _ _ _ _ _ _ L)). intros. apply dep_val. now apply held_ext.
Qed.
Lemma dep_dec s o o' a a' : open s Self -> held s Self o o' a a' -> dep s (held s Self o o') (w_wrapping_dec a) (w_wrapping_dec a').
Proof.
  intros P H. unfold w_wrapping_dec. apply (dep_access s Self o o' a a' _ _ _ H).
  - intros d E. apply (dep_bind s (held s Self o o')); [small H P|]. intros. now apply dep_clear.
  - intros L. apply (dep_bind s (held s Self o o')); [|intros; now apply dep_clear]. apply (dep_bind s _ _ _ _ _ _ (dep_dec_loop s P _ _ _ _ _ _ L)). intros. apply dep_val. now apply held_ext.
Qed.
Lemma dep_modify_clear s f o o' a a' : open s Self -> held s Self o o' a a' -> dep s (held s Self o o') (let& a := w_modify_digits f a in w_clear_unused_bits Self a) (let& a := w_modify_digits f a' in w_clear_unused_bits Self a).
Proof. intros P H. apply (dep_bind s _ _ _ _ _ _ (dep_modify_digits s f _ _ _ _ P H)). intros. now apply dep_clear. Qed.
Lemma dep_neg s o o' a a' : open s Self -> held s Self o o' a a' -> dep s (held s Self o o') (w_wrapping_neg a) (w_wrapping_neg a').
Proof. intros P H. apply (dep_bind s _ _ _ _ _ _ (dep_modify_clear s d_not _ _ _ _ P H)). intros. now apply dep_inc. Qed.

(** * Addition and subtraction *)
Definition carried (s : scope) (o o' : list Z) (x y : list Z * Z) : Prop := lists s Self o o' (fst x) (fst y) /\ snd x = snd y.
Lemma dep_add_digits s o o' b b' xs ys us vs : open s Self -> lists s Self o o' xs ys -> lists s Other b b' us vs -> dep s (carried s o o') (w_add_digits xs us) (w_add_digits ys vs).
Proof.
  intros P H H2. unfold w_add_digits. apply dep_eq; [apply (dep_idx _ _ _ _ _ _ _ H)|]. intros l. apply dep_eq; [apply (dep_idx _ _ _ _ _ _ _ H2)|]. intros r. destruct (d_carrying_add l r) as [t c].
  apply (dep_bind s _ _ _ _ _ _ (dep_upd _ _ _ _ _ _ _ _ P H)). intros x y K. destruct (lists_length _ _ _ _ _ _ K) as [M _]. rewrite <- M. apply dep_for; [now split|]. intros i [x1 c1] [y1 c2] [K1 K2]. cbn in K1, K2. subst c2. unfold w_add_step.
  apply dep_eq; [apply (dep_idx _ _ _ _ _ _ _ K1)|]. intros l1. apply dep_eq; [apply (dep_idx _ _ _ _ _ _ _ H2)|]. intros r1. apply (dep_bind s _ _ _ _ _ _ (dep_upd _ _ _ _ _ _ _ _ P K1)). intros. apply dep_val. now split.
Qed.
Lemma dep_sub_digits s o o' b b' xs ys us vs : open s Self -> lists s Self o o' xs ys -> lists s Other b b' us vs -> dep s (carried s o o') (w_sub_digits xs us) (w_sub_digits ys vs).
Proof.
  intros P H H2. unfold w_sub_digits. apply dep_eq; [apply (dep_idx _ _ _ _ _ _ _ H)|]. intros l. apply dep_eq; [apply (dep_idx _ _ _ _ _ _ _ H2)|]. intros r.
  apply (dep_bind s _ _ _ _ _ _ (dep_upd _ _ _ _ _ _ _ _ P H)). intros x y K. destruct (lists_length _ _ _ _ _ _ K) as [M _]. rewrite <- M. apply dep_for; [now split|]. intros i [x1 c1] [y1 c2] [K1 K2]. cbn in K1, K2. subst c2. unfold w_sub_step.
  apply dep_eq; [apply (dep_idx _ _ _ _ _ _ _ K1)|]. intros l1. apply dep_eq; [apply (dep_idx _ _ _ _ _ _ _ H2)|]. intros r1. apply (dep_bind s _ _ _ _ _ _ (dep_upd _ _ _ _ _ _ _ _ P K1)). intros. apply dep_val. now split.
Qed.
Lemma dep_clear_ok s o o' a a' : open s Self -> held s Self o o' a a' -> dep s (paired s o o') (let& a2 := w_clear_unused_bits Self a in wval (a2, Ok tt)) (let& a2 := w_clear_unused_bits Self a' in wval (a2, Ok tt)).
Proof. intros P H. apply (dep_bind s _ _ _ _ _ _ (dep_clear _ _ _ _ _ _ P H)). intros. apply dep_val. now split. Qed.
Lemma dep_add s o o' b b' a a' c c' : open s Self -> held s Self o o' a a' -> held s Other b b' c c' -> dep s (paired s o o') (w_wrapping_add_assign a c) (w_wrapping_add_assign a' c').
Proof.
  intros P H H2. unfold w_wrapping_add_assign. apply (dep_zip s o o' b b' a a' c c' _ _ _ H H2).
  - intros e. apply dep_val. now split.
  - intros l r E1. apply (dep_bind s (held s Self o o')); [small H P|]. intros. now apply dep_clear_ok.
  - intros _ _. apply (dep_bind s (held s Self o o')); [|intros; now apply dep_clear_ok]. apply (dep_bind s (carried s (digits o) (digits o'))); [destruct H as (_ & _ & H), H2 as (_ & _ & H2); now apply dep_add_digits with (3 := H2)|]. intros [x ?] [y ?] [K _]. apply dep_val. now apply held_ext.
Qed.
Lemma dep_sub s o o' b b' a a' c c' : open s Self -> held s Self o o' a a' -> held s Other b b' c c' -> dep s (paired s o o') (w_wrapping_sub_assign a c) (w_wrapping_sub_assign a' c').
Proof.
  intros P H H2. unfold w_wrapping_sub_assign. apply (dep_zip s o o' b b' a a' c c' _ _ _ H H2).
  - intros e. apply dep_val. now split.
  - intros l r E1. apply (dep_bind s (held s Self o o')); [small H P|]. intros. now apply dep_clear_ok.
  - intros _ _. apply (dep_bind s (held s Self o o')); [|intros; now apply dep_clear_ok]. apply (dep_bind s (carried s (digits o) (digits o'))); [destruct H as (_ & _ & H), H2 as (_ & _ & H2); now apply dep_sub_digits with (3 := H2)|]. intros [x ?] [y ?] [K _]. apply dep_val. now apply held_ext.
Qed.

(** * Single bits *)
Lemma dep_get_bit s o o' a a' pos : held s Self o o' a a' -> dep s eq (w_get_bit_at a pos) (w_get_bit_at a' pos).
Proof.
  intros H. pose proof H as (L & _). unfold w_get_bit_at, width. rewrite <- L. destruct (verify_bit_access (len a) pos); seen; (split; [roomy|]); [|now apply dep_val].
  apply (dep_access s Self o o' a a' _ _ _ H); [intros; apply dep_lift, okay_eq|]. intros K. destruct (to_digit_and_bit_pos pos) as [dp bp]. apply dep_eq; [apply (dep_idx _ _ _ _ _ _ _ K)|]. intros. apply dep_lift, okay_eq.
Qed.
Lemma dep_modify_bit s f o o' a a' pos : open s Self -> held s Self o o' a a' -> dep s (paired s o o') (w_modify_bit_at f a pos) (w_modify_bit_at f a' pos).
Proof.
  intros P H. pose proof H as (L & _). unfold w_modify_bit_at, width. rewrite <- L. destruct (verify_bit_access (len a) pos); seen; (split; [roomy|]); [|apply dep_val; now split].
  apply (dep_access s Self o o' a a' _ _ _ H).
  - intros d E. apply dep_lift_eq. intros [d'|e]; [|apply dep_val; now split]. seen. split; [roomy; split; [apply (held_room _ _ _ _ _ _ _ H); lia|exact P]|]. apply dep_val. split; [now apply held_inl|reflexivity].
  - intros K. destruct (to_digit_and_bit_pos pos) as [dp bp]. apply dep_eq; [apply (dep_idx _ _ _ _ _ _ _ K)|]. intros d. apply dep_lift_eq. intros [d'|e]; [|apply dep_val; now split]. apply (dep_bind s _ _ _ _ _ _ (dep_upd _ _ _ _ _ _ _ _ P K)). intros. apply dep_val. split; [now apply held_ext|reflexivity].
Qed.
Fixpoint down (n : nat) : list nat := match n with O => [] | S m => m :: down m end.
Lemma rev_seq n : rev (seq 0 n) = down n.
Proof. induction n as [|n IH]; [reflexivity|]. rewrite seq_S, rev_app_distr. cbn. now rewrite IH. Qed.
Lemma dep_count_up s f : forall n i o o' xs ys z, cells s Self (seq i n) o o' xs ys -> dep s eq (w_count_run true f i xs z) (w_count_run true f i ys z).
Proof.
  induction n as [|n IH]; intros i o o' xs ys z H; cut H; cbn [w_count_run]; [now apply dep_val|]. seen. split; [roomy; now apply cell_room in HC|]. rewrite (cell_eq _ _ _ _ _ _ _ HC SV). apply dep_branch. destruct (negb (f y =? 64)); [now apply dep_val|now apply IH with (1 := HT)].
Qed.
Lemma dep_count_down s f : forall n o o' xs ys z, cells s Self (down n) o o' xs ys -> dep s eq (w_count_run false f (n - 1) xs z) (w_count_run false f (n - 1) ys z).
Proof.
  induction n as [|n IH]; intros o o' xs ys z H; cut H; cbn [w_count_run]; [now apply dep_val|]. replace (S n - 1)%nat with n by lia. seen. split; [roomy; now apply cell_room in HC|]. rewrite (cell_eq _ _ _ _ _ _ _ HC SV). apply dep_branch. destruct (negb (f y =? 64)); [now apply dep_val|]. rewrite <- Nat.sub_1_r. now apply IH with (1 := HT).
Qed.
Lemma lists_down s p o o' xs ys : lists s p o o' xs ys -> cells s p (down (List.length xs)) (rev o) (rev o') (rev xs) (rev ys).
Proof. intros H. destruct (lists_length _ _ _ _ _ _ H) as [_ L]. rewrite L, <- rev_seq. now apply cells_rev. Qed.
Lemma dep_leading s o o' a a' : held s Self o o' a a' -> dep s eq (w_leading_zeros a) (w_leading_zeros a').
Proof.
  intros (L & N & H). destruct (lists_length _ _ _ _ _ _ H) as [M M2]. unfold w_leading_zeros, as_digit_slice, width. rewrite <- L, <- M. apply dep_eq; [apply dep_count_down with (1 := lists_down _ _ _ _ _ _ H)|]. intros z. apply dep_lift_eq. intros. apply dep_lift, okay_eq.
Qed.
Lemma dep_trailing s o o' a a' : held s Self o o' a a' -> dep s eq (w_trailing_zeros a) (w_trailing_zeros a').
Proof.
  intros (L & N & H). unfold w_trailing_zeros, as_digit_slice, width. rewrite <- L. apply dep_eq; [apply dep_count_up with (1 := H)|]. intros z. apply dep_branch. destruct (len a <=? z); [|now apply dep_val]. apply dep_lift_eq. intros. apply dep_lift, okay_eq.
Qed.

(** * Comparisons *)
Lemma dep_digits_eqb s : forall n i o o' b b' xs ys us vs, cells s Self (seq i n) o o' xs ys -> cells s Other (seq i n) b b' us vs -> dep s eq (w_digits_eqb i xs us) (w_digits_eqb i ys vs).
Proof.
  induction n as [|n IH]; intros i o o' b b' xs ys us vs H H2; cut H; inversion H2 as [|? ? ? ? ? ? ? ? ? ? HC2 HT2]; subst; cbn [w_digits_eqb]; [now apply dep_val|].
  seen. split; [roomy; [now apply cell_room in HC|now apply cell_room in HC2]|]. rewrite (cell_eq _ _ _ _ _ _ _ HC SV), (cell_eq _ _ _ _ _ _ _ HC2 SV0). apply dep_branch. match goal with |- context [if ?c then _ else _] => destruct c end; [now apply IH with (1 := HT) (2 := HT2)|now apply dep_val].
Qed.
Lemma dep_eqb s o o' b b' a a' c c' : held s Self o o' a a' -> held s Other b b' c c' -> (len a = len c -> List.length (digits o) = List.length (digits b)) -> dep s eq (w_apint_eqb a c) (w_apint_eqb a' c').
Proof.
  intros (L & N & H) (L2 & N2 & H2) E. unfold w_apint_eqb, len_bits, as_digit_slice. rewrite <- L, <- L2. apply dep_branch. destruct (len a =? len c) eqn:W; cbn [negb]; [|now apply dep_val]. apply Z.eqb_eq in W. unfold lists in H2. rewrite <- (E W) in H2. now apply dep_digits_eqb with (1 := H) (2 := H2).
Qed.
Lemma dep_ult_loop s : forall n o o' b b' xs ys us vs, cells s Self (down n) o o' xs ys -> cells s Other (down n) b b' us vs -> dep s eq (w_ult_loop (n - 1) xs us) (w_ult_loop (n - 1) ys vs).
Proof.
  induction n as [|n IH]; intros o o' b b' xs ys us vs H H2; cut H; inversion H2 as [|? ? ? ? ? ? ? ? ? ? HC2 HT2]; subst; cbn [w_ult_loop]; [now apply dep_val|]. replace (S n - 1)%nat with n by lia.
  seen. split; [roomy; [now apply cell_room in HC|now apply cell_room in HC2]|]. rewrite (cell_eq _ _ _ _ _ _ _ HC SV), (cell_eq _ _ _ _ _ _ _ HC2 SV0). match goal with |- context [?u ?= ?v] => destruct (u ?= v) end; seen; (split; [roomy|]); try now apply dep_val. rewrite <- Nat.sub_1_r. now apply IH with (1 := HT) (2 := HT2).
Qed.
Lemma dep_ult s o o' b b' a a' c c' : held s Self o o' a a' -> held s Other b b' c c' -> (len a = len c -> List.length (digits o) = List.length (digits b)) -> dep s eq (w_checked_ult a c) (w_checked_ult a' c').
Proof.
  intros H H2 E. unfold w_checked_ult. apply (dep_zip s o o' b b' a a' c c' _ _ _ H H2); [intros; now apply dep_val|intros; now apply dep_val|]. intros W _. destruct H as (L & N & H), H2 as (L2 & N2 & H2). destruct (lists_length _ _ _ _ _ _ H) as [M M2]. destruct (lists_length _ _ _ _ _ _ H2) as [M3 M4]. rewrite <- M.
  apply dep_eq; [|intros; now apply dep_val]. apply lists_down in H, H2. rewrite M4, <- (E W), <- M2 in H2. now apply dep_ult_loop with (1 := H) (2 := H2).
Qed.
