(** What calls let an observer see. *)
From Verif Require Export MWatch.
From Coq Require Import Lia ZArith.

(** * The results are those of the definitions repeated *)
Lemma werase_bind {A C} (m : watched A) (o : outcome A) (f : A -> watched C) (g : A -> outcome C) :
  snd m = o -> (forall a, snd (f a) = g a) -> snd (wbind m f) = bind o g.
Proof. intros <- H. unfold wbind. destruct (snd m); cbn [bind snd]; auto. Qed.
Lemma werase_see {C} es (f : unit -> watched C) o : snd (f tt) = o -> snd (wbind (see es) f) = o.
Proof. intros <-. reflexivity. Qed.
Lemma werase_branch {C} b (f : bool -> watched C) o : snd (f b) = o -> snd (wbind (branch b) f) = o.
Proof. intros <-. reflexivity. Qed.
Lemma werase_for_range {S} n : forall lo (f : nat -> S -> watched S) g s, (forall i s, snd (f i s) = g i s) ->
  snd (w_for_range n lo f s) = for_range n lo g s.
Proof.
  induction n as [|n IH]; intros lo f g s H; cbn [w_for_range for_range]; [reflexivity|]. apply werase_bind; [apply H|]. intros s'. now apply IH.
Qed.
Create HintDb werase.
Ltac werase :=
  repeat first
    [ progress intros
    | match goal with
      | |- snd (let '(_, _) := ?x in _) = _ => destruct x
      | |- snd (match ?x with _ => _ end) = _ => destruct x
      end
    | solve [auto with werase]
    | reflexivity
    | apply werase_see
    | apply werase_branch
    | apply werase_for_range; intros
    | apply werase_bind ].
Ltac werases f g := intros; unfold f, g; werase.

Lemma we_access_data p a : snd (w_access_data p a) = access_data a.
Proof. unfold w_access_data. destruct (storage (len a)); reflexivity. Qed.
Lemma we_zip_access_data a b : snd (w_zip_access_data a b) = zip_access_data a b.
Proof. unfold w_zip_access_data. apply werase_branch. destruct (width a =? width b); [|reflexivity]. cbn [negb]. destruct (storage (len a)); reflexivity. Qed.
#[export] Hint Resolve we_access_data we_zip_access_data : werase.
Lemma we_map f ds : forall i, snd (w_map f i ds) = Val (map f ds).
Proof.
  induction ds as [|d ds IH]; intros i; cbn [w_map map]; [reflexivity|]. apply werase_see. change (Val (f d :: map f ds)) with (let! r := Val (map f ds) in Val (f d :: r)).
  apply werase_bind; auto.
Qed.
Lemma we_zip_update f ls : forall i rs, snd (w_zip_update f i ls rs) = Val (zip_update f ls rs).
Proof.
  induction ls as [|l ls IH]; intros i [|r rs]; cbn [w_zip_update zip_update]; try reflexivity. apply werase_see.
  change (Val (f l r :: zip_update f ls rs)) with (let! t := Val (zip_update f ls rs) in Val (f l r :: t)). apply werase_bind; auto.
Qed.
Lemma wbind_val {A C} (m : watched A) a (k : A -> watched C) : snd m = Val a -> snd (wbind m k) = snd (k a).
Proof. intros H. unfold wbind. now rewrite H. Qed.
Lemma we_modify_digits f a : snd (w_modify_digits f a) = modify_digits f a.
Proof. werases w_modify_digits modify_digits. erewrite wbind_val by apply we_map. reflexivity. Qed.
Lemma we_modify_zipped_digits f a b : snd (w_modify_zipped_digits f a b) = modify_zipped_digits f a b.
Proof. werases w_modify_zipped_digits modify_zipped_digits. erewrite wbind_val by apply we_zip_update. reflexivity. Qed.
Lemma we_most_significant_digit a : snd (w_most_significant_digit a) = most_significant_digit a.
Proof. werases w_most_significant_digit most_significant_digit. Qed.
Lemma we_modify_most_significant_digit p f a : snd (w_modify_most_significant_digit p f a) = modify_most_significant_digit f a.
Proof. werases w_modify_most_significant_digit modify_most_significant_digit. Qed.
Lemma we_least_significant_digit a : snd (w_least_significant_digit a) = least_significant_digit a.
Proof. werases w_least_significant_digit least_significant_digit. Qed.
#[export] Hint Resolve we_modify_digits we_modify_zipped_digits we_most_significant_digit we_modify_most_significant_digit we_least_significant_digit : werase.
Lemma we_msb a : snd (w_msb a) = msb a.
Proof. werases w_msb msb. Qed.
Lemma we_lsb a : snd (w_lsb a) = lsb a.
Proof. werases w_lsb lsb. Qed.
Lemma we_clear_unused_bits p a : snd (w_clear_unused_bits p a) = clear_unused_bits a.
Proof. werases w_clear_unused_bits clear_unused_bits. Qed.
#[export] Hint Resolve we_msb we_lsb we_clear_unused_bits : werase.
Lemma we_all_zero ds : forall i, snd (w_all_zero i ds) = Val (forallb d_is_zero ds).
Proof.
  induction ds as [|d ds IH]; intros i; cbn [w_all_zero forallb]; [reflexivity|]. apply werase_see, werase_branch. destruct (d_is_zero d); [apply IH|reflexivity].
Qed.
#[export] Hint Resolve we_all_zero : werase.
Lemma we_is_zero a : snd (w_is_zero a) = is_zero a.
Proof. werases w_is_zero is_zero. Qed.
Lemma we_is_even a : snd (w_is_even a) = is_even a.
Proof. werases w_is_even is_even. Qed.
Lemma we_inc_loop xs : forall i, snd (w_inc_loop i xs) = Val (inc_loop xs).
Proof.
  induction xs as [|x xs IH]; intros i; cbn [w_inc_loop inc_loop]; [reflexivity|]. apply werase_see. destruct (d_overflowing_add x ONE) as [v c].
  apply werase_branch, werase_see. destruct c; [|reflexivity]. erewrite wbind_val by apply IH. reflexivity.
Qed.
Lemma we_dec_loop xs : forall i, snd (w_dec_loop i xs) = Val (dec_loop xs).
Proof.
  induction xs as [|x xs IH]; intros i; cbn [w_dec_loop dec_loop]; [reflexivity|]. apply werase_see. destruct (d_overflowing_sub x ONE) as [v c].
  apply werase_branch, werase_see. destruct c; [|reflexivity]. erewrite wbind_val by apply IH. reflexivity.
Qed.
Lemma we_wrapping_inc a : snd (w_wrapping_inc a) = wrapping_inc a.
Proof.
  unfold w_wrapping_inc, wrapping_inc. apply werase_bind; [apply we_access_data|]. intros [x|xs]; [apply we_clear_unused_bits|].
  erewrite wbind_val; [apply we_clear_unused_bits|]. erewrite wbind_val by apply we_inc_loop. reflexivity.
Qed.
Lemma we_wrapping_dec a : snd (w_wrapping_dec a) = wrapping_dec a.
Proof.
  unfold w_wrapping_dec, wrapping_dec. apply werase_bind; [apply we_access_data|]. intros [x|xs]; [apply we_clear_unused_bits|].
  erewrite wbind_val; [apply we_clear_unused_bits|]. erewrite wbind_val by apply we_dec_loop. reflexivity.
Qed.
Lemma we_bitnot a : snd (w_bitnot a) = bitnot a.
Proof. werases w_bitnot bitnot. Qed.
#[export] Hint Resolve we_wrapping_inc we_wrapping_dec we_bitnot : werase.
Lemma we_wrapping_neg a : snd (w_wrapping_neg a) = wrapping_neg a.
Proof. werases w_wrapping_neg wrapping_neg. Qed.
Lemma we_add_step rhs i st : snd (w_add_step rhs i st) = add_step rhs i st.
Proof. werases w_add_step add_step. Qed.
Lemma we_sub_step rhs i st : snd (w_sub_step rhs i st) = sub_step rhs i st.
Proof. werases w_sub_step sub_step. Qed.
#[export] Hint Resolve we_add_step we_sub_step : werase.
Lemma we_add_digits l r : snd (w_add_digits l r) = add_digits l r.
Proof. werases w_add_digits add_digits. Qed.
Lemma we_sub_digits l r : snd (w_sub_digits l r) = sub_digits l r.
Proof. werases w_sub_digits sub_digits. Qed.
#[export] Hint Resolve we_add_digits we_sub_digits : werase.
Lemma we_wrapping_add_assign a b : snd (w_wrapping_add_assign a b) = wrapping_add_assign a b.
Proof. werases w_wrapping_add_assign wrapping_add_assign. Qed.
Lemma we_wrapping_sub_assign a b : snd (w_wrapping_sub_assign a b) = wrapping_sub_assign a b.
Proof. werases w_wrapping_sub_assign wrapping_sub_assign. Qed.
Lemma we_get_bit_at a p : snd (w_get_bit_at a p) = get_bit_at a p.
Proof. werases w_get_bit_at get_bit_at. Qed.
Lemma we_modify_bit_at f a p : snd (w_modify_bit_at f a p) = modify_bit_at f a p.
Proof. werases w_modify_bit_at modify_bit_at. Qed.
Lemma we_set_all a : snd (w_set_all a) = set_all a.
Proof. werases w_set_all set_all. Qed.
Lemma we_flip_all a : snd (w_flip_all a) = flip_all a.
Proof. werases w_flip_all flip_all. Qed.
Lemma we_count_run up f ds : forall i z, snd (w_count_run up f i ds z) = Val (count_run f ds z).
Proof.
  induction ds as [|d ds IH]; intros i z; cbn [w_count_run count_run]; [reflexivity|]. apply werase_see, werase_branch. destruct (negb (f d =? 64)); [reflexivity|apply IH].
Qed.
Lemma we_leading_zeros a : snd (w_leading_zeros a) = leading_zeros a.
Proof. unfold w_leading_zeros, leading_zeros. erewrite wbind_val by apply we_count_run. werase. Qed.
Lemma we_trailing_zeros a : snd (w_trailing_zeros a) = trailing_zeros a.
Proof. unfold w_trailing_zeros, trailing_zeros. erewrite wbind_val by apply we_count_run. werase. Qed.
Lemma bind_ret {A} (o : outcome A) : bind o (fun a => Val a) = o.
Proof. now destruct o. Qed.
Lemma we_shl_digits s ds : snd (w_shl_digits s ds) = shl_digits s ds.
Proof.
  unfold w_shl_digits. apply werase_branch. destruct (Nat.eqb s 0); [reflexivity|]. rewrite <- (bind_ret (shl_digits s ds)). apply werase_bind; [now rewrite bind_ret|]. reflexivity.
Qed.
Lemma we_lshr_digits s ds : snd (w_lshr_digits s ds) = lshr_digits s ds.
Proof.
  unfold w_lshr_digits. apply werase_branch. destruct (Nat.eqb s 0); [reflexivity|]. rewrite <- (bind_ret (lshr_digits s ds)). apply werase_bind; [now rewrite bind_ret|]. reflexivity.
Qed.
Lemma we_shl_loop b ds : forall i c, snd (w_shl_loop b i c ds) = shl_loop b c ds.
Proof. induction ds as [|d ds IH]; intros i c; cbn [w_shl_loop shl_loop]; [reflexivity|]. werase. Qed.
Lemma we_lshr_loop b ds : forall i c, snd (w_lshr_loop b i c ds) = lshr_loop b c ds.
Proof. induction ds as [|d ds IH]; intros i c; cbn [w_lshr_loop lshr_loop]; [reflexivity|]. werase. Qed.
#[export] Hint Resolve we_shl_digits we_lshr_digits we_shl_loop we_lshr_loop : werase.
Lemma we_modify_from s f g ds : (forall x, snd (f x) = g x) -> snd (w_modify_from s f ds) = modify_from s g ds.
Proof. intros H. unfold w_modify_from, modify_from. destruct (Nat.leb s (List.length ds)); [|reflexivity]. apply werase_bind; [apply H|]. reflexivity. Qed.
Lemma we_wrapping_shl_assign a s : snd (w_wrapping_shl_assign a s) = wrapping_shl_assign a s.
Proof.
  unfold w_wrapping_shl_assign, wrapping_shl_assign. destruct (verify_shift_amount (width a) s); [|reflexivity]. apply werase_see, werase_bind; [apply we_access_data|].
  intros acc. apply werase_bind; [|werase]. destruct acc as [d|ds]; [werase|]. apply werase_bind; [apply we_shl_digits|]. intros ds1. apply werase_branch.
  apply werase_bind; [|reflexivity]. destruct (negb (bit_steps s =? 0)); [|reflexivity]. apply we_modify_from. intros x. apply we_shl_loop.
Qed.
Lemma we_wrapping_lshr_assign a s : snd (w_wrapping_lshr_assign a s) = wrapping_lshr_assign a s.
Proof.
  unfold w_wrapping_lshr_assign, wrapping_lshr_assign. destruct (verify_shift_amount (width a) s); [|reflexivity]. apply werase_see, werase_bind; [apply we_access_data|].
  intros [d|ds]; [werase|]. apply werase_bind; [apply we_lshr_digits|]. intros ds1. apply werase_branch.
  apply werase_bind; [|reflexivity]. destruct (0 <? bit_steps s); [|reflexivity]. werase.
Qed.
#[export] Hint Resolve we_wrapping_shl_assign we_wrapping_lshr_assign : werase.
Lemma we_ashr_subdigit b u x : snd (w_ashr_subdigit b u x) = ashr_subdigit b u x.
Proof. werases w_ashr_subdigit ashr_subdigit. Qed.
Lemma we_ashr_fill d e x : snd (w_ashr_fill d e x) = ashr_fill d e x.
Proof. werases w_ashr_fill ashr_fill. Qed.
#[export] Hint Resolve we_ashr_subdigit we_ashr_fill : werase.
Lemma we_ashr_digit d e x : snd (w_ashr_digit d e x) = ashr_digit d e x.
Proof. werases w_ashr_digit ashr_digit. Qed.
Lemma we_ashr_both d e b u x : snd (w_ashr_both d e b u x) = ashr_both d e b u x.
Proof. werases w_ashr_both ashr_both. Qed.
#[export] Hint Resolve we_ashr_digit we_ashr_both : werase.
Lemma we_wrapping_ashr_assign a s : snd (w_wrapping_ashr_assign a s) = wrapping_ashr_assign a s.
Proof.
  unfold w_wrapping_ashr_assign, wrapping_ashr_assign. apply werase_bind; [apply we_msb|]. intros m. apply werase_branch. destruct m; cbn [negb]; [|apply we_wrapping_lshr_assign].
  destruct (verify_shift_amount (width a) s); [|reflexivity]. apply werase_see, werase_branch. destruct (s =? 0); [reflexivity|]. apply werase_bind; [reflexivity|]. intros uns.
  apply werase_bind; [apply we_access_data|]. intros acc. apply werase_bind; [|werase]. destruct acc as [x|x]; [werase|]. apply werase_branch. apply werase_bind; [werase|].
  intros y. apply werase_bind; [reflexivity|]. intros diff. apply werase_branch. apply werase_bind; [|reflexivity]. destruct (Nat.eqb (Z.to_nat (s / 64)) 0); [apply we_ashr_subdigit|].
  apply werase_branch. destruct (s mod 64 =? 0); werase.
Qed.
Lemma we_digits_eqb xs : forall i ys, snd (w_digits_eqb i xs ys) = Val (digits_eqb xs ys).
Proof.
  induction xs as [|x xs IH]; intros i [|y ys]; cbn [w_digits_eqb digits_eqb]; try reflexivity. apply werase_see, werase_branch. destruct (x =? y); [apply IH|reflexivity].
Qed.
Lemma we_apint_eqb a b : snd (w_apint_eqb a b) = Val (apint_eqb a b).
Proof. unfold w_apint_eqb, apint_eqb. apply werase_branch. destruct (negb (len_bits a =? len_bits b)); [reflexivity|apply we_digits_eqb]. Qed.
Lemma we_ult_loop xs : forall i ys, snd (w_ult_loop i xs ys) = Val (ult_loop xs ys).
Proof.
  induction xs as [|x xs IH]; intros i [|y ys]; cbn [w_ult_loop ult_loop]; try reflexivity. apply werase_see. destruct (x ?= y); apply werase_see; [apply IH|reflexivity..].
Qed.
Lemma we_checked_ult a b : snd (w_checked_ult a b) = checked_ult a b.
Proof.
  unfold w_checked_ult, checked_ult. apply werase_bind; [apply we_zip_access_data|]. intros [[l r|l r]|e]; try reflexivity. erewrite wbind_val by apply we_ult_loop. reflexivity.
Qed.
Lemma we_clone p a : snd (w_clone p a) = clone a.
Proof. unfold w_clone. destruct (storage (len a)); reflexivity. Qed.
Lemma we_assign a b : snd (w_assign a b) = assign a b.
Proof.
  unfold w_assign, assign. apply werase_branch. destruct (Nat.eqb (len_digits a) (len_digits b)); [werase|]. destruct (storage (len b)); [werase|]. apply werase_see, werase_bind; [apply we_clone|]. reflexivity.
Qed.
Lemma we_strict_assign a b : snd (w_strict_assign a b) = strict_assign a b.
Proof. unfold w_strict_assign, strict_assign. apply werase_branch. werase. Qed.
Lemma we_from_iter p n ds : snd (w_from_iter p n ds) = from_iter ds.
Proof. reflexivity. Qed.
#[export] Hint Resolve we_from_iter : werase.
Lemma we_truncate_fuel n : forall p a t, snd (w_truncate_fuel n p a t) = truncate_fuel n a t.
Proof.
  induction n as [|n IH]; intros p a t; cbn [w_truncate_fuel truncate_fuel]; [reflexivity|]. apply werase_branch. destruct (t =? width a); [reflexivity|].
  apply werase_branch. destruct (width a <? t); [reflexivity|]. apply werase_branch. destruct (Nat.eqb (required_digits (width a)) (required_digits t)); [werase|].
  apply werase_bind; [reflexivity|]. intros r. apply werase_bind; [reflexivity|]. intros c. apply werase_branch. destruct (negb (width c =? t)); werase.
Qed.
Lemma we_truncate p a t : snd (w_truncate p a t) = truncate a t.
Proof. apply we_truncate_fuel. Qed.
#[export] Hint Resolve we_truncate : werase.
Lemma we_from_iter_truncated n ds t : snd (w_from_iter_truncated n ds t) = (let? a := from_iter ds in into_truncate a t).
Proof. unfold w_from_iter_truncated, bindr, into_truncate, try_forward_bin_mut_impl. werase. Qed.
Lemma we_zero_extend a t : snd (w_zero_extend a t) = zero_extend a t.
Proof.
  unfold w_zero_extend, zero_extend. apply werase_branch. destruct (t =? width a); [reflexivity|]. apply werase_branch. destruct (t <? width a); [reflexivity|].
  apply werase_branch. destruct (Nat.eqb (required_digits (width a)) (required_digits t)); [reflexivity|]. destruct (negb (Nat.ltb (required_digits (width a)) (required_digits t))); [reflexivity|].
  apply werase_bind; [apply we_from_iter_truncated|]. werase.
Qed.
Lemma we_fill a w : snd (w_fill_most_significant_digit a w) = fill_most_significant_digit a w.
Proof. werases w_fill_most_significant_digit fill_most_significant_digit. Qed.
#[export] Hint Resolve we_zero_extend we_fill : werase.
Lemma we_sign_extend a t : snd (w_sign_extend a t) = sign_extend a t.
Proof.
  unfold w_sign_extend, sign_extend. apply werase_branch. destruct (t =? width a); [reflexivity|]. apply werase_branch. destruct (t <? width a); [reflexivity|].
  apply werase_bind; [apply we_msb|]. intros m. apply werase_branch. destruct m; cbn [negb]; [|apply we_zero_extend].
  apply werase_branch. destruct (Nat.eqb (required_digits (width a)) (required_digits t)); [werase|]. destruct (negb (Nat.ltb (required_digits (width a)) (required_digits t))); [reflexivity|].
  apply werase_bind; [apply we_fill|]. intros [a1 [u|e]]; [|reflexivity]. apply werase_bind; [apply we_from_iter_truncated|]. werase.
Qed.
Lemma we_expect_mut m o : snd m = o -> snd (w_expect_mut m) = expect_mut o.
Proof. intros <-. unfold w_expect_mut, expect_mut. werase. Qed.
Lemma we_zero_resize a t : snd (w_zero_resize a t) = zero_resize a t.
Proof. unfold w_zero_resize, zero_resize. apply werase_branch. destruct (t <=? width a); apply we_expect_mut; auto with werase. Qed.
Lemma we_sign_resize a t : snd (w_sign_resize a t) = sign_resize a t.
Proof. unfold w_sign_resize, sign_resize. apply werase_branch. destruct (t <=? width a); apply we_expect_mut; [auto with werase|apply we_sign_extend]. Qed.
Lemma we_resize_to_primitive_ty a ty : snd (w_resize_to_primitive_ty a ty) = resize_to_primitive_ty a ty.
Proof.
  unfold w_resize_to_primitive_ty, resize_to_primitive_ty. destruct (is_128 ty); [reflexivity|]. apply werase_bind; [apply we_least_significant_digit|]. intros d. apply werase_branch. werase.
Qed.
#[export] Hint Resolve we_zero_resize we_sign_resize : werase.
