(** The steps of comparing, bit operations, resizing, parsing and printing. *)
From Verif Require Export LTimeFacts MTimeLinear.
From Coq Require Import Lia ZArith.

(** * The results are those of the definitions repeated *)
Lemma e_digits_eqb xs : forall ys, snd (c_digits_eqb xs ys) = Val (digits_eqb xs ys).
Proof.
  induction xs as [|x xs IH]; intros [|y ys]; try reflexivity. cbn [c_digits_eqb digits_eqb]. apply erase_pay.
  destruct (Z.eqb_spec x y); cbn [andb]; [apply IH|reflexivity].
Qed.
Lemma e_apint_eqb a b : snd (c_apint_eqb a b) = Val (apint_eqb a b).
Proof. unfold c_apint_eqb, apint_eqb. destruct (negb _); [reflexivity|apply e_digits_eqb]. Qed.
Lemma e_ult_loop ls : forall rs, snd (c_ult_loop ls rs) = Val (ult_loop ls rs).
Proof.
  induction ls as [|l ls IH]; intros [|r rs]; try reflexivity. cbn [c_ult_loop ult_loop]. apply erase_pay.
  destruct (l ?= r); [apply IH|reflexivity|reflexivity].
Qed.
Lemma bind_then {A C} (m : clocked A) a (f : A -> clocked C) o : snd m = Val a -> snd (f a) = o -> snd (cbind m f) = o.
Proof. intros E <-. unfold cbind. rewrite E. reflexivity. Qed.
Lemma e_checked_ult a b : snd (c_checked_ult a b) = checked_ult a b.
Proof.
  unfold c_checked_ult, checked_ult, bindr. apply erase_bind; [reflexivity|]. intros [[l r|ls rs]|e]; try reflexivity.
  eapply bind_then; [apply e_ult_loop|reflexivity].
Qed.
#[export] Hint Resolve e_checked_ult : erase.
Lemma e_checked_ule a b : snd (c_checked_ule a b) = checked_ule a b.
Proof. erases c_checked_ule checked_ule. Qed.
Lemma e_checked_uge a b : snd (c_checked_uge a b) = checked_uge a b.
Proof. erases c_checked_uge checked_uge. Qed.
Lemma e_checked_slt a b : snd (c_checked_slt a b) = checked_slt a b.
Proof.
  unfold c_checked_slt, checked_slt, bindr. apply erase_bind; [reflexivity|]. intros [[l r|ls rs]|e]; [erase| |reflexivity].
  unfold c_checked_ugt, checked_ugt. erase.
Qed.
#[export] Hint Resolve e_checked_slt : erase.
Lemma e_checked_sle a b : snd (c_checked_sle a b) = checked_sle a b.
Proof. erases c_checked_sle checked_sle. Qed.
Lemma e_checked_sge a b : snd (c_checked_sge a b) = checked_sge a b.
Proof. erases c_checked_sge checked_sge. Qed.

Lemma e_modify_digits f a : snd (c_modify_digits f a) = modify_digits f a.
Proof. erases c_modify_digits modify_digits. Qed.
Lemma e_modify_zipped_digits f a b : snd (c_modify_zipped_digits f a b) = modify_zipped_digits f a b.
Proof. erases c_modify_zipped_digits modify_zipped_digits. Qed.
Lemma e_get_bit_at a p : snd (c_get_bit_at a p) = get_bit_at a p.
Proof. erases c_get_bit_at get_bit_at. Qed.
Lemma e_modify_bit_at f a p : snd (c_modify_bit_at f a p) = modify_bit_at f a p.
Proof. erases c_modify_bit_at modify_bit_at. Qed.
#[export] Hint Resolve e_modify_digits e_modify_zipped_digits : erase.
Lemma e_set_all a : snd (c_set_all a) = set_all a.
Proof. erases c_set_all set_all. Qed.
Lemma e_flip_all a : snd (c_flip_all a) = flip_all a.
Proof. erases c_flip_all flip_all. Qed.
Lemma e_count_ones a : snd (c_count_ones a) = count_ones a.
Proof. reflexivity. Qed.
Lemma e_count_zeros a : snd (c_count_zeros a) = count_zeros a.
Proof. unfold c_count_zeros, count_zeros. apply erase_pay. erase. Qed.
Lemma e_count_run f ds : forall z, snd (c_count_run f ds z) = Val (count_run f ds z).
Proof.
  induction ds as [|d r IH]; intros z; [reflexivity|]. cbn [c_count_run count_run]. apply erase_pay. destruct (negb _); [reflexivity|apply IH].
Qed.
Lemma e_leading_zeros a : snd (c_leading_zeros a) = leading_zeros a.
Proof. unfold c_leading_zeros, leading_zeros. eapply bind_then; [apply e_count_run|]. erase. Qed.
Lemma e_trailing_zeros a : snd (c_trailing_zeros a) = trailing_zeros a.
Proof. unfold c_trailing_zeros, trailing_zeros. eapply bind_then; [apply e_count_run|]. destruct (_ <=? _); [erase|reflexivity]. Qed.

Lemma e_from_iter ds : snd (c_from_iter ds) = from_iter ds.
Proof. unfold c_from_iter. now apply erase_pay. Qed.
#[export] Hint Resolve e_from_iter : erase.
Lemma e_truncate_fuel n : forall a w, snd (c_truncate_fuel n a w) = truncate_fuel n a w.
Proof.
  induction n as [|n IH]; intros a w; [reflexivity|]. cbn [c_truncate_fuel truncate_fuel].
  repeat match goal with |- snd (if ?x then _ else _) = _ => destruct x; [try reflexivity|try reflexivity] end.
  - erase.
  - apply erase_bind; [apply e_from_iter|]. intros r. apply erase_bind; [reflexivity|]. intros c. destruct (negb _); [|reflexivity].
    apply erase_bind; [apply IH|]. intros [c' [[]|e]]; reflexivity.
Qed.
Lemma e_truncate a w : snd (c_truncate a w) = truncate a w.
Proof. apply e_truncate_fuel. Qed.
#[export] Hint Resolve e_truncate : erase.
Lemma e_into_truncate a w : snd (c_into_truncate a w) = into_truncate a w.
Proof. unfold c_into_truncate, into_truncate, try_forward_bin_mut_impl. apply erase_bind; [apply e_truncate|]. intros [c [[]|e]]; reflexivity. Qed.
Lemma e_from_iter_truncated ds w : snd (c_from_iter_truncated ds w) = (let? apint := from_iter ds in into_truncate apint w).
Proof. unfold c_from_iter_truncated, bindr. apply erase_bind; [apply e_from_iter|]. intros [c|e]; [apply e_into_truncate|reflexivity]. Qed.
#[export] Hint Resolve e_into_truncate e_from_iter_truncated : erase.
Lemma e_zero_extend a w : snd (c_zero_extend a w) = zero_extend a w.
Proof.
  unfold c_zero_extend, zero_extend.
  repeat match goal with |- snd (if ?x then _ else _) = _ => destruct x; [try reflexivity|try reflexivity] end.
  apply erase_bind; [apply e_from_iter_truncated|]. intros [c|e]; reflexivity.
Qed.
#[export] Hint Resolve e_zero_extend : erase.
Lemma e_sign_extend a w : snd (c_sign_extend a w) = sign_extend a w.
Proof.
  unfold c_sign_extend, sign_extend.
  repeat match goal with |- snd (if ?x then _ else _) = _ => destruct x; [try reflexivity|try reflexivity] end.
  apply erase_bind; [reflexivity|]. intros m.
  repeat match goal with |- snd (if ?x then _ else _) = _ => destruct x; [try reflexivity; auto with erase|try reflexivity] end.
  - apply erase_bind; [reflexivity|]. intros [a2 [[]|e]]; [|reflexivity]. erase.
  - apply erase_bind; [reflexivity|]. intros [a1 [[]|e]]; [|reflexivity].
    apply erase_bind; [apply e_from_iter_truncated|]. intros [c|e]; [|reflexivity]. erase.
Qed.
#[export] Hint Resolve e_sign_extend : erase.
Lemma e_expect_mut m o : snd m = o -> snd (c_expect_mut m) = expect_mut o.
Proof. intros <-. unfold c_expect_mut, expect_mut. erase. Qed.
Lemma e_zero_resize a w : snd (c_zero_resize a w) = zero_resize a w.
Proof. unfold c_zero_resize, zero_resize. destruct (_ <=? _); apply e_expect_mut; auto with erase. Qed.
Lemma e_sign_resize a w : snd (c_sign_resize a w) = sign_resize a w.
Proof. unfold c_sign_resize, sign_resize. destruct (_ <=? _); apply e_expect_mut; auto with erase. Qed.
Lemma e_repeat_digit w d : snd (c_repeat_digit w d) = repeat_digit w d.
Proof. unfold c_repeat_digit, repeat_digit. apply erase_bind; [apply e_from_iter|]. intros r. erase. Qed.

Lemma e_fold_o {A S} (f : S -> A -> clocked S) g v : (forall s x, snd (f s x) = g s x) -> forall s, snd (c_fold_o f v s) = fold_o g v s.
Proof.
  intros H. induction v as [|x r IH]; intros s; [reflexivity|]. cbn [c_fold_o fold_o]. apply erase_pay. apply erase_bind; [apply H|]. exact IH.
Qed.
Lemma e_map_o {A C} (f : A -> clocked C) g v : (forall x, snd (f x) = g x) -> snd (c_map_o f v) = map_o g v.
Proof.
  intros H. induction v as [|x r IH]; [reflexivity|]. cbn [c_map_o map_o]. apply erase_pay. apply erase_bind; [apply H|]. intros y.
  apply erase_bind; [exact IH|]. reflexivity.
Qed.
Lemma e_all {A} (f : A -> bool) v : snd (c_all f v) = Val (forallb f v).
Proof. induction v as [|x r IH]; [reflexivity|]. cbn [c_all forallb]. apply erase_pay. destruct (f x); [exact IH|reflexivity]. Qed.
Lemma e_from_bitwise_digits v b : snd (c_from_bitwise_digits v b) = from_bitwise_digits v b.
Proof.
  unfold c_from_bitwise_digits, from_bitwise_digits. destruct (negb _); [reflexivity|]. eapply bind_then; [apply e_all|].
  destruct (negb _); [reflexivity|]. apply erase_bind; [reflexivity|]. intros cs.
  apply erase_bind; [apply e_map_o; intros; apply e_fold_o; intros; erase|]. intros data. erase.
Qed.
Lemma e_from_inexact v b : snd (c_from_inexact_bitwise_digits v b) = from_inexact_bitwise_digits v b.
Proof.
  unfold c_from_inexact_bitwise_digits, from_inexact_bitwise_digits. destruct (negb _); [reflexivity|]. eapply bind_then; [apply e_all|].
  destruct (negb _); [reflexivity|]. apply erase_bind; [apply e_fold_o; intros; now apply erase_pay|]. intros [[data d] dbits].
  apply erase_bind; [destruct (0 <? dbits); [destruct (dbits <? 64)|]; reflexivity|]. intros ds. erase.
Qed.
Lemma e_fold_radix r v : snd (c_fold_radix r v) = fold_radix r v.
Proof. apply e_fold_o. intros. erase. Qed.
Lemma e_radix_chunk_step r data c : snd (c_radix_chunk_step r data c) = radix_chunk_step r data c.
Proof. unfold c_radix_chunk_step, radix_chunk_step. apply erase_pay. apply erase_pay. apply erase_bind; [apply e_fold_radix|]. reflexivity. Qed.
Lemma e_from_radix_digits v r : snd (c_from_radix_digits v r) = from_radix_digits v r.
Proof.
  unfold c_from_radix_digits, from_radix_digits. destruct (negb _); [reflexivity|]. eapply bind_then; [apply e_all|].
  destruct (negb _); [reflexivity|]. apply erase_bind; [reflexivity|]. intros [base power].
  repeat match goal with |- snd (if ?x then _ else _) = _ => destruct x; [try reflexivity|try reflexivity] end.
  all: apply erase_bind; [apply e_fold_radix|]; intros first; apply erase_pay.
  all: destruct (negb _); [reflexivity|]; apply erase_bind; [reflexivity|]; intros cs.
  all: apply erase_bind; [apply e_fold_o; intros; apply e_radix_chunk_step|]; intros data; erase.
Qed.
Lemma e_normalize r input bs : snd (c_normalize r input bs) = Val (normalize r input bs).
Proof.
  induction bs as [|b bs IH]; [reflexivity|]. cbn [c_normalize normalize]. apply erase_pay. destruct (normalize_byte b) as [d|]; [|exact IH].
  destruct (negb _); [reflexivity|]. apply erase_pay. eapply bind_then; [exact IH|]. destruct (normalize r input bs); reflexivity.
Qed.
Lemma e_from_str_radix r input : snd (c_from_str_radix r input) = from_str_radix r input.
Proof.
  unfold c_from_str_radix, from_str_radix. destruct input as [|b bs]; [reflexivity|]. set (input := b :: bs).
  destruct (b =? 95); [reflexivity|]. destruct (last input 0 =? 95); [reflexivity|]. eapply bind_then; [apply e_normalize|].
  destruct (normalize r input input) as [v|e]; [|reflexivity]. apply erase_bind; [reflexivity|]. intros o. apply erase_bind; [|reflexivity].
  destruct o as [bits|]; [|apply e_from_radix_digits]. apply erase_pay. destruct (_ =? 0); [apply e_from_bitwise_digits|apply e_from_inexact].
Qed.
Lemma e_fmt_rest w b al ds : snd (c_fmt_rest w b al ds) = Val (concat (map (u64_fmt_padded w b al) ds)).
Proof.
  induction ds as [|d r IH]; [reflexivity|]. cbn [c_fmt_rest map concat]. apply erase_pay. eapply bind_then; [exact IH|]. reflexivity.
Qed.
Lemma e_fmt_digits w b al ds : snd (c_fmt_digits w b al ds) = Val (fmt_digits w b al ds).
Proof.
  induction ds as [|d r IH]; [reflexivity|]. cbn [c_fmt_digits fmt_digits]. apply erase_pay. destruct (d_is_zero d); [exact IH|].
  apply erase_pay. eapply bind_then; [apply e_fmt_rest|]. reflexivity.
Qed.
Lemma e_fmt_radix w b al a : snd (c_fmt_radix w b al a) = fmt_radix w b al a.
Proof.
  unfold c_fmt_radix, fmt_radix. apply erase_bind; [reflexivity|]. intros []; [reflexivity|apply e_fmt_digits].
Qed.
