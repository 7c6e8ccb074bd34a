(** What multiplications and signed comparisons let an observer see. *)
From Verif Require Export LWatchProgram MWatchMul LMul.
From Verif Require Import LTemp2.
From Coq Require Import Lia ZArith.

(** * Results *)
Lemma rposition_snoc l d : rposition_nonzero (l ++ [d]) = if d_is_zero d then rposition_nonzero l else Some (List.length l).
Proof.
  induction l as [|x l IH]; cbn [app rposition_nonzero List.length]; [now destruct (d_is_zero d)|]. rewrite IH. now destruct (d_is_zero d).
Qed.
Lemma firstn_snoc n : forall ds : list Z, (n < List.length ds)%nat -> firstn (S n) ds = firstn n ds ++ [nth n ds 0].
Proof.
  induction n as [|n IH]; intros [|d ds] H; cbn [List.length] in H; try lia; [reflexivity|]. change (firstn (S (S n)) (d :: ds)) with (d :: firstn (S n) ds). rewrite IH by lia. reflexivity.
Qed.
Lemma we_idx p l i : snd (w_idx p l i) = idx l i.
Proof. reflexivity. Qed.
Lemma we_rposition p ds n : (n <= List.length ds)%nat -> snd (w_rposition p ds n) = Val (rposition_nonzero (firstn n ds)).
Proof.
  induction n as [|n IH]; intros H; [reflexivity|]. cbn [w_rposition]. assert (n < List.length ds)%nat as N by lia.
  rewrite (wbind_val _ (nth n ds 0)) by (unfold w_idx; cbn [snd]; now apply idx_nth). apply werase_branch.
  rewrite (firstn_snoc n ds) by exact N. rewrite rposition_snoc, firstn_length, Nat.min_l by lia. destruct (d_is_zero (nth n ds 0)); cbn [negb]; [apply IH; lia|reflexivity].
Qed.
Lemma we_sig_bits p ds s : snd (w_sig_bits p ds s) = sig_bits ds s.
Proof. werases w_sig_bits sig_bits. Qed.
Lemma we_mul_push_loop ag m rs : forall i sum c, snd (w_mul_push_loop ag m i rs sum c) = Val (mul_push_loop m rs sum c).
Proof.
  induction rs as [|r rs IH]; intros i sum c; cbn [w_mul_push_loop mul_push_loop]; [reflexivity|]. apply werase_see. destruct (d_carrying_mul_add m r c). apply IH.
Qed.
Lemma we_mul_row_step ag m rhs li ri st : snd (w_mul_row_step ag m rhs li ri st) = mul_row_step m rhs li ri st.
Proof. werases w_mul_row_step mul_row_step. Qed.
Lemma we_mul_row_first m rhs li sum : snd (w_mul_row_first m rhs li sum) = mul_row_first m rhs li sum.
Proof. werases w_mul_row_first mul_row_first. Qed.
#[export] Hint Resolve we_sig_bits we_mul_row_step we_mul_row_first : werase.
Lemma we_mul_full_row lhs rhs rs li sum : snd (w_mul_full_row lhs rhs rs li sum) = mul_full_row lhs rhs rs li sum.
Proof. werases w_mul_full_row mul_full_row. Qed.
Lemma we_mul_wrap_row lhs rhs s li sum : snd (w_mul_wrap_row lhs rhs s li sum) = mul_wrap_row lhs rhs s li sum.
Proof. werases w_mul_wrap_row mul_wrap_row. Qed.
#[export] Hint Resolve we_mul_full_row we_mul_wrap_row : werase.
Lemma we_mul_no_overflow lhs rhs ls rs : snd (w_mul_no_overflow lhs rhs ls rs) = mul_no_overflow lhs rhs ls rs.
Proof.
  unfold w_mul_no_overflow, mul_no_overflow. apply werase_bind; [reflexivity|]. intros m. apply werase_bind; [reflexivity|]. intros r0. destruct (d_carrying_mul m r0) as [lo hi]. apply werase_see.
  rewrite (wbind_val _ _ _ (we_mul_push_loop _ _ _ _ _ _)). destruct (mul_push_loop _ _ _ _). werase.
Qed.
Lemma we_mul_wrapping lhs rhs : snd (w_mul_wrapping lhs rhs) = mul_wrapping lhs rhs.
Proof.
  unfold w_mul_wrapping, mul_wrapping. apply werase_bind; [reflexivity|]. intros s. apply werase_bind; [reflexivity|]. intros l0. apply werase_bind; [reflexivity|]. intros r0.
  destruct (d_carrying_mul l0 r0) as [lo hi]. apply werase_see. rewrite (wbind_val _ _ _ (we_mul_push_loop _ _ _ _ _ _)). destruct (mul_push_loop _ _ _ _). werase.
Qed.
Lemma we_mul_small_step m s i st : snd (w_mul_small_step m s i st) = mul_small_step m s i st.
Proof. werases w_mul_small_step mul_small_step. Qed.
Lemma we_mul_small_step_inplace m i st : snd (w_mul_small_step_inplace m i st) = mul_small_step_inplace m i st.
Proof. werases w_mul_small_step_inplace mul_small_step_inplace. Qed.
#[export] Hint Resolve we_mul_small_step we_mul_small_step_inplace we_mul_no_overflow we_mul_wrapping : werase.
Lemma we_mul_small_lhs lhs rhs s : snd (w_mul_small_lhs lhs rhs s) = mul_small_lhs lhs rhs s.
Proof. werases w_mul_small_lhs mul_small_lhs. Qed.
Lemma we_mul_small_rhs lhs rhs s : snd (w_mul_small_rhs lhs rhs s) = mul_small_rhs lhs rhs s.
Proof. werases w_mul_small_rhs mul_small_rhs. Qed.
Lemma we_mul_small_both lhs rhs : snd (w_mul_small_both lhs rhs) = mul_small_both lhs rhs.
Proof. werases w_mul_small_both mul_small_both. Qed.
#[export] Hint Resolve we_mul_small_lhs we_mul_small_rhs we_mul_small_both : werase.
Lemma we_mul_digits lhs rhs : snd (w_mul_digits lhs rhs) = mul_digits lhs rhs.
Proof.
  unfold w_mul_digits, mul_digits. rewrite (wbind_val _ _ _ (we_rposition _ _ _ (le_n _))), firstn_all. destruct (rposition_nonzero rhs) as [r|]; [|reflexivity].
  rewrite (wbind_val _ _ _ (we_rposition _ _ _ (le_n _))), firstn_all. destruct (rposition_nonzero lhs) as [l|]; [|reflexivity]. apply werase_bind; [|reflexivity].
  unfold w_mul_cases. apply werase_branch, werase_branch. destruct (Nat.eqb l 0), (Nat.eqb r 0); werase.
Qed.
#[export] Hint Resolve we_mul_digits : werase.
Lemma we_wrapping_mul_assign a b : snd (w_wrapping_mul_assign a b) = wrapping_mul_assign a b.
Proof. unfold w_wrapping_mul_assign, wrapping_mul_assign. werase. all: apply werase_bind; auto using we_clear_unused_bits. Qed.
Lemma we_checked_slt a b : snd (w_checked_slt a b) = checked_slt a b.
Proof.
  unfold w_checked_slt, checked_slt, bindr, checked_ugt, w_msb_of. apply werase_bind; [apply we_zip_access_data|]. intros [[l r|l r]|e]; [werase| |reflexivity].
  apply werase_bind; [reflexivity|]. intros lm. apply werase_bind; [reflexivity|]. intros rm. apply werase_branch, werase_branch. destruct lm, rm; auto using we_checked_ult.
Qed.
