(** The time of the calls, in terms of their widths. *)
From Verif Require Export LTimeDiv SpecTime.
From Coq Require Import Lia ZArith.

Lemma nd_words a : wf a -> nd a = words (len a).
Proof. intros (_ & H & _). exact H. Qed.
Lemma takes_intro {A} (m : clocked A) r n : snd m = r -> costs m n -> takes m r n.
Proof. now split. Qed.
Ltac took W := rewrite <- (nd_words _ W); repeat split;
  first [apply e_wrapping_shl_assign|apply e_wrapping_lshr_assign|apply e_wrapping_ashr_assign|apply e_wrapping_inc|apply e_wrapping_dec|apply e_wrapping_neg|apply e_wrapping_add_assign|apply e_wrapping_sub_assign|apply e_wrapping_mul_assign
  |apply e_wrapping_udivrem_assign|apply e_wrapping_uremdiv_assign|apply e_wrapping_udiv_assign|apply e_wrapping_urem_assign
  |apply e_wrapping_sdivrem_assign|apply e_wrapping_sremdiv_assign|apply e_wrapping_sdiv_assign|apply e_wrapping_srem_assign|idtac].

Lemma time_shift_fact a s : wf a ->
  takes (c_wrapping_shl_assign a s) (wrapping_shl_assign a s) (2 * words (len a) + 2) /\
  takes (c_wrapping_lshr_assign a s) (wrapping_lshr_assign a s) (3 * words (len a)) /\
  takes (c_wrapping_ashr_assign a s) (wrapping_ashr_assign a s) (5 * words (len a) + 7).
Proof. intros W. took W. - apply k_shl. - now apply k_lshr. - now apply k_ashr. Qed.
Lemma time_linear_fact a b : wf a ->
  takes (c_wrapping_inc a) (wrapping_inc a) (words (len a) + 2) /\
  takes (c_wrapping_dec a) (wrapping_dec a) (words (len a) + 2) /\
  takes (c_wrapping_neg a) (wrapping_neg a) (2 * words (len a) + 4) /\
  takes (c_wrapping_add_assign a b) (wrapping_add_assign a b) (3 * words (len a) + 5) /\
  takes (c_wrapping_sub_assign a b) (wrapping_sub_assign a b) (3 * words (len a) + 5).
Proof. intros W. took W. - apply k_inc. - apply k_dec. - now apply k_neg. - apply k_add. - apply k_sub. Qed.
Lemma time_mul_fact a b : wf a -> wf b ->
  takes (c_wrapping_mul_assign a b) (wrapping_mul_assign a b) (3 * words (len a) ^ 2 + 12 * words (len a) + 11).
Proof. intros W Wb. took W. eapply costs_le; [now apply k_mul|]. rewrite Z.pow_2_r. lia. Qed.
Lemma time_udiv_fact a b : wf a -> wf b ->
  let n := words (len a) in
  takes (c_wrapping_udivrem_assign a b) (wrapping_udivrem_assign a b) (7 * n ^ 2 + 58 * n + 80) /\
  takes (c_wrapping_uremdiv_assign a b) (wrapping_uremdiv_assign a b) (7 * n ^ 2 + 58 * n + 80) /\
  takes (c_wrapping_udiv_assign a b) (wrapping_udiv_assign a b) (7 * n ^ 2 + 58 * n + 80) /\
  takes (c_wrapping_urem_assign a b) (wrapping_urem_assign a b) (7 * n ^ 2 + 58 * n + 80).
Proof.
  intros W Wb n. subst n. destruct (k_udivs a b W Wb) as (K1 & K2 & K3 & K4). assert (0 <= nd a) by (unfold nd; lia).
  took W; (eapply costs_le; [eassumption|unfold div_bound; rewrite Z.pow_2_r; lia]).
Qed.
Lemma time_sdiv_fact a b : wf a -> wf b ->
  let n := words (len a) in let m := words (len b) in
  takes (c_wrapping_sdivrem_assign a b) (wrapping_sdivrem_assign a b) (7 * n ^ 2 + 66 * n + 8 * m + 100) /\
  takes (c_wrapping_sremdiv_assign a b) (wrapping_sremdiv_assign a b) (7 * n ^ 2 + 66 * n + 8 * m + 100) /\
  takes (c_wrapping_sdiv_assign a b) (wrapping_sdiv_assign a b) (7 * n ^ 2 + 66 * n + 8 * m + 100) /\
  takes (c_wrapping_srem_assign a b) (wrapping_srem_assign a b) (7 * n ^ 2 + 66 * n + 8 * m + 100).
Proof.
  intros W Wb n m. subst n m. destruct (k_sdivs a b W Wb) as (K1 & K2 & K3 & K4). rewrite <- (nd_words _ Wb).
  took W; (eapply costs_le; [eassumption|unfold sdiv_bound, div_bound; rewrite Z.pow_2_r; lia]).
Qed.
