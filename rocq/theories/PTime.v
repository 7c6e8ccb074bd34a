(** Property C96: how long arithmetic takes.  MTime.v repeats the arithmetic of MShift.v, MArith.v and MDiv.v and counts one step
    for each digit (of 64 bits) that is read, written or passed over.  No value makes a call slower than a bound that depends only on the
    width, with [n] digits: shifts, addition, subtraction and negation take a number of steps linear in [n], and multiplication
    and every division a number quadratic in [n].  The words used in the statements are defined in SpecTime.v. *)
From Verif Require Import LTimeFacts LEx.

(** C96: shifting by any amount, also one that is refused, takes linear time. *)
Theorem C96_shift a s :
  wf a ->
  takes (c_wrapping_shl_assign a s) (wrapping_shl_assign a s) (2 * words (len a) + 2) /\
  takes (c_wrapping_lshr_assign a s) (wrapping_lshr_assign a s) (3 * words (len a)) /\
  takes (c_wrapping_ashr_assign a s) (wrapping_ashr_assign a s) (5 * words (len a) + 7).
Proof. exact (time_shift_fact a s). Qed.
Print Assumptions C96_shift.
(** 200 bits with the sign bit set. *)
Definition C96_a : apint := mk_apint 200 [5; 0; 2^63; 2^7 + 1].
Definition C96_b : apint := mk_apint 200 [2^64 - 1; 77; 0; 0].
Example C96_shift_ex : wf C96_a /\ words (len C96_a) = 4 /\
  c_wrapping_shl_assign C96_a 70 = (10, wrapping_shl_assign C96_a 70) /\ c_wrapping_lshr_assign C96_a 70 = (9, wrapping_lshr_assign C96_a 70) /\
  c_wrapping_ashr_assign C96_a 70 = (15, wrapping_ashr_assign C96_a 70) /\ fst (c_wrapping_ashr_assign C96_a 200) = 1.
Proof. split; [wf_now|]. vm_compute. repeat split; reflexivity. Qed.

(** C96: so do increment, decrement, negation, addition and subtraction. *)
Theorem C96_linear a b :
  wf a ->
  takes (c_wrapping_inc a) (wrapping_inc a) (words (len a) + 2) /\
  takes (c_wrapping_dec a) (wrapping_dec a) (words (len a) + 2) /\
  takes (c_wrapping_neg a) (wrapping_neg a) (2 * words (len a) + 4) /\
  takes (c_wrapping_add_assign a b) (wrapping_add_assign a b) (3 * words (len a) + 5) /\
  takes (c_wrapping_sub_assign a b) (wrapping_sub_assign a b) (3 * words (len a) + 5).
Proof. exact (time_linear_fact a b). Qed.
Print Assumptions C96_linear.
Example C96_linear_ex : fst (c_wrapping_inc C96_a) = 6 /\ fst (c_wrapping_neg C96_a) = 12 /\ fst (c_wrapping_add_assign C96_a C96_b) = 14 /\
  snd (c_wrapping_add_assign C96_a C96_b) = Val (mk_apint 200 [4; 78; 2^63; 2^7 + 1], Ok tt) /\
  fst (c_wrapping_sub_assign C96_a (mk_apint 64 [3])) = 0.
Proof. vm_compute. repeat split; reflexivity. Qed.

(** C96: multiplication takes quadratic time. *)
Theorem C96_mul a b :
  wf a -> wf b ->
  takes (c_wrapping_mul_assign a b) (wrapping_mul_assign a b) (3 * words (len a) ^ 2 + 12 * words (len a) + 11).
Proof. exact (time_mul_fact a b). Qed.
Print Assumptions C96_mul.
Example C96_mul_ex : wf C96_b /\ fst (c_wrapping_mul_assign C96_a C96_b) = 39 /\ 39 <= 3 * words 200 ^ 2 + 12 * words 200 + 11 /\
  snd (c_wrapping_mul_assign C96_a C96_b) = wrapping_mul_assign C96_a C96_b.
Proof. split; [wf_now|]. vm_compute. repeat split; try reflexivity; discriminate. Qed.

(** C96: the four unsigned divisions take quadratic time, also if the divisor is zero or has another width.  (Writing the text of that error is counted in C99.) *)
Theorem C96_udiv a b :
  wf a -> wf b ->
  let n := words (len a) in
  takes (c_wrapping_udivrem_assign a b) (wrapping_udivrem_assign a b) (7 * n ^ 2 + 58 * n + 80) /\
  takes (c_wrapping_uremdiv_assign a b) (wrapping_uremdiv_assign a b) (7 * n ^ 2 + 58 * n + 80) /\
  takes (c_wrapping_udiv_assign a b) (wrapping_udiv_assign a b) (7 * n ^ 2 + 58 * n + 80) /\
  takes (c_wrapping_urem_assign a b) (wrapping_urem_assign a b) (7 * n ^ 2 + 58 * n + 80).
Proof. exact (time_udiv_fact a b). Qed.
Print Assumptions C96_udiv.
Example C96_udiv_ex : fst (c_wrapping_udivrem_assign C96_a C96_b) = 84 /\ snd (c_wrapping_udivrem_assign C96_a C96_b) = wrapping_udivrem_assign C96_a C96_b /\
  fst (c_wrapping_udiv_assign C96_a (mk_apint 200 [0; 0; 0; 0])) = 12 /\ fst (c_wrapping_udiv_assign C96_a (mk_apint 64 [3])) = 0.
Proof. vm_compute. repeat split; reflexivity. Qed.

(** C96: and so do the four signed divisions, also when they panic. *)
Theorem C96_sdiv a b :
  wf a -> wf b ->
  let n := words (len a) in let m := words (len b) in
  takes (c_wrapping_sdivrem_assign a b) (wrapping_sdivrem_assign a b) (7 * n ^ 2 + 66 * n + 8 * m + 100) /\
  takes (c_wrapping_sremdiv_assign a b) (wrapping_sremdiv_assign a b) (7 * n ^ 2 + 66 * n + 8 * m + 100) /\
  takes (c_wrapping_sdiv_assign a b) (wrapping_sdiv_assign a b) (7 * n ^ 2 + 66 * n + 8 * m + 100) /\
  takes (c_wrapping_srem_assign a b) (wrapping_srem_assign a b) (7 * n ^ 2 + 66 * n + 8 * m + 100).
Proof. exact (time_sdiv_fact a b). Qed.
Print Assumptions C96_sdiv.
Example C96_sdiv_ex : fst (c_wrapping_sdiv_assign C96_a C96_b) = 100 /\ snd (c_wrapping_sdiv_assign C96_a C96_b) = wrapping_sdiv_assign C96_a C96_b /\
  c_wrapping_srem_assign C96_a (mk_apint 64 [3]) = (16, Panic).
Proof. vm_compute. repeat split; reflexivity. Qed.
