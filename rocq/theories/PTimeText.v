(** Property C99: calls that fail take linear time as well, and so do conversions to machine integers.  MTimeText.v repeats the definitions of MText.v and
    MPrim.v and counts one step for each digit (of 64 bits) that is read, written or passed over and for each character of the messages and annotations
    of errors that is written, also of annotations that another one replaces.  The words used in the statements are defined in SpecTime.v and SpecTimeText.v. *)
From Verif Require Import LTimeText LEx SpecTimeText.

(** C99: comparisons pass over the digits once if the widths agree; otherwise both operands are written into the error, some of them twice. *)
Theorem C99_compare a b :
  wf a -> wf b ->
  let n := words (len a) in let m := words (len b) in
  let bound := if len a =? len b then n + 2 else 64 * (n + m) + 600 in
  takes (c_explained_ult a b) (explained_ult a b) bound /\
  takes (c_explained_ule a b) (explained_ule a b) bound /\
  takes (c_explained_ugt a b) (explained_ugt a b) bound /\
  takes (c_explained_uge a b) (explained_uge a b) bound /\
  takes (c_explained_slt a b) (explained_slt a b) bound /\
  takes (c_explained_sle a b) (explained_sle a b) bound /\
  takes (c_explained_sgt a b) (explained_sgt a b) bound /\
  takes (c_explained_sge a b) (explained_sge a b) bound.
Proof. exact (time_compare_text_fact a b). Qed.
Print Assumptions C99_compare.
Definition C99_a : apint := mk_apint 200 [5; 0; 2^63; 2^7 + 1].
Definition C99_b : apint := mk_apint 65 [2^64 - 1; 1].
Example C99_compare_ex : wf C99_a /\ wf C99_b /\ fst (c_explained_sle C99_a C99_a) = 6 /\ fst (c_explained_ult C99_a C99_b) = 371 /\ fst (c_explained_ule C99_a C99_b) = 648.
Proof. split; [wf_now|split; [wf_now|]]. vm_compute. repeat split; reflexivity. Qed.

(** C99: dividing by zero takes linear time, although dividing takes quadratic time (C96). *)
Theorem C99_divide_by_zero a b :
  wf a -> wf b -> unsigned b = 0 -> len a = len b ->
  let n := words (len a) in
  takes (c_plain_mut (c_wrapping_udivrem_assign a b)) (plain_mut (wrapping_udivrem_assign a b)) (33 * n + 160) /\
  takes (c_plain_mut (c_wrapping_uremdiv_assign a b)) (plain_mut (wrapping_uremdiv_assign a b)) (33 * n + 160) /\
  takes (c_plain_mut (c_wrapping_udiv_assign a b)) (plain_mut (wrapping_udiv_assign a b)) (33 * n + 160) /\
  takes (c_plain_mut (c_wrapping_urem_assign a b)) (plain_mut (wrapping_urem_assign a b)) (33 * n + 160) /\
  takes (c_plain_mut (c_wrapping_sdivrem_assign a b)) (plain_mut (wrapping_sdivrem_assign a b)) (33 * n + 160) /\
  takes (c_plain_mut (c_wrapping_sremdiv_assign a b)) (plain_mut (wrapping_sremdiv_assign a b)) (33 * n + 160) /\
  takes (c_plain_mut (c_wrapping_sdiv_assign a b)) (plain_mut (wrapping_sdiv_assign a b)) (33 * n + 160) /\
  takes (c_plain_mut (c_wrapping_srem_assign a b)) (plain_mut (wrapping_srem_assign a b)) (33 * n + 160).
Proof. exact (time_division_by_zero_fact a b). Qed.
Print Assumptions C99_divide_by_zero.
Example C99_divide_by_zero_ex : let z := mk_apint 200 [0; 0; 0; 0] in
  wf z /\ unsigned z = 0 /\ fst (c_plain_mut (c_wrapping_udivrem_assign C99_a z)) = 205 /\
  match snd (c_plain_mut (c_wrapping_srem_assign C99_a z)) with Val (_, EErr e) => e_kind e = DivisionByZero SignedRem C99_a | _ => False end.
Proof. split; [wf_now|]. vm_compute. repeat split; reflexivity. Qed.

(** C99: assigning and resizing: the bound of C97 if they succeed, otherwise the length of the texts. *)
Theorem C99_assign a b w :
  wf a -> wf b -> 0 < w ->
  let n := words (len a) in let m := words (len b) in let t := words w in
  takes (c_explained_strict_assign a b) (explained_strict_assign a b) (if len a =? len b then n else 31 * (n + m) + 270) /\
  takes (c_explained_truncate a w) (explained_truncate a w) (if w <=? len a then 8 * t + 4 else 2 * (n + t) + 330) /\
  takes (c_explained_zero_extend a w) (explained_zero_extend a w) (if len a <=? w then 12 * t + 4 else 2 * (n + t) + 330) /\
  takes (c_explained_sign_extend a w) (explained_sign_extend a w) (if len a <=? w then 12 * t + 9 else 2 * (n + t) + 330).
Proof. exact (time_assign_text_fact a b w). Qed.
Print Assumptions C99_assign.
Example C99_assign_ex : fst (c_explained_strict_assign C99_a C99_a) = 4 /\ fst (c_explained_strict_assign C99_a C99_b) = 324 /\
  fst (c_explained_truncate C99_a 65) = 10 /\ fst (c_explained_truncate C99_b 200) = 250 /\ fst (c_explained_sign_extend C99_a 65) = 211.
Proof. vm_compute. repeat split; reflexivity. Qed.

(** C99: conversions that refuse to lose information look at each digit at most once, and twice more to put it into the error. *)
Theorem C99_convert a :
  wf a ->
  let n := words (len a) in
  takes (c_plain (c_try_to_bool a)) (plain (try_to_bool a)) (32 * n + 132) /\
  takes (c_plain (c_try_to_i8 a)) (plain (try_to_i8 a)) (32 * n + 132) /\
  takes (c_plain (c_try_to_u8 a)) (plain (try_to_u8 a)) (32 * n + 132) /\
  takes (c_plain (c_try_to_i16 a)) (plain (try_to_i16 a)) (32 * n + 132) /\
  takes (c_plain (c_try_to_u16 a)) (plain (try_to_u16 a)) (32 * n + 132) /\
  takes (c_plain (c_try_to_i32 a)) (plain (try_to_i32 a)) (32 * n + 132) /\
  takes (c_plain (c_try_to_u32 a)) (plain (try_to_u32 a)) (32 * n + 132) /\
  takes (c_plain (c_try_to_i64 a)) (plain (try_to_i64 a)) (32 * n + 132) /\
  takes (c_plain (c_try_to_u64 a)) (plain (try_to_u64 a)) (32 * n + 132) /\
  takes (c_plain (c_try_to_i128 a)) (plain (try_to_i128 a)) (32 * n + 132) /\
  takes (c_plain (c_try_to_u128 a)) (plain (try_to_u128 a)) (32 * n + 132).
Proof. exact (time_convert_fact a). Qed.
Print Assumptions C99_convert.
Example C99_convert_ex : fst (c_plain (c_try_to_u128 C99_b)) = 2 /\ snd (c_plain (c_try_to_u128 C99_b)) = Val (EOk (2^65 - 1)) /\
  fst (c_plain (c_try_to_u64 C99_a)) = 180 /\ fst (c_plain (c_try_to_i128 (mk_apint 200 [5; 7; 0; 0]))) = 4.
Proof. vm_compute. repeat split; reflexivity. Qed.

(** C99: the message of an error is never longer than this; the numbers it carries count with their binary length. *)
Theorem C99_message k :
  payload_ok k ->
  Z.of_nat (length (message_of k)) <= 160 + total (map (fun x => Z.log2 x + 1) (figures k)) + total (map (fun v => 30 * words (len v)) (integers k)).
Proof. exact (time_message_fact k). Qed.
Print Assumptions C99_message.
Example C99_message_ex : payload_ok (InvalidShiftAmount 300 200) /\ figures (InvalidShiftAmount 300 200) = [300; 200] /\
  List.length (message_of (InvalidShiftAmount 300 200)) = 90%nat /\ integers (DivisionByZero SignedRem C99_a) = [C99_a] /\
  List.length (message_of (DivisionByZero SignedRem C99_a)) = 192%nat.
Proof. vm_compute. repeat split; try reflexivity; discriminate. Qed.
