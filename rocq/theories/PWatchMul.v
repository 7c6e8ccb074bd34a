(** Property C103: what someone learns about the values who watches only the memory and the branches of multiplications and signed comparisons.  MWatchMul.v lists what is seen, as MWatch.v
    does for the other calls; [twins a a'] (SpecWatch.v) says that [a] and [a'] are two integers of the same width, whatever their values. *)
From Verif Require Import LWatchMul3 LEx.

(** C103: the calls watched are the calls: whatever they are given, they return what the definitions of the other files return. *)
Theorem C103_results a b p ds :
  snd (w_wrapping_mul_assign a b) = wrapping_mul_assign a b /\ snd (w_checked_slt a b) = checked_slt a b /\ snd (w_rposition p ds (List.length ds)) = Val (rposition_nonzero ds).
Proof. exact (watch_mul_results_fact a b p ds). Qed.
Print Assumptions C103_results.
Definition C103_x := mk_apint 192 [18446744073709551615; 0; 5].
Definition C103_y := mk_apint 192 [7; 18446744073709551615; 9].
Definition C103_z := mk_apint 192 [0; 0; 9223372036854775808].
Definition C103_s := mk_apint 192 [3; 5; 0].
Definition C103_t := mk_apint 192 [3; 0; 0].
Definition C103_o := mk_apint 192 [0; 0; 0].
Example C103_results_ex : twins C103_x C103_y /\ twins C103_s C103_t /\
  w_wrapping_mul_assign C103_t C103_s = ([Branch true; Branch false; Read Other 2; Branch false; Read Other 1; Branch true; Read Self 2; Branch false; Read Self 1; Branch false; Read Self 0; Branch true;
    Branch true; Branch false; Read Self 0; Read Other 0; Write Self 0; Branch false; Read Other 1; Write Self 1; Write Self 2; Branch false], Val (mk_apint 192 [9; 15; 0], Ok tt)) /\
  w_checked_slt C103_z C103_x = ([Branch true; Branch false; Branch false; Read Self 2; Branch false; Read Other 2; Branch true; Branch false], Val (Ok true)).
Proof. split; [split; [wf_now|split; [wf_now|reflexivity]]|]. split; [split; [wf_now|split; [wf_now|reflexivity]]|]. split; vm_compute; reflexivity. Qed.

(** C103: from a product, exactly how many digits its second factor needs; unless it is zero, how many its first factor needs; and, if both need more than one digit, whether the numbers of their bits add up to more than all digits have.  ([products_agree], SpecWatchMul.v.)  One-digit factors and factors of different widths reveal nothing. *)
Theorem C103_mul a a' b b' :
  twins a a' -> twins b b' ->
  (fst (w_wrapping_mul_assign a b) = fst (w_wrapping_mul_assign a' b') <->
   len a <> len b \/ len a <= 64 \/ products_agree ((len a + 63) / 64) (unsigned a) (unsigned b) (unsigned a') (unsigned b')).
Proof. exact (watch_mul_fact a a' b b'). Qed.
Print Assumptions C103_mul.
Definition C103_s2 := mk_apint 192 [0; 9223372036854775808; 0].
Example C103_mul_ex : twins C103_s C103_s2 /\
  fst (w_wrapping_mul_assign C103_x C103_y) = fst (w_wrapping_mul_assign C103_z C103_z) /\ fst (w_wrapping_mul_assign C103_s C103_s) <> fst (w_wrapping_mul_assign C103_s2 C103_s2) /\
  fst (w_wrapping_mul_assign C103_s C103_o) = fst (w_wrapping_mul_assign C103_x C103_o) /\ fst (w_wrapping_mul_assign C103_o C103_s) <> fst (w_wrapping_mul_assign C103_o C103_x) /\
  fst (w_wrapping_mul_assign C103_s C103_t) <> fst (w_wrapping_mul_assign C103_x C103_t).
Proof. split; [split; [wf_now|split; [wf_now|reflexivity]]|]. vm_compute. repeat split; discriminate. Qed.

(** C103: in particular, products of integers whose top bits are set reveal nothing. *)
Theorem C103_mul_full a a' b b' :
  twins a a' -> twins b b' -> signed a < 0 -> signed a' < 0 -> signed b < 0 -> signed b' < 0 ->
  fst (w_wrapping_mul_assign a b) = fst (w_wrapping_mul_assign a' b').
Proof. exact (watch_mul_full_fact a a' b b'). Qed.
Print Assumptions C103_mul_full.
Definition C103_u := mk_apint 192 [1; 2; 18446744073709551615].
Example C103_mul_full_ex : twins C103_z C103_u /\ signed C103_z < 0 /\ signed C103_u < 0 /\ fst (w_wrapping_mul_assign C103_z C103_u) = fst (w_wrapping_mul_assign C103_u C103_u) /\
  snd (w_wrapping_mul_assign C103_u C103_u) = Val (mk_apint 192 [1; 4; 2], Ok tt).
Proof. split; [split; [wf_now|split; [wf_now|reflexivity]]|]. vm_compute. repeat split; reflexivity. Qed.

(** C103: from asking which of two integers is less as signed integers, exactly their signs and, where these agree, how many of their highest digits agree and the answer. *)
Theorem C103_slt a a' b b' :
  twins a a' -> twins b b' ->
  (fst (w_checked_slt a b) = fst (w_checked_slt a' b') <->
   len a <> len b \/ len a <= 64 \/
   (signed a < 0 <-> signed a' < 0) /\ (signed b < 0 <-> signed b' < 0) /\
   ((signed a < 0 <-> signed b < 0) ->
    (forall i, 0 <= i -> (unsigned a / 2 ^ (64 * i) = unsigned b / 2 ^ (64 * i) <-> unsigned a' / 2 ^ (64 * i) = unsigned b' / 2 ^ (64 * i))) /\
    (unsigned a < unsigned b <-> unsigned a' < unsigned b'))).
Proof. exact (watch_slt_fact a a' b b'). Qed.
Print Assumptions C103_slt.
Example C103_slt_ex : fst (w_checked_slt C103_x C103_y) = fst (w_checked_slt C103_s C103_y) /\ fst (w_checked_slt C103_x C103_y) <> fst (w_checked_slt C103_y C103_x) /\
  fst (w_checked_slt C103_z C103_y) = fst (w_checked_slt C103_u C103_x) /\ fst (w_checked_slt C103_z C103_z) <> fst (w_checked_slt C103_z C103_u) /\
  fst (w_checked_slt C103_s C103_t) <> fst (w_checked_slt C103_x C103_t) /\ snd (w_checked_slt C103_u C103_s) = Val (Ok true).
Proof. vm_compute. repeat split; discriminate. Qed.
