(** Property C105: what someone learns about the values who watches only the memory and the branches of divisions.  MWatchDiv.v lists what is seen, as MWatch.v does for the other calls; [twins a a']
    (SpecWatch.v) says that [a] and [a'] are two integers of the same width, whatever their values. *)
From Verif Require Import LWatchDiv4 LEx.

(** C105: the calls watched are the calls: whatever they are given, they return what the definitions of the other files return. *)
Theorem C105_results a b :
  snd (w_wrapping_udivrem_assign a b) = wrapping_udivrem_assign a b /\ snd (w_wrapping_uremdiv_assign a b) = wrapping_uremdiv_assign a b /\
  snd (w_wrapping_udiv_assign a b) = wrapping_udiv_assign a b /\ snd (w_wrapping_urem_assign a b) = wrapping_urem_assign a b /\
  snd (w_wrapping_sdivrem_assign a b) = wrapping_sdivrem_assign a b /\ snd (w_wrapping_sremdiv_assign a b) = wrapping_sremdiv_assign a b /\
  snd (w_wrapping_sdiv_assign a b) = wrapping_sdiv_assign a b /\ snd (w_wrapping_srem_assign a b) = wrapping_srem_assign a b.
Proof. exact (watch_div_results_fact a b). Qed.
Print Assumptions C105_results.
Definition C105_a := mk_apint 192 [18446744073709551615; 0; 5].
Definition C105_a2 := mk_apint 192 [0; 7; 9223372036854775808].
Definition C105_s := mk_apint 192 [3; 0; 0].
Definition C105_m := mk_apint 192 [4294967296; 0; 0].
Definition C105_l := mk_apint 192 [3; 5; 0].
Definition C105_o := mk_apint 192 [0; 0; 0].
Example C105_results_ex : twins C105_a C105_a2 /\ twins C105_s C105_m /\
  w_wrapping_udivrem_assign C105_s C105_a = ([Branch true; Branch false; Read Other 2; Branch true; Read Self 2; Branch false; Read Self 1; Branch false; Read Self 0; Branch true;
    Branch true; Read Self 0; Write Other 0; Write Self 0; Read Self 1; Write Other 1; Write Self 1; Read Self 2; Write Other 2; Write Self 2; Branch true], Val (C105_o, C105_s, Ok tt)) /\
  snd (w_wrapping_sdivrem_assign C105_a2 C105_l) = wrapping_sdivrem_assign C105_a2 C105_l.
Proof. split; [split; [wf_now|split; [wf_now|reflexivity]]|]. split; [split; [wf_now|split; [wf_now|reflexivity]]|]. split; vm_compute; reflexivity. Qed.

(** C105: from a short division (one digit is enough for the divisor, or two for the dividend, or the dividend needs fewer digits than the divisor), exactly how many digits the divisor needs and, unless it is zero, how many the dividend needs and, if one digit is enough for the divisor only, whether it is below 2^32. *)
Theorem C105_short a a' b b' :
  twins a a' -> twins b b' -> short_division (unsigned a) (unsigned b) ->
  (fst (w_wrapping_udivrem_assign a b) = fst (w_wrapping_udivrem_assign a' b') <-> divisions_told a b a' b') /\
  (fst (w_wrapping_uremdiv_assign a b) = fst (w_wrapping_uremdiv_assign a' b') <-> divisions_told a b a' b') /\
  (fst (w_wrapping_udiv_assign a b) = fst (w_wrapping_udiv_assign a' b') <-> divisions_told a b a' b') /\
  (fst (w_wrapping_urem_assign a b) = fst (w_wrapping_urem_assign a' b') <-> divisions_told a b a' b').
Proof. exact (watch_div_short_fact a a' b b'). Qed.
Print Assumptions C105_short.
Example C105_short_ex : short_division (unsigned C105_a) (unsigned C105_s) /\
  fst (w_wrapping_udivrem_assign C105_a C105_s) = fst (w_wrapping_udivrem_assign C105_a2 C105_s) /\ fst (w_wrapping_udivrem_assign C105_a C105_s) <> fst (w_wrapping_udivrem_assign C105_a C105_m) /\
  fst (w_wrapping_urem_assign C105_a C105_s) <> fst (w_wrapping_urem_assign C105_a C105_o) /\ fst (w_wrapping_udiv_assign C105_a C105_s) <> fst (w_wrapping_udiv_assign C105_l C105_s) /\
  fst (w_wrapping_uremdiv_assign C105_s C105_a) = fst (w_wrapping_uremdiv_assign C105_m C105_a2) /\ fst (w_wrapping_uremdiv_assign C105_a C105_o) = fst (w_wrapping_uremdiv_assign C105_l C105_o).
Proof. split; [left; reflexivity|]. vm_compute. repeat split; discriminate. Qed.

(** C105: from any division of integers above 64 bits, short or long, at least that much. *)
Theorem C105_reveals a a' b b' :
  twins a a' -> twins b b' -> len a = len b -> 64 < len a ->
  fst (w_wrapping_udivrem_assign a b) = fst (w_wrapping_udivrem_assign a' b') \/
  fst (w_wrapping_uremdiv_assign a b) = fst (w_wrapping_uremdiv_assign a' b') \/
  fst (w_wrapping_udiv_assign a b) = fst (w_wrapping_udiv_assign a' b') \/
  fst (w_wrapping_urem_assign a b) = fst (w_wrapping_urem_assign a' b') ->
  divisions_agree (unsigned a) (unsigned b) (unsigned a') (unsigned b').
Proof. exact (watch_div_reveals_fact a a' b b'). Qed.
Print Assumptions C105_reveals.
Example C105_reveals_ex : twins C105_a C105_a2 /\ twins C105_l C105_l /\ ~ short_division (unsigned C105_a) (unsigned C105_l) /\
  fst (w_wrapping_udivrem_assign C105_a C105_l) = fst (w_wrapping_udivrem_assign C105_a C105_l) /\ fst (w_wrapping_udivrem_assign C105_a C105_l) <> fst (w_wrapping_udivrem_assign C105_s C105_l).
Proof.
  split; [split; [wf_now|split; [wf_now|reflexivity]]|]. split; [split; [wf_now|split; [wf_now|reflexivity]]|]. split; [|split; [reflexivity|vm_compute; discriminate]].
  intros [H|[H|(i & I & H1 & H2)]]; [vm_compute in H; discriminate H|vm_compute in H; discriminate H|].
  destruct (Z_lt_le_dec i 2) as [J|J]; [assert (2 ^ (64 * i) <= 2 ^ 64) by (apply Z.pow_le_mono_r; lia)|assert (2 ^ (64 * 2) <= 2 ^ (64 * i)) by (apply Z.pow_le_mono_r; lia)]; vm_compute (unsigned C105_a) in H1; vm_compute (unsigned C105_l) in H2; lia.
Qed.

(** C105: a long division reveals more: here two dividends have the same number of bits, as have the divisors, but the digits accessed differ. *)
Theorem C105_long_refuted :
  exists a a' b b', twins a a' /\ twins b b' /\ len a = len b /\ 64 < len a /\
  Z.log2 (unsigned a) = Z.log2 (unsigned a') /\ Z.log2 (unsigned b) = Z.log2 (unsigned b') /\
  divisions_agree (unsigned a) (unsigned b) (unsigned a') (unsigned b') /\
  fst (w_wrapping_udivrem_assign a b) <> fst (w_wrapping_udivrem_assign a' b') /\
  fst (w_wrapping_uremdiv_assign a b) <> fst (w_wrapping_uremdiv_assign a' b') /\
  fst (w_wrapping_udiv_assign a b) <> fst (w_wrapping_udiv_assign a' b') /\
  fst (w_wrapping_urem_assign a b) <> fst (w_wrapping_urem_assign a' b').
Proof. exact watch_div_long_fact. Qed.
Print Assumptions C105_long_refuted.
Example C105_long_ex : fst (w_wrapping_udiv_assign C105_a C105_l) <> fst (w_wrapping_udiv_assign C105_a2 C105_l).
Proof. vm_compute. discriminate. Qed.

(** C105: from a signed division at any width, whether the divisor is zero, how many of its lowest digits are zero and, unless it is zero, the signs of both operands. *)
Theorem C105_signed_reveals a a' b b' :
  twins a a' -> twins b b' ->
  fst (w_wrapping_sdivrem_assign a b) = fst (w_wrapping_sdivrem_assign a' b') \/
  fst (w_wrapping_sremdiv_assign a b) = fst (w_wrapping_sremdiv_assign a' b') \/
  fst (w_wrapping_sdiv_assign a b) = fst (w_wrapping_sdiv_assign a' b') \/
  fst (w_wrapping_srem_assign a b) = fst (w_wrapping_srem_assign a' b') ->
  signs_agree a b a' b' /\
  (64 < len b -> forall i, 0 <= i -> (unsigned b mod 2 ^ (64 * i) = 0 <-> unsigned b' mod 2 ^ (64 * i) = 0)).
Proof. exact (watch_sdiv_reveals_fact a a' b b'). Qed.
Print Assumptions C105_signed_reveals.
Definition C105_n := mk_apint 192 [0; 3; 9223372036854775808].
Example C105_signed_reveals_ex : twins C105_a C105_n /\ signed C105_n < 0 /\ 0 < signed C105_a /\ fst (w_wrapping_sdiv_assign C105_a C105_l) <> fst (w_wrapping_sdiv_assign C105_n C105_l) /\
  fst (w_wrapping_srem_assign C105_a C105_a) <> fst (w_wrapping_srem_assign C105_a C105_n) /\ fst (w_wrapping_sdivrem_assign C105_a C105_o) <> fst (w_wrapping_sdivrem_assign C105_a C105_s) /\
  fst (w_wrapping_sremdiv_assign C105_o C105_s) = fst (w_wrapping_sremdiv_assign C105_o (mk_apint 192 [9; 0; 0])).
Proof. split; [split; [wf_now|split; [wf_now|reflexivity]]|]. vm_compute. repeat split; discriminate. Qed.

(** C105: from a signed division of integers of at most 64 bits, exactly whether the divisor is zero and, if not, the signs. *)
Theorem C105_signed_small a a' b b' :
  twins a a' -> twins b b' -> len a <= 64 -> len b <= 64 ->
  (fst (w_wrapping_sdivrem_assign a b) = fst (w_wrapping_sdivrem_assign a' b') <-> signs_agree a b a' b') /\
  (fst (w_wrapping_sremdiv_assign a b) = fst (w_wrapping_sremdiv_assign a' b') <-> signs_agree a b a' b') /\
  (fst (w_wrapping_sdiv_assign a b) = fst (w_wrapping_sdiv_assign a' b') <-> signs_agree a b a' b') /\
  (fst (w_wrapping_srem_assign a b) = fst (w_wrapping_srem_assign a' b') <-> signs_agree a b a' b').
Proof. exact (watch_sdiv_small_fact a a' b b'). Qed.
Print Assumptions C105_signed_small.
Definition C105_p := mk_apint 32 [2147483648].
Definition C105_q := mk_apint 32 [4294967289].
Definition C105_r := mk_apint 32 [7].
Example C105_signed_small_ex : twins C105_p C105_q /\ fst (w_wrapping_sdivrem_assign C105_p C105_r) = fst (w_wrapping_sdivrem_assign C105_q C105_r) /\
  fst (w_wrapping_sdivrem_assign C105_p C105_r) <> fst (w_wrapping_sdivrem_assign C105_r C105_r) /\ fst (w_wrapping_sdiv_assign C105_p C105_q) <> fst (w_wrapping_sdiv_assign C105_p C105_r) /\
  snd (w_wrapping_srem_assign C105_q C105_r) = Val (mk_apint 32 [0], Ok tt).
Proof. split; [split; [wf_now|split; [wf_now|reflexivity]]|]. vm_compute. repeat split; discriminate. Qed.
