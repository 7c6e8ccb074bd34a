(** Properties C33-C37: parsing and formatting.  [numeral], [string_digits],
    [string_value] and [canonical_numeral] are in SpecStr.v; strings are lists
    of bytes. *)
From Verif Require Import LSerial3 LEx.

(** C33: radix 2, 4, 8, 16, 32. *)
Theorem C33_parse_power_of_two k s :
  1 <= k <= 5 -> numeral (2 ^ k) s ->
  exists c, from_str_radix (2 ^ k) s = Val (Ok c) /\
    is_apint c (64 * ((k * Z.of_nat (length (string_digits s)) + 63) / 64)) (string_value (2 ^ k) s).
Proof. exact (parse_pow2 k s). Qed.
Print Assumptions C33_parse_power_of_two.
(** "f_F" in base 16, "17" in base 8, and thirteen sevens straddling words. *)
Example C33_ex : numeral (2 ^ 4) [102; 95; 70] /\ string_value (2 ^ 4) [102; 95; 70] = 255 /\
  from_str_radix 16 [102; 95; 70] = Val (Ok (mk_apint 64 [255])) /\
  from_str_radix 8 (repeat 55 23) = Val (Ok (mk_apint 128 [2 ^ 64 - 1; 31])).
Proof. split; [apply numeralb_iff; reflexivity|]. vm_compute. auto. Qed.

(** C34: the part of the claim that is true for every radix: strings with so few
    digits that r to the power of their number does not exceed 2^64.  Missing:
    longer strings in radices that are not powers of two. *)
Theorem C34_parse_any_partial r s :
  2 <= r <= 36 -> numeral r s -> r ^ Z.of_nat (length (string_digits s)) <= 2 ^ 64 ->
  exists c, from_str_radix r s = Val (Ok c) /\ is_apint c 64 (string_value r s).
Proof. exact (parse_other_partial r s). Qed.
Print Assumptions C34_parse_any_partial.
Example C34_partial_ex : numeral 10 [49; 50; 51] /\ string_value 10 [49; 50; 51] = 123.
Proof. split; [apply numeralb_iff; reflexivity|reflexivity]. Qed.

(** C34 is false of the code: a decimal string of twenty digits is parsed to the
    wrong value. *)
Theorem C34_parse_any_refuted :
  exists s, numeral 10 s /\
  forall c, from_str_radix 10 s = Val (Ok c) -> unsigned c <> string_value 10 s.
Proof. exact parse_other_refuted. Qed.
Print Assumptions C34_parse_any_refuted.
Example C34_refuted_ex : from_str_radix 10 (49 :: repeat 48 19) = Val (Ok (mk_apint 128 [1; 0])).
Proof. vm_compute. reflexivity. Qed.

(** C34, what the code returns for radices that are not powers of two: only the
    leading block of digits counts. *)
Theorem C34_parse_any_exact r s :
  2 <= r <= 36 -> (forall k, r <> 2 ^ k) -> numeral r s ->
  let n := Z.of_nat (length (string_digits s)) in
  exists c p i, from_str_radix r s = Val (Ok c) /\
    0 < p /\ r ^ p <= 2 ^ 64 < r ^ (p + 1) /\ i = (n - 1) mod p + 1 /\
    is_apint c (if (n <=? p) || (radix_value r (firstn (Z.to_nat i) (string_digits s)) =? 0) then 64 else 128)
      (radix_value r (firstn (Z.to_nat i) (string_digits s))).
Proof. exact (parse_other r s). Qed.
Print Assumptions C34_parse_any_exact.
Example C34_exact_ex : numeral 10 (repeat 57 25) /\ forall k, 10 <> 2 ^ k.
Proof.
  split; [apply numeralb_iff; reflexivity|]. intros k.
  destruct (Z.lt_trichotomy k 0) as [K|[->|K]]; [rewrite Z.pow_neg_r by lia; lia|cbn; lia|].
  intros E. destruct (Z.le_gt_cases k 3).
  - assert (k = 1 \/ k = 2 \/ k = 3) as [->|[->| ->]] by lia; discriminate E.
  - assert (2 ^ 4 <= 2 ^ k) by (apply Z.pow_le_mono_r; lia). cbn in *. lia.
Qed.

(** C35: the parser accepts exactly the numerals, and reports all other strings. *)
Theorem C35_parse_decides r s :
  2 <= r <= 36 ->
  (numeral r s /\ exists c, from_str_radix r s = Val (Ok c) /\ wf c) \/
  (~ numeral r s /\ from_str_radix r s = Val (Err (InvalidStringRepr s r None))).
Proof. exact (parse_decide r s). Qed.
Print Assumptions C35_parse_decides.
Example C35_ex : from_str_radix 10 [95; 49] = Val (Err (InvalidStringRepr [95; 49] 10 None)) /\
  from_str_radix 10 [] = Val (Err (InvalidStringRepr [] 10 None)) /\
  from_str_radix 10 [49; 97] = Val (Err (InvalidStringRepr [49; 97] 10 None)) /\ ~ numeral 10 [49; 97].
Proof.
  do 3 (split; [vm_compute; reflexivity|]). intros H. apply numeralb_iff in H; discriminate H.
Qed.

(** C35: a radix is valid from 2 to 36; parsing with another one (through the
    conversion from u8) panics. *)
Theorem C35_radix_validity r s :
  0 <= r < 256 ->
  radix_new r = (if (2 <=? r) && (r <=? 36) then Ok r else Err (InvalidRadix r)) /\
  from_str_radix_u8 r s = (if (2 <=? r) && (r <=? 36) then from_str_radix r s else Panic).
Proof. exact (radix_fact r s). Qed.
Print Assumptions C35_radix_validity.
Example C35_radix_ex : radix_new 37 = Err (InvalidRadix 37) /\ radix_new 36 = Ok 36 /\ from_str_radix_u8 1 [48] = Panic.
Proof. vm_compute. auto. Qed.

(** C36: binary and hexadecimal formatting, and parsing the result back. *)
Theorem C36_format_round_trip a :
  wf a ->
  (exists s c, fmt_binary a = Val s /\ canonical_numeral 2 97 s /\ string_value 2 s = unsigned a /\
    from_str_radix 2 s = Val (Ok c) /\ unsigned c = unsigned a /\ zero_resize c (len a) = Val a) /\
  (exists s c, fmt_lower_hex a = Val s /\ canonical_numeral 16 97 s /\ string_value 16 s = unsigned a /\
    from_str_radix 16 s = Val (Ok c) /\ unsigned c = unsigned a /\ zero_resize c (len a) = Val a) /\
  (exists s c, fmt_upper_hex a = Val s /\ canonical_numeral 16 65 s /\ string_value 16 s = unsigned a /\
    from_str_radix 16 s = Val (Ok c) /\ unsigned c = unsigned a /\ zero_resize c (len a) = Val a).
Proof. exact (format_fact a). Qed.
Print Assumptions C36_format_round_trip.
Example C36_ex : wf f100 /\ fmt_lower_hex (mk_apint 100 [10; 255]) =
  Val [102;102;48;48;48;48;48;48;48;48;48;48;48;48;48;48;48;97].
Proof. split; [apply wf_f100|vm_compute; reflexivity]. Qed.

(** C36: there is only one canonical numeral for a value, so the theorem above
    determines the formatted string. *)
Theorem C36_canonical_unique r alpha s t :
  alpha = 97 \/ alpha = 65 -> 2 <= r <= 36 ->
  canonical_numeral r alpha s -> canonical_numeral r alpha t -> string_value r s = string_value r t -> s = t.
Proof. exact (canonical_unique r alpha s t). Qed.
Print Assumptions C36_canonical_unique.
Example C36_unique_ex : canonical_numeral 16 97 [102; 48] /\ string_value 16 [102; 48] = 240.
Proof.
  split; [|reflexivity]. split; [discriminate|]. split; [discriminate|].
  constructor; [right; lia|constructor; [left; lia|constructor]].
Qed.

(** C37 is false of the code: octal formatting and to_string_radix panic. *)
Theorem C37_format_total_refuted :
  exists a, wf a /\ (forall s, fmt_octal a <> Val s) /\ (forall r s, to_string_radix a r <> Val s).
Proof. exact octal_refuted. Qed.
Print Assumptions C37_format_total_refuted.
Example C37_refuted_ex : fmt_octal (mk_apint 8 [8]) = Panic /\ to_string_radix (mk_apint 8 [8]) 10 = Panic.
Proof. vm_compute. auto. Qed.

(** C37, what the code does: octal formatting returns only for zero, and
    to_string_radix never. *)
Theorem C37_format_total_exact a :
  wf a -> fmt_octal a = (if unsigned a =? 0 then Val [48] else Panic) /\
  forall r, to_string_radix a r = Panic.
Proof. exact (octal_fact a). Qed.
Print Assumptions C37_format_total_exact.
Example C37_exact_ex : wf z100 /\ unsigned z100 = 0 /\ wf e8.
Proof. split; [apply wf_z100|split; [reflexivity|apply wf_e8]]. Qed.
