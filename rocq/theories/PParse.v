(** Property C80: how much memory parsing asks for.  Sizes are in bytes.  The words used in
    the statements are defined in SpecParse.v, SpecTemp.v and SpecStr.v. *)
From Verif Require Import LParse LEx.

(** C80: parsing that counts its buffers gives the integers and the errors of parsing. *)
Theorem C80_same r s :
  2 <= r <= 36 -> Z.of_nat (length s) < 2 ^ 48 ->
  (let! (res, _) := t_from_str_radix r s in Val res) = from_str_radix r s.
Proof. exact (parse_same_fact r s). Qed.
Print Assumptions C80_same.
(** "1_000" in base ten: 5 bytes for the digits and one word for the value. *)
Example C80_same_ex : t_from_str_radix 10 [49; 95; 48; 48; 48] = Val (Ok (mk_apint 64 [1000]), [5; 8]%nat) /\
  from_str_radix 10 [49; 95; 48; 48; 48] = Val (Ok (mk_apint 64 [1000])).
Proof. vm_compute. split; reflexivity. Qed.

(** C80: a string that is accepted needs one byte for each of its bytes and, unless the radix is
    2, 4 or 16, words for the value: as many as the digits fill in radix 8 and 32, in every other radix
    one more than a logarithm times the number of digits (plus one) says; no buffer grows. *)
Theorem C80_accepted r s a l :
  2 <= r <= 36 -> Z.of_nat (length s) < 2 ^ 48 -> t_from_str_radix r s = Val (Ok a, l) -> parse_buffers r s l.
Proof. exact (parse_accepted_fact r s a l). Qed.
Print Assumptions C80_accepted.
(** Thirty digits in base ten: more than one word. *)
Example C80_accepted_ex : exists a, t_from_str_radix 10 (repeat 57 30) = Val (Ok a, [30; 16]%nat) /\
  parse_buffers 10 (repeat 57 30) [30; 16]%nat.
Proof.
  assert (E : exists a, t_from_str_radix 10 (repeat 57 30) = Val (Ok a, [30; 16]%nat)) by (eexists; vm_compute; reflexivity).
  destruct E as [a E]. exists a. split; [exact E|]. apply (C80_accepted 10 (repeat 57 30) a); [lia|reflexivity|exact E].
Qed.
Example C80_accepted_octal_ex : exists a, t_from_str_radix 8 (repeat 55 22) = Val (Ok a, [22; 16]%nat).
Proof. eexists. vm_compute. reflexivity. Qed.
Example C80_accepted_hex_ex : exists a, t_from_str_radix 16 (repeat 70 40) = Val (Ok a, [40]%nat).
Proof. eexists. vm_compute. reflexivity. Qed.

(** C80: the logarithm that the number of words is said to depend on is one number. *)
Theorem C80_logarithm r g h :
  rounded_logarithm r g -> rounded_logarithm r h -> 0 <= g -> 0 <= h -> g = h.
Proof. exact (logarithm_unique r g h). Qed.
Print Assumptions C80_logarithm.
(** 27214 / 8192 is a little more than the binary logarithm of ten. *)
Example C80_logarithm_ex : rounded_logarithm 10 27214.
Proof. destruct (table_spec 10) as (g & E & H & _); [lia|]. injection E as <-. exact H. Qed.

(** C80: a string that is rejected because it is empty or begins or ends with an underscore (95) needs no
    buffer, any other that is rejected one byte for each of its bytes. *)
Theorem C80_rejected r s e l :
  2 <= r <= 36 -> Z.of_nat (length s) < 2 ^ 48 -> t_from_str_radix r s = Val (Err e, l) ->
  (s = [] \/ hd 0 s = 95 \/ last s 0 = 95) /\ l = [] \/
  s <> [] /\ hd 0 s <> 95 /\ last s 0 <> 95 /\ l = [length s].
Proof. exact (parse_rejected_fact r s e l). Qed.
Print Assumptions C80_rejected.
Example C80_rejected_ex : exists e, t_from_str_radix 10 [49; 50; 97] = Val (Err e, [3]%nat).
Proof. eexists. vm_compute. reflexivity. Qed.
Example C80_rejected_early_ex : exists e, t_from_str_radix 10 [95; 50] = Val (Err e, []).
Proof. eexists. vm_compute. reflexivity. Qed.

(** C80: in any case there are at most two buffers, and together they are at most twice as long
    as the string and 9 bytes. *)
Theorem C80_total r s res l :
  2 <= r <= 36 -> Z.of_nat (length s) < 2 ^ 48 -> t_from_str_radix r s = Val (res, l) ->
  (length l <= 2)%nat /\ (bytes_of l <= 2 * length s + 9)%nat.
Proof. exact (parse_total_fact r s res l). Qed.
Print Assumptions C80_total.
Example C80_total_ex : exists res, t_from_str_radix 36 (repeat 90 12) = Val (res, [12; 16]%nat) /\ (bytes_of [12; 16] = 28)%nat.
Proof. eexists. split; vm_compute; reflexivity. Qed.

(** C80: the second buffer has room for the value of the string, however it is written. *)
Theorem C80_enough r s a n b :
  2 <= r <= 36 -> Z.of_nat (length s) < 2 ^ 48 -> numeral r s -> t_from_str_radix r s = Val (Ok a, [n; b]) ->
  string_value r s < 2 ^ (8 * Z.of_nat b).
Proof. exact (parse_enough_fact r s a n b). Qed.
Print Assumptions C80_enough.
(** Twenty digits in base ten need 67 bits: nines fill more than one word. *)
Example C80_enough_ex : exists a, t_from_str_radix 10 (repeat 57 20) = Val (Ok a, [20; 16]%nat) /\ numeral 10 (repeat 57 20) /\
  2 ^ (8 * 8) <= string_value 10 (repeat 57 20).
Proof.
  eexists. split; [vm_compute; reflexivity|]. split; [|vm_compute; discriminate].
  split; [discriminate|]. split; [discriminate|]. split; [discriminate|].
  apply Forall_forall. intros b I. right. exists 9. apply repeat_spec in I. subst b. split; [reflexivity|lia].
Qed.
