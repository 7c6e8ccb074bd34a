(** Property C84: machines with a small [usize].  [usize_bound], [binary_digits], [too_wide] and
    [readable] are in SpecUsize.v.  [M] is the number of values of a [usize], [checks] says
    whether the build checks arithmetic (a debug build).  The functions with [z_] are those of
    MUsize.v, where sizes that do not fit a [usize] panic in debug builds and wrap in release
    builds.  Those without are the functions that the other properties are about. *)
From Verif Require Import SpecUsize LUsize6 LEx.

(** C84: an integer of [w] bits can be made if [w] is at most [M - 64].  Above that every build panics,
    however many bits a [usize] could count: no integer wider than [M - 64] bits comes about. *)
Theorem C84_create M checks w :
  usize_bound M -> 0 < w < M ->
  z_zero M checks w = (if w <=? M - 64 then zero w else Stop (too_wide checks)) /\
  z_one M checks w = (if w <=? M - 64 then one w else Stop (too_wide checks)) /\
  z_all_set M checks w = (if w <=? M - 64 then all_set w else Stop (too_wide checks)) /\
  z_signed_min_value M checks w = (if w <=? M - 64 then signed_min_value w else Stop (too_wide checks)) /\
  z_signed_max_value M checks w = (if w <=? M - 64 then signed_max_value w else Stop (too_wide checks)).
Proof. exact (z_create M checks w). Qed.
Print Assumptions C84_create.
Example C84_create_ex : usize_bound (2 ^ 32) /\ usize_bound 256 /\
  z_all_set 256 true 192 = Val (mk_apint 192 [2 ^ 64 - 1; 2 ^ 64 - 1; 2 ^ 64 - 1]) /\
  z_all_set 256 true 193 = Trap /\ z_zero 256 false 193 = Panic.
Proof. split; [exists 32; lia|split; [exists 8; lia|vm_compute; auto]]. Qed.

(** C84: the same limit for random integers. *)
Theorem C84_random {S : Type} M checks (next : S -> Z * S) w s :
  usize_bound M -> 0 < w < M ->
  z_random_with_width_using M checks next w s =
  if w <=? M - 64 then random_with_width_using next w s else Stop (too_wide checks).
Proof. exact (z_random_eq M checks next  w s). Qed.
Print Assumptions C84_random.
Example C84_random_ex : usize_bound 256 /\
  z_random_with_width_using 256 true (fun s => (s, s + 1)) 100 7 = Val (mk_apint 100 [7; 8], 9) /\
  z_random_with_width_using 256 true (fun s => (s, s + 1)) 200 7 = Trap.
Proof. split; [exists 8; lia|vm_compute; auto]. Qed.

(** C84: the same limit for casts to other widths, which otherwise do what they do without a limit. *)
Theorem C84_cast M checks a t :
  usize_bound M -> wf a -> len a <= M - 64 -> 0 < t < M ->
  z_truncate M checks a t = truncate a t /\
  z_zero_extend M checks a t = (if t <=? M - 64 then zero_extend a t else Stop (too_wide checks)) /\
  z_sign_extend M checks a t = (if t <=? M - 64 then sign_extend a t else Stop (too_wide checks)) /\
  z_zero_resize M checks a t = (if t <=? M - 64 then zero_resize a t else Stop (too_wide checks)) /\
  z_sign_resize M checks a t = (if t <=? M - 64 then sign_resize a t else Stop (too_wide checks)) /\
  z_into_truncate M checks a t = into_truncate a t /\
  z_into_zero_extend M checks a t = (if t <=? M - 64 then into_zero_extend a t else Stop (too_wide checks)) /\
  z_into_sign_extend M checks a t = (if t <=? M - 64 then into_sign_extend a t else Stop (too_wide checks)).
Proof. exact (z_casts M checks a t). Qed.
Print Assumptions C84_cast.
Example C84_cast_ex : usize_bound 256 /\ wf f100 /\ len f100 <= 256 - 64 /\
  z_zero_extend 256 true f100 192 = Val (mk_apint 192 [2; 34359738368; 0], Ok tt) /\
  z_sign_extend 256 false f100 200 = Panic.
Proof. split; [exists 8; lia|split; [apply wf_f100|split; [cbn; lia|vm_compute; auto]]]. Qed.

(** C84: counting bits does the same on every machine: no count overflows. *)
Theorem C84_counts M checks a :
  usize_bound M -> wf a -> len a <= M - 64 ->
  z_count_ones M checks a = count_ones a /\ z_count_zeros M checks a = count_zeros a /\
  z_leading_zeros M checks a = leading_zeros a /\ z_trailing_zeros M checks a = trailing_zeros a.
Proof. exact (z_counts M checks a). Qed.
Print Assumptions C84_counts.
Example C84_counts_ex : usize_bound 256 /\ wf f192 /\ len f192 <= 256 - 64 /\
  z_count_ones 256 true f192 = Val 130 /\ z_trailing_zeros 256 true (mk_apint 192 [0; 0; 0]) = Val 192.
Proof. split; [exists 8; lia|split; [apply wf_f192|split; [cbn; lia|vm_compute; auto]]]. Qed.

(** C84: division does the same on every machine: none of its sizes overflows. *)
Theorem C84_divide M checks a b :
  usize_bound M -> wf a -> wf b -> len a <= M - 64 ->
  z_wrapping_udivrem_assign M checks a b = wrapping_udivrem_assign a b /\
  z_wrapping_uremdiv_assign M checks a b = wrapping_uremdiv_assign a b /\
  z_wrapping_udiv_assign M checks a b = wrapping_udiv_assign a b /\
  z_wrapping_urem_assign M checks a b = wrapping_urem_assign a b.
Proof. exact (z_divide M checks a b). Qed.
Print Assumptions C84_divide.
Example C84_divide_ex : usize_bound 256 /\ wf e192 /\ wf f192 /\ len e192 <= 256 - 64 /\
  z_wrapping_udivrem_assign 256 true e192 (mk_apint 192 [3; 1; 0]) =
    wrapping_udivrem_assign e192 (mk_apint 192 [3; 1; 0]) /\
  exists q r, z_wrapping_udivrem_assign 256 true e192 (mk_apint 192 [3; 1; 0]) = Val (q, r, Ok tt) /\
    unsigned q * (2 ^ 64 + 3) + unsigned r = unsigned e192 /\ unsigned r < 2 ^ 64 + 3.
Proof. split; [exists 8; lia|split; [apply wf_e192|split; [apply wf_f192|split; [cbn; lia|]]]].
  split; [vm_compute; reflexivity|]. eexists. eexists. split; [vm_compute; reflexivity|]. vm_compute. auto. Qed.

(** C84: so does signed division. *)
Theorem C84_divide_signed M checks a b :
  usize_bound M -> wf a -> wf b -> len a <= M - 64 ->
  z_wrapping_sdivrem_assign M checks a b = wrapping_sdivrem_assign a b /\
  z_wrapping_sremdiv_assign M checks a b = wrapping_sremdiv_assign a b /\
  z_wrapping_sdiv_assign M checks a b = wrapping_sdiv_assign a b /\
  z_wrapping_srem_assign M checks a b = wrapping_srem_assign a b.
Proof. exact (z_divide_signed M checks a b). Qed.
Print Assumptions C84_divide_signed.
Example C84_divide_signed_ex : usize_bound 256 /\ wf e192 /\ wf f192 /\ len e192 <= 256 - 64 /\
  z_wrapping_sdivrem_assign 256 true e192 (mk_apint 192 [3; 1; 0]) =
    wrapping_sdivrem_assign e192 (mk_apint 192 [3; 1; 0]) /\
  exists q r, z_wrapping_sdivrem_assign 256 true e192 (mk_apint 192 [3; 1; 0]) = Val (q, r, Ok tt) /\
    signed q * (2 ^ 64 + 3) + signed r = signed e192 /\ Z.abs (signed r) < 2 ^ 64 + 3.
Proof. split; [exists 8; lia|split; [apply wf_e192|split; [apply wf_f192|split; [cbn; lia|]]]].
  split; [vm_compute; reflexivity|]. eexists. eexists. split; [vm_compute; reflexivity|]. vm_compute. auto. Qed.

(** C84: multiplication does the same on every machine in release builds.  In debug builds it panics
    exactly if both factors need more than one digit and their numbers of binary digits sum to [M]
    or more. *)
Theorem C84_multiply_exact M checks a b :
  usize_bound M -> wf a -> wf b -> len a <= M - 64 ->
  z_wrapping_mul_assign M checks a b =
    if checks && (len a =? len b) && (2 ^ 64 <=? unsigned a) && (2 ^ 64 <=? unsigned b) &&
       (M <=? binary_digits (unsigned a) + binary_digits (unsigned b))
    then Trap else wrapping_mul_assign a b.
Proof. exact (z_multiply M checks a b). Qed.
Print Assumptions C84_multiply_exact.
Example C84_multiply_exact_ex : usize_bound 256 /\ wf e192 /\ wf f192 /\ len e192 <= 256 - 64 /\
  z_wrapping_mul_assign 256 true e192 f192 = Trap /\
  z_wrapping_mul_assign 256 false e192 f192 = wrapping_mul_assign e192 f192.
Proof. split; [exists 8; lia|split; [apply wf_e192|split; [apply wf_f192|split; [cbn; lia|]]]]. vm_compute. auto. Qed.

(** C84: so it does not do the same in debug builds, on any machine. *)
Theorem C84_multiply_refuted :
  forall M, usize_bound M ->
  exists a b, wf a /\ wf b /\ len a = len b /\ len a <= M - 64 /\
    z_wrapping_mul_assign M true a b = Trap /\
    z_wrapping_mul_assign M false a b = wrapping_mul_assign a b.
Proof. exact z_multiply_refuted. Qed.
Print Assumptions C84_multiply_refuted.
Example C84_multiply_refuted_ex : usize_bound (2 ^ 16) /\ usize_bound (2 ^ 64).
Proof. split; [exists 16|exists 64]; lia. Qed.

(** C84: what parsing does if the bits that the digits could fill exceed the limit, for texts whose
    doubled length fits a [usize].  [digits_in], [numeral] and [rounded_logarithm] are those of C80. *)
Theorem C84_parse M checks r s :
  usize_bound M -> 2 <= r <= 36 -> 2 * Z.of_nat (length s) < M ->
  (~ numeral r s -> z_from_str_radix M checks r s = from_str_radix r s) /\
  (numeral r s -> forall k, r = 2 ^ k ->
     z_from_str_radix M checks r s =
     if k * digits_in s <=? M - 64 - (if checks && ((k =? 3) || (k =? 5)) then 1 else 0)
     then from_str_radix r s else Stop (too_wide checks)) /\
  (numeral r s -> (forall k, r <> 2 ^ k) -> forall g, rounded_logarithm r g ->
     z_from_str_radix M checks r s =
     if g * (digits_in s + 1) <? M then from_str_radix r s else Panic).
Proof. exact (z_parse M checks r s). Qed.
Print Assumptions C84_parse.
Example C84_parse_ex : usize_bound 256 /\ numeral 16 [102; 102; 95; 48] /\ numeral 10 [57; 57] /\
  2 * Z.of_nat (length (repeat 49 120)) < 256 /\
  z_from_str_radix 256 true 16 [102; 102; 95; 48] = from_str_radix 16 [102; 102; 95; 48] /\
  z_from_str_radix 256 true 16 (repeat 49 48) = from_str_radix 16 (repeat 49 48) /\
  z_from_str_radix 256 true 16 (repeat 49 49) = Trap /\
  z_from_str_radix 256 false 16 (repeat 49 49) = Panic.
Proof.
  split; [exists 8; lia|]. split; [apply numeralb_iff; reflexivity|]. split; [apply numeralb_iff; reflexivity|].
  vm_compute. auto 6.
Qed.

(** C84: a document with a width and digits is read as if its width were the remainder by [M].  If
    that is not zero and the number of digits is the one for it, the integer of that width is
    made, or the same limit applies.  If not, it is refused.  Other documents are refused too. *)
Theorem C84_deserialize M checks human d :
  usize_bound M -> data_ok d ->
  (forall W ds, readable human d W ds ->
     let w := W mod M in
     if (0 <? w) && (Z.of_nat (List.length ds) =? (w + 63) / 64) then
       if w <=? M - 64
       then exists c, z_de_apint M checks human d = Val (DOk c) /\ is_apint c w (uval ds mod 2 ^ w)
       else z_de_apint M checks human d = Stop (too_wide checks)
     else z_de_apint M checks human d = Val (DErr EInvalidValue)) /\
  ((forall W ds, ~ readable human d W ds) ->
     (exists e, z_de_apint M checks human d = Val (DErr e)) \/
     (human = false /\ d = DSeq [] /\ z_de_apint M checks human d = Panic)).
Proof. exact (z_deserialize M checks human d). Qed.
Print Assumptions C84_deserialize.
Example C84_deserialize_ex : usize_bound (2 ^ 32) /\
  data_ok (DSeq [DU64 (2 ^ 32 + 65); DSeq [DU64 7; DU64 9]]) /\
  readable false (DSeq [DU64 (2 ^ 32 + 65); DSeq [DU64 7; DU64 9]]) (2 ^ 32 + 65) [7; 9] /\
  z_de_apint (2 ^ 32) true false (DSeq [DU64 (2 ^ 32 + 65); DSeq [DU64 7; DU64 9]]) = Val (DOk (mk_apint 65 [7; 1])).
Proof. split; [exists 32; lia|split; [cbn; lia|split; [exists []; reflexivity|vm_compute; reflexivity]]]. Qed.

(** C84: so reading does what it does without a limit to the document with its widths replaced by their
    remainders ([narrowed]), with the same integer or the same error, up to the limit on widths. *)
Theorem C84_deserialize_as M checks human d :
  usize_bound M -> data_ok d ->
  z_de_apint M checks human d =
  match de_apint human (narrowed M human d) with
  | Val (DOk c) => if len c <=? M - 64 then Val (DOk c) else Stop (too_wide checks)
  | r => r
  end.
Proof. exact (z_deserialize_as M checks human d). Qed.
Print Assumptions C84_deserialize_as.
Example C84_deserialize_as_ex : usize_bound 256 /\
  data_ok (DMap [(DStr "width", DSeq [DU64 256]); (DStr "digits", DSeq [DU64 255]); (DStr "width", DBad)]) /\
  z_de_apint 256 true true (DMap [(DStr "width", DSeq [DU64 256]); (DStr "width", DBad)]) = Val (DErr EInvalidValue) /\
  z_de_apint 256 true true (DMap [(DStr "width", DSeq [DU64 257]); (DStr "width", DBad)]) = Val (DErr (EDuplicateField "width")) /\
  z_de_apint 256 true false (DSeq [DU64 (256 + 200); DSeq (repeat (DU64 1) 4)]) = Trap /\
  de_apint false (narrowed 256 false (DSeq [DU64 (256 + 200); DSeq (repeat (DU64 1) 4)])) = Val (DOk (mk_apint 200 [1; 1; 1; 1])).
Proof. split; [exists 8; lia|split; [cbn; lia|vm_compute; auto 6]]. Qed.

(** C84: so on machines with a [usize] below 64 bits a document is accepted whose width does not match
    its digits, as an integer of another width than it states. *)
Theorem C84_deserialize_refuted :
  forall M checks human, usize_bound M -> M < 2 ^ 64 - 8 ->
  exists d c, data_ok d /\ readable human d (M + 8) [255] /\ z_de_apint M checks human d = Val (DOk c) /\
    is_apint c 8 255 /\ Z.of_nat (List.length [255]) <> (M + 8 + 63) / 64.
Proof. exact z_deserialize_refuted. Qed.
Print Assumptions C84_deserialize_refuted.
Example C84_deserialize_refuted_ex : usize_bound (2 ^ 32) /\ 2 ^ 32 < 2 ^ 64 - 8 /\
  z_de_apint (2 ^ 32) true true (DMap [(DStr "width", DSeq [DU64 (2 ^ 32 + 8)]); (DStr "digits", DSeq [DU64 255])]) =
    Val (DOk (mk_apint 8 [255])).
Proof. split; [exists 32; lia|split; [lia|vm_compute; reflexivity]]. Qed.
