(** Property C102: what someone learns about the values who watches only the memory and the branches.  MWatch.v lists, for each call, which digit of which operand is read or written, which
    way each branch goes and how many digits are allocated.  [fst] of such a call is that list and [snd] its result.  [twins a a'] (SpecWatch.v) says that [a] and [a'] are two integers of
    the same width, whatever their values. *)
From Verif Require Import LWatchFacts LEx.

(** C102: the calls watched are the calls: whatever they are given, they return what the definitions of the other files return. *)
Theorem C102_results a b p s t ty f n ds :
  snd (w_access_data p a) = access_data a /\ snd (w_zip_access_data a b) = zip_access_data a b /\ snd (w_modify_digits f a) = modify_digits f a /\
  snd (w_msb a) = msb a /\ snd (w_lsb a) = lsb a /\ snd (w_is_zero a) = is_zero a /\ snd (w_is_even a) = is_even a /\ snd (w_is_odd a) = is_odd a /\
  snd (w_clear_unused_bits p a) = clear_unused_bits a /\ snd (w_hash_feed a) = Val (hash_feed a) /\
  snd (w_wrapping_inc a) = wrapping_inc a /\ snd (w_wrapping_dec a) = wrapping_dec a /\ snd (w_wrapping_neg a) = wrapping_neg a /\
  snd (w_wrapping_add_assign a b) = wrapping_add_assign a b /\ snd (w_wrapping_sub_assign a b) = wrapping_sub_assign a b /\
  snd (w_bitnot a) = bitnot a /\ snd (w_bitand_assign a b) = bitand_assign a b /\ snd (w_bitor_assign a b) = bitor_assign a b /\ snd (w_bitxor_assign a b) = bitxor_assign a b /\
  snd (w_get_bit_at a s) = get_bit_at a s /\ snd (w_set_bit_at a s) = set_bit_at a s /\ snd (w_unset_bit_at a s) = unset_bit_at a s /\ snd (w_flip_bit_at a s) = flip_bit_at a s /\
  snd (w_set_all a) = set_all a /\ snd (w_unset_all a) = unset_all a /\ snd (w_flip_all a) = flip_all a /\
  snd (w_count_ones a) = count_ones a /\ snd (w_count_zeros a) = count_zeros a /\ snd (w_leading_zeros a) = leading_zeros a /\ snd (w_trailing_zeros a) = trailing_zeros a /\
  snd (w_wrapping_shl_assign a s) = wrapping_shl_assign a s /\ snd (w_wrapping_lshr_assign a s) = wrapping_lshr_assign a s /\ snd (w_wrapping_ashr_assign a s) = wrapping_ashr_assign a s /\
  snd (w_apint_eqb a b) = Val (apint_eqb a b) /\ snd (w_checked_ult a b) = checked_ult a b /\
  snd (w_clone p a) = clone a /\ snd (w_assign a b) = assign a b /\ snd (w_strict_assign a b) = strict_assign a b /\ snd (w_from_iter p n ds) = from_iter ds /\
  snd (w_truncate p a t) = truncate a t /\ snd (w_zero_extend a t) = zero_extend a t /\ snd (w_sign_extend a t) = sign_extend a t /\
  snd (w_zero_resize a t) = zero_resize a t /\ snd (w_sign_resize a t) = sign_resize a t /\
  snd (w_resize_to_primitive_ty a ty) = resize_to_primitive_ty a ty /\ snd (w_resize_to_bool a) = resize_to_bool a /\
  snd (w_resize_to_i128 a) = resize_to_i128 a /\ snd (w_resize_to_u128 a) = resize_to_u128 a.
Proof. exact (watch_results_fact a b p s t ty f n ds). Qed.
Print Assumptions C102_results.
Definition C102_x := mk_apint 192 [18446744073709551615; 0; 5].
Definition C102_y := mk_apint 192 [7; 18446744073709551615; 9].
Definition C102_z := mk_apint 192 [0; 0; 9223372036854775808].
Example C102_results_ex : twins C102_x C102_y /\ twins C102_x C102_z /\
  w_wrapping_inc C102_x = ([Branch false; Read Self 0; Branch true; Write Self 0; Read Self 1; Branch false; Write Self 1; Branch false], Val (mk_apint 192 [0; 1; 5])) /\
  w_apint_eqb C102_x C102_y = ([Branch false; Read Self 0; Read Other 0; Branch false], Val false).
Proof. split; [split; [wf_now|split; [wf_now|reflexivity]]|]. split; [split; [wf_now|split; [wf_now|reflexivity]]|]. split; vm_compute; reflexivity. Qed.

(** C102: nothing is learnt from negating the bits, setting, unsetting and flipping one bit or all of them, shifting to the left and logically to the right, cloning, truncating, and zero-extending, failing calls included. *)
Theorem C102_one a a' p s t :
  twins a a' ->
  fst (w_bitnot a) = fst (w_bitnot a') /\ fst (w_set_all a) = fst (w_set_all a') /\ fst (w_unset_all a) = fst (w_unset_all a') /\ fst (w_flip_all a) = fst (w_flip_all a') /\
  fst (w_get_bit_at a s) = fst (w_get_bit_at a' s) /\ fst (w_set_bit_at a s) = fst (w_set_bit_at a' s) /\
  fst (w_unset_bit_at a s) = fst (w_unset_bit_at a' s) /\ fst (w_flip_bit_at a s) = fst (w_flip_bit_at a' s) /\
  fst (w_wrapping_shl_assign a s) = fst (w_wrapping_shl_assign a' s) /\ fst (w_wrapping_lshr_assign a s) = fst (w_wrapping_lshr_assign a' s) /\
  fst (w_clone p a) = fst (w_clone p a') /\ fst (w_truncate p a t) = fst (w_truncate p a' t) /\
  fst (w_zero_extend a t) = fst (w_zero_extend a' t) /\ fst (w_zero_resize a t) = fst (w_zero_resize a' t).
Proof. exact (watch_one_fact a a' p s t). Qed.
Print Assumptions C102_one.
Example C102_one_ex : fst (w_wrapping_shl_assign C102_x 64) = [Branch true; Branch false; Branch false; Read Self 0; Write Self 1; Read Self 1; Write Self 2; Write Self 0; Branch false; Branch false] /\
  fst (w_wrapping_shl_assign C102_z 64) = fst (w_wrapping_shl_assign C102_x 64) /\ fst (w_wrapping_shl_assign C102_x 128) <> fst (w_wrapping_shl_assign C102_x 64).
Proof. vm_compute. repeat split; discriminate. Qed.

(** C102: nor from asking for one bit, for the sign, for parity, for the number of set or unset bits, for the bytes to be hashed, or for a primitive integer of any type, truncated. *)
Theorem C102_ask a a' s ty :
  twins a a' ->
  fst (w_get_bit_at a s) = fst (w_get_bit_at a' s) /\ fst (w_msb a) = fst (w_msb a') /\ fst (w_lsb a) = fst (w_lsb a') /\
  fst (w_is_even a) = fst (w_is_even a') /\ fst (w_is_odd a) = fst (w_is_odd a') /\
  fst (w_count_ones a) = fst (w_count_ones a') /\ fst (w_count_zeros a) = fst (w_count_zeros a') /\ fst (w_hash_feed a) = fst (w_hash_feed a') /\
  fst (w_resize_to_primitive_ty a ty) = fst (w_resize_to_primitive_ty a' ty) /\ fst (w_resize_to_bool a) = fst (w_resize_to_bool a') /\
  fst (w_resize_to_i128 a) = fst (w_resize_to_i128 a') /\ fst (w_resize_to_u128 a) = fst (w_resize_to_u128 a').
Proof. exact (watch_ask_fact a a' s ty). Qed.
Print Assumptions C102_ask.
Example C102_ask_ex : fst (w_count_zeros C102_z) = [Read Self 0; Read Self 1; Read Self 2] /\ snd (w_count_zeros C102_z) = Val 191 /\ snd (w_count_zeros C102_y) = Val 123 /\
  fst (w_count_zeros C102_y) = fst (w_count_zeros C102_z) /\ fst (w_get_bit_at C102_z 191) = fst (w_get_bit_at C102_x 191) /\ fst (w_get_bit_at C102_z 191) <> fst (w_get_bit_at C102_z 192).
Proof. vm_compute. repeat split; discriminate. Qed.

(** C102: nor from adding and subtracting, from the bitwise operations of two integers, and from assigning one to another, whether the widths of the two agree or not. *)
Theorem C102_two a a' b b' :
  twins a a' -> twins b b' ->
  fst (w_wrapping_add_assign a b) = fst (w_wrapping_add_assign a' b') /\ fst (w_wrapping_sub_assign a b) = fst (w_wrapping_sub_assign a' b') /\
  fst (w_bitand_assign a b) = fst (w_bitand_assign a' b') /\ fst (w_bitor_assign a b) = fst (w_bitor_assign a' b') /\ fst (w_bitxor_assign a b) = fst (w_bitxor_assign a' b') /\
  fst (w_assign a b) = fst (w_assign a' b') /\ fst (w_strict_assign a b) = fst (w_strict_assign a' b').
Proof. exact (watch_two_fact a a' b b'). Qed.
Print Assumptions C102_two.
Definition C102_v := mk_apint 100 [18446744073709551615; 3].
Definition C102_w := mk_apint 100 [1; 0].
Example C102_two_ex : twins C102_v C102_w /\
  fst (w_wrapping_add_assign C102_v C102_w) = [Branch true; Branch false; Read Self 0; Read Other 0; Write Self 0; Read Self 1; Read Other 1; Write Self 1; Branch true; Branch false; Read Self 1; Write Self 1] /\
  fst (w_wrapping_add_assign C102_w C102_w) = fst (w_wrapping_add_assign C102_v C102_w) /\ fst (w_wrapping_add_assign C102_v C102_x) = [Branch false].
Proof. split; [split; [wf_now|split; [wf_now|reflexivity]]|]. vm_compute. repeat split; reflexivity. Qed.

(** C102: from adding one, exactly how many of the lowest digits of 64 bits have all their bits set.  One-digit integers reveal nothing. *)
Theorem C102_inc a a' :
  twins a a' ->
  (fst (w_wrapping_inc a) = fst (w_wrapping_inc a') <->
   len a <= 64 \/ forall i, 0 <= i -> (unsigned a mod 2 ^ (64 * i) = 2 ^ (64 * i) - 1 <-> unsigned a' mod 2 ^ (64 * i) = 2 ^ (64 * i) - 1)).
Proof. exact (watch_inc_fact a a'). Qed.
Print Assumptions C102_inc.
Example C102_inc_ex : fst (w_wrapping_inc C102_y) = [Branch false; Read Self 0; Branch false; Write Self 0; Branch false] /\ fst (w_wrapping_inc C102_y) = fst (w_wrapping_inc C102_z) /\
  fst (w_wrapping_inc C102_x) <> fst (w_wrapping_inc C102_y) /\ unsigned C102_x mod 2 ^ 64 = 2 ^ 64 - 1 /\ unsigned C102_y mod 2 ^ 64 <> 2 ^ 64 - 1.
Proof. vm_compute. repeat split; discriminate. Qed.

(** C102: from subtracting one, exactly how many of the lowest digits are zero. *)
Theorem C102_dec a a' :
  twins a a' ->
  (fst (w_wrapping_dec a) = fst (w_wrapping_dec a') <->
   len a <= 64 \/ forall i, 0 <= i -> (unsigned a mod 2 ^ (64 * i) = 0 <-> unsigned a' mod 2 ^ (64 * i) = 0)).
Proof. exact (watch_dec_fact a a'). Qed.
Print Assumptions C102_dec.
Example C102_dec_ex : fst (w_wrapping_dec C102_y) = fst (w_wrapping_dec C102_x) /\ fst (w_wrapping_dec C102_z) =
  [Branch false; Read Self 0; Branch true; Write Self 0; Read Self 1; Branch true; Write Self 1; Read Self 2; Branch false; Write Self 2; Branch false] /\
  fst (w_wrapping_dec C102_z) <> fst (w_wrapping_dec C102_x) /\ unsigned C102_z mod 2 ^ 128 = 0 /\ unsigned C102_x mod 2 ^ 128 <> 0.
Proof. vm_compute. repeat split; discriminate. Qed.

(** C102: from negating, exactly how many of the lowest digits are zero, where the top digit counts only if all its bits are used. *)
Theorem C102_neg a a' :
  twins a a' ->
  (fst (w_wrapping_neg a) = fst (w_wrapping_neg a') <->
   len a <= 64 \/ forall i, 0 <= i -> 64 * i <= len a -> (unsigned a mod 2 ^ (64 * i) = 0 <-> unsigned a' mod 2 ^ (64 * i) = 0)).
Proof. exact (watch_neg_fact a a'). Qed.
Print Assumptions C102_neg.
Example C102_neg_ex : fst (w_wrapping_neg C102_y) = fst (w_wrapping_neg C102_x) /\ fst (w_wrapping_neg C102_z) <> fst (w_wrapping_neg C102_x) /\
  fst (w_wrapping_neg (mk_apint 100 [0; 0])) = fst (w_wrapping_neg (mk_apint 100 [0; 7])) /\ fst (w_wrapping_neg (mk_apint 128 [0; 0])) <> fst (w_wrapping_neg (mk_apint 128 [0; 7])).
Proof. vm_compute. repeat split; discriminate. Qed.

(** C102: from asking whether an integer is zero and for its trailing zeros, exactly how many of the lowest digits are zero; from asking for its leading zeros, exactly how many of the highest. *)
Theorem C102_zeros a a' :
  twins a a' ->
  (fst (w_is_zero a) = fst (w_is_zero a') <->
   len a <= 64 \/ forall i, 0 <= i -> (unsigned a mod 2 ^ (64 * i) = 0 <-> unsigned a' mod 2 ^ (64 * i) = 0)) /\
  (fst (w_trailing_zeros a) = fst (w_trailing_zeros a') <->
   forall i, 0 <= i -> (unsigned a mod 2 ^ (64 * i) = 0 <-> unsigned a' mod 2 ^ (64 * i) = 0)) /\
  (fst (w_leading_zeros a) = fst (w_leading_zeros a') <->
   forall i, 0 <= i -> (unsigned a / 2 ^ (64 * i) = 0 <-> unsigned a' / 2 ^ (64 * i) = 0)).
Proof. exact (watch_zeros_fact a a'). Qed.
Print Assumptions C102_zeros.
Example C102_zeros_ex : fst (w_is_zero C102_z) = [Branch false; Read Self 0; Branch true; Read Self 1; Branch true; Read Self 2; Branch false] /\ fst (w_is_zero C102_x) = [Branch false; Read Self 0; Branch false] /\
  fst (w_trailing_zeros C102_x) = fst (w_trailing_zeros C102_y) /\ fst (w_trailing_zeros C102_x) <> fst (w_trailing_zeros C102_z) /\
  fst (w_leading_zeros C102_x) = [Read Self 2; Branch true] /\ fst (w_leading_zeros C102_z) = fst (w_leading_zeros C102_x) /\ fst (w_leading_zeros (mk_apint 192 [1; 1; 0])) <> fst (w_leading_zeros C102_x).
Proof. vm_compute. repeat split; discriminate. Qed.

(** C102: from comparing two integers for equality, exactly how many of their lowest digits agree; from asking which is less, exactly how many of their highest digits agree and the answer. *)
Theorem C102_compare a a' b b' :
  twins a a' -> twins b b' ->
  (fst (w_apint_eqb a b) = fst (w_apint_eqb a' b') <->
   len a <> len b \/
   forall i, 0 <= i -> (unsigned a mod 2 ^ (64 * i) = unsigned b mod 2 ^ (64 * i) <-> unsigned a' mod 2 ^ (64 * i) = unsigned b' mod 2 ^ (64 * i))) /\
  (fst (w_checked_ult a b) = fst (w_checked_ult a' b') <->
   len a <> len b \/ len a <= 64 \/
   (forall i, 0 <= i -> (unsigned a / 2 ^ (64 * i) = unsigned b / 2 ^ (64 * i) <-> unsigned a' / 2 ^ (64 * i) = unsigned b' / 2 ^ (64 * i))) /\
   (unsigned a < unsigned b <-> unsigned a' < unsigned b')).
Proof. exact (watch_compare_fact a a' b b'). Qed.
Print Assumptions C102_compare.
Example C102_compare_ex : fst (w_apint_eqb C102_x C102_y) = fst (w_apint_eqb C102_z C102_y) /\ fst (w_apint_eqb C102_x (mk_apint 192 [18446744073709551615; 1; 1])) <> fst (w_apint_eqb C102_x C102_y) /\
  fst (w_checked_ult C102_x C102_y) = [Branch true; Branch false; Read Self 2; Read Other 2; Branch true] /\ fst (w_checked_ult C102_y C102_x) = [Branch true; Branch false; Read Self 2; Read Other 2; Branch false; Branch true] /\
  fst (w_checked_ult C102_z C102_x) = fst (w_checked_ult C102_y C102_x) /\ fst (w_checked_ult C102_v C102_x) = [Branch false].
Proof. vm_compute. repeat split; discriminate. Qed.

(** C102: from shifting arithmetically to the right and from sign-extending, exactly the sign. *)
Theorem C102_sign a a' s t :
  twins a a' ->
  (fst (w_wrapping_ashr_assign a s) = fst (w_wrapping_ashr_assign a' s) <-> (signed a < 0 <-> signed a' < 0)) /\
  (fst (w_sign_extend a t) = fst (w_sign_extend a' t) <-> t <= len a \/ (signed a < 0 <-> signed a' < 0)) /\
  (fst (w_sign_resize a t) = fst (w_sign_resize a' t) <-> t <= len a \/ (signed a < 0 <-> signed a' < 0)).
Proof. exact (watch_sign_fact a a' s t). Qed.
Print Assumptions C102_sign.
Example C102_sign_ex : fst (w_wrapping_ashr_assign C102_x 64) = fst (w_wrapping_ashr_assign C102_y 64) /\ fst (w_wrapping_ashr_assign C102_x 64) <> fst (w_wrapping_ashr_assign C102_z 64) /\
  fst (w_sign_extend C102_x 200) = fst (w_sign_extend C102_y 200) /\ fst (w_sign_extend C102_x 200) <> fst (w_sign_extend C102_z 200) /\ fst (w_sign_resize C102_x 100) = fst (w_sign_resize C102_z 100).
Proof. vm_compute. repeat split; discriminate. Qed.

(** C102: programs of any calls from which nothing is learnt, in any order, reveal nothing: run on other integers of the same widths they touch the same digits in the same order, take the same branches and stop in the same way, and leave integers of the same widths. *)
Theorem C102_programs p vs vs' :
  Forall2 twins vs vs' -> Forall call_ok p ->
  fst (w_run vs p) = fst (w_run vs' p) /\
  (forall ws, snd (w_run vs p) = Val ws -> exists ws', snd (w_run vs' p) = Val ws' /\ Forall2 twins ws ws') /\
  (forall b, snd (w_run vs p) = Stop b -> snd (w_run vs' p) = Stop b).
Proof. exact (watch_programs_fact p vs vs'). Qed.
Print Assumptions C102_programs.
Definition C102_p : list still_call :=
  [SClone 0; SMut SNot 0; SBin SAdd 0 1; SMut (SShl 70) 1; SBin SXor 1 0; SMut (STruncate 100) 1; SBin SSub 0 1; SAsk SCountOnes 0; SAssign 0 1; SMut (SSetBit 100) 0; SBin SAdd 0 1; SAsk (SResizeTo PI128) 0].
Example C102_programs_ex : Forall2 twins [C102_x] [C102_z] /\ Forall call_ok C102_p /\ snd (w_run [C102_x] C102_p) = Val [mk_apint 100 [18446744073709551614; 127]; mk_apint 100 [18446744073709551615; 63]] /\
  snd (w_run [C102_z] C102_p) = Val [mk_apint 100 [18446744073709551614; 68719476735]; mk_apint 100 [18446744073709551615; 68719476735]] /\ List.length (fst (w_run [C102_x] C102_p)) = 98%nat.
Proof. split; [constructor; [split; [wf_now|split; [wf_now|reflexivity]]|constructor]|]. split; [repeat (constructor; [try exact I; cbn; try discriminate; try reflexivity|]); constructor|]. vm_compute. repeat split; reflexivity. Qed.
