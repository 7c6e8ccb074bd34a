(** C102. *)
From Verif Require Export LWatchProgram.
From Coq Require Import Lia ZArith.

Lemma watch_results_fact a b p s t ty f n ds :
  snd (w_access_data p a) = access_data a /\ snd (w_zip_access_data a b) = zip_access_data a b /\ snd (w_modify_digits f a) = modify_digits f a /\
  snd (w_msb a) = msb a /\ snd (w_lsb a) = lsb a /\ snd (w_is_zero a) = is_zero a /\ snd (w_is_even a) = is_even a /\ snd (w_is_odd a) = is_odd a /\
  snd (w_clear_unused_bits p a) = clear_unused_bits a /\ snd (w_hash_feed a) = Val (hash_feed a) /\
  snd (w_wrapping_inc a) = wrapping_inc a /\ snd (w_wrapping_dec a) = wrapping_dec a /\ snd (w_wrapping_neg a) = wrapping_neg a /\
  snd (w_wrapping_add_assign a b) = wrapping_add_assign a b /\ snd (w_wrapping_sub_assign a b) = wrapping_sub_assign a b /\
  snd (w_bitnot a) = bitnot a /\ snd (w_bitand_assign a b) = bitand_assign a b /\ snd (w_bitor_assign a b) = bitor_assign a b /\ snd (w_bitxor_assign a b) = bitxor_assign a b /\
  snd (w_get_bit_at a s) = get_bit_at a s /\ snd (w_set_bit_at a s) = set_bit_at a s /\ snd (w_unset_bit_at a s) = unset_bit_at a s /\ snd (w_flip_bit_at a s) = flip_bit_at a s /\
  snd (w_set_all a) = set_all a /\ snd (w_unset_all a) = unset_all a /\ snd (w_flip_all a) = flip_all a /\
  snd (w_count_ones a) = count_ones a /\ snd (w_count_zeros a) = count_zeros a /\ snd (w_leading_zeros a) = leading_zeros a /\ snd (w_trailing_zeros a) = trailing_zeros a /\
  snd (w_wrapping_shl_assign a s) = wrapping_shl_assign a s /\ snd (w_wrapping_lshr_assign a s) = wrapping_lshr_assign a s /\ snd (w_wrapping_ashr_assign a s) = wrapping_ashr_assign a s /\
  snd (w_apint_eqb a b) = Val (apint_eqb a b) /\ snd (w_checked_ult a b) = checked_ult a b /\
  snd (w_clone p a) = clone a /\ snd (w_assign a b) = assign a b /\ snd (w_strict_assign a b) = strict_assign a b /\ snd (w_from_iter p n ds) = from_iter ds /\
  snd (w_truncate p a t) = truncate a t /\ snd (w_zero_extend a t) = zero_extend a t /\ snd (w_sign_extend a t) = sign_extend a t /\
  snd (w_zero_resize a t) = zero_resize a t /\ snd (w_sign_resize a t) = sign_resize a t /\
  snd (w_resize_to_primitive_ty a ty) = resize_to_primitive_ty a ty /\ snd (w_resize_to_bool a) = resize_to_bool a /\
  snd (w_resize_to_i128 a) = resize_to_i128 a /\ snd (w_resize_to_u128 a) = resize_to_u128 a.
Proof.
  repeat match goal with |- _ /\ _ => split end;
    first [reflexivity | apply we_access_data | apply we_zip_access_data | apply we_modify_digits | apply we_msb | apply we_lsb | apply we_is_zero | apply we_is_even | apply we_clear_unused_bits
      | apply we_wrapping_inc | apply we_wrapping_dec | apply we_wrapping_neg | apply we_wrapping_add_assign | apply we_wrapping_sub_assign | apply we_bitnot | apply we_modify_zipped_digits
      | apply we_get_bit_at | apply we_modify_bit_at | apply we_set_all | apply we_flip_all | apply we_leading_zeros | apply we_trailing_zeros
      | apply we_wrapping_shl_assign | apply we_wrapping_lshr_assign | apply we_wrapping_ashr_assign | apply we_apint_eqb | apply we_checked_ult | apply we_clone | apply we_assign | apply we_strict_assign
      | apply we_truncate | apply we_zero_extend | apply we_sign_extend | apply we_zero_resize | apply we_sign_resize | apply we_resize_to_primitive_ty].
Qed.

Lemma watch_one_fact a a' p s t : twins a a' ->
  fst (w_bitnot a) = fst (w_bitnot a') /\ fst (w_set_all a) = fst (w_set_all a') /\ fst (w_unset_all a) = fst (w_unset_all a') /\ fst (w_flip_all a) = fst (w_flip_all a') /\
  fst (w_get_bit_at a s) = fst (w_get_bit_at a' s) /\ fst (w_set_bit_at a s) = fst (w_set_bit_at a' s) /\
  fst (w_unset_bit_at a s) = fst (w_unset_bit_at a' s) /\ fst (w_flip_bit_at a s) = fst (w_flip_bit_at a' s) /\
  fst (w_wrapping_shl_assign a s) = fst (w_wrapping_shl_assign a' s) /\ fst (w_wrapping_lshr_assign a s) = fst (w_wrapping_lshr_assign a' s) /\
  fst (w_clone p a) = fst (w_clone p a') /\ fst (w_truncate p a t) = fst (w_truncate p a' t) /\
  fst (w_zero_extend a t) = fst (w_zero_extend a' t) /\ fst (w_zero_resize a t) = fst (w_zero_resize a' t).
Proof.
  intros (W & W' & E). pose proof (wf_alike _ _ W W' E) as K. repeat match goal with |- _ /\ _ => split end; apply same_seen;
    first [now auto with same | (apply same_modify_bit_at; [now auto with same|exact K])].
Qed.
Lemma watch_ask_fact a a' s ty : twins a a' ->
  fst (w_get_bit_at a s) = fst (w_get_bit_at a' s) /\ fst (w_msb a) = fst (w_msb a') /\ fst (w_lsb a) = fst (w_lsb a') /\
  fst (w_is_even a) = fst (w_is_even a') /\ fst (w_is_odd a) = fst (w_is_odd a') /\
  fst (w_count_ones a) = fst (w_count_ones a') /\ fst (w_count_zeros a) = fst (w_count_zeros a') /\ fst (w_hash_feed a) = fst (w_hash_feed a') /\
  fst (w_resize_to_primitive_ty a ty) = fst (w_resize_to_primitive_ty a' ty) /\ fst (w_resize_to_bool a) = fst (w_resize_to_bool a') /\
  fst (w_resize_to_i128 a) = fst (w_resize_to_i128 a') /\ fst (w_resize_to_u128 a) = fst (w_resize_to_u128 a').
Proof.
  intros (W & W' & E). pose proof (wf_alike _ _ W W' E) as K. repeat match goal with |- _ /\ _ => split end; apply same_seen;
    first [now auto with same | now apply same_count_zeros | now apply same_resize_to_i128 | now apply same_resize_to_u128 | now apply same_resize_to_primitive_ty | now apply same_lsb].
Qed.
Lemma watch_two_fact a a' b b' : twins a a' -> twins b b' ->
  fst (w_wrapping_add_assign a b) = fst (w_wrapping_add_assign a' b') /\ fst (w_wrapping_sub_assign a b) = fst (w_wrapping_sub_assign a' b') /\
  fst (w_bitand_assign a b) = fst (w_bitand_assign a' b') /\ fst (w_bitor_assign a b) = fst (w_bitor_assign a' b') /\ fst (w_bitxor_assign a b) = fst (w_bitxor_assign a' b') /\
  fst (w_assign a b) = fst (w_assign a' b') /\ fst (w_strict_assign a b) = fst (w_strict_assign a' b').
Proof.
  intros (W & W' & E) (V & V' & F). pose proof (wf_alike _ _ W W' E) as K. pose proof (wf_alike _ _ V V' F) as J. repeat match goal with |- _ /\ _ => split end; apply same_seen;
    first [now auto with same | now apply same_modify_zipped].
Qed.
Lemma watch_inc_fact a a' : twins a a' ->
  (fst (w_wrapping_inc a) = fst (w_wrapping_inc a') <->
   len a <= 64 \/ forall i, 0 <= i -> (unsigned a mod 2 ^ (64 * i) = 2 ^ (64 * i) - 1 <-> unsigned a' mod 2 ^ (64 * i) = 2 ^ (64 * i) - 1)).
Proof. intros (W & W' & E). now apply inc_exact. Qed.
Lemma watch_dec_fact a a' : twins a a' ->
  (fst (w_wrapping_dec a) = fst (w_wrapping_dec a') <->
   len a <= 64 \/ forall i, 0 <= i -> (unsigned a mod 2 ^ (64 * i) = 0 <-> unsigned a' mod 2 ^ (64 * i) = 0)).
Proof. intros (W & W' & E). now apply dec_exact. Qed.
Lemma watch_neg_fact a a' : twins a a' ->
  (fst (w_wrapping_neg a) = fst (w_wrapping_neg a') <->
   len a <= 64 \/ forall i, 0 <= i -> 64 * i <= len a -> (unsigned a mod 2 ^ (64 * i) = 0 <-> unsigned a' mod 2 ^ (64 * i) = 0)).
Proof. intros (W & W' & E). now apply neg_exact. Qed.
Lemma watch_zeros_fact a a' : twins a a' ->
  (fst (w_is_zero a) = fst (w_is_zero a') <->
   len a <= 64 \/ forall i, 0 <= i -> (unsigned a mod 2 ^ (64 * i) = 0 <-> unsigned a' mod 2 ^ (64 * i) = 0)) /\
  (fst (w_trailing_zeros a) = fst (w_trailing_zeros a') <->
   forall i, 0 <= i -> (unsigned a mod 2 ^ (64 * i) = 0 <-> unsigned a' mod 2 ^ (64 * i) = 0)) /\
  (fst (w_leading_zeros a) = fst (w_leading_zeros a') <->
   forall i, 0 <= i -> (unsigned a / 2 ^ (64 * i) = 0 <-> unsigned a' / 2 ^ (64 * i) = 0)).
Proof. intros (W & W' & E). split; [now apply is_zero_exact|]. split; [now apply trailing_exact|now apply leading_exact]. Qed.
Lemma watch_compare_fact a a' b b' : twins a a' -> twins b b' ->
  (fst (w_apint_eqb a b) = fst (w_apint_eqb a' b') <->
   len a <> len b \/
   forall i, 0 <= i -> (unsigned a mod 2 ^ (64 * i) = unsigned b mod 2 ^ (64 * i) <-> unsigned a' mod 2 ^ (64 * i) = unsigned b' mod 2 ^ (64 * i))) /\
  (fst (w_checked_ult a b) = fst (w_checked_ult a' b') <->
   len a <> len b \/ len a <= 64 \/
   (forall i, 0 <= i -> (unsigned a / 2 ^ (64 * i) = unsigned b / 2 ^ (64 * i) <-> unsigned a' / 2 ^ (64 * i) = unsigned b' / 2 ^ (64 * i))) /\
   (unsigned a < unsigned b <-> unsigned a' < unsigned b')).
Proof. intros (W & W' & E) (V & V' & F). split; [now apply eq_exact|now apply ult_exact]. Qed.
Lemma watch_sign_fact a a' s t : twins a a' ->
  (fst (w_wrapping_ashr_assign a s) = fst (w_wrapping_ashr_assign a' s) <-> (signed a < 0 <-> signed a' < 0)) /\
  (fst (w_sign_extend a t) = fst (w_sign_extend a' t) <-> t <= len a \/ (signed a < 0 <-> signed a' < 0)) /\
  (fst (w_sign_resize a t) = fst (w_sign_resize a' t) <-> t <= len a \/ (signed a < 0 <-> signed a' < 0)).
Proof. intros (W & W' & E). split; [now apply ashr_exact|]. split; [now apply sign_extend_exact|now apply sign_resize_exact]. Qed.
Lemma watch_programs_fact p vs vs' : Forall2 twins vs vs' -> Forall call_ok p ->
  fst (w_run vs p) = fst (w_run vs' p) /\
  (forall ws, snd (w_run vs p) = Val ws -> exists ws', snd (w_run vs' p) = Val ws' /\ Forall2 twins ws ws') /\
  (forall b, snd (w_run vs p) = Stop b -> snd (w_run vs' p) = Stop b).
Proof.
  intros H O. destruct (run_twins p vs vs' H O) as [E B]. split; [exact E|]. destruct (snd (w_run vs p)) as [ws| |], (snd (w_run vs' p)) as [ws'| |]; cbn in B; try contradiction; split; intros x X; try discriminate.
  - injection X as <-. eauto.
  - congruence.
Qed.
