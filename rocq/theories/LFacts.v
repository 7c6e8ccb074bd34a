(** The property statements about arithmetic, bits, comparison, shifts, casts
    and constructors, assembled from the lemmas. *)
From Verif Require Export LConstr LRel LCount LMul.

Local Ltac into_tac H := unfold try_forward_bin_mut_impl; rewrite H; reflexivity.

Lemma add_fact a b : wf a -> wf b -> len a = len b ->
  exists c, wrapping_add_assign a b = Val (c, Ok tt) /\ into_wrapping_add a b = Val (Ok c) /\
    is_apint c (len a) ((unsigned a + unsigned b) mod 2 ^ len a) /\
    signed c = wrap_signed (len a) (signed a + signed b).
Proof.
  intros Ha Hb E. destruct (wrapping_add_assign_spec a b Ha Hb E) as (c & H & Hc).
  exists c. split; [auto|split; [now apply try_forward_ok|split; [auto|]]].
  rewrite (is_apint_signed c (len a) _ (wf_len a Ha) Hc). apply wrap_signed_mod.
  rewrite <- (signed_mod a Ha), <- (signed_mod b Hb), <- E, <- Zplus_mod. reflexivity.
Qed.

Lemma sub_fact a b : wf a -> wf b -> len a = len b ->
  exists c, wrapping_sub_assign a b = Val (c, Ok tt) /\ into_wrapping_sub a b = Val (Ok c) /\
    is_apint c (len a) ((unsigned a - unsigned b) mod 2 ^ len a) /\
    signed c = wrap_signed (len a) (signed a - signed b).
Proof.
  intros Ha Hb E. destruct (wrapping_sub_assign_spec a b Ha Hb E) as (c & H & Hc).
  exists c. split; [auto|split; [now apply try_forward_ok|split; [auto|]]].
  rewrite (is_apint_signed c (len a) _ (wf_len a Ha) Hc). apply wrap_signed_mod.
  rewrite <- (signed_mod a Ha), <- (signed_mod b Hb), <- E, <- Zminus_mod. reflexivity.
Qed.

Lemma mul_fact a b : wf a -> wf b -> len a = len b ->
  exists c, wrapping_mul_assign a b = Val (c, Ok tt) /\ into_wrapping_mul a b = Val (Ok c) /\
    is_apint c (len a) ((unsigned a * unsigned b) mod 2 ^ len a) /\
    signed c = wrap_signed (len a) (signed a * signed b).
Proof.
  intros Ha Hb E. destruct (wrapping_mul_assign_spec a b Ha Hb E) as (c & H & Hc).
  exists c. split; [auto|split; [now apply try_forward_ok|split; [auto|]]].
  rewrite (is_apint_signed c (len a) _ (wf_len a Ha) Hc). apply wrap_signed_mod.
  rewrite <- (signed_mod a Ha), <- (signed_mod b Hb), <- E, <- Zmult_mod. reflexivity.
Qed.

Lemma inc_fact a : wf a ->
  exists c, wrapping_inc a = Val c /\ into_wrapping_inc a = Val c /\
    is_apint c (len a) ((unsigned a + 1) mod 2 ^ len a) /\
    signed c = wrap_signed (len a) (signed a + 1).
Proof.
  intros Ha. destruct (wrapping_inc_spec a (wf_sh a Ha)) as (c & H & Hc).
  exists c. split; [auto|split; [auto|split; [auto|]]].
  rewrite (is_apint_signed c (len a) _ (wf_len a Ha) Hc). apply wrap_signed_mod.
  rewrite <- (signed_mod a Ha), Zplus_mod_idemp_l. reflexivity.
Qed.
Lemma dec_fact a : wf a ->
  exists c, wrapping_dec a = Val c /\ into_wrapping_dec a = Val c /\
    is_apint c (len a) ((unsigned a - 1) mod 2 ^ len a) /\
    signed c = wrap_signed (len a) (signed a - 1).
Proof.
  intros Ha. destruct (wrapping_dec_spec a (wf_sh a Ha)) as (c & H & Hc).
  exists c. split; [auto|split; [auto|split; [auto|]]].
  rewrite (is_apint_signed c (len a) _ (wf_len a Ha) Hc). apply wrap_signed_mod.
  rewrite <- (signed_mod a Ha), Zminus_mod_idemp_l. reflexivity.
Qed.
Lemma neg_fact a : wf a ->
  exists c, wrapping_neg a = Val c /\ into_wrapping_neg a = Val c /\
    is_apint c (len a) ((- unsigned a) mod 2 ^ len a) /\
    signed c = wrap_signed (len a) (- signed a).
Proof.
  intros Ha. destruct (wrapping_neg_spec a Ha) as (c & H & Hc).
  exists c. split; [auto|split; [auto|split; [auto|]]].
  rewrite (is_apint_signed c (len a) _ (wf_len a Ha) Hc). apply wrap_signed_mod.
  replace (- unsigned a) with (0 - unsigned a) by lia. replace (- signed a) with (0 - signed a) by lia.
  rewrite <- (signed_mod a Ha), Zminus_mod_idemp_r. reflexivity.
Qed.

(** * Comparison *)
Lemma ucmp_fact a b : wf a -> wf b -> len a = len b ->
  checked_ult a b = Val (Ok (unsigned a <? unsigned b)) /\
  checked_ule a b = Val (Ok (unsigned a <=? unsigned b)) /\
  checked_ugt a b = Val (Ok (unsigned a >? unsigned b)) /\
  checked_uge a b = Val (Ok (unsigned a >=? unsigned b)).
Proof.
  intros Ha Hb E.
  split; [now apply checked_ult_spec|split; [now apply checked_ule_spec|split;
    [now apply checked_ugt_spec|now apply checked_uge_spec]]].
Qed.
Lemma scmp_fact a b : wf a -> wf b -> len a = len b ->
  checked_slt a b = Val (Ok (signed a <? signed b)) /\
  checked_sle a b = Val (Ok (signed a <=? signed b)) /\
  checked_sgt a b = Val (Ok (signed a >? signed b)) /\
  checked_sge a b = Val (Ok (signed a >=? signed b)).
Proof.
  intros Ha Hb E.
  split; [now apply checked_slt_spec|split; [now apply checked_sle_spec|split;
    [now apply checked_sgt_spec|now apply checked_sge_spec]]].
Qed.
Lemma eq_hash_fact a b : wf a -> wf b ->
  (apint_eqb a b = true <-> len a = len b /\ unsigned a = unsigned b) /\
  (apint_eqb a b = true <-> hash_feed a = hash_feed b).
Proof.
  intros Ha Hb. split; [now apply apint_eqb_spec|].
  rewrite apint_eqb_eq. split; [now intros ->|].
  unfold hash_feed, as_digit_slice. intros H. injection H as H1 _ H2.
  destruct a as [wa da], b as [wb db]. cbn in *. subst wb. f_equal.
  clear Ha Hb. revert db H2. induction da as [|x da IH]; intros [|y db] H; try discriminate; auto.
  cbn in H. injection H as -> H. f_equal. auto.
Qed.

(** * Width mismatch *)
Definition is_mismatch {A} (r : result A) (w1 w2 : Z) : Prop :=
  r = Err (UnmatchingBitwidth w1 w2) \/ r = Err (UnmatchingBitwidth w2 w1).

Lemma zipmod_mismatch f a b : len a <> len b ->
  modify_zipped_digits f a b = Val (a, Err (UnmatchingBitwidth (len a) (len b))).
Proof. intros E. unfold modify_zipped_digits. rewrite zip_access_data_mismatch by auto. reflexivity. Qed.
Lemma add_mismatch a b : len a <> len b ->
  wrapping_add_assign a b = Val (a, Err (UnmatchingBitwidth (len a) (len b))).
Proof. intros E. unfold wrapping_add_assign. rewrite zip_access_data_mismatch by auto. reflexivity. Qed.
Lemma sub_mismatch a b : len a <> len b ->
  wrapping_sub_assign a b = Val (a, Err (UnmatchingBitwidth (len a) (len b))).
Proof. intros E. unfold wrapping_sub_assign. rewrite zip_access_data_mismatch by auto. reflexivity. Qed.
Lemma mul_mismatch a b : len a <> len b ->
  wrapping_mul_assign a b = Val (a, Err (UnmatchingBitwidth (len a) (len b))).
Proof. intros E. unfold wrapping_mul_assign. rewrite zip_access_data_mismatch by auto. reflexivity. Qed.

Lemma mutating_mismatch a b : len a <> len b ->
  let err := UnmatchingBitwidth (len a) (len b) in
  wrapping_add_assign a b = Val (a, Err err) /\ into_wrapping_add a b = Val (Err err) /\
  wrapping_sub_assign a b = Val (a, Err err) /\ into_wrapping_sub a b = Val (Err err) /\
  wrapping_mul_assign a b = Val (a, Err err) /\ into_wrapping_mul a b = Val (Err err) /\
  bitand_assign a b = Val (a, Err err) /\ into_bitand a b = Val (Err err) /\
  bitor_assign a b = Val (a, Err err) /\ into_bitor a b = Val (Err err) /\
  bitxor_assign a b = Val (a, Err err) /\ into_bitxor a b = Val (Err err) /\
  strict_assign a b = Val (a, Err err).
Proof.
  intros E err.
  pose proof (add_mismatch a b E) as H1. pose proof (sub_mismatch a b E) as H2.
  pose proof (mul_mismatch a b E) as H3. pose proof (zipmod_mismatch d_and a b E) as H4.
  pose proof (zipmod_mismatch d_or a b E) as H5. pose proof (zipmod_mismatch d_xor a b E) as H6.
  repeat match goal with |- _ /\ _ => split end; auto;
  try (eapply try_forward_err; eauto; fail). now apply strict_assign_err.
Qed.

Lemma comparison_mismatch a b : len a <> len b ->
  let err := UnmatchingBitwidth (len a) (len b) in
  let swapped := UnmatchingBitwidth (len b) (len a) in
  checked_ult a b = Val (Err err) /\ checked_uge a b = Val (Err err) /\
  checked_slt a b = Val (Err err) /\ checked_sge a b = Val (Err err) /\
  checked_ule a b = Val (Err swapped) /\ checked_ugt a b = Val (Err swapped) /\
  checked_sle a b = Val (Err swapped) /\ checked_sgt a b = Val (Err swapped).
Proof.
  intros E err swapped. assert (E' : len b <> len a) by congruence.
  unfold checked_ule, checked_ugt, checked_uge, checked_sle, checked_sgt, checked_sge.
  rewrite (checked_ult_err a b E), (checked_ult_err b a E'), (checked_slt_err a b E), (checked_slt_err b a E').
  repeat split.
Qed.

(** * Bits *)
Lemma is_apint_bit c w u p : is_apint c w u -> bit c p = Z.testbit u p.
Proof. intros (_ & _ & <-). reflexivity. Qed.

Lemma bitnot_fact a : wf a ->
  exists c, bitnot a = Val c /\ into_bitnot a = Val c /\ wf c /\ len c = len a /\
    (forall p, 0 <= p < len a -> bit c p = negb (bit a p)).
Proof.
  intros Ha. destruct (bitnot_spec a Ha) as (c & H & Hc). exists c.
  split; [auto|split; [auto|]]. pose proof Hc as (W & L & _). split; [auto|split; [auto|]].
  intros p Hp. rewrite (is_apint_bit _ _ _ p Hc).
  pose proof (unsigned_bound a Ha) as Hb.
  replace (2 ^ len a - 1 - unsigned a) with ((Z.lnot (unsigned a)) mod 2 ^ len a).
  - rewrite Z.mod_pow2_bits_low by lia. now rewrite Z.lnot_spec by lia.
  - unfold Z.lnot. rewrite <- (Z.mod_small (2 ^ len a - 1 - unsigned a) (2 ^ len a)) by lia.
    replace (2 ^ len a - 1 - unsigned a) with (Z.pred (- unsigned a) + 1 * 2 ^ len a) by lia.
    now rewrite Z_mod_plus_full.
Qed.

Lemma bitop_fact op f z :
  (forall a b, wf a -> wf b -> len a = len b -> exists c, op a b = Val (c, Ok tt) /\
    is_apint c (len a) (z (unsigned a) (unsigned b))) ->
  (forall x y p, Z.testbit (z x y) p = f (Z.testbit x p) (Z.testbit y p)) ->
  forall a b, wf a -> wf b -> len a = len b ->
  exists c, op a b = Val (c, Ok tt) /\ try_forward_bin_mut_impl op a b = Val (Ok c) /\
    wf c /\ len c = len a /\ (forall p, bit c p = f (bit a p) (bit b p)).
Proof.
  intros Hop Hz a b Ha Hb E. destruct (Hop a b Ha Hb E) as (c & H & Hc). exists c.
  split; [auto|split; [now apply try_forward_ok|]]. pose proof Hc as (W & L & _).
  split; [auto|split; [auto|]]. intros p. rewrite (is_apint_bit _ _ _ p Hc). apply Hz.
Qed.
Lemma bitand_fact a b : wf a -> wf b -> len a = len b ->
  exists c, bitand_assign a b = Val (c, Ok tt) /\ into_bitand a b = Val (Ok c) /\
    wf c /\ len c = len a /\ (forall p, bit c p = andb (bit a p) (bit b p)).
Proof. apply (bitop_fact _ andb _ bitand_assign_spec). apply Z.land_spec. Qed.
Lemma bitor_fact a b : wf a -> wf b -> len a = len b ->
  exists c, bitor_assign a b = Val (c, Ok tt) /\ into_bitor a b = Val (Ok c) /\
    wf c /\ len c = len a /\ (forall p, bit c p = orb (bit a p) (bit b p)).
Proof. apply (bitop_fact _ orb _ bitor_assign_spec). apply Z.lor_spec. Qed.
Lemma bitxor_fact a b : wf a -> wf b -> len a = len b ->
  exists c, bitxor_assign a b = Val (c, Ok tt) /\ into_bitxor a b = Val (Ok c) /\
    wf c /\ len c = len a /\ (forall p, bit c p = xorb (bit a p) (bit b p)).
Proof. apply (bitop_fact _ xorb _ bitxor_assign_spec). apply Z.lxor_spec. Qed.

Lemma bit_oob_fact a p : len a <= p ->
  let err := InvalidBitAccess p (len a) in
  get_bit_at a p = Val (Err err) /\ set_bit_at a p = Val (a, Err err) /\
  unset_bit_at a p = Val (a, Err err) /\ flip_bit_at a p = Val (a, Err err).
Proof.
  intros H err. split; [now apply bit_access_oob_get|].
  split; [|split]; now apply modify_bit_at_oob.
Qed.

Lemma predicates_fact a : wf a ->
  msb a = Val (bit a (len a - 1)) /\ msb a = Val (signed a <? 0) /\
  lsb a = Val (bit a 0) /\
  is_even a = Val (Z.even (unsigned a)) /\ is_odd a = Val (Z.odd (unsigned a)) /\
  is_zero a = Val (unsigned a =? 0) /\ is_all_unset a = Val (unsigned a =? 0).
Proof.
  intros Ha. pose proof (wf_sh a Ha) as S.
  split; [now apply msb_spec|]. split; [rewrite <- bit_msb_neg by auto; now apply msb_spec|].
  split; [unfold bit; rewrite Z.bit0_odd; now apply lsb_spec|].
  split; [now apply is_even_spec|]. split; [now apply is_odd_spec|].
  split; now apply is_zero_spec.
Qed.

Lemma count_fact a : wf a ->
  exists o z, count_ones a = Val o /\ count_zeros a = Val z /\
    o = ones_below (unsigned a) (len a) /\ o + z = len a.
Proof.
  intros Ha. exists (ones_below (unsigned a) (len a)), (len a - ones_below (unsigned a) (len a)).
  split; [now apply count_ones_spec|]. split; [now apply count_zeros_spec|]. split; auto; lia.
Qed.

(** * is_one and is_all_set *)
Lemma is_one_partial a : wf a -> len a <= 64 -> is_one a = Val (unsigned a =? 1).
Proof.
  intros Ha H. rewrite is_one_char by auto.
  pose proof (wf_len a Ha). unfold required_digits.
  replace ((len a - 1) / 64) with 0 by (symmetry; apply Z.div_small; lia). reflexivity.
Qed.
Lemma is_all_set_partial a : wf a -> len a mod 64 <> 0 -> is_all_set a = Val (unsigned a =? 2 ^ len a - 1).
Proof.
  intros Ha H. rewrite is_all_set_char by auto. destruct (Z.eqb_spec (len a mod 64) 0); [lia|auto].
Qed.

(** * Shifts *)
Lemma shl_fact a s : wf a -> 0 <= s < len a ->
  exists c, wrapping_shl_assign a s = Val (c, Ok tt) /\ into_wrapping_shl a s = Val (Ok c) /\
    is_apint c (len a) ((unsigned a * 2 ^ s) mod 2 ^ len a).
Proof.
  intros Ha Hs. destruct (wrapping_shl_assign_spec a s Ha Hs) as (c & H & Hc). exists c.
  split; [auto|split; [now apply try_forward_ok|auto]].
Qed.
Lemma lshr_fact a s : wf a -> 0 <= s < len a ->
  exists c, wrapping_lshr_assign a s = Val (c, Ok tt) /\ into_wrapping_lshr a s = Val (Ok c) /\
    is_apint c (len a) (unsigned a / 2 ^ s).
Proof.
  intros Ha Hs. destruct (wrapping_lshr_assign_spec a s Ha Hs) as (c & H & Hc). exists c.
  split; [auto|split; [now apply try_forward_ok|auto]].
Qed.
Lemma ashr_range w x s : 0 < w -> 0 <= s -> - 2 ^ (w - 1) <= x < 2 ^ (w - 1) ->
  - 2 ^ (w - 1) <= x / 2 ^ s < 2 ^ (w - 1).
Proof.
  intros Hw Hs Hx. assert (0 < 2 ^ s) by (apply Z.pow_pos_nonneg; lia).
  assert (0 < 2 ^ (w - 1)) by (apply Z.pow_pos_nonneg; lia).
  split.
  - apply Z.div_le_lower_bound; nia.
  - apply Z.div_lt_upper_bound; nia.
Qed.
Lemma ashr_fact a s : wf a -> 0 <= s < len a ->
  exists c, wrapping_ashr_assign a s = Val (c, Ok tt) /\ into_wrapping_ashr a s = Val (Ok c) /\
    wf c /\ len c = len a /\ signed c = signed a / 2 ^ s.
Proof.
  intros Ha Hs. destruct (wrapping_ashr_assign_spec a s Ha Hs) as (c & H & Hc). exists c.
  split; [auto|split; [now apply try_forward_ok|]]. pose proof Hc as (W & L & _).
  split; [auto|split; [auto|]].
  rewrite (is_apint_signed c (len a) _ (wf_len a Ha) Hc). apply wrap_signed_small; [lia|].
  apply ashr_range; try lia. now apply signed_range.
Qed.
Lemma shift_err_fact a s : wf a -> len a <= s ->
  let err := InvalidShiftAmount s (len a) in
  wrapping_shl_assign a s = Val (a, Err err) /\ into_wrapping_shl a s = Val (Err err) /\
  wrapping_lshr_assign a s = Val (a, Err err) /\ into_wrapping_lshr a s = Val (Err err) /\
  wrapping_ashr_assign a s = Val (a, Err err) /\ into_wrapping_ashr a s = Val (Err err).
Proof.
  intros Ha Hs err.
  pose proof (wrapping_shl_assign_err a s Hs) as H1.
  pose proof (wrapping_lshr_assign_err a s Hs) as H2.
  pose proof (wrapping_ashr_assign_err a s Ha Hs) as H3.
  repeat match goal with |- _ /\ _ => split end; auto;
  eapply try_forward_err; eauto.
Qed.

(** * Casts *)
Lemma truncate_fact a t : wf a -> 0 < t <= len a ->
  exists c, truncate a t = Val (c, Ok tt) /\ into_truncate a t = Val (Ok c) /\
    is_apint c t (unsigned a mod 2 ^ t).
Proof.
  intros Ha Ht. destruct (truncate_spec a t Ha Ht) as (c & H & Hc). exists c.
  split; [auto|split; [now apply try_forward_ok|auto]].
Qed.
Lemma zero_extend_fact a t : wf a -> len a <= t ->
  exists c, zero_extend a t = Val (c, Ok tt) /\ into_zero_extend a t = Val (Ok c) /\
    is_apint c t (unsigned a).
Proof.
  intros Ha Ht. destruct (zero_extend_spec a t Ha Ht) as (c & H & Hc). exists c.
  split; [auto|split; [now apply try_forward_ok|auto]].
Qed.
Lemma sign_extend_fact a t : wf a -> len a <= t ->
  exists c, sign_extend a t = Val (c, Ok tt) /\ into_sign_extend a t = Val (Ok c) /\
    wf c /\ len c = t /\ signed c = signed a.
Proof.
  intros Ha Ht. destruct (sign_extend_spec a t Ha Ht) as (c & H & Hc). exists c.
  split; [auto|split; [now apply try_forward_ok|]]. pose proof Hc as (W & L & _).
  split; [auto|split; [auto|]]. now apply (sign_extend_signed a t).
Qed.
Lemma truncate_err_fact a t : len a < t ->
  truncate a t = Val (a, Err (TruncationBitWidthTooLarge t (len a))) /\
  into_truncate a t = Val (Err (TruncationBitWidthTooLarge t (len a))).
Proof. intros H. pose proof (truncate_err a t H) as E. split; [auto|]. eapply try_forward_err; eauto. Qed.
Lemma zero_extend_err_fact a t : t < len a ->
  zero_extend a t = Val (a, Err (ExtensionBitWidthTooSmall t (len a))) /\
  into_zero_extend a t = Val (Err (ExtensionBitWidthTooSmall t (len a))).
Proof. intros H. pose proof (zero_extend_err a t H) as E. split; [auto|]. eapply try_forward_err; eauto. Qed.
Lemma sign_extend_err_fact a t : t < len a ->
  sign_extend a t = Val (a, Err (ExtensionBitWidthTooSmall t (len a))) /\
  into_sign_extend a t = Val (Err (ExtensionBitWidthTooSmall t (len a))).
Proof. intros H. pose proof (sign_extend_err a t H) as E. split; [auto|]. eapply try_forward_err; eauto. Qed.

Lemma resize_fact a t : wf a -> 0 < t ->
  exists c d, zero_resize a t = Val c /\ into_zero_resize a t = Val c /\
    is_apint c t (unsigned a mod 2 ^ t) /\
    sign_resize a t = Val d /\ into_sign_resize a t = Val d /\
    is_apint d t (signed a mod 2 ^ t) /\ signed d = wrap_signed t (signed a).
Proof.
  intros Ha Ht. destruct (zero_resize_spec a t Ha Ht) as (c & H & Hc).
  destruct (sign_resize_spec a t Ha Ht) as (d & H' & Hd). exists c, d.
  split; [auto|split; [auto|split; [auto|split; [auto|split; [auto|split; [auto|]]]]]].
  now apply is_apint_signed.
Qed.

Lemma mod_mod_pow2 x m n : 0 <= n <= m -> (x mod 2 ^ m) mod 2 ^ n = x mod 2 ^ n.
Proof.
  intros H. assert (0 < 2 ^ n) by (apply Z.pow_pos_nonneg; lia).
  assert (0 < 2 ^ (m - n)) by (apply Z.pow_pos_nonneg; lia).
  replace (2 ^ m) with (2 ^ n * 2 ^ (m - n)) by (rewrite <- Z.pow_add_r by lia; f_equal; lia).
  rewrite Z.rem_mul_r by lia. rewrite Z.mul_comm, Z_mod_plus_full. apply Z.mod_mod. lia.
Qed.

Lemma same_apint c w u d : is_apint c w u -> is_apint d w u -> c = d.
Proof. apply is_apint_unique. Qed.

Lemma extend_truncate_fact a t : wf a -> len a <= t ->
  (exists c, zero_extend a t = Val (c, Ok tt) /\ truncate c (len a) = Val (a, Ok tt)) /\
  (exists c, sign_extend a t = Val (c, Ok tt) /\ truncate c (len a) = Val (a, Ok tt)).
Proof.
  intros Ha Ht. pose proof (wf_len a Ha) as Hl. pose proof (unsigned_bound a Ha) as Hu.
  assert (Hself : is_apint a (len a) (unsigned a)) by (unfold is_apint; auto).
  split.
  - destruct (zero_extend_spec a t Ha Ht) as (c & H & W & L & V). exists c. split; [auto|].
    destruct (truncate_spec c (len a) W) as (d & -> & Hd); [lia|].
    rewrite V, Z.mod_small in Hd by lia. now rewrite (same_apint _ _ _ _ Hd Hself).
  - destruct (sign_extend_spec a t Ha Ht) as (c & H & W & L & V). exists c. split; [auto|].
    destruct (truncate_spec c (len a) W) as (d & -> & Hd); [lia|].
    replace (unsigned c mod 2 ^ len a) with (unsigned a) in Hd.
    + now rewrite (same_apint _ _ _ _ Hd Hself).
    + rewrite V. rewrite <- (signed_mod a Ha) at 1. symmetry.
      apply mod_mod_pow2; lia.
Qed.

(** * Constructors *)
Lemma new_inl_signed w v : 0 < w <= 64 -> - 2 ^ (w - 1) <= v < 2 ^ (w - 1) ->
  exists c, new_inl w (v mod 2 ^ w) = Val c /\ wf c /\ len c = w /\ signed c = v.
Proof.
  intros Hw Hv. assert (0 < 2 ^ w) by (apply Z.pow_pos_nonneg; lia).
  destruct (new_inl_spec w (v mod 2 ^ w)) as (c & H1 & Hc); [lia|apply Z.mod_pos_bound; lia|].
  exists c. split; [auto|]. pose proof Hc as (W & L & _). split; [auto|split; [auto|]].
  rewrite (is_apint_signed c w v) by (lia || auto). apply wrap_signed_small; lia.
Qed.

Lemma from_unsigned_fact :
  (forall b, exists c, from_bool b = Val c /\ is_apint c 1 (if b then 1 else 0)) /\
  (forall v, 0 <= v < 2 ^ 8 -> exists c, from_u8 v = Val c /\ is_apint c 8 v) /\
  (forall v, 0 <= v < 2 ^ 16 -> exists c, from_u16 v = Val c /\ is_apint c 16 v) /\
  (forall v, 0 <= v < 2 ^ 32 -> exists c, from_u32 v = Val c /\ is_apint c 32 v) /\
  (forall v, 0 <= v < 2 ^ 64 -> exists c, from_u64 v = Val c /\ is_apint c 64 v) /\
  (forall v, 0 <= v < 2 ^ 128 -> exists c, from_u128 v = Val c /\ is_apint c 128 v).
Proof.
  split; [intros []; apply new_inl_spec; lia|].
  do 4 (split; [intros v Hv; apply new_inl_spec; lia|]). apply from_u128_spec.
Qed.
Lemma from_signed_fact :
  (forall v, - 2 ^ 7 <= v < 2 ^ 7 -> exists c, from_i8 v = Val c /\ wf c /\ len c = 8 /\ signed c = v) /\
  (forall v, - 2 ^ 15 <= v < 2 ^ 15 -> exists c, from_i16 v = Val c /\ wf c /\ len c = 16 /\ signed c = v) /\
  (forall v, - 2 ^ 31 <= v < 2 ^ 31 -> exists c, from_i32 v = Val c /\ wf c /\ len c = 32 /\ signed c = v) /\
  (forall v, - 2 ^ 63 <= v < 2 ^ 63 -> exists c, from_i64 v = Val c /\ wf c /\ len c = 64 /\ signed c = v) /\
  (forall v, - 2 ^ 127 <= v < 2 ^ 127 -> exists c, from_i128 v = Val c /\ wf c /\ len c = 128 /\ signed c = v).
Proof.
  split; [intros v Hv; apply (new_inl_signed 8); lia|].
  split; [intros v Hv; apply (new_inl_signed 16); lia|].
  split; [intros v Hv; apply (new_inl_signed 32); lia|].
  split; [intros v Hv; unfold from_i64; rewrite B_pow; apply (new_inl_signed 64); lia|].
  intros v Hv. destruct (from_i128_spec v) as (c & H & Hc). exists c. split; [auto|].
  pose proof Hc as (W & L & _). split; [auto|split; [auto|]].
  rewrite (is_apint_signed c 128 v) by (lia || auto). apply wrap_signed_small; lia.
Qed.
Lemma from_array_fact vals : vals <> [] ->
  (Forall digit_ok vals -> exists c, from_u64_array vals = Val c /\
    is_apint c (64 * Z.of_nat (length vals)) (be_value vals)) /\
  (exists c, from_i64_array vals = Val c /\
    is_apint c (64 * Z.of_nat (length vals)) (be_value (map (fun v => v mod 2 ^ 64) vals))).
Proof.
  intros H. split; [|now apply from_i64_array_spec]. intros Hd. apply from_u64_array_spec; auto.
Qed.

Lemma constants_fact w : 0 < w ->
  (exists c, zero w = Val c /\ all_unset w = Val c /\ unsigned_min_value w = Val c /\ is_apint c w 0) /\
  (exists c, one w = Val c /\ is_apint c w 1) /\
  (exists c, all_set w = Val c /\ unsigned_max_value w = Val c /\ is_apint c w (2 ^ w - 1)) /\
  (exists c, signed_min_value w = Val c /\ wf c /\ len c = w /\ signed c = - 2 ^ (w - 1)) /\
  (exists c, signed_max_value w = Val c /\ wf c /\ len c = w /\ signed c = 2 ^ (w - 1) - 1) /\
  (forall a, wf a -> len a = w -> - 2 ^ (w - 1) <= signed a <= 2 ^ (w - 1) - 1).
Proof.
  intros Hw. assert (H0 : 0 < 2 ^ (w - 1)) by (apply Z.pow_pos_nonneg; lia).
  pose proof (pow2_double w Hw) as H2.
  split; [destruct (zero_spec w Hw) as (c & ? & ?); exists c; auto|].
  split; [now apply one_spec|].
  split; [destruct (all_set_spec w Hw) as (c & ? & ?); exists c; auto|].
  split.
  { destruct (signed_min_value_spec w Hw) as (c & ? & W & L & V). exists c.
    split; [auto|split; [auto|split; [auto|]]].
    unfold signed, to_signed. rewrite L, V. destruct (Z.ltb_spec (2 ^ (w - 1)) (2 ^ (w - 1))); lia. }
  split.
  { destruct (signed_max_value_spec w Hw) as (c & ? & W & L & V). exists c.
    split; [auto|split; [auto|split; [auto|]]].
    unfold signed, to_signed. rewrite L, V. destruct (Z.ltb_spec (2 ^ (w - 1) - 1) (2 ^ (w - 1))); lia. }
  intros a Ha <-. pose proof (signed_range a Ha). lia.
Qed.

Lemma assign_fact a b : wf a -> wf b ->
  clone a = Val a /\ assign a b = Val b /\
  (len a = len b -> strict_assign a b = Val (b, Ok tt)) /\
  (len a <> len b -> strict_assign a b = Val (a, Err (UnmatchingBitwidth (len a) (len b)))).
Proof.
  intros Ha Hb. split; [now apply clone_spec|]. split; [now apply assign_spec|].
  split; [now apply strict_assign_spec|now apply strict_assign_err].
Qed.

(** * Bit widths *)
Lemma bitwidth_fact w : 0 < w ->
  bitwidth_new w = Ok w /\ bitwidth_new 0 = Err (InvalidBitWidth 0) /\
  Z.of_nat (required_digits w) = (w + 63) / 64 /\
  (excess_bits w = None <-> (64 | w)) /\
  (forall e, excess_bits w = Some e <-> e = w mod 64 /\ 0 < e) /\
  excess_width w = excess_bits w /\
  (storage w = SInl <-> w <= 64) /\
  (storage w = SInl <-> required_digits w = 1%nat).
Proof.
  intros Hw. split; [unfold bitwidth_new; destruct (Z.eqb_spec w 0); [lia|auto]|].
  split; [reflexivity|].
  assert (R : Z.of_nat (required_digits w) = (w + 63) / 64).
  { unfold required_digits. rewrite Z2Nat.id by (pose proof (Z.div_pos (w - 1) 64); lia).
    replace (w + 63) with (w - 1 + 1 * 64) by lia. now rewrite Z.div_add by lia. }
  split; [auto|].
  assert (St : storage w = SInl <-> w <= 64).
  { unfold storage. destruct (Z.leb_spec w 64); split; auto; try discriminate; lia. }
  unfold excess_bits, excess_width. pose proof (Z.mod_pos_bound w 64 ltac:(lia)) as M.
  split.
  { rewrite <- Z.mod_divide by lia. destruct (Z.eqb_spec (w mod 64) 0); split; auto; try discriminate; lia. }
  split.
  { intros e. destruct (Z.eqb_spec (w mod 64) 0); split; intros H; try discriminate; try lia.
    - injection H as <-. lia. - destruct H as [-> _]. auto. }
  split; [auto|]. split; [auto|]. rewrite St.
  split; intros H; [apply Nat2Z.inj; rewrite R|apply (f_equal Z.of_nat) in H; rewrite R in H].
  - change (Z.of_nat 1) with 1. pose proof (Z.div_le_lower_bound (w + 63) 64 1).
    pose proof (Z.div_lt_upper_bound (w + 63) 64 2). lia.
  - change (Z.of_nat 1) with 1 in H. pose proof (Z.div_mod (w + 63) 64).
    pose proof (Z.mod_pos_bound (w + 63) 64). lia.
Qed.
Lemma bitpos_fact a p : wf a -> 0 <= p < len a ->
  let (d, b) := to_digit_and_bit_pos p in
  (d < length (digits a))%nat /\ 0 <= b < 64 /\ p = 64 * Z.of_nat d + b /\
  bit a p = Z.testbit (nth d (digits a) 0) b.
Proof.
  intros Ha Hp. unfold to_digit_and_bit_pos.
  pose proof (Z.div_mod p 64 ltac:(lia)) as E. pose proof (Z.mod_pos_bound p 64 ltac:(lia)) as M.
  pose proof (Z.div_pos p 64 ltac:(lia) ltac:(lia)) as D.
  pose proof (wf_sh a Ha) as (H0 & H1 & H2). pose proof (required_digits_bound (len a) H0) as R.
  rewrite Z2Nat.id by lia. split; [lia|split; [lia|split; [lia|]]].
  rewrite nth_uval_digit; [|auto|lia]. unfold bit, unsigned.
  rewrite B_pow, Z.mod_pow2_bits_low by lia. rewrite P_pow, Z2Nat.id by lia.
  rewrite Z.div_pow2_bits by lia. f_equal. lia.
Qed.

Lemma get_bit_at_fact a p : wf a -> 0 <= p < len a -> get_bit_at a p = Val (Ok (bit a p)).
Proof. intros. apply get_bit_at_spec; auto. now apply wf_sh. Qed.
Lemma whole_fact a : wf a ->
  (exists c, set_all a = Val c /\ is_apint c (len a) (2 ^ len a - 1)) /\
  (exists c, unset_all a = Val c /\ is_apint c (len a) 0) /\
  (exists c, flip_all a = Val c /\ is_apint c (len a) (2 ^ len a - 1 - unsigned a)).
Proof.
  intros Ha. pose proof (wf_sh a Ha). split; [now apply set_all_spec|].
  split; [now apply unset_all_spec|now apply flip_all_spec].
Qed.
Lemma sign_bit_fact a : wf a ->
  (exists c, set_msb a = Val c /\ wf c /\ len c = len a /\
    forall i, 0 <= i -> bit c i = if i =? len a - 1 then true else bit a i) /\
  (exists c, unset_msb a = Val c /\ wf c /\ len c = len a /\
    forall i, 0 <= i -> bit c i = if i =? len a - 1 then false else bit a i) /\
  (exists c, flip_msb a = Val c /\ wf c /\ len c = len a /\
    forall i, 0 <= i -> bit c i = if i =? len a - 1 then negb (bit a i) else bit a i).
Proof.
  intros Ha. split; [now apply set_msb_spec|]. split; [now apply unset_msb_spec|now apply flip_msb_spec].
Qed.
Lemma is_one_refuted :
  (exists a, wf a /\ unsigned a = 1 /\ is_one a = Val false) /\
  (exists a, wf a /\ unsigned a <> 1 /\ is_one a = Val true).
Proof.
  split.
  - exists (mk_apint 65 [1; 0]). split; [|split; vm_compute; reflexivity].
    unfold wf; split; [reflexivity | split; [reflexivity | split;
    [repeat constructor; discriminate | vm_compute; reflexivity]]].
  - exists (mk_apint 65 [0; 1]). split; [|split; [vm_compute; discriminate|vm_compute; reflexivity]].
    unfold wf; split; [reflexivity | split; [reflexivity | split;
    [repeat constructor; discriminate | vm_compute; reflexivity]]].
Qed.
Lemma is_all_set_refuted :
  (exists a, wf a /\ unsigned a = 0 /\ is_all_set a = Val true) /\
  (exists a, wf a /\ len a = 128 /\ unsigned a <> 2 ^ 128 - 1 /\ is_all_set a = Val true).
Proof.
  split.
  - exists (mk_apint 64 [0]). split; [|split; vm_compute; reflexivity].
    unfold wf; split; [reflexivity | split; [reflexivity | split;
    [repeat constructor; discriminate | vm_compute; reflexivity]]].
  - exists (mk_apint 128 [18446744073709551615; 0]).
    split; [|split; [reflexivity|split; [vm_compute; discriminate|vm_compute; reflexivity]]].
    unfold wf; split; [reflexivity | split; [reflexivity | split;
    [repeat constructor; discriminate | vm_compute; reflexivity]]].
Qed.
