(** Proofs about the constructors and the named constants. *)
From Verif Require Export LShift MConstructors.

Lemma repeat_digit_spec w d :
  0 < w -> dok d ->
  exists c, repeat_digit w d = Val c /\ is_apint c w (uval (repeat d (required_digits w)) mod 2 ^ w).
Proof.
  intros Hw Hd. unfold repeat_digit. pose proof (required_digits_pos _ Hw) as Hp.
  set (ds := repeat d (required_digits w)).
  assert (length ds = required_digits w) as Hl by apply repeat_length.
  assert (ds <> []) as Hne by (intros E; rewrite E in Hl; cbn in Hl; lia).
  rewrite from_iter_spec by auto. cbn [bind unwrap].
  destruct (full_wf ds) as (Wf & Wl & Wu); [auto | now apply digs_repeat |].
  destruct (into_truncate_spec (mk_apint (64 * Z.of_nat (length ds)) ds) w) as (c & -> & Hc); auto.
  - cbn [len]. rewrite Hl. pose proof (required_digits_bound w Hw). lia.
  - cbn [bind unwrap]. exists c. split; [reflexivity|]. rewrite Wu in Hc. exact Hc.
Qed.
Lemma zero_spec w : 0 < w -> exists c, zero w = Val c /\ is_apint c w 0.
Proof.
  intros Hw. destruct (repeat_digit_spec w 0 Hw dok_0) as (c & E & Hc). exists c. split; auto.
  rewrite uval_repeat_0, Z.mod_0_l in Hc; auto. apply Z.pow_nonzero; lia.
Qed.
Lemma all_set_spec w : 0 < w -> exists c, all_set w = Val c /\ is_apint c w (2 ^ w - 1).
Proof.
  intros Hw. destruct (repeat_digit_spec w ONES Hw dok_ONES) as (c & E & Hc). exists c. split; auto.
  rewrite uval_repeat_ONES in Hc. assert (0 < 2 ^ w) by (apply Z.pow_pos_nonneg; lia).
  rewrite <- (mod_pow2_P w) in Hc by auto.
  assert ((P (required_digits w) - 1) mod P (required_digits w) = P (required_digits w) - 1) as E1.
  { apply Z.mod_small. pose proof (P_pos (required_digits w)). lia. }
  rewrite E1 in Hc. rewrite P_pow in Hc. pose proof (required_digits_bound w Hw).
  rewrite (pow2_split (64 * Z.of_nat (required_digits w)) w) in Hc by lia.
  replace (2 ^ w * 2 ^ (64 * Z.of_nat (required_digits w) - w) - 1)
    with (2 ^ w - 1 + (2 ^ (64 * Z.of_nat (required_digits w) - w) - 1) * 2 ^ w) in Hc by ring.
  rewrite Z_mod_plus_full, Z.mod_small in Hc by lia. exact Hc.
Qed.
Lemma new_inl_spec w d : 0 < w <= 64 -> 0 <= d < 2 ^ w -> exists c, new_inl w d = Val c /\ is_apint c w d.
Proof.
  intros Hw Hd. unfold new_inl. rewrite storage_inl by lia. eexists; split; [reflexivity|].
  unfold is_apint. rewrite wf_shape. unfold unsigned. cbn [len digits]. rewrite uval_one.
  split; [|auto]. split; [|lia]. apply shape_mk; [lia | now rewrite required_digits_1 |].
  apply digs_cons; split; auto using digs_nil. unfold dok. rewrite B_pow.
  pose proof (pow2_mono w 64 ltac:(lia)). lia.
Qed.
Lemma one_spec w : 0 < w -> exists c, one w = Val c /\ is_apint c w 1.
Proof.
  intros Hw. unfold one, from_u64. destruct (new_inl_spec 64 1) as (a & -> & Wa & La & Ua); [lia|lia|]. cbn [bind].
  unfold into_zero_resize. destruct (zero_resize_spec a w) as (c & E & Hc); auto. exists c; split; auto.
  rewrite Ua, Z.mod_small in Hc; auto. pose proof (pow2_mono 1 w ltac:(lia)). lia.
Qed.
Lemma setbit_add u i : 0 <= i -> Z.testbit u i = false -> Z.setbit u i = u + 2 ^ i.
Proof.
  intros Hi H. rewrite Z.setbit_spec'. symmetry. rewrite <- Z.lxor_lor.
  - apply Z.add_nocarry_lxor. apply Z.bits_inj'. intros j Hj. rewrite Z.land_spec, Z.pow2_bits_eqb, Z.bits_0 by lia.
    destruct (Z.eqb_spec i j) as [<-|]; [now rewrite H | apply andb_false_r].
  - apply Z.bits_inj'. intros j Hj. rewrite Z.land_spec, Z.pow2_bits_eqb, Z.bits_0 by lia.
    destruct (Z.eqb_spec i j) as [<-|]; [now rewrite H | apply andb_false_r].
Qed.
Lemma signed_min_value_spec w : 0 < w -> exists c, signed_min_value w = Val c /\ is_apint c w (2 ^ (w - 1)).
Proof.
  intros Hw. unfold signed_min_value. destruct (zero_spec w Hw) as (a & -> & Wa & La & Ua). cbn [bind].
  destruct (set_msb_spec a Wa) as (c & -> & Wc & Lc & Hb). exists c; split; auto.
  unfold is_apint. split; [auto|split; [congruence|]].
  apply Z.bits_inj'. intros i Hi. fold (bit c i). rewrite Hb by auto. rewrite La.
  rewrite Z.pow2_bits_eqb by lia. unfold bit. rewrite Ua, Z.bits_0.
  rewrite Z.eqb_sym. now destruct (w - 1 =? i).
Qed.
Lemma signed_max_value_spec w : 0 < w -> exists c, signed_max_value w = Val c /\ is_apint c w (2 ^ (w - 1) - 1).
Proof.
  intros Hw. unfold signed_max_value. destruct (all_set_spec w Hw) as (a & -> & Wa & La & Ua). cbn [bind].
  destruct (unset_msb_spec a Wa) as (c & -> & Wc & Lc & Hb). exists c; split; auto.
  unfold is_apint. split; [auto|split; [congruence|]].
  apply Z.bits_inj'. intros i Hi. fold (bit c i). rewrite Hb by auto. rewrite La.
  unfold bit. rewrite Ua.
  replace (2 ^ w - 1) with (Z.ones w) by (rewrite Z.ones_equiv; lia).
  replace (2 ^ (w - 1) - 1) with (Z.ones (w - 1)) by (rewrite Z.ones_equiv; lia).
  rewrite !Z.testbit_ones_nonneg by lia. clear. destruct (Z.eqb_spec i (w - 1)), (Z.ltb_spec i w), (Z.ltb_spec i (w - 1)); lia || reflexivity.
Qed.

Lemma be_value_rev vals : be_value vals = uval (rev vals).
Proof.
  unfold be_value. induction vals as [|d vals IH] using rev_ind; [reflexivity|].
  rewrite fold_left_app. cbn [fold_left]. rewrite IH, rev_app_distr. cbn [rev app]. rewrite uval_cons, B_pow. lia.
Qed.
Lemma from_u64_array_spec vals :
  vals <> [] -> digs vals ->
  exists c, from_u64_array vals = Val c /\ is_apint c (64 * Z.of_nat (length vals)) (be_value vals).
Proof.
  intros Hne Hd. unfold from_u64_array. rewrite rev_length, Nat.eqb_refl.
  assert (rev vals <> []) as Hr by (intros E; apply Hne; rewrite <- (rev_involutive vals), E; reflexivity).
  rewrite from_iter_spec by auto. cbn [bind unwrap]. eexists; split; [reflexivity|].
  rewrite be_value_rev, <- (rev_length vals). apply full_wf; auto. now apply digs_rev.
Qed.
Lemma from_i64_array_spec vals :
  vals <> [] ->
  exists c, from_i64_array vals = Val c /\
    is_apint c (64 * Z.of_nat (length vals)) (be_value (map (fun v => v mod 2 ^ 64) vals)).
Proof.
  intros Hne. unfold from_i64_array.
  destruct (from_u64_array_spec (map i64_as_u64 vals)) as (c & E & Hc).
  - now destruct vals.
  - apply Forall_forall. intros x Hx. apply in_map_iff in Hx as (y & <- & _). apply dok_mod.
  - exists c; split; auto. rewrite map_length in Hc. unfold i64_as_u64 in Hc. rewrite B_pow in Hc. exact Hc.
Qed.
Lemma BB_pow : BB = 2 ^ 128.
Proof. rewrite BB_B, B_pow. reflexivity. Qed.
Lemma from_u128_spec v : 0 <= v < 2 ^ 128 -> exists c, from_u128 v = Val c /\ is_apint c 128 v.
Proof.
  intros Hv. unfold from_u128. cbv zeta.
  assert (Z.shiftr v 64 mod B = v / B) as ->.
  { rewrite Z.shiftr_div_pow2, <- B_pow by lia. apply Z.mod_small. pose proof B_pos.
    rewrite <- BB_pow, BB_B in Hv. split; [apply Z.div_pos; lia | apply Z.div_lt_upper_bound; lia]. }
  assert (Z.land v (Z.shiftl 1 64 - 1) mod B = v mod B) as ->.
  { rewrite Z.shiftl_1_l. replace (2 ^ 64 - 1) with (Z.ones 64) by (rewrite Z.ones_equiv; lia).
    rewrite Z.land_ones, <- B_pow by lia. apply Z.mod_mod. pose proof B_pos. lia. }
  destruct (from_u64_array_spec [v / B; v mod B]) as (c & E & Hc).
  - discriminate.
  - apply digs_cons; split; [|apply digs_cons; auto using digs_nil, dok_mod].
    pose proof B_pos. rewrite <- BB_pow, BB_B in Hv. unfold dok.
    split; [apply Z.div_pos; lia | apply Z.div_lt_upper_bound; lia].
  - exists c; split; auto. cbn [length] in Hc. change (64 * Z.of_nat 2) with 128 in Hc.
    unfold be_value in Hc. cbn [fold_left] in Hc. rewrite <- B_pow in Hc.
    pose proof B_pos. replace ((0 * B + v / B) * B + v mod B) with v in Hc; auto.
    pose proof (Z.div_mod v B). lia.
Qed.
Lemma from_i128_spec v : exists c, from_i128 v = Val c /\ is_apint c 128 (v mod 2 ^ 128).
Proof. unfold from_i128. rewrite BB_pow. apply from_u128_spec. apply Z.mod_pos_bound. lia. Qed.
