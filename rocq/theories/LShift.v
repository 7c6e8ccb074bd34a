(** Proofs about the three shifts. *)
From Verif Require Export LCast MShift.

Lemma verify_shift_ok w s : s < w -> verify_shift_amount w s = Ok tt.
Proof. intros. unfold verify_shift_amount. destruct (Z.ltb_spec s w); [auto|lia]. Qed.
Lemma verify_shift_err w s : w <= s -> verify_shift_amount w s = Err (InvalidShiftAmount s w).
Proof. intros. unfold verify_shift_amount. destruct (Z.ltb_spec s w); [lia|auto]. Qed.

Lemma u64_shl_spec x s : 0 <= s < 64 -> u64_shl x s = Val ((x * 2 ^ s) mod B).
Proof.
  intros H. unfold u64_shl. destruct (Z.ltb_spec s 64); [|lia]. now rewrite Z.shiftl_mul_pow2 by lia.
Qed.
Lemma u64_shr_spec x s : 0 <= s < 64 -> u64_shr x s = Val (x / 2 ^ s).
Proof.
  intros H. unfold u64_shr. destruct (Z.ltb_spec s 64); [|lia]. now rewrite Z.shiftr_div_pow2 by lia.
Qed.
Lemma lor_add_low hi lo k : 0 <= k -> 0 <= lo < 2 ^ k -> Z.lor (hi * 2 ^ k) lo = hi * 2 ^ k + lo.
Proof.
  intros Hk Hlo. symmetry. rewrite <- Z.lxor_lor, <- Z.add_nocarry_lxor; auto;
  (apply Z.bits_inj'; intros i Hi; rewrite Z.land_spec, Z.bits_0; destruct (Z.ltb_spec i k);
   [now rewrite Z.mul_pow2_bits_low by lia | rewrite (testbit_high lo k) by lia; apply andb_false_r]).
Qed.
Lemma B_split b : 0 <= b <= 64 -> B = 2 ^ b * 2 ^ (64 - b).
Proof. intros. rewrite <- Z.pow_add_r by lia. rewrite B_pow. f_equal. lia. Qed.

(** * Left shift *)
Lemma shl_digits_spec steps ds :
  digs ds -> (steps <= length ds)%nat ->
  exists ds1, shl_digits steps ds = Val ds1 /\ digs ds1 /\ length ds1 = length ds /\
    ds1 = repeat 0 steps ++ firstn (length ds - steps) ds.
Proof.
  intros Hd Hs. unfold shl_digits. destruct (Nat.eqb_spec steps 0) as [->|].
  - exists ds. cbn [repeat app]. rewrite Nat.sub_0_r, firstn_all. auto.
  - destruct (Nat.leb_spec steps (length ds)); [|lia]. eexists; split; [reflexivity|].
    split; [|split; auto].
    + apply digs_app; split; [apply digs_repeat, dok_0 | now apply digs_firstn].
    + rewrite app_length, repeat_length, firstn_length_le; lia.
Qed.

Lemma shl_loop_spec bits : 0 < bits < 64 -> forall ds carry,
  digs ds -> 0 <= carry < 2 ^ bits ->
  exists r q, shl_loop bits carry ds = Val r /\ digs r /\ length r = length ds /\
    uval r = uval ds * 2 ^ bits + carry + q * P (length ds).
Proof.
  intros Hb. pose proof (B_split bits ltac:(lia)) as HB.
  assert (0 < 2 ^ bits) by (apply Z.pow_pos_nonneg; lia).
  assert (0 < 2 ^ (64 - bits)) by (apply Z.pow_pos_nonneg; lia).
  induction ds as [|d ds IH]; intros carry Hd Hc.
  - exists [], (- carry). cbn [shl_loop length]. rewrite uval_nil, P_0. repeat split; auto; lia.
  - apply digs_cons in Hd as [Hd Hds]. cbn [shl_loop]. unfold usize_sub.
    destruct (Z.leb_spec bits 64); [|lia]. cbn [bind].
    rewrite u64_shr_spec, u64_shl_spec by lia. cbn [bind].
    assert (0 <= d / 2 ^ (64 - bits) < 2 ^ bits) as Hnc.
    { unfold dok in Hd. split; [apply Z.div_pos; lia|]. apply Z.div_lt_upper_bound; lia. }
    destruct (IH (d / 2 ^ (64 - bits)) Hds Hnc) as (r & q & -> & Hr & Hl & Hu). cbn [bind].
    assert ((d * 2 ^ bits) mod B = (d mod 2 ^ (64 - bits)) * 2 ^ bits) as Elo.
    { rewrite HB, (Z.mul_comm (2 ^ bits)). rewrite Z.mul_mod_distr_r by lia. reflexivity. }
    rewrite Elo, lor_add_low by lia.
    pose proof (Z.mod_pos_bound d (2 ^ (64 - bits)) ltac:(lia)).
    exists ((d mod 2 ^ (64 - bits)) * 2 ^ bits + carry :: r), q. split; auto.
    split; [|split; [cbn; lia|]].
    + apply digs_cons; split; auto. unfold dok. nia.
    + cbn [length]. rewrite !uval_cons, P_S, Hu. rewrite (Z.div_mod d (2 ^ (64 - bits))) at 3 by lia.
      rewrite HB. ring.
Qed.

Lemma modify_from_spec steps f ds t :
  (steps <= length ds)%nat -> f (skipn steps ds) = Val t ->
  modify_from steps f ds = Val (firstn steps ds ++ t).
Proof. intros H E. unfold modify_from. destruct (Nat.leb_spec steps (length ds)); [|lia]. now rewrite E. Qed.

Lemma shift_split s : 0 <= s -> s = 64 * Z.of_nat (digit_steps s) + bit_steps s /\ 0 <= bit_steps s < 64.
Proof. intros. unfold digit_steps, bit_steps. lia. Qed.
Lemma pow2_shift s : 0 <= s -> 2 ^ s = P (digit_steps s) * 2 ^ bit_steps s.
Proof.
  intros H. destruct (shift_split s H) as [E Hb]. rewrite E at 1. rewrite Z.pow_add_r, <- P_pow by lia. reflexivity.
Qed.
Lemma digit_steps_lt s w : 0 <= s < w -> (digit_steps s < required_digits w)%nat.
Proof. intros. unfold digit_steps, required_digits. lia. Qed.

Lemma wrapping_shl_assign_spec a s :
  wf a -> 0 <= s < len a ->
  exists c, wrapping_shl_assign a s = Val (c, Ok tt) /\ is_apint c (len a) ((unsigned a * 2 ^ s) mod 2 ^ len a).
Proof.
  intros Hwf Hs. pose proof (wf_sh _ Hwf) as Ha. pose proof Ha as (H0 & H1 & H2).
  unfold wrapping_shl_assign, width. rewrite verify_shift_ok by lia.
  destruct (shape_viewP a Ha) as [d Hw Ea Hd Hst ->|Hw Hl Hst ->]; cbn [bind].
  - rewrite u64_shl_spec by lia. cbn [bind]. unfold write_inl.
    destruct (clear_finish (len a) [(d * 2 ^ s) mod B] (d * 2 ^ s) (- (d * 2 ^ s / B))) as (c & -> & Hc).
    + lia.
    + now rewrite required_digits_1.
    + apply digs_cons; auto using digs_nil, dok_mod.
    + rewrite uval_one, required_digits_1, P_1 by auto. pose proof B_pos. pose proof (Z.div_mod (d * 2 ^ s) B). lia.
    + cbn [bind]. exists c; split; auto. unfold unsigned.
      assert (uval (digits a) = d) as -> by (rewrite Ea; apply uval_one). exact Hc.
  - pose proof (digit_steps_lt s (len a) Hs) as Hk.
    destruct (shl_digits_spec (digit_steps s) (digits a)) as (ds1 & -> & Hd1 & Hl1 & Eds1); auto; [lia|].
    cbn [bind]. set (k := digit_steps s) in *. set (n := length (digits a)) in *.
    set (lo := firstn (n - k) (digits a)) in *.
    assert (digs lo) by (now apply digs_firstn).
    assert (length lo = n - k)%nat as Llo by (unfold lo; rewrite firstn_length_le; lia).
    assert (uval (digits a) = uval lo + P (n - k) * uval (skipn (n - k) (digits a))) as Esp
      by (apply uval_split; lia).
    assert (P n = P k * P (n - k)) as EPn by (rewrite <- P_add; f_equal; lia).
    destruct (shift_split s ltac:(lia)) as [_ Hbs].
    assert (exists ds2 q, (if negb (bit_steps s =? 0) then modify_from k (shl_loop (bit_steps s) 0) ds1 else Val ds1) = Val ds2
      /\ digs ds2 /\ length ds2 = n /\ uval ds2 = uval (digits a) * 2 ^ s + q * P n) as (ds2 & q & -> & Hd2 & Hl2 & Hq).
    { rewrite (pow2_shift s) by lia. fold k. destruct (Z.eqb_spec (bit_steps s) 0) as [E0|N0]; cbn [negb].
      - exists ds1, (- uval (skipn (n - k) (digits a))). repeat split; auto.
        rewrite E0, Eds1, uval_app, uval_repeat_0, repeat_length, Z.pow_0_r, EPn. fold lo. rewrite Esp. ring.
      - destruct (shl_loop_spec (bit_steps s) ltac:(lia) lo 0) as (t & q & Et & Ht & Hlt & Hut); auto.
        { pose proof (Z.pow_pos_nonneg 2 (bit_steps s)). lia. }
        rewrite (modify_from_spec _ _ _ t).
        + exists (firstn k ds1 ++ t), (q - uval (skipn (n - k) (digits a)) * 2 ^ bit_steps s).
          split; auto. split; [apply digs_app; split; auto; now apply digs_firstn|]. split.
          * rewrite app_length, firstn_length_le, Hlt, Llo by lia. lia.
          * rewrite uval_app, firstn_length_le by lia.
            rewrite Eds1 at 1. rewrite firstn_app, repeat_length, firstn_all2 by (rewrite repeat_length; lia).
            rewrite Nat.sub_diag. cbn [firstn]. rewrite app_nil_r, uval_repeat_0, Hut, Llo, Esp, EPn. ring.
        + lia.
        + rewrite Eds1, skipn_app, repeat_length, skipn_all2 by (rewrite repeat_length; lia).
          rewrite Nat.sub_diag. cbn [skipn app]. exact Et. }
    cbn [bind]. unfold write_ext.
    destruct (clear_finish (len a) ds2 (uval (digits a) * 2 ^ s) q) as (c & -> & Hc); auto.
    + unfold n in *. lia.
    + rewrite <- H1. exact Hq.
    + cbn [bind]. exists c; split; auto.
Qed.
Lemma wrapping_shl_assign_err a s :
  len a <= s -> wrapping_shl_assign a s = Val (a, Err (InvalidShiftAmount s (len a))).
Proof. intros H. unfold wrapping_shl_assign, width. now rewrite verify_shift_err. Qed.

(** * Logical right shift *)
Lemma lshr_digits_spec steps ds :
  digs ds -> (steps <= length ds)%nat ->
  exists ds1, lshr_digits steps ds = Val ds1 /\ digs ds1 /\ length ds1 = length ds /\
    uval ds1 = uval ds / P steps.
Proof.
  intros Hd Hs. unfold lshr_digits. destruct (Nat.eqb_spec steps 0) as [->|].
  - exists ds. rewrite P_0, Z.div_1_r. auto.
  - destruct (Nat.leb_spec steps (length ds)); [|lia]. cbv zeta.
    assert (firstn (length (skipn steps ds ++ firstn steps ds) - steps) (skipn steps ds ++ firstn steps ds)
            = skipn steps ds) as ->.
    { rewrite app_length, skipn_length, firstn_length_le by lia.
      rewrite firstn_app, skipn_length.
      replace (length ds - steps + steps - steps - (length ds - steps))%nat with 0%nat by lia.
      cbn [firstn]. rewrite app_nil_r. apply firstn_all2. rewrite skipn_length. lia. }
    eexists; split; [reflexivity|]. split; [|split].
    + apply digs_app; split; [now apply digs_skipn | apply digs_repeat, dok_0].
    + rewrite app_length, repeat_length, skipn_length; lia.
    + unfold ZERO. rewrite uval_app, uval_repeat_0, uval_skipn_div by auto. lia.
Qed.

Lemma lshr_loop_spec bits : 0 < bits < 64 -> forall ds b,
  digs ds -> 0 <= b < 2 ^ bits ->
  exists r, lshr_loop bits (b * 2 ^ (64 - bits)) (rev ds) = Val r /\ digs (rev r) /\ length r = length ds /\
    uval (rev r) = (uval ds + P (length ds) * b) / 2 ^ bits.
Proof.
  intros Hb. pose proof (B_split bits ltac:(lia)) as HB.
  assert (0 < 2 ^ bits) by (apply Z.pow_pos_nonneg; lia).
  assert (0 < 2 ^ (64 - bits)) by (apply Z.pow_pos_nonneg; lia).
  induction ds as [|d ds IH] using rev_ind; intros b Hd Hc.
  - exists []. cbn [lshr_loop rev length]. rewrite uval_nil, P_0. repeat split; auto using digs_nil.
    rewrite Z.div_small; lia.
  - apply digs_app in Hd as [Hds Hd]. apply digs_cons in Hd as [Hd _].
    rewrite rev_app_distr. cbn [rev app lshr_loop]. unfold usize_sub.
    destruct (Z.leb_spec bits 64); [|lia]. cbn [bind].
    rewrite u64_shl_spec, u64_shr_spec by lia. cbn [bind].
    assert ((d * 2 ^ (64 - bits)) mod B = (d mod 2 ^ bits) * 2 ^ (64 - bits)) as ->.
    { rewrite HB. rewrite Z.mul_mod_distr_r by lia. reflexivity. }
    pose proof (Z.mod_pos_bound d (2 ^ bits) ltac:(lia)) as Hm.
    destruct (IH (d mod 2 ^ bits) Hds Hm) as (r & -> & Hr & Hl & Hu). cbn [bind].
    assert (0 <= d / 2 ^ bits < 2 ^ (64 - bits)) as Hq.
    { unfold dok in Hd. split; [apply Z.div_pos; lia|]. apply Z.div_lt_upper_bound; lia. }
    rewrite Z.lor_comm, lor_add_low by lia.
    eexists; split; [reflexivity|]. cbn [rev]. split; [|split].
    + apply digs_app; split; auto. apply digs_cons; split; auto using digs_nil. unfold dok. nia.
    + rewrite app_length. cbn [length]. lia.
    + rewrite !uval_app, !uval_one, app_length, rev_length, Hu, Hl. cbn [length].
      replace (length ds + 1)%nat with (S (length ds)) by lia. rewrite P_S.
      replace (uval ds + P (length ds) * d + B * P (length ds) * b)
        with (uval ds + P (length ds) * (d mod 2 ^ bits) + (P (length ds) * (b * 2 ^ (64 - bits) + d / 2 ^ bits)) * 2 ^ bits).
      * now rewrite Z.div_add by lia.
      * rewrite (Z.div_mod d (2 ^ bits)) at 3 by lia. rewrite HB. ring.
Qed.

Lemma wrapping_lshr_assign_spec a s :
  wf a -> 0 <= s < len a ->
  exists c, wrapping_lshr_assign a s = Val (c, Ok tt) /\ is_apint c (len a) (unsigned a / 2 ^ s).
Proof.
  intros Hwf Hs. pose proof (wf_sh _ Hwf) as Ha. pose proof Ha as (H0 & H1 & H2).
  pose proof (unsigned_bound _ Hwf) as Hu.
  assert (0 < 2 ^ s) by (apply Z.pow_pos_nonneg; lia).
  assert (0 <= unsigned a / 2 ^ s <= unsigned a) as Hle.
  { split; [apply Z.div_pos; lia|]. apply Z.div_le_upper_bound; nia. }
  unfold wrapping_lshr_assign, width. rewrite verify_shift_ok by lia.
  destruct (shape_viewP a Ha) as [d Hw Ea Hd Hst ->|Hw Hl Hst ->]; cbn [bind].
  - rewrite u64_shr_spec by lia. cbn [bind]. eexists; split; [reflexivity|]. unfold write_inl.
    assert (unsigned a = d) as Eu by (unfold unsigned; rewrite Ea; apply uval_one). rewrite Eu in *.
    unfold is_apint. rewrite wf_shape. unfold unsigned. cbn [len digits]. rewrite uval_one.
    split; [|auto]. split; [|lia]. apply shape_mk; auto.
    + now rewrite required_digits_1.
    + apply digs_cons; split; auto using digs_nil. unfold dok in *. lia.
  - pose proof (digit_steps_lt s (len a) Hs) as Hk.
    destruct (lshr_digits_spec (digit_steps s) (digits a)) as (ds1 & -> & Hd1 & Hl1 & Hu1); auto; [lia|].
    cbn [bind]. destruct (shift_split s ltac:(lia)) as [_ Hbs].
    assert (exists ds2, (if 0 <? bit_steps s then let! r := lshr_loop (bit_steps s) 0 (rev ds1) in Val (rev r) else Val ds1) = Val ds2
      /\ digs ds2 /\ length ds2 = length (digits a) /\ uval ds2 = uval (digits a) / 2 ^ s) as (ds2 & -> & Hd2 & Hl2 & Hu2).
    { rewrite (pow2_shift s) by lia. rewrite <- Z.div_div; [|pose proof (P_pos (digit_steps s)); lia | apply Z.pow_pos_nonneg; lia].
      destruct (Z.ltb_spec 0 (bit_steps s)).
      - destruct (lshr_loop_spec (bit_steps s) ltac:(lia) ds1 0) as (r & Er & Hr & Hlr & Hur); auto.
        { pose proof (Z.pow_pos_nonneg 2 (bit_steps s)). lia. }
        rewrite Z.mul_0_l in Er. rewrite Er. cbn [bind]. exists (rev r). repeat split; auto.
        + rewrite rev_length. lia.
        + rewrite Hur, Hu1, Z.mul_0_r, Z.add_0_r. reflexivity.
      - exists ds1. repeat split; auto. replace (bit_steps s) with 0 by lia.
        rewrite Z.pow_0_r, Z.div_1_r. exact Hu1. }
    cbn [bind]. eexists; split; [reflexivity|]. unfold write_ext.
    unfold is_apint. rewrite wf_shape. unfold unsigned in *. cbn [len digits]. rewrite Hu2.
    split; [|auto]. split; [|lia]. apply shape_mk; auto. lia.
Qed.
Lemma wrapping_lshr_assign_err a s :
  len a <= s -> wrapping_lshr_assign a s = Val (a, Err (InvalidShiftAmount s (len a))).
Proof. intros H. unfold wrapping_lshr_assign, width. now rewrite verify_shift_err. Qed.

(** * Arithmetic right shift *)

(** Digit [i] of an integer. *)
Definition sdig (V : Z) (i : nat) : Z := (V / P i) mod B.

Lemma sdig_dok V i : dok (sdig V i).
Proof. apply dok_mod. Qed.

Lemma sdig_list V o :
  (forall i, (i < length o)%nat -> nth i o 0 = sdig V i) -> digs o /\ uval o = V mod P (length o).
Proof.
  intros H. assert (digs o) as Hd.
  { apply Forall_forall. intros x Hx. apply (In_nth _ _ 0) in Hx as (i & Hi & <-). rewrite H by auto. apply sdig_dok. }
  split; auto. rewrite <- (uval_firstn_all o).
  assert (forall i, (i <= length o)%nat -> uval (firstn i o) = V mod P i) as G; [|now apply G].
  induction i as [|i IH]; intros Hi.
  - cbn [firstn]. rewrite uval_nil, P_0, Z.mod_1_r. reflexivity.
  - rewrite uval_firstn_S, IH, H by lia. unfold sdig. rewrite P_S, (Z.mul_comm B).
    pose proof (P_pos i). pose proof B_pos. rewrite Z.rem_mul_r by lia. lia.
Qed.

Lemma sdig_combine T b : 0 < b < 64 ->
  d_or (d_shr (T mod B) b) (d_shl ((T / B) mod B) (64 - b)) = (T / 2 ^ b) mod B.
Proof.
  intros Hb. unfold d_or, d_shr, d_shl, u64_wshr, u64_wshl. rewrite !(Z.mod_small _ 64) by lia.
  rewrite B_pow. apply Z.bits_inj'. intros i Hi. rewrite Z.lor_spec, Z.shiftr_spec by lia.
  destruct (Z.ltb_spec i 64).
  - rewrite !Z.mod_pow2_bits_low with (m := i) by lia. rewrite Z.div_pow2_bits by lia.
    destruct (Z.ltb_spec (i + b) 64).
    + rewrite Z.mod_pow2_bits_low, Z.shiftl_spec_low by lia. apply orb_false_r.
    + rewrite Z.mod_pow2_bits_high, Z.shiftl_spec by lia. cbn [orb].
      rewrite Z.mod_pow2_bits_low, Z.div_pow2_bits by lia. f_equal. lia.
  - rewrite !Z.mod_pow2_bits_high by lia. reflexivity.
Qed.

Lemma div_P_S V i : V / P (S i) = V / P i / B.
Proof. pose proof (P_pos i). pose proof B_pos. rewrite P_S, (Z.mul_comm B), Z.div_div by lia. reflexivity. Qed.
Lemma div_P_add V i j : V / P (i + j) = V / P i / P j.
Proof. pose proof (P_pos i). pose proof (P_pos j). rewrite P_add, Z.div_div by lia. reflexivity. Qed.

Lemma sdig_shift V k b i : 0 < b < 64 ->
  d_or (d_shr (sdig V (i + k)) b) (d_shl (sdig V (i + k + 1)) (64 - b)) = sdig (V / (P k * 2 ^ b)) i.
Proof.
  intros Hb. unfold sdig. replace (i + k + 1)%nat with (S (i + k)) by lia. rewrite div_P_S, sdig_combine by lia.
  f_equal. pose proof (P_pos i). pose proof (P_pos k). assert (0 < 2 ^ b) by (apply Z.pow_pos_nonneg; lia).
  rewrite P_add, !Z.div_div by nia. f_equal. ring.
Qed.
Lemma sdig_shift0 V k i : sdig V (i + k) = sdig (V / P k) i.
Proof. unfold sdig. rewrite Nat.add_comm, div_P_add. reflexivity. Qed.

Lemma sdig_high V n i : - P n <= V < 0 -> (n <= i)%nat -> sdig V i = ONES.
Proof.
  intros HV Hi. unfold sdig. pose proof (P_mono n i Hi). pose proof (P_pos i).
  replace V with (V + P i + (-1) * P i) by lia. rewrite Z.div_add, Z.div_small by lia.
  rewrite ONES_B. replace (0 + -1) with (B - 1 + (-1) * B) by lia. rewrite Z_mod_plus_full.
  apply Z.mod_small. pose proof B_pos. lia.
Qed.

Lemma sdig_nth V x q i : digs x -> uval x = V + q * P (length x) -> (i < length x)%nat -> nth i x 0 = sdig V i.
Proof.
  intros Hd Hu Hi. rewrite nth_uval_digit, Hu by auto. unfold sdig.
  assert (P (length x) = B * P (length x - S i) * P i) as ->.
  { rewrite <- P_S, <- P_add. f_equal. lia. }
  pose proof (P_pos i). rewrite Z.mul_assoc, Z.div_add by lia.
  replace (q * (B * P (length x - S i))) with (q * P (length x - S i) * B) by ring.
  now rewrite Z_mod_plus_full.
Qed.

Lemma nsub_spec a b : (b <= a)%nat -> nsub a b = Val (a - b)%nat.
Proof. intros. unfold nsub. destruct (Nat.leb_spec b a); [auto|lia]. Qed.

Lemma d_set_all_spec v : dok v -> d_set_all v = ONES.
Proof.
  unfold dok, d_set_all. intros Hv. rewrite ONES_pow. rewrite B_pow in Hv.
  replace (2 ^ 64 - 1) with (Z.ones 64) by (rewrite Z.ones_equiv; lia).
  apply Z.lor_ones_low; [lia|]. destruct (Z.eq_dec v 0) as [->|]; [cbn; lia|]. apply Z.log2_lt_pow2; lia.
Qed.

Lemma ashr_fill_spec V k diff x :
  (forall i, (i < diff)%nat -> nth i x 0 = sdig (V / P k) i) ->
  digs x -> (diff + k = length x)%nat -> - P (length x) <= V < 0 ->
  exists o, ashr_fill k diff x = Val o /\ length o = length x /\
    (forall i, (i < diff)%nat -> nth i o 0 = nth i x 0) /\
    (forall i, (diff <= i < length x)%nat -> nth i o 0 = ONES).
Proof.
  intros _ Hd Hl HV. unfold ashr_fill.
  destruct (for_range_inv (fun j o => digs o /\ length o = length x /\
      (forall i, (i < diff)%nat -> nth i o 0 = nth i x 0) /\
      (forall i, (diff <= i < diff + j)%nat -> nth i o 0 = ONES))
      (fun i x => let! v := idx x (i + diff) in upd x (i + diff) (d_set_all v)) k 0 x) as (o & E & _ & Ho).
  - repeat split; auto. intros; lia.
  - intros i o Hi (Hdo & Hlo & Ho1 & Ho2). rewrite ?idx_nth by lia. cbn [bind].
    rewrite upd_updl by lia. eexists; split; [reflexivity|]. rewrite d_set_all_spec by (apply nth_dok; auto; lia).
    split; [apply updl_digs; auto using dok_ONES|]. rewrite updl_length by lia. split; auto. split.
    + intros j Hj. rewrite updl_nth_other by lia. auto.
    + intros j Hj. destruct (Nat.eq_dec j (i + diff)) as [->|]; [apply updl_nth_same; lia|].
      rewrite updl_nth_other by lia. apply Ho2. lia.
  - exists o. split; auto. destruct Ho as (A & A1 & A2). repeat split; auto. intros i Hi. apply A2. lia.
Qed.

Section Ashr.
  Variables (V : Z) (x : list Z) (q : Z).
  Hypothesis (Hd : digs x) (Hu : uval x = V + q * P (length x)) (HV : - P (length x) <= V < 0)
             (Hn : (2 <= length x)%nat).
  Let n := length x.

  Lemma x_nth i : (i < n)%nat -> nth i x 0 = sdig V i.
  Proof. intros. now apply sdig_nth with q. Qed.

  Lemma ashr_subdigit_spec b : 0 < b < 64 ->
    exists o, ashr_subdigit b (64 - b) x = Val o /\ digs o /\ length o = n /\ uval o = (V / 2 ^ b) mod P n.
  Proof.
    intros Hb. unfold ashr_subdigit. rewrite nsub_spec by lia. cbn [bind]. fold n.
    destruct (for_range_inv (fun j o => length o = n /\
      (forall i, (i < j)%nat -> nth i o 0 = sdig (V / (P 0 * 2 ^ b)) i) /\
      (forall i, (j <= i < n)%nat -> nth i o 0 = nth i x 0))
      (fun i x => let! xi := idx x i in let! xi1 := idx x (i + 1) in
                  upd x i (d_or (d_shr xi b) (d_shl xi1 (64 - b)))) (n - 1) 0 x) as (o & -> & Hlo & Ho1 & Ho2).
    - repeat split; auto. intros; lia.
    - intros i o Hi (Hlo & Ho1 & Ho2). unfold n in *. rewrite ?idx_nth by lia. cbn [bind]. rewrite ?idx_nth by lia. cbn [bind].
      rewrite upd_updl by lia. eexists; split; [reflexivity|]. rewrite updl_length by lia. split; auto.
      rewrite !Ho2, !x_nth by (unfold n; lia).
      replace (sdig V i) with (sdig V (i + 0)) by (f_equal; lia).
      replace (i + 1)%nat with (i + 0 + 1)%nat by lia. rewrite sdig_shift by lia. split.
      + intros j Hj. destruct (Nat.eq_dec j i) as [->|]; [apply updl_nth_same; lia|].
        rewrite updl_nth_other by lia. apply Ho1. lia.
      + intros j Hj. rewrite updl_nth_other by lia. apply Ho2. lia.
    - cbn [bind]. rewrite ?idx_nth by (unfold n in *; lia). cbn [bind].
      rewrite upd_updl by (unfold n in *; lia). eexists; split; [reflexivity|].
      rewrite Ho2, x_nth by (unfold n in *; lia).
      rewrite <- (sdig_high V n (n - 1 + 0 + 1)) by (unfold n in *; lia).
      replace (sdig V (n - 1)) with (sdig V (n - 1 + 0)) by (f_equal; lia). rewrite sdig_shift by lia.
      set (o' := updl o _ _). assert (length o' = n) as Lo' by (unfold o'; rewrite updl_length; unfold n in *; lia).
      replace (V / 2 ^ b) with (V / (P 0 * 2 ^ b)) by (rewrite P_0; f_equal; lia).
      rewrite <- Lo' at 2. cut (digs o' /\ uval o' = (V / (P 0 * 2 ^ b)) mod P (length o')); [rewrite Lo'; tauto|].
      apply sdig_list. intros i Hi. unfold o'.
      destruct (Nat.eq_dec i (n - 1)) as [->|]; [apply updl_nth_same; unfold n in *; lia|].
      rewrite updl_nth_other by (unfold n in *; lia). apply Ho1. lia.
  Qed.

  Lemma neg_shift k b : 0 <= b -> - P (n - k) <= V / (P k * 2 ^ b) < 0 \/ (n < k)%nat.
  Proof.
    intros Hb. destruct (Nat.ltb_spec n k); [now right|left].
    pose proof (P_pos k). assert (0 < 2 ^ b) by (apply Z.pow_pos_nonneg; lia).
    assert (P n = P k * P (n - k)) as EP by (rewrite <- P_add; f_equal; lia).
    unfold n in *. pose proof (P_pos (length x - k)).
    split.
    - apply Z.div_le_lower_bound; [nia|]. nia.
    - apply Z.div_lt_upper_bound; nia.
  Qed.

  Lemma ashr_digit_spec k : (0 < k < n)%nat ->
    exists o, ashr_digit k (n - k) x = Val o /\ digs o /\ length o = n /\ uval o = (V / P k) mod P n.
  Proof.
    intros Hk. unfold ashr_digit. fold n.
    destruct (for_range_inv (fun j o => digs o /\ length o = n /\
      (forall i, (i < j - k)%nat -> nth i o 0 = sdig (V / P k) i) /\
      (forall i, (j - k <= i < n)%nat -> nth i o 0 = nth i x 0))
      (fun i x => let! v := idx x i in let! j := nsub i k in upd x j v) (n - k) k x) as (o & -> & Hdo & Hlo & Ho1 & Ho2).
    - repeat split; auto. intros; lia.
    - intros i o Hi (Hdo & Hlo & Ho1 & Ho2). rewrite ?idx_nth by lia. cbn [bind]. rewrite nsub_spec by lia. cbn [bind].
      rewrite upd_updl by lia. eexists; split; [reflexivity|]. rewrite updl_length by lia.
      split; [apply updl_digs; auto; apply nth_dok; auto; lia|]. split; auto.
      rewrite !Ho2, !x_nth by lia.
      assert (sdig V i = sdig (V / P k) (i - k)) as -> by (rewrite <- sdig_shift0; f_equal; lia). split.
      + intros j Hj. destruct (Nat.eq_dec j (i - k)) as [->|].
        * now rewrite updl_nth_same by lia.
        * rewrite updl_nth_other by lia. apply Ho1. lia.
      + intros j Hj. rewrite updl_nth_other by lia. apply Ho2. lia.
    - cbn [bind]. destruct (ashr_fill_spec V k (n - k) o) as (o' & -> & Lo' & Ho'1 & Ho'2); auto.
      + intros i Hi. apply Ho1. lia.
      + lia.
      + rewrite Hlo. exact HV.
      + exists o'. split; auto.
        cut (digs o' /\ uval o' = (V / P k) mod P (length o')); [rewrite Lo', Hlo; tauto|].
        apply sdig_list. intros i Hi. destruct (Nat.ltb_spec i (n - k)).
        * rewrite Ho'1 by lia. apply Ho1. lia.
        * rewrite Ho'2 by lia. symmetry. rewrite <- sdig_shift0. apply sdig_high with n; [exact HV | lia].
  Qed.

  Lemma ashr_both_spec k b : (0 < k < n)%nat -> 0 < b < 64 ->
    exists o, ashr_both k (n - k) b (64 - b) x = Val o /\ digs o /\ length o = n /\ uval o = (V / (P k * 2 ^ b)) mod P n.
  Proof.
    intros Hk Hb. unfold ashr_both. rewrite nsub_spec by (unfold n in *; lia). cbn [bind]. fold n.
    destruct (for_range_inv (fun j o => digs o /\ length o = n /\
      (forall i, (i < j - k)%nat -> nth i o 0 = sdig (V / (P k * 2 ^ b)) i) /\
      (forall i, (j - k <= i < n)%nat -> nth i o 0 = nth i x 0))
      (fun i x => let! xi := idx x i in let! xi1 := idx x (i + 1) in let! j := nsub i k in
                  upd x j (d_or (d_shr xi b) (d_shl xi1 (64 - b)))) (n - 1 - k) k x)
      as (o & -> & Hdo & Hlo & Ho1 & Ho2).
    - repeat split; auto. intros; lia.
    - intros i o Hi (Hdo & Hlo & Ho1 & Ho2). rewrite ?idx_nth by lia. cbn [bind]. rewrite ?idx_nth by lia. cbn [bind].
      rewrite nsub_spec by lia. cbn [bind].
      rewrite upd_updl by lia. eexists; split; [reflexivity|]. rewrite updl_length by lia.
      rewrite !Ho2, !x_nth by lia.
      replace (sdig V i) with (sdig V (i - k + k)) by (f_equal; lia).
      replace (i + 1)%nat with (i - k + k + 1)%nat by lia. rewrite sdig_shift by lia.
      split; [apply updl_digs; auto; apply sdig_dok|]. split; auto. split.
      + intros j Hj. destruct (Nat.eq_dec j (i - k)) as [->|]; [apply updl_nth_same; lia|].
        rewrite updl_nth_other by lia. apply Ho1. lia.
      + intros j Hj. rewrite updl_nth_other by lia. apply Ho2. lia.
    - cbn [bind]. rewrite nsub_spec by lia. cbn [bind]. rewrite ?idx_nth by lia. cbn [bind].
      rewrite upd_updl by lia. cbn [bind].
      rewrite Ho2, x_nth by lia.
      rewrite <- (sdig_high V n (n - 1 - k + k + 1)) by (first [exact HV | lia]).
      replace (sdig V (n - 1)) with (sdig V (n - 1 - k + k)) by (f_equal; lia). rewrite sdig_shift by lia.
      set (o1 := updl o _ _).
      assert (length o1 = n) as Lo1 by (unfold o1; rewrite updl_length; lia).
      assert (digs o1) as Ho1d by (apply updl_digs; auto; apply sdig_dok).
      assert (forall i, (i < n - k)%nat -> nth i o1 0 = sdig (V / (P k * 2 ^ b)) i) as G.
      { intros i Hi. unfold o1. destruct (Nat.eq_dec i (n - k - 1)) as [->|].
        - rewrite updl_nth_same by lia. try (f_equal; lia).
        - rewrite updl_nth_other by lia. apply Ho1. lia. }
      assert (exists o', ashr_fill k (n - k) o1 = Val o' /\ length o' = length o1 /\
        (forall i, (i < n - k)%nat -> nth i o' 0 = nth i o1 0) /\
        (forall i, (n - k <= i < length o1)%nat -> nth i o' 0 = ONES)) as (o' & -> & Lo' & Ho'1 & Ho'2).
      { apply (ashr_fill_spec (V / 2 ^ b * 1) k); auto; [|lia|].
        - intros i Hi. rewrite G by auto. rewrite Z.mul_1_r. f_equal.
          assert (0 < 2 ^ b) by (apply Z.pow_pos_nonneg; lia). pose proof (P_pos k).
          rewrite Z.div_div by lia. f_equal. lia.
        - rewrite Lo1, Z.mul_1_r. destruct (neg_shift 0 b) as [F|F]; [lia| |lia].
          rewrite P_0, Z.mul_1_l, Nat.sub_0_r in F. exact F. }
      exists o'. split; auto.
      cut (digs o' /\ uval o' = (V / (P k * 2 ^ b)) mod P (length o')); [rewrite Lo', Lo1; tauto|].
      apply sdig_list. intros i Hi. destruct (Nat.ltb_spec i (n - k)).
      + rewrite Ho'1 by lia. apply G. lia.
      + rewrite Ho'2 by lia. symmetry. apply sdig_high with (n - k)%nat; [|lia].
        destruct (neg_shift k b) as [F|F]; [lia|exact F|lia].
  Qed.
End Ashr.

(** The digits after sign extension of the most significant one. *)
Lemma sign_extended a :
  wf a -> signed a < 0 ->
  exists x q, (if negb (len a mod 64 =? 0) then
          let! last := nsub (length (digits a)) 1 in
          let! v := idx (digits a) last in
          let! r := d_sign_extend_from v (len a mod 64) in
          let! v' := unwrap r in
          upd (digits a) last v'
        else Val (digits a)) = Val x /\ digs x /\ length x = length (digits a) /\
    uval x = signed a + q * P (length (digits a)).
Proof.
  intros Hwf Hneg. pose proof (wf_sh _ Hwf) as Ha. pose proof Ha as (H0 & H1 & H2).
  destruct (digits_snoc a Ha) as (init & d & E & Hi & Hd & Li).
  pose proof (required_digits_pos _ H0) as Hp. pose proof (required_digits_Z _ H0) as Hz.
  destruct (Z.eqb_spec (len a mod 64) 0) as [Em|Nm]; cbn [negb].
  - exists (digits a). unfold signed, to_signed in *.
    destruct (unsigned a <? 2 ^ (len a - 1)); [pose proof (unsigned_bound _ Hwf); lia|].
    exists 1. repeat split; auto. rewrite H1, P_pow. unfold unsigned. rewrite Hz.
    replace (64 * ((len a + 63) / 64)) with (len a) by lia. lia.
  - rewrite nsub_spec by lia. cbn [bind]. rewrite idx_nth by lia. cbn [bind].
    assert (nth (length (digits a) - 1) (digits a) 0 = d) as ->.
    { rewrite E, app_length. cbn [length]. apply nth_last_app. lia. }
    destruct (wf_sh a Hwf) as (_ & _ & _). pose proof (unsigned_bound _ Hwf) as Hu.
    unfold unsigned in Hu. rewrite E in Hu.
    destruct (top_digit_bound (len a) init d) as [He Hde]; [auto|auto|auto|auto|apply Hu|].
    set (e := len a - 64 * Z.of_nat (length init)) in *.
    assert (len a mod 64 = e) as -> by (unfold e; lia).
    rewrite d_sign_extend_from_spec by (auto; lia). cbn [bind unwrap].
    rewrite upd_updl by lia.
    assert (updl (digits a) (length (digits a) - 1) (to_signed e d mod B) = init ++ [to_signed e d mod B]) as ->.
    { unfold updl. rewrite E, app_length. cbn [length].
      rewrite firstn_app, firstn_all2 by lia. replace (length init + 1 - 1 - length init)%nat with 0%nat by lia.
      cbn [firstn]. rewrite app_nil_r. rewrite skipn_all2; auto. rewrite app_length. cbn. lia. }
    exists (init ++ [to_signed e d mod B]), (- (to_signed e d / B)). split; auto. split; [|split].
    + apply digs_app; split; auto. apply digs_cons; auto using digs_nil, dok_mod.
    + rewrite E, !app_length. reflexivity.
    + unfold signed, unsigned. rewrite E at 1. rewrite to_signed_top by (auto; apply Hu). fold e.
      rewrite uval_app, uval_one, E, app_length. cbn [length].
      replace (length init + 1)%nat with (S (length init)) by lia. rewrite P_S.
      pose proof B_pos. pose proof (Z.div_mod (to_signed e d) B).
      replace (to_signed e d mod B) with (to_signed e d - B * (to_signed e d / B)) by lia. ring.
Qed.

Lemma wrapping_ashr_assign_spec a s :
  wf a -> 0 <= s < len a ->
  exists c, wrapping_ashr_assign a s = Val (c, Ok tt) /\ is_apint c (len a) ((signed a / 2 ^ s) mod 2 ^ len a).
Proof.
  intros Hwf Hs. pose proof (wf_sh _ Hwf) as Ha. pose proof Ha as (H0 & H1 & H2).
  pose proof (unsigned_bound _ Hwf) as Hu. pose proof (signed_range a Hwf) as Hr.
  assert (0 < 2 ^ s) by (apply Z.pow_pos_nonneg; lia).
  unfold wrapping_ashr_assign. rewrite msb_spec by auto. cbn [bind].
  pose proof (bit_msb_neg a Hwf) as Hm. pose proof (signed_msb a Hwf) as Hsm.
  destruct (bit a (len a - 1)); cbn [negb].
  2:{ destruct (wrapping_lshr_assign_spec a s) as (c & E & Hc); auto. exists c; split; auto.
      rewrite Hsm. rewrite Z.mod_small; auto. split; [apply Z.div_pos; lia|].
      apply Z.div_lt_upper_bound; nia. }
  assert (signed a < 0) as Hneg by lia.
  unfold width. rewrite verify_shift_ok by lia.
  destruct (Z.eqb_spec s 0) as [->|Ns].
  { exists a; split; auto. rewrite Z.pow_0_r, Z.div_1_r, signed_mod by auto. now apply wf_is_apint. }
  cbv zeta. unfold usize_sub at 1.
  destruct (Z.leb_spec (s mod 64) 64); [|lia]. cbn [bind].
  destruct (shape_viewP a Ha) as [d Hw Ea Hd Hst ->|Hw Hl Hst ->]; cbn [bind].
  - assert (s mod 64 = s) as -> by lia. unfold usize_sub. destruct (Z.leb_spec s (len a)); [|lia]. cbn [bind].
    unfold write_inl.
    assert (unsigned a = d) as Eu by (unfold unsigned; rewrite Ea; apply uval_one). rewrite Eu in *.
    assert (d_or (d_shr d s) (d_shl ONES (len a - s)) = signed a / 2 ^ s + B) as Ev.
    { unfold d_or, d_shr, d_shl, u64_wshr, u64_wshl. rewrite !(Z.mod_small _ 64) by lia.
      rewrite Z.shiftr_div_pow2, Z.shiftl_mul_pow2 by lia.
      set (k := len a - s) in *. assert (0 < 2 ^ k) by (apply Z.pow_pos_nonneg; lia).
      pose proof (B_split k ltac:(lia)) as HB. assert (0 < 2 ^ (64 - k)) by (apply Z.pow_pos_nonneg; lia).
      assert ((ONES * 2 ^ k) mod B = (2 ^ (64 - k) - 1) * 2 ^ k) as ->.
      { rewrite ONES_B. replace ((B - 1) * 2 ^ k) with ((2 ^ (64 - k) - 1) * 2 ^ k + (2 ^ k - 1) * B).
        - rewrite Z_mod_plus_full. apply Z.mod_small. rewrite HB. nia.
        - rewrite HB. ring. }
      rewrite Z.lor_comm, lor_add_low; [|lia|].
      - rewrite Hsm. assert (2 ^ len a = 2 ^ k * 2 ^ s) as -> by (rewrite <- Z.pow_add_r by lia; f_equal; lia).
        replace (d - 2 ^ k * 2 ^ s) with (d + (- 2 ^ k) * 2 ^ s) by ring. rewrite Z.div_add by lia. rewrite HB. ring.
      - split; [apply Z.div_pos; lia|]. apply Z.div_lt_upper_bound; [lia|].
        rewrite <- Z.pow_add_r by lia. replace (s + k) with (len a) by lia. lia. }
    rewrite Ev. destruct (clear_finish (len a) [signed a / 2 ^ s + B] (signed a / 2 ^ s) 1) as (c & -> & Hc).
    + lia.
    + now rewrite required_digits_1.
    + apply digs_cons; split; auto using digs_nil.
      pose proof (pow2_mono (len a) 64 ltac:(lia)) as M. rewrite <- B_pow in M. pose proof (pow2_double _ H0).
      unfold dok. split; [|assert (signed a / 2 ^ s < 0) by (apply Z.div_lt_upper_bound; lia); lia].
      assert (- B <= signed a / 2 ^ s) by (apply Z.div_le_lower_bound; nia). lia.
    + rewrite uval_one, required_digits_1, P_1 by auto. lia.
    + cbn [bind]. exists c; split; auto.
  - destruct (sign_extended a Hwf Hneg) as (x & q & -> & Hdx & Hlx & Hux). cbn [bind].
    pose proof (digit_steps_lt s (len a) Hs) as Hk. fold (digit_steps s). fold (bit_steps s).
    destruct (shift_split s ltac:(lia)) as [Es Hbs]. set (k := digit_steps s) in *. set (b := bit_steps s) in *.
    rewrite nsub_spec by lia. cbn [bind]. rewrite <- Hlx in Hux.
    assert (- P (length x) <= signed a < 0) as HV.
    { split; auto. rewrite Hlx, H1. pose proof (P_required_ge _ H0). pose proof (pow2_double _ H0). lia. }
    assert (exists o, (if (k =? 0)%nat then ashr_subdigit b (64 - b) x
        else if b =? 0 then ashr_digit k (length x - k) x else ashr_both k (length x - k) b (64 - b) x) = Val o /\
        digs o /\ length o = length x /\ uval o = (signed a / 2 ^ s) mod P (length x)) as (o & -> & Hdo & Hlo & Huo).
    { rewrite (pow2_shift s) by lia. fold k b.
      destruct (Nat.eqb_spec k 0) as [Ek|Nk].
      - destruct (ashr_subdigit_spec (signed a) x q Hdx Hux HV ltac:(lia) b) as (o & Eo & A1 & A2 & A3); [lia|].
        exists o. rewrite Ek, P_0, Z.mul_1_l. auto.
      - destruct (Z.eqb_spec b 0) as [Eb|Nb].
        + destruct (ashr_digit_spec (signed a) x q Hdx Hux HV ltac:(lia) k) as (o & Eo & A1 & A2 & A3); [lia|].
          exists o. rewrite Eb, Z.pow_0_r, Z.mul_1_r. auto.
        + apply ashr_both_spec with q; auto; lia. }
    cbn [bind]. unfold write_ext.
    destruct (clear_finish (len a) o (signed a / 2 ^ s) (- (signed a / 2 ^ s / P (length x)))) as (c & -> & Hc); auto.
    + lia.
    + rewrite Huo. rewrite <- H1, <- Hlx. pose proof (P_pos (length x)).
      pose proof (Z.div_mod (signed a / 2 ^ s) (P (length x))). lia.
    + cbn [bind]. exists c; split; auto.
Qed.
Lemma wrapping_ashr_assign_err a s :
  wf a -> len a <= s -> wrapping_ashr_assign a s = Val (a, Err (InvalidShiftAmount s (len a))).
Proof.
  intros Ha H. unfold wrapping_ashr_assign. rewrite msb_spec by (now apply wf_sh || auto). cbn [bind].
  destruct (bit a (len a - 1)); cbn [negb].
  - unfold width. now rewrite verify_shift_err.
  - now apply wrapping_lshr_assign_err.
Qed.
