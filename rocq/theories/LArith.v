(** Proofs about increment, decrement, negation, addition and subtraction. *)
From Verif Require Export LBase MArith.

Lemma mod_pow2_P w x : 0 < w -> (x mod P (required_digits w)) mod 2 ^ w = x mod 2 ^ w.
Proof.
  intros H. pose proof (required_digits_bound w H).
  rewrite P_pow, (pow2_split (64 * Z.of_nat (required_digits w)) w) by lia.
  assert (0 < 2 ^ w) by (apply Z.pow_pos_nonneg; lia).
  assert (0 < 2 ^ (64 * Z.of_nat (required_digits w) - w)) by (apply Z.pow_pos_nonneg; lia).
  rewrite Z.rem_mul_r by lia. rewrite Z.mul_comm, Z_mod_plus_full. apply Z.mod_mod. lia.
Qed.

Lemma shape_mk w ds :
  0 < w -> length ds = required_digits w -> digs ds -> shape (mk_apint w ds).
Proof. unfold shape; cbn; auto. Qed.

(** Digits congruent to [X] modulo the storage size give [X] modulo 2^w. *)
Lemma clear_finish w ds X q :
  0 < w -> length ds = required_digits w -> digs ds ->
  uval ds = X + q * P (required_digits w) ->
  exists a', clear_unused_bits (mk_apint w ds) = Val a' /\ is_apint a' w (X mod 2 ^ w).
Proof.
  intros Hw Hl Hd E. destruct (clear_unused_bits_spec (mk_apint w ds)) as (a' & E' & Ha').
  { now apply shape_mk. }
  exists a'; split; auto. cbn [len digits] in Ha'.
  rewrite <- (mod_pow2_P w (uval ds)), E, Z_mod_plus_full, mod_pow2_P in Ha' by lia. exact Ha'.
Qed.

Lemma wf_sh a : wf a -> shape a.
Proof. intros H; now apply wf_shape in H as []. Qed.

Lemma is_apint_wf a w u : is_apint a w u -> wf a /\ len a = w /\ unsigned a = u.
Proof. auto. Qed.
Lemma wf_is_apint a : wf a -> is_apint a (len a) (unsigned a).
Proof. intros; unfold is_apint; auto. Qed.

(** * Increment *)
Lemma inc_loop_spec xs :
  digs xs ->
  length (inc_loop xs) = length xs /\ digs (inc_loop xs) /\
  exists q, uval (inc_loop xs) = uval xs + 1 + q * P (length xs).
Proof.
  induction xs as [|x r IH]; intros H; cbn [inc_loop].
  - split; auto. split; auto. exists (-1). cbn [length]. rewrite P_0. lia.
  - apply digs_cons in H as [Hx Hr]. unfold d_overflowing_add, u64_oadd, ONE.
    pose proof B_gt1. unfold dok in Hx.
    destruct (Z.leb_spec B (x + 1)).
    + destruct (IH Hr) as (Hl & Hd & q & E). cbn [length]. rewrite Hl.
      split; auto. split; [apply digs_cons; split; auto; apply dok_mod|].
      exists q. rewrite !uval_cons, E, P_S.
      assert ((x + 1) mod B = x + 1 - B) as ->.
      { symmetry; apply Z.mod_unique with 1; lia. }
      lia.
    + cbn [length]. split; auto. split; [apply digs_cons; split; auto; apply dok_mod|].
      exists 0. rewrite !uval_cons, Z.mod_small by lia. lia.
Qed.

Lemma wrapping_inc_spec a :
  shape a ->
  exists c, wrapping_inc a = Val c /\ is_apint c (len a) ((unsigned a + 1) mod 2 ^ len a).
Proof.
  intros Ha. pose proof Ha as (H0 & H1 & H2). unfold wrapping_inc, unsigned.
  destruct (shape_viewP a Ha) as [d Hw Ea Hd Hs ->|Hw _ Hs ->]; cbn [bind].
  - rewrite Ea. cbn [digits len]. rewrite uval_one. unfold write_inl. cbn [len].
    unfold d_wrapping_add, u64_wadd, ONE.
    apply clear_finish with (q := - ((d + 1) / B)); auto.
    + now rewrite required_digits_1 by lia.
    + apply digs_cons; split; [apply dok_mod | apply digs_nil].
    + rewrite uval_one, required_digits_1, P_1 by lia.
      pose proof (Z.div_mod (d + 1) B). pose proof B_pos. lia.
  - destruct (inc_loop_spec _ H2) as (Hl & Hd & q & E). unfold write_ext.
    apply clear_finish with (q := q); auto; [congruence|]. rewrite E, H1. lia.
Qed.

(** * Decrement *)
Lemma dec_loop_spec xs :
  digs xs ->
  length (dec_loop xs) = length xs /\ digs (dec_loop xs) /\
  exists q, uval (dec_loop xs) = uval xs - 1 + q * P (length xs).
Proof.
  induction xs as [|x r IH]; intros H; cbn [dec_loop].
  - split; auto. split; auto. exists 1. cbn [length]. rewrite P_0. lia.
  - apply digs_cons in H as [Hx Hr]. unfold d_overflowing_sub, u64_osub, ONE.
    pose proof B_gt1. unfold dok in Hx.
    destruct (Z.ltb_spec x 1).
    + destruct (IH Hr) as (Hl & Hd & q & E). cbn [length]. rewrite Hl.
      split; auto. split; [apply digs_cons; split; auto; apply dok_mod|].
      exists q. rewrite !uval_cons, E, P_S.
      assert ((x - 1) mod B = x - 1 + B) as ->.
      { symmetry; apply Z.mod_unique with (-1); lia. }
      lia.
    + cbn [length]. split; auto. split; [apply digs_cons; split; auto; apply dok_mod|].
      exists 0. rewrite !uval_cons, Z.mod_small by lia. lia.
Qed.

Lemma wrapping_dec_spec a :
  shape a ->
  exists c, wrapping_dec a = Val c /\ is_apint c (len a) ((unsigned a - 1) mod 2 ^ len a).
Proof.
  intros Ha. pose proof Ha as (H0 & H1 & H2). unfold wrapping_dec, unsigned.
  destruct (shape_viewP a Ha) as [d Hw Ea Hd Hs ->|Hw _ Hs ->]; cbn [bind].
  - rewrite Ea. cbn [digits len]. rewrite uval_one. unfold write_inl. cbn [len].
    unfold d_wrapping_sub, u64_wsub, ONE.
    apply clear_finish with (q := - ((d - 1) / B)); auto.
    + now rewrite required_digits_1 by lia.
    + apply digs_cons; split; [apply dok_mod | apply digs_nil].
    + rewrite uval_one, required_digits_1, P_1 by lia.
      pose proof (Z.div_mod (d - 1) B). pose proof B_pos. lia.
  - destruct (dec_loop_spec _ H2) as (Hl & Hd & q & E). unfold write_ext.
    apply clear_finish with (q := q); auto; [congruence|]. rewrite E, H1. lia.
Qed.

(** * Bitwise complement and negation *)
Lemma map_not_spec ds :
  digs ds -> digs (map d_not ds) /\ uval (map d_not ds) = P (length ds) - 1 - uval ds.
Proof.
  induction ds as [|d r IH]; intros H; cbn [map length].
  - split; [apply digs_nil|]. rewrite uval_nil, P_0. lia.
  - apply digs_cons in H as [Hd Hr]. destruct (IH Hr) as [H1 H2].
    unfold d_not at 1 3. rewrite u64_not_spec by auto.
    split; [apply digs_cons; split; auto; unfold dok in *; lia|].
    rewrite !uval_cons, H2, P_S. lia.
Qed.

Lemma modify_digits_spec f a :
  shape a -> modify_digits f a = Val (mk_apint (len a) (map f (digits a))).
Proof.
  intros Ha. unfold modify_digits.
  destruct (shape_viewP a Ha) as [d Hw Ea Hd Hs ->|Hw _ Hs ->]; cbn [bind].
  - rewrite Ea. reflexivity.
  - reflexivity.
Qed.

Lemma neg_mod_pow x w : (- x - 1) mod 2 ^ w = (2 ^ w - 1 - x) mod 2 ^ w.
Proof. replace (2 ^ w - 1 - x) with (- x - 1 + 1 * 2 ^ w) by lia. now rewrite Z_mod_plus_full. Qed.

Lemma bitnot_spec a :
  wf a ->
  exists c, bitnot a = Val c /\ is_apint c (len a) (2 ^ len a - 1 - unsigned a).
Proof.
  intros Hwf. pose proof (wf_sh _ Hwf) as Ha. pose proof Ha as (H0 & H1 & H2).
  unfold bitnot. rewrite modify_digits_spec by auto. cbn [bind].
  destruct (map_not_spec _ H2) as [Hd E].
  destruct (clear_finish (len a) (map d_not (digits a)) (- uval (digits a) - 1) 1) as (c & Ec & Hc); auto.
  - now rewrite map_length.
  - rewrite E, H1. lia.
  - exists c; split; auto. rewrite neg_mod_pow in Hc. pose proof (unsigned_bound a Hwf). unfold unsigned in *.
    rewrite Z.mod_small in Hc by lia. exact Hc.
Qed.

Lemma wrapping_neg_spec a :
  wf a ->
  exists c, wrapping_neg a = Val c /\ is_apint c (len a) ((- unsigned a) mod 2 ^ len a).
Proof.
  intros Hwf. unfold wrapping_neg.
  destruct (bitnot_spec a Hwf) as (b & -> & Hb & Hlb & Hub). cbn [bind].
  destruct (wrapping_inc_spec b (wf_sh _ Hb)) as (c & -> & Hc). exists c; split; auto.
  rewrite Hlb, Hub in Hc. replace (2 ^ len a - 1 - unsigned a + 1) with (- unsigned a + 1 * 2 ^ len a) in Hc by lia.
  rewrite Z_mod_plus_full in Hc. exact Hc.
Qed.

(** * Addition *)
Lemma add_digits_spec ls rs :
  digs ls -> digs rs -> length ls = length rs -> (0 < length ls)%nat ->
  exists ds c, add_digits ls rs = Val (ds, c) /\ digs ds /\ length ds = length ls /\
    0 <= c <= 1 /\ uval ds + c * P (length ls) = uval ls + uval rs.
Proof.
  intros Hl Hr He Hn. unfold add_digits.
  rewrite !idx_nth by lia. cbn [bind].
  destruct (d_carrying_add_spec (nth 0 ls 0) (nth 0 rs 0)) as (lo & c & -> & Hlo & Hc & E);
    auto using nth_dok.
  rewrite upd_updl by lia. cbn [bind].
  pose (I := fun i (st : list Z * Z) =>
    let '(ds, c) := st in
    digs ds /\ length ds = length ls /\ 0 <= c <= 1 /\ skipn i ds = skipn i ls /\
    uval (firstn i ds) + c * P i = uval (firstn i ls) + uval (firstn i rs)).
  destruct (for_range_inv I (add_step rs) (length (updl ls 0 lo) - 1) 1 (updl ls 0 lo, c))
    as ([ds c'] & Ef & Hi).
  - unfold I. rewrite updl_length by lia. split; [now apply updl_digs|]. split; auto. split; auto.
    split; [now apply updl_skipn; lia|].
    rewrite !uval_firstn_S by (rewrite ?updl_length; lia). rewrite updl_nth_same by lia.
    cbn [firstn]. rewrite !uval_nil, P_0, P_1. lia.
  - rewrite updl_length by lia. intros i [ds c'] Hi (I1 & I2 & I3 & I4 & I5).
    unfold add_step. rewrite !idx_nth by lia. cbn [bind]. rewrite upd_updl by lia. cbn [bind].
    destruct (dd_add3_spec (nth i ds 0) (nth i rs 0) c') as (S1 & S2 & S3); auto using nth_dok.
    cbv zeta in *. set (t := dd_wadd _ _) in *.
    eexists; split; [reflexivity|]. unfold I.
    split; [apply updl_digs; auto|]. rewrite updl_length by lia. split; auto. split; auto.
    assert (nth i ds 0 = nth i ls 0) as En.
    { rewrite <- (firstn_skipn i ds), <- (firstn_skipn i ls).
      rewrite !app_nth2; rewrite ?firstn_length_le by lia; try lia.
      now rewrite I4. }
    split.
    + rewrite updl_skipn by lia.
      replace (S i) with (i + 1)%nat by lia. rewrite <- !skipn_skipn_add. now rewrite I4.
    + rewrite !uval_firstn_S by (rewrite ?updl_length; lia).
      rewrite updl_nth_same, updl_firstn by lia. rewrite P_S, <- En. nia.
  - rewrite Ef. rewrite updl_length in Hi by lia.
    destruct Hi as (I1 & I2 & I3 & I4 & I5). exists ds, c'.
    replace (1 + (length ls - 1))%nat with (length ls) in * by lia.
    assert (firstn (length ls) ds = ds) as F1 by (rewrite <- I2; apply firstn_all).
    assert (firstn (length ls) rs = rs) as F2 by (rewrite He; apply firstn_all).
    rewrite F1, F2, firstn_all in I5. auto 10.
Qed.

Lemma wrapping_add_assign_spec a b :
  wf a -> wf b -> len a = len b ->
  exists c, wrapping_add_assign a b = Val (c, Ok tt) /\
    is_apint c (len a) ((unsigned a + unsigned b) mod 2 ^ len a).
Proof.
  intros Ha Hb Hl. apply wf_sh in Ha, Hb. unfold wrapping_add_assign.
  pose proof Ha as (Ha0 & Ha1 & Ha2). pose proof Hb as (Hb0 & Hb1 & Hb2).
  destruct (zip_access_data_spec a b Ha Hb Hl) as [(l & r & Hw & Ea & Eb & Hdl & Hdr & ->)|(Hw & ->)];
    cbn [bind].
  - unfold write_inl, unsigned. rewrite Ea, Eb. cbn [digits len]. rewrite !uval_one.
    unfold d_wrapping_add, u64_wadd.
    destruct (clear_finish (len a) [(l + r) mod B] (l + r) (- ((l + r) / B))) as (c & -> & Hc); auto.
    + now rewrite required_digits_1 by lia.
    + apply digs_cons; split; [apply dok_mod | apply digs_nil].
    + rewrite uval_one, required_digits_1, P_1 by lia.
      pose proof (Z.div_mod (l + r) B). pose proof B_pos. lia.
    + eexists; split; [reflexivity | exact Hc].
  - destruct (add_digits_spec (digits a) (digits b)) as (ds & c & -> & Hd & Hn & Hc & E); auto.
    + congruence.
    + rewrite Ha1. now apply required_digits_pos.
    + cbn [bind]. unfold write_ext.
      destruct (clear_finish (len a) ds (uval (digits a) + uval (digits b)) (- c)) as (c' & -> & Hc'); auto.
      * congruence.
      * rewrite <- Ha1. lia.
      * eexists; split; [reflexivity | exact Hc'].
Qed.

(** * Subtraction *)
Lemma sub_digits_spec ls rs :
  digs ls -> digs rs -> length ls = length rs -> (0 < length ls)%nat ->
  exists ds c, sub_digits ls rs = Val (ds, c) /\ digs ds /\ length ds = length ls /\
    0 <= c <= 1 /\ uval ds + c * P (length ls) = uval ls + P (length ls) - uval rs.
Proof.
  intros Hl Hr He Hn. unfold sub_digits.
  rewrite !idx_nth by lia. cbn [bind].
  assert (Hnot : forall i, dok (d_not (nth i rs 0)) /\ d_not (nth i rs 0) = B - 1 - nth i rs 0).
  { intros i. pose proof (nth_dok i rs Hr) as H. unfold d_not. rewrite u64_not_spec by auto.
    unfold dok in *. lia. }
  destruct (dd_add3_spec (nth 0 ls 0) (d_not (nth 0 rs 0)) 1) as (S1 & S2 & S3).
  { now apply nth_dok. } { apply Hnot. } { lia. }
  unfold ONE. cbv zeta in *. set (t := dd_wadd _ _) in *.
  rewrite upd_updl by lia. cbn [bind].
  pose (I := fun i (st : list Z * Z) =>
    let '(ds, c) := st in
    digs ds /\ length ds = length ls /\ 0 <= c <= 1 /\ skipn i ds = skipn i ls /\
    uval (firstn i ds) + c * P i = uval (firstn i ls) + P i - uval (firstn i rs)).
  destruct (for_range_inv I (sub_step rs) (length (updl ls 0 (dd_lo t)) - 1) 1 (updl ls 0 (dd_lo t), dd_hi t))
    as ([ds c'] & Ef & Hi).
  - unfold I. rewrite updl_length by lia. split; [now apply updl_digs|]. split; auto. split; auto.
    split; [now apply updl_skipn; lia|].
    rewrite !uval_firstn_S by (rewrite ?updl_length; lia). rewrite updl_nth_same by lia.
    cbn [firstn]. rewrite !uval_nil, P_0, P_1. destruct (Hnot 0%nat) as [_ E0]. lia.
  - rewrite updl_length by lia. intros i [ds c'] Hi (I1 & I2 & I3 & I4 & I5).
    unfold sub_step. rewrite !idx_nth by lia. cbn [bind]. rewrite upd_updl by lia. cbn [bind].
    destruct (dd_add3_spec (nth i ds 0) (d_not (nth i rs 0)) c') as (T1 & T2 & T3); auto using nth_dok.
    { apply Hnot. }
    cbv zeta in *. set (t' := dd_wadd _ _) in *.
    eexists; split; [reflexivity|]. unfold I.
    split; [apply updl_digs; auto|]. rewrite updl_length by lia. split; auto. split; auto.
    assert (nth i ds 0 = nth i ls 0) as En.
    { rewrite <- (firstn_skipn i ds), <- (firstn_skipn i ls).
      rewrite !app_nth2; rewrite ?firstn_length_le by lia; try lia.
      now rewrite I4. }
    split.
    + rewrite updl_skipn by lia.
      replace (S i) with (i + 1)%nat by lia. rewrite <- !skipn_skipn_add. now rewrite I4.
    + rewrite !uval_firstn_S by (rewrite ?updl_length; lia).
      rewrite updl_nth_same, updl_firstn by lia. rewrite P_S, <- En.
      destruct (Hnot i) as [_ E0]. nia.
  - rewrite Ef. rewrite updl_length in Hi by lia.
    destruct Hi as (I1 & I2 & I3 & I4 & I5). exists ds, c'.
    replace (1 + (length ls - 1))%nat with (length ls) in * by lia.
    assert (firstn (length ls) ds = ds) as F1 by (rewrite <- I2; apply firstn_all).
    assert (firstn (length ls) rs = rs) as F2 by (rewrite He; apply firstn_all).
    rewrite F1, F2, firstn_all in I5. auto 10.
Qed.

Lemma wrapping_sub_assign_spec a b :
  wf a -> wf b -> len a = len b ->
  exists c, wrapping_sub_assign a b = Val (c, Ok tt) /\
    is_apint c (len a) ((unsigned a - unsigned b) mod 2 ^ len a).
Proof.
  intros Ha Hb Hl. apply wf_sh in Ha, Hb. unfold wrapping_sub_assign.
  pose proof Ha as (Ha0 & Ha1 & Ha2). pose proof Hb as (Hb0 & Hb1 & Hb2).
  destruct (zip_access_data_spec a b Ha Hb Hl) as [(l & r & Hw & Ea & Eb & Hdl & Hdr & ->)|(Hw & ->)];
    cbn [bind].
  - unfold write_inl, unsigned. rewrite Ea, Eb. cbn [digits len]. rewrite !uval_one.
    unfold d_wrapping_sub, u64_wsub.
    destruct (clear_finish (len a) [(l - r) mod B] (l - r) (- ((l - r) / B))) as (c & -> & Hc); auto.
    + now rewrite required_digits_1 by lia.
    + apply digs_cons; split; [apply dok_mod | apply digs_nil].
    + rewrite uval_one, required_digits_1, P_1 by lia.
      pose proof (Z.div_mod (l - r) B). pose proof B_pos. lia.
    + eexists; split; [reflexivity | exact Hc].
  - destruct (sub_digits_spec (digits a) (digits b)) as (ds & c & -> & Hd & Hn & Hc & E); auto.
    + congruence.
    + rewrite Ha1. now apply required_digits_pos.
    + cbn [bind]. unfold write_ext.
      destruct (clear_finish (len a) ds (uval (digits a) - uval (digits b)) (1 - c)) as (c' & -> & Hc'); auto.
      * congruence.
      * rewrite <- Ha1. lia.
      * eexists; split; [reflexivity | exact Hc'].
Qed.
