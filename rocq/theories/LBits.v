(** Proofs about bits: bitwise operations, single-bit access, whole-value
    updates and bit counting. *)
From Verif Require Export LMul MBitwise.

Lemma testbit_high x n i : 0 <= x < 2 ^ n -> n <= i -> Z.testbit x i = false.
Proof.
  intros Hx Hi. destruct (Z.eq_dec x 0) as [->|]; [apply Z.testbit_0_l|].
  apply Z.bits_above_log2; [lia|]. apply Z.log2_lt_pow2; [lia|].
  apply Z.lt_le_trans with (2 ^ n); [lia|]. apply Z.pow_le_mono_r; [lia | lia].
Qed.
Lemma testbit_dok_high d i : dok d -> 64 <= i -> Z.testbit d i = false.
Proof. unfold dok. rewrite B_pow. intros. now apply testbit_high with 64. Qed.

Lemma testbit_add_pow d u n i :
  0 <= n -> 0 <= d < 2 ^ n -> 0 <= i ->
  Z.testbit (d + 2 ^ n * u) i = if i <? n then Z.testbit d i else Z.testbit u (i - n).
Proof.
  intros Hn Hd Hi. destruct (Z.ltb_spec i n).
  - rewrite <- (Z.mod_pow2_bits_low (d + 2 ^ n * u) n i) by lia.
    rewrite Z.mul_comm, Z_mod_plus_full, Z.mod_small by lia. reflexivity.
  - replace i with (i - n + n) at 1 by lia. rewrite <- Z.div_pow2_bits by lia.
    rewrite Z.mul_comm, Z.div_add by lia. rewrite (Z.div_small d) by lia. f_equal.
Qed.
Lemma testbit_cons d u i :
  dok d -> 0 <= i ->
  Z.testbit (d + B * u) i = if i <? 64 then Z.testbit d i else Z.testbit u (i - 64).
Proof. unfold dok. rewrite B_pow. intros. apply testbit_add_pow; lia. Qed.

Lemma testbit_uval ds i :
  digs ds -> 0 <= i ->
  Z.testbit (uval ds) i = Z.testbit (nth (Z.to_nat (i / 64)) ds 0) (i mod 64).
Proof.
  revert i; induction ds as [|d r IH]; intros i H Hi.
  - rewrite uval_nil, Z.testbit_0_l. destruct (Z.to_nat (i / 64)); cbn; now rewrite Z.testbit_0_l.
  - apply digs_cons in H as [Hd Hr]. rewrite uval_cons, testbit_cons by auto.
    destruct (Z.ltb_spec i 64).
    + rewrite (Z.div_small i 64), (Z.mod_small i 64) by lia. reflexivity.
    + rewrite IH by (auto; lia).
      replace (Z.to_nat (i / 64)) with (S (Z.to_nat ((i - 64) / 64))) by lia.
      cbn [nth]. f_equal. lia.
Qed.

(** * Bitwise operations *)
Lemma dok_land x y : dok x -> dok y -> dok (Z.land x y).
Proof.
  unfold dok. intros Hx Hy. split; [apply Z.land_nonneg; lia|].
  destruct (Z.eq_dec (Z.land x y) 0) as [->|N]; [apply B_pos|].
  assert (0 <= Z.land x y) by (apply Z.land_nonneg; lia).
  rewrite B_pow in *. apply Z.log2_lt_pow2; [lia|].
  destruct (Z.eq_dec x 0) as [->|]; [rewrite Z.land_0_l in N; lia|].
  assert (Z.log2 (Z.land x y) <= Z.min (Z.log2 x) (Z.log2 y)) by (apply Z.log2_land; lia).
  assert (Z.log2 x < 64) by (apply Z.log2_lt_pow2; lia). lia.
Qed.
Lemma dok_lor x y : dok x -> dok y -> dok (Z.lor x y).
Proof.
  unfold dok. intros Hx Hy. split; [apply Z.lor_nonneg; lia|].
  destruct (Z.eq_dec (Z.lor x y) 0) as [->|N]; [apply B_pos|].
  assert (0 <= Z.lor x y) by (apply Z.lor_nonneg; lia).
  rewrite B_pow in *. apply Z.log2_lt_pow2; [lia|]. rewrite Z.log2_lor by lia.
  apply Z.max_lub_lt.
  - destruct (Z.eq_dec x 0) as [->|]; [cbn; lia | apply Z.log2_lt_pow2; lia].
  - destruct (Z.eq_dec y 0) as [->|]; [cbn; lia | apply Z.log2_lt_pow2; lia].
Qed.
Lemma dok_lxor x y : dok x -> dok y -> dok (Z.lxor x y).
Proof.
  unfold dok. intros Hx Hy. assert (0 <= Z.lxor x y) as H by (apply Z.lxor_nonneg; lia).
  split; auto.
  destruct (Z.eq_dec (Z.lxor x y) 0) as [->|N]; [apply B_pos|].
  rewrite B_pow in *. apply Z.log2_lt_pow2; [lia|].
  apply Z.le_lt_trans with (Z.max (Z.log2 x) (Z.log2 y)); [apply Z.log2_lxor; lia|].
  apply Z.max_lub_lt.
  - destruct (Z.eq_dec x 0) as [->|]; [cbn; lia | apply Z.log2_lt_pow2; lia].
  - destruct (Z.eq_dec y 0) as [->|]; [cbn; lia | apply Z.log2_lt_pow2; lia].
Qed.

Section ZipBits.
  Variable f : Z -> Z -> Z.
  Variable g : bool -> bool -> bool.
  Hypothesis f_bits : forall x y i, Z.testbit (f x y) i = g (Z.testbit x i) (Z.testbit y i).
  Hypothesis f_dok : forall x y, dok x -> dok y -> dok (f x y).
  Hypothesis f_00 : f 0 0 = 0.

  Lemma zip_update_spec ls : forall rs,
    digs ls -> digs rs -> length ls = length rs ->
    digs (zip_update f ls rs) /\ length (zip_update f ls rs) = length ls /\
    uval (zip_update f ls rs) = f (uval ls) (uval rs).
  Proof.
    induction ls as [|l ls IH]; intros [|r rs] Hl Hr He; cbn in He; try discriminate; cbn [zip_update].
    - rewrite uval_nil, f_00. auto using digs_nil.
    - apply digs_cons in Hl as [Hl Hls]. apply digs_cons in Hr as [Hr Hrs].
      destruct (IH rs) as (H1 & H2 & H3); auto.
      split; [apply digs_cons; auto|]. split; [cbn; lia|].
      rewrite !uval_cons, H3. apply Z.bits_inj'. intros i Hi.
      rewrite f_bits, !testbit_cons, !f_bits by auto.
      destruct (i <? 64); reflexivity.
  Qed.

  Lemma modify_zipped_digits_spec a b :
    wf a -> wf b -> len a = len b ->
    (g false false = false) ->
    exists c, modify_zipped_digits f a b = Val (c, Ok tt) /\
      is_apint c (len a) (f (unsigned a) (unsigned b)).
  Proof.
    intros Ha Hb Hl Hg. unfold modify_zipped_digits.
    pose proof (unsigned_bound a Ha) as Ba. pose proof (unsigned_bound b Hb) as Bb.
    pose proof (wf_sh _ Ha) as Sa. pose proof (wf_sh _ Hb) as Sb.
    pose proof Sa as (Ha0 & Ha1 & Ha2). pose proof Sb as (Hb0 & Hb1 & Hb2).
    assert (Hz : exists ds, length ds = length (digits a) /\ digs ds /\ uval ds = f (unsigned a) (unsigned b) /\
       (let! z := zip_access_data a b in
        match z with
        | Err e => Val (a, Err e)
        | Ok (ZInl l r) => Val (write_inl a (f l r), Ok tt)
        | Ok (ZExt ls rs) => Val (write_ext a (zip_update f ls rs), Ok tt)
        end) = Val (mk_apint (len a) ds, Ok tt)).
    { destruct (zip_access_data_spec a b Sa Sb Hl) as [(l & r & Hw & Ea & Eb & Hdl & Hdr & ->)|(Hw & ->)];
        cbn [bind].
      - exists [f l r]. unfold unsigned. rewrite Ea, Eb. cbn [digits length]. rewrite !uval_one.
        split; auto. split; [apply digs_cons; auto using digs_nil|]. auto.
      - destruct (zip_update_spec (digits a) (digits b)) as (D & L & V); auto; [congruence|].
        eexists. split; [exact L|]. split; [exact D|]. split; [exact V | reflexivity]. }
    destruct Hz as (ds & Ld & Dd & Vd & ->). eexists; split; [reflexivity|].
    unfold is_apint. rewrite wf_shape. unfold unsigned at 1. cbn [len digits].
    split; [|split; auto]. split; [apply shape_mk; auto; congruence|].
    rewrite Vd.
    assert (0 <= f (unsigned a) (unsigned b)) by (rewrite <- Vd; now apply uval_nonneg).
    destruct (Z.eq_dec (f (unsigned a) (unsigned b)) 0) as [->|N]; [apply Z.pow_pos_nonneg; lia|].
    apply Z.log2_lt_pow2; [lia|]. apply Z.nle_gt. intros Hge.
    assert (Z.testbit (f (unsigned a) (unsigned b)) (Z.log2 (f (unsigned a) (unsigned b))) = true) as T
      by (apply Z.bit_log2; lia).
    rewrite f_bits in T. rewrite !(testbit_high _ (len a)) in T by (auto; rewrite ?Hl; auto; lia).
    congruence.
  Qed.
End ZipBits.

Lemma bitand_assign_spec a b :
  wf a -> wf b -> len a = len b ->
  exists c, bitand_assign a b = Val (c, Ok tt) /\ is_apint c (len a) (Z.land (unsigned a) (unsigned b)).
Proof.
  intros. apply modify_zipped_digits_spec with (g := andb); auto using dok_land, Z.land_spec.
Qed.
Lemma bitor_assign_spec a b :
  wf a -> wf b -> len a = len b ->
  exists c, bitor_assign a b = Val (c, Ok tt) /\ is_apint c (len a) (Z.lor (unsigned a) (unsigned b)).
Proof.
  intros. apply modify_zipped_digits_spec with (g := orb); auto using dok_lor, Z.lor_spec.
Qed.
Lemma bitxor_assign_spec a b :
  wf a -> wf b -> len a = len b ->
  exists c, bitxor_assign a b = Val (c, Ok tt) /\ is_apint c (len a) (Z.lxor (unsigned a) (unsigned b)).
Proof.
  intros. apply modify_zipped_digits_spec with (g := xorb); auto using dok_lxor, Z.lxor_spec.
Qed.

Lemma testbit_complement x w p :
  0 <= x < 2 ^ w -> 0 <= p < w -> Z.testbit (2 ^ w - 1 - x) p = negb (Z.testbit x p).
Proof.
  intros Hx Hp. replace (2 ^ w - 1 - x) with (2 ^ w + Z.lnot x) by (unfold Z.lnot; lia).
  rewrite <- (Z.mod_pow2_bits_low _ w p) by lia.
  replace (2 ^ w + Z.lnot x) with (Z.lnot x + 1 * 2 ^ w) by lia. rewrite Z_mod_plus_full.
  rewrite Z.mod_pow2_bits_low by lia. apply Z.lnot_spec. lia.
Qed.

(** * Single-bit access *)

Lemma land1_testbit x p : 0 <= p -> (Z.land (Z.shiftr x p) 1 =? 1) = Z.testbit x p.
Proof.
  intros Hp. change 1 with (Z.ones 1). rewrite Z.land_ones by lia.
  rewrite Z.shiftr_div_pow2 by lia.
  pose proof (Z.testbit_spec' x p Hp) as E. change (2 ^ 1) with 2. rewrite <- E.
  destruct (Z.testbit x p); reflexivity.
Qed.

Lemma d_get_spec x p : 0 <= p < 64 -> d_get x p = Val (Ok (Z.testbit x p)).
Proof.
  intros Hp. unfold d_get, verify_bit_access, u64_shr.
  destruct (Z.ltb_spec p 64); [|lia]. cbn [bind]. now rewrite land1_testbit by lia.
Qed.

Lemma get_bit_at_spec a p :
  shape a -> 0 <= p < len a -> get_bit_at a p = Val (Ok (bit a p)).
Proof.
  intros Ha Hp. pose proof Ha as (H0 & H1 & H2). unfold get_bit_at, verify_bit_access, width, bit, unsigned.
  destruct (Z.ltb_spec p (len a)); [|lia].
  destruct (shape_viewP a Ha) as [d Hw Ea Hd Hs ->|Hw _ Hs ->]; cbn [bind].
  - rewrite d_get_spec by lia. rewrite Ea. cbn [digits]. now rewrite uval_one.
  - unfold to_digit_and_bit_pos. rewrite idx_nth.
    + cbn [bind]. rewrite d_get_spec by lia. now rewrite testbit_uval by (auto; lia).
    + pose proof (required_digits_bound _ H0). lia.
Qed.
Lemma bit_access_oob_get a p : len a <= p -> get_bit_at a p = Val (Err (InvalidBitAccess p (len a))).
Proof.
  intros H. unfold get_bit_at, verify_bit_access, width. destruct (Z.ltb_spec p (len a)); [lia|reflexivity].
Qed.
Lemma modify_bit_at_oob f a p : len a <= p -> modify_bit_at f a p = Val (a, Err (InvalidBitAccess p (len a))).
Proof.
  intros H. unfold modify_bit_at, verify_bit_access, width. destruct (Z.ltb_spec p (len a)); [lia|reflexivity].
Qed.

Lemma pow2_dok p : 0 <= p < 64 -> dok (2 ^ p).
Proof.
  unfold dok. rewrite B_pow. split; [apply Z.pow_nonneg; lia | apply Z.pow_lt_mono_r; lia].
Qed.
Lemma u64_shl_1 p : 0 <= p < 64 -> u64_shl 1 p = Val (2 ^ p).
Proof.
  intros Hp. unfold u64_shl. destruct (Z.ltb_spec p 64); [|lia].
  rewrite Z.shiftl_1_l, Z.mod_small; auto. now apply pow2_dok.
Qed.

Lemma testbit_not_mask x p i :
  0 <= p < 64 -> 0 <= i -> dok x ->
  Z.testbit (Z.land x (u64_not (2 ^ p))) i = Z.testbit x i && negb (i =? p).
Proof.
  intros Hp Hi Hx. rewrite Z.land_spec.
  destruct (Z.ltb_spec i 64) as [Hi'|Hi'].
  - unfold u64_not. rewrite B_pow, Z.mod_pow2_bits_low, Z.lnot_spec by lia.
    rewrite Z.pow2_bits_eqb by lia. now rewrite (Z.eqb_sym p i).
  - rewrite testbit_dok_high by auto. reflexivity.
Qed.

(** The common statement for the three digit operations. *)
Lemma modify_bit_at_spec (f : Z -> Z -> outcome (result Z)) (g : bool -> bool) a p :
  (forall x q, dok x -> 0 <= q < 64 -> exists y, f x q = Val (Ok y) /\ dok y /\
     forall i, 0 <= i -> Z.testbit y i = if i =? q then g (Z.testbit x i) else Z.testbit x i) ->
  wf a -> 0 <= p < len a ->
  exists c, modify_bit_at f a p = Val (c, Ok tt) /\ wf c /\ len c = len a /\
    forall i, 0 <= i -> bit c i = if i =? p then g (bit a i) else bit a i.
Proof.
  intros Hf Hwf Hp. pose proof (wf_sh _ Hwf) as Ha. pose proof Ha as (H0 & H1 & H2).
  unfold modify_bit_at, verify_bit_access, width.
  destruct (Z.ltb_spec p (len a)); [|lia].
  assert (Fin : forall ds, length ds = length (digits a) -> digs ds ->
    (forall i, 0 <= i -> Z.testbit (uval ds) i = if i =? p then g (bit a i) else bit a i) ->
    wf (mk_apint (len a) ds) /\ len (mk_apint (len a) ds) = len a /\
    forall i, 0 <= i -> bit (mk_apint (len a) ds) i = if i =? p then g (bit a i) else bit a i).
  { intros ds L D Hb. rewrite wf_shape. cbn [len digits]. split; [|split; auto].
    split; [apply shape_mk; auto; congruence|].
    pose proof (uval_nonneg _ D).
    destruct (Z.eq_dec (uval ds) 0) as [->|N]; [apply Z.pow_pos_nonneg; lia|].
    apply Z.log2_lt_pow2; [lia|]. apply Z.nle_gt. intros Hge.
    assert (Z.testbit (uval ds) (Z.log2 (uval ds)) = true) as T by (apply Z.bit_log2; lia).
    rewrite Hb in T by apply Z.log2_nonneg.
    destruct (Z.eqb_spec (Z.log2 (uval ds)) p); [lia|].
    unfold bit in T. rewrite (testbit_high _ (len a)) in T by (auto using unsigned_bound).
    discriminate. }
  destruct (shape_viewP a Ha) as [d Hw Ea Hd Hs ->|Hw _ Hs ->]; cbn [bind].
  - destruct (Hf d p) as (y & -> & Hy & Hb); auto; [lia|]. cbn [bind].
    eexists; split; [reflexivity|]. unfold write_inl. apply Fin.
    + rewrite Ea. reflexivity.
    + apply digs_cons; auto using digs_nil.
    + intros i Hi. rewrite uval_one, Hb by auto. unfold bit, unsigned. rewrite Ea. cbn [digits].
      now rewrite uval_one.
  - unfold to_digit_and_bit_pos.
    assert (Hi : (Z.to_nat (p / 64) < length (digits a))%nat).
    { pose proof (required_digits_bound _ H0). lia. }
    rewrite idx_nth by auto. cbn [bind].
    destruct (Hf (nth (Z.to_nat (p / 64)) (digits a) 0) (p mod 64)) as (y & -> & Hy & Hb);
      [now apply nth_dok | lia |]. cbn [bind].
    rewrite upd_updl by auto. cbn [bind]. eexists; split; [reflexivity|]. unfold write_ext. apply Fin.
    + now apply updl_length.
    + now apply updl_digs.
    + intros i Hi0. unfold bit, unsigned. rewrite !testbit_uval by (auto; now apply updl_digs).
      destruct (Nat.eq_dec (Z.to_nat (i / 64)) (Z.to_nat (p / 64))) as [E|N].
      * rewrite E, updl_nth_same, Hb by (auto; lia).
        destruct (Z.eqb_spec (i mod 64) (p mod 64)), (Z.eqb_spec i p); auto; lia.
      * rewrite updl_nth_other by auto. destruct (Z.eqb_spec i p); [subst; lia | auto].
Qed.

Lemma d_set_spec x q : dok x -> 0 <= q < 64 -> exists y, d_set x q = Val (Ok y) /\ dok y /\
  forall i, 0 <= i -> Z.testbit y i = if i =? q then true else Z.testbit x i.
Proof.
  intros Hx Hq. unfold d_set, verify_bit_access. destruct (Z.ltb_spec q 64); [|lia].
  rewrite u64_shl_1 by lia. cbn [bind]. eexists; split; [reflexivity|].
  split; [apply dok_lor; auto using pow2_dok|].
  intros i Hi. rewrite Z.lor_spec, Z.pow2_bits_eqb, (Z.eqb_sym q i) by lia.
  destruct (i =? q); [apply orb_true_r | apply orb_false_r].
Qed.
Lemma d_unset_spec x q : dok x -> 0 <= q < 64 -> exists y, d_unset x q = Val (Ok y) /\ dok y /\
  forall i, 0 <= i -> Z.testbit y i = if i =? q then false else Z.testbit x i.
Proof.
  intros Hx Hq. unfold d_unset, verify_bit_access. destruct (Z.ltb_spec q 64); [|lia].
  rewrite u64_shl_1 by lia. cbn [bind]. eexists; split; [reflexivity|].
  split; [apply dok_land; auto; apply dok_mod|].
  intros i Hi. rewrite testbit_not_mask by (auto; lia).
  destruct (i =? q); [apply andb_false_r | apply andb_true_r].
Qed.
Lemma d_flip_spec x q : dok x -> 0 <= q < 64 -> exists y, d_flip x q = Val (Ok y) /\ dok y /\
  forall i, 0 <= i -> Z.testbit y i = if i =? q then negb (Z.testbit x i) else Z.testbit x i.
Proof.
  intros Hx Hq. unfold d_flip, verify_bit_access. destruct (Z.ltb_spec q 64); [|lia].
  rewrite u64_shl_1 by lia. cbn [bind]. eexists; split; [reflexivity|].
  split; [apply dok_lxor; auto using pow2_dok|].
  intros i Hi. rewrite Z.lxor_spec, Z.pow2_bits_eqb, (Z.eqb_sym q i) by lia.
  destruct (i =? q); [apply xorb_true_r | apply xorb_false_r].
Qed.

Lemma set_bit_at_spec a p :
  wf a -> 0 <= p < len a ->
  exists c, set_bit_at a p = Val (c, Ok tt) /\ wf c /\ len c = len a /\
    forall i, 0 <= i -> bit c i = if i =? p then true else bit a i.
Proof. intros. apply modify_bit_at_spec with (g := fun _ => true); auto using d_set_spec. Qed.
Lemma unset_bit_at_spec a p :
  wf a -> 0 <= p < len a ->
  exists c, unset_bit_at a p = Val (c, Ok tt) /\ wf c /\ len c = len a /\
    forall i, 0 <= i -> bit c i = if i =? p then false else bit a i.
Proof. intros. apply modify_bit_at_spec with (g := fun _ => false); auto using d_unset_spec. Qed.
Lemma flip_bit_at_spec a p :
  wf a -> 0 <= p < len a ->
  exists c, flip_bit_at a p = Val (c, Ok tt) /\ wf c /\ len c = len a /\
    forall i, 0 <= i -> bit c i = if i =? p then negb (bit a i) else bit a i.
Proof. intros. apply modify_bit_at_spec with (g := negb); auto using d_flip_spec. Qed.

(** Numeric forms. *)
Lemma bits_unsigned a x : wf a -> (forall i, 0 <= i -> bit a i = Z.testbit x i) -> unsigned a = x.
Proof. intros _ H. apply Z.bits_inj'. exact H. Qed.

Lemma set_bit_at_num a p :
  wf a -> 0 <= p < len a ->
  exists c, set_bit_at a p = Val (c, Ok tt) /\ is_apint c (len a) (Z.setbit (unsigned a) p).
Proof.
  intros Ha Hp. destruct (set_bit_at_spec a p Ha Hp) as (c & -> & Hc & Hl & Hb).
  exists c; split; auto. split; auto. split; auto. apply bits_unsigned; auto. intros i Hi.
  rewrite Hb by auto. rewrite Z.setbit_eqb, (Z.eqb_sym p) by lia. unfold bit. destruct (i =? p); reflexivity.
Qed.
Lemma unset_bit_at_num a p :
  wf a -> 0 <= p < len a ->
  exists c, unset_bit_at a p = Val (c, Ok tt) /\ is_apint c (len a) (Z.clearbit (unsigned a) p).
Proof.
  intros Ha Hp. destruct (unset_bit_at_spec a p Ha Hp) as (c & -> & Hc & Hl & Hb).
  exists c; split; auto. split; auto. split; auto. apply bits_unsigned; auto. intros i Hi.
  rewrite Hb by auto. rewrite Z.clearbit_eqb, (Z.eqb_sym p) by lia. unfold bit.
  destruct (i =? p); cbn; now rewrite ?andb_false_r, ?andb_true_r.
Qed.
Lemma flip_bit_at_num a p :
  wf a -> 0 <= p < len a ->
  exists c, flip_bit_at a p = Val (c, Ok tt) /\ is_apint c (len a) (Z.lxor (unsigned a) (2 ^ p)).
Proof.
  intros Ha Hp. destruct (flip_bit_at_spec a p Ha Hp) as (c & -> & Hc & Hl & Hb).
  exists c; split; auto. split; auto. split; auto. apply bits_unsigned; auto. intros i Hi.
  rewrite Hb by auto. rewrite Z.lxor_spec, Z.pow2_bits_eqb, (Z.eqb_sym p) by lia. unfold bit.
  destruct (i =? p); cbn; now rewrite ?xorb_false_r, ?xorb_true_r.
Qed.

(** * Sign bit and whole-value updates *)

Lemma expect_mut_ok (m : mut_result) c : m = Val (c, Ok tt) -> expect_mut m = Val c.
Proof. intros ->. reflexivity. Qed.

Lemma set_msb_spec a : wf a ->
  exists c, set_msb a = Val c /\ wf c /\ len c = len a /\
    forall i, 0 <= i -> bit c i = if i =? len a - 1 then true else bit a i.
Proof.
  intros Ha. pose proof (wf_len _ Ha). destruct (set_bit_at_spec a (len a - 1) Ha) as (c & E & Hc); [lia|].
  exists c; split; auto. unfold set_msb, msb_pos, width. now apply expect_mut_ok.
Qed.
Lemma unset_msb_spec a : wf a ->
  exists c, unset_msb a = Val c /\ wf c /\ len c = len a /\
    forall i, 0 <= i -> bit c i = if i =? len a - 1 then false else bit a i.
Proof.
  intros Ha. pose proof (wf_len _ Ha). destruct (unset_bit_at_spec a (len a - 1) Ha) as (c & E & Hc); [lia|].
  exists c; split; auto. unfold unset_msb, msb_pos, width. now apply expect_mut_ok.
Qed.
Lemma flip_msb_spec a : wf a ->
  exists c, flip_msb a = Val c /\ wf c /\ len c = len a /\
    forall i, 0 <= i -> bit c i = if i =? len a - 1 then negb (bit a i) else bit a i.
Proof.
  intros Ha. pose proof (wf_len _ Ha). destruct (flip_bit_at_spec a (len a - 1) Ha) as (c & E & Hc); [lia|].
  exists c; split; auto. unfold flip_msb, msb_pos, width. now apply expect_mut_ok.
Qed.

Lemma digits_nonempty a : shape a -> digits a <> [].
Proof.
  intros (H0 & H1 & _) E. rewrite E in H1. pose proof (required_digits_pos _ H0). cbn in H1. lia.
Qed.

Lemma most_significant_digit_spec a :
  shape a -> most_significant_digit a = Val (nth (length (digits a) - 1) (digits a) 0).
Proof.
  intros Ha. unfold most_significant_digit.
  destruct (shape_viewP a Ha) as [d Hw Ea Hd Hs ->|Hw _ Hs ->]; cbn [bind].
  - rewrite Ea. reflexivity.
  - destruct (list_last_cases (digits a) (digits_nonempty a Ha)) as (init & d & ->).
    rewrite last_digit_app. f_equal. rewrite app_length. cbn [length].
    symmetry. apply nth_last_app. lia.
Qed.

Lemma msb_spec a : shape a -> msb a = Val (bit a (len a - 1)).
Proof.
  intros Ha. pose proof Ha as (H0 & H1 & H2). unfold msb. rewrite most_significant_digit_spec by auto.
  cbn [bind]. unfold to_pos_within_digit, msb_pos, width. rewrite d_get_spec by lia. cbn [bind unwrap].
  unfold bit, unsigned. rewrite testbit_uval by (auto; lia). do 3 f_equal.
  pose proof (required_digits_bound _ H0). lia.
Qed.

Lemma least_significant_digit_spec a :
  shape a -> least_significant_digit a = Val (nth 0 (digits a) 0).
Proof.
  intros Ha. unfold least_significant_digit.
  destruct (shape_viewP a Ha) as [d Hw Ea Hd Hs ->|Hw Hl Hs ->]; cbn [bind].
  - rewrite Ea. reflexivity.
  - rewrite idx_nth by lia. reflexivity.
Qed.
Lemma nth0_mod a : shape a -> nth 0 (digits a) 0 = unsigned a mod B.
Proof.
  intros Ha. pose proof (digits_nonempty a Ha). destruct Ha as (_ & _ & H2).
  unfold unsigned. destruct (digits a) as [|d r]; [congruence|]. apply digs_cons in H2 as [Hd _].
  cbn [nth]. rewrite uval_cons, Z.mul_comm, Z_mod_plus_full, Z.mod_small; auto.
Qed.

Lemma d_lsb_odd x : d_lsb x = Z.odd x.
Proof.
  unfold d_lsb. change 1 with (Z.ones 1). rewrite Z.land_ones by lia. change (2 ^ 1) with 2.
  rewrite Zmod_odd. destruct (Z.odd x); reflexivity.
Qed.
Lemma odd_mod_B x : Z.odd (x mod B) = Z.odd x.
Proof.
  rewrite <- !Z.bit0_odd. rewrite B_pow. apply Z.mod_pow2_bits_low. lia.
Qed.
Lemma lsb_spec a : shape a -> lsb a = Val (Z.odd (unsigned a)).
Proof.
  intros Ha. unfold lsb. rewrite least_significant_digit_spec by auto. cbn [bind].
  now rewrite d_lsb_odd, nth0_mod, odd_mod_B.
Qed.
Lemma is_even_spec a : shape a -> is_even a = Val (Z.even (unsigned a)).
Proof.
  intros Ha. unfold is_even. rewrite lsb_spec by auto. cbn [bind].
  now rewrite <- Z.negb_even, negb_involutive.
Qed.
Lemma is_odd_spec a : shape a -> is_odd a = Val (Z.odd (unsigned a)).
Proof. apply lsb_spec. Qed.

Lemma forallb_zero ds : digs ds -> forallb d_is_zero ds = (uval ds =? 0).
Proof.
  intros H. apply eq_true_iff_eq. rewrite forallb_forall, Z.eqb_eq.
  rewrite uval_zero_iff by auto. rewrite Forall_forall. unfold d_is_zero, ZERO.
  split; intros Hx x Hin; specialize (Hx x Hin); now apply Z.eqb_eq.
Qed.

Lemma is_zero_spec a : shape a -> is_zero a = Val (unsigned a =? 0).
Proof.
  intros Ha. pose proof Ha as (H0 & H1 & H2). unfold is_zero, unsigned.
  destruct (shape_viewP a Ha) as [d Hw Ea Hd Hs ->|Hw Hl Hs ->]; cbn [bind].
  - rewrite Ea. cbn [digits]. now rewrite uval_one.
  - now rewrite forallb_zero.
Qed.

Lemma map_set_all ds : digs ds -> map d_set_all ds = repeat ONES (length ds).
Proof.
  induction ds as [|d r IH]; intros H; cbn [map length repeat]; auto.
  apply digs_cons in H as [Hd Hr]. f_equal; auto. unfold d_set_all.
  rewrite ONES_pow. replace (2 ^ 64 - 1) with (Z.ones 64) by reflexivity.
  apply Z.lor_ones_low; [unfold dok in Hd; lia|].
  unfold dok in Hd. rewrite B_pow in Hd.
  destruct (Z.eq_dec d 0) as [->|]; [cbn; lia|]. apply Z.log2_lt_pow2; lia.
Qed.
Lemma set_all_spec a : shape a ->
  exists c, set_all a = Val c /\ is_apint c (len a) (2 ^ len a - 1).
Proof.
  intros Ha. pose proof Ha as (H0 & H1 & H2). unfold set_all. rewrite modify_digits_spec by auto. cbn [bind].
  rewrite map_set_all by auto.
  destruct (clear_finish (len a) (repeat ONES (length (digits a))) (-1) 1) as (c & -> & Hc); auto.
  - now rewrite repeat_length.
  - apply digs_repeat, dok_ONES.
  - rewrite uval_repeat_ONES, H1. lia.
  - eexists; split; [reflexivity|].
    replace ((-1) mod 2 ^ len a) with (2 ^ len a - 1) in Hc; auto.
    assert (0 < 2 ^ len a) by (apply Z.pow_pos_nonneg; lia).
    apply Z.mod_unique with (-1); lia.
Qed.
Lemma unset_all_spec a : shape a ->
  exists c, unset_all a = Val c /\ is_apint c (len a) 0.
Proof.
  intros Ha. pose proof Ha as (H0 & H1 & H2). unfold unset_all. rewrite modify_digits_spec by auto.
  eexists; split; [reflexivity|]. rewrite map_unset_all. apply zero_is_apint; auto.
  - now rewrite repeat_length.
  - apply digs_repeat, dok_0.
  - apply uval_repeat_0.
Qed.
Lemma map_flip_all ds : digs ds -> map d_flip_all ds = map d_not ds.
Proof.
  intros H. apply map_ext_in. intros d Hd. eapply Forall_forall in H; [|exact Hd].
  unfold d_flip_all, d_not. unfold u64_not. apply Z.bits_inj'. intros i Hi.
  rewrite Z.lxor_spec. rewrite ONES_pow, B_pow.
  replace (2 ^ 64 - 1) with (Z.ones 64) by reflexivity.
  destruct (Z.ltb_spec i 64).
  - rewrite Z.ones_spec_low, Z.mod_pow2_bits_low, Z.lnot_spec by lia. apply xorb_true_r.
  - rewrite Z.ones_spec_high, Z.mod_pow2_bits_high by lia. rewrite testbit_dok_high; auto.
Qed.
Lemma flip_all_spec a : wf a ->
  exists c, flip_all a = Val c /\ is_apint c (len a) (2 ^ len a - 1 - unsigned a).
Proof.
  intros Hwf. pose proof (wf_sh _ Hwf) as Ha. pose proof Ha as (H0 & H1 & H2).
  destruct (bitnot_spec a Hwf) as (c & E & Hc). exists c; split; auto. rewrite <- E.
  unfold flip_all, bitnot. rewrite !modify_digits_spec by auto. cbn [bind]. now rewrite map_flip_all.
Qed.

(** * Signed readings *)
Lemma pow2_double w : 0 < w -> 2 ^ w = 2 * 2 ^ (w - 1).
Proof. intros. rewrite <- Z.pow_succ_r by lia. f_equal. lia. Qed.
Lemma msb_ltb u w : 0 < w -> 0 <= u < 2 ^ w -> Z.testbit u (w - 1) = negb (u <? 2 ^ (w - 1)).
Proof.
  intros Hw Hu. rewrite pow2_double in Hu by auto.
  assert (0 < 2 ^ (w - 1)) by (apply Z.pow_pos_nonneg; lia).
  destruct (Z.ltb_spec u (2 ^ (w - 1))); cbn.
  - apply testbit_high with (w - 1); lia.
  - pose proof (Z.testbit_spec' u (w - 1) ltac:(lia)) as E.
    assert (u / 2 ^ (w - 1) = 1) as E1.
    { symmetry. apply Z.div_unique with (u - 2 ^ (w - 1)); lia. }
    rewrite E1 in E. change (1 mod 2) with 1 in E.
    destruct (Z.testbit u (w - 1)); auto. cbn in E. lia.
Qed.
Lemma to_signed_msb u w : 0 < w -> 0 <= u < 2 ^ w ->
  to_signed w u = if Z.testbit u (w - 1) then u - 2 ^ w else u.
Proof.
  intros. unfold to_signed. rewrite msb_ltb by auto. destruct (u <? 2 ^ (w - 1)); reflexivity.
Qed.
Lemma signed_msb a : wf a -> signed a = if bit a (len a - 1) then unsigned a - 2 ^ len a else unsigned a.
Proof. intros H. apply to_signed_msb; auto using wf_len, unsigned_bound. Qed.
Lemma bit_msb_neg a : wf a -> bit a (len a - 1) = (signed a <? 0).
Proof.
  intros H. rewrite signed_msb by auto. pose proof (unsigned_bound _ H).
  destruct (bit a (len a - 1)); lia.
Qed.
Lemma to_signed_range w u : 0 < w -> 0 <= u < 2 ^ w -> - 2 ^ (w - 1) <= to_signed w u < 2 ^ (w - 1).
Proof.
  intros Hw Hu. unfold to_signed. rewrite (pow2_double w Hw) in *.
  destruct (Z.ltb_spec u (2 ^ (w - 1))); lia.
Qed.
Lemma signed_range a : wf a -> - 2 ^ (len a - 1) <= signed a < 2 ^ (len a - 1).
Proof. intros H. apply to_signed_range; auto using wf_len, unsigned_bound. Qed.
Lemma to_signed_mod w u : 0 < w -> 0 <= u < 2 ^ w -> to_signed w u mod 2 ^ w = u.
Proof.
  intros Hw Hu. unfold to_signed. destruct (u <? 2 ^ (w - 1)).
  - now apply Z.mod_small.
  - replace (u - 2 ^ w) with (u + (-1) * 2 ^ w) by lia. rewrite Z_mod_plus_full. now apply Z.mod_small.
Qed.
Lemma signed_mod a : wf a -> signed a mod 2 ^ len a = unsigned a.
Proof. intros H. apply to_signed_mod; auto using wf_len, unsigned_bound. Qed.
Lemma wrap_signed_small w z : 0 < w -> - 2 ^ (w - 1) <= z < 2 ^ (w - 1) -> wrap_signed w z = z.
Proof.
  intros Hw Hz. unfold wrap_signed, to_signed. pose proof (pow2_double w Hw) as E.
  destruct (Z.ltb_spec z 0).
  - assert (z mod 2 ^ w = z + 2 ^ w) as -> by (symmetry; apply Z.mod_unique with (-1); lia).
    destruct (Z.ltb_spec (z + 2 ^ w) (2 ^ (w - 1))); lia.
  - rewrite Z.mod_small by lia. destruct (Z.ltb_spec z (2 ^ (w - 1))); lia.
Qed.
Lemma wrap_signed_mod w x y : x mod 2 ^ w = y mod 2 ^ w -> wrap_signed w x = wrap_signed w y.
Proof. unfold wrap_signed. now intros ->. Qed.
Lemma signed_wrap a : wf a -> signed a = wrap_signed (len a) (unsigned a).
Proof.
  intros H. unfold signed, wrap_signed. now rewrite Z.mod_small by (apply unsigned_bound; auto).
Qed.
(** The signed reading of a result known modulo 2^w. *)
Lemma is_apint_signed c w z : 0 < w -> is_apint c w (z mod 2 ^ w) -> signed c = wrap_signed w z.
Proof. intros Hw (Hc & Hl & Hu). unfold signed, wrap_signed. now rewrite Hl, Hu. Qed.
Lemma signed_congr a : wf a -> exists k, signed a = unsigned a + k * 2 ^ len a.
Proof. intros H. rewrite signed_msb by auto. destruct (bit a (len a - 1)); [exists (-1) | exists 0]; lia. Qed.
