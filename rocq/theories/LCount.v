(** Proofs about bit counting, [is_one] and [is_all_set]. *)
From Verif Require Export LBits.

(** Number of ones among the [n] lowest bits. *)
Fixpoint cnt (n : nat) (u : Z) : Z :=
  match n with O => 0 | S n => Z.b2z (Z.odd u) + cnt n (u / 2) end.

Lemma filter_shift u n k :
  0 <= k ->
  length (filter (Z.testbit u) (map Z.of_nat (seq (S (Z.to_nat k)) n)))
  = length (filter (Z.testbit (u / 2)) (map Z.of_nat (seq (Z.to_nat k) n))).
Proof.
  revert k; induction n as [|n IH]; intros k Hk; cbn [seq map filter]; auto.
  rewrite Nat2Z.inj_succ. rewrite <- Z.add_1_r.
  assert (Z.testbit u (Z.of_nat (Z.to_nat k) + 1) = Z.testbit (u / 2) (Z.of_nat (Z.to_nat k))) as ->.
  { change 2 with (2 ^ 1). rewrite Z.div_pow2_bits by lia. reflexivity. }
  specialize (IH (k + 1) ltac:(lia)). replace (Z.to_nat (k + 1)) with (S (Z.to_nat k)) in IH by lia.
  destruct (Z.testbit (u / 2) _); cbn [length]; lia.
Qed.

Lemma cnt_ones_below n u : cnt n u = ones_below u (Z.of_nat n).
Proof.
  unfold ones_below. rewrite Nat2Z.id. revert u; induction n as [|n IH]; intros u; cbn [cnt seq map filter]; auto.
  rewrite IH. change (Z.of_nat 0) with 0. rewrite Z.bit0_odd.
  pose proof (filter_shift u n 0 ltac:(lia)) as E. change (Z.to_nat 0) with 0%nat in E.
  destruct (Z.odd u); cbn [length Z.b2z]; lia.
Qed.

Lemma cnt_0 n : cnt n 0 = 0.
Proof. induction n; cbn [cnt]; auto. Qed.
Lemma cnt_add n m u : cnt (n + m) u = cnt n u + cnt m (u / 2 ^ Z.of_nat n).
Proof.
  revert u; induction n as [|n IH]; intros u; cbn [cnt Nat.add].
  - change (2 ^ Z.of_nat 0) with 1. rewrite Z.div_1_r. lia.
  - rewrite IH, Z.div_div by lia. rewrite Nat2Z.inj_succ, Z.pow_succ_r by lia. lia.
Qed.
Lemma cnt_bound n u : 0 <= cnt n u <= Z.of_nat n.
Proof.
  revert u; induction n as [|n IH]; intros u; cbn [cnt]; [lia|].
  specialize (IH (u / 2)). destruct (Z.odd u); cbn [Z.b2z]; lia.
Qed.
Lemma cnt_full n u : cnt n u = Z.of_nat n <-> u mod 2 ^ Z.of_nat n = 2 ^ Z.of_nat n - 1.
Proof.
  revert u; induction n as [|n IH]; intros u; cbn [cnt].
  - change (2 ^ Z.of_nat 0) with 1. rewrite Z.mod_1_r. lia.
  - specialize (IH (u / 2)). pose proof (cnt_bound n (u / 2)).
    rewrite Nat2Z.inj_succ, Z.pow_succ_r by lia. rewrite Z.rem_mul_r by lia.
    rewrite Zmod_odd. destruct (Z.odd u); cbn [Z.b2z]; lia.
Qed.

Lemma cnt_low n u v : u mod 2 ^ Z.of_nat n = v mod 2 ^ Z.of_nat n -> cnt n u = cnt n v.
Proof.
  revert u v; induction n as [|n IH]; intros u v E; cbn [cnt]; auto.
  rewrite Nat2Z.inj_succ, Z.pow_succ_r in E by lia. rewrite !Z.rem_mul_r in E by lia.
  assert (u mod 2 = v mod 2 /\ (u / 2) mod 2 ^ Z.of_nat n = (v / 2) mod 2 ^ Z.of_nat n) as [E1 E2].
  { pose proof (Z.mod_pos_bound u 2). pose proof (Z.mod_pos_bound v 2). lia. }
  rewrite (IH _ _ E2). rewrite !Zmod_odd in E1. destruct (Z.odd u), (Z.odd v); cbn in *; lia.
Qed.

Lemma popcount_cnt p : forall n, Zpos p < 2 ^ Z.of_nat n -> popcount_pos p = cnt n (Zpos p).
Proof.
  induction p as [p IH|p IH|]; intros n H.
  - destruct n as [|n]; [cbn in H; lia|]. cbn [popcount_pos cnt].
    rewrite Nat2Z.inj_succ, Z.pow_succ_r in H by lia.
    change (Z.odd (Z.pos p~1)) with true. cbn [Z.b2z].
    replace (Z.pos p~1 / 2) with (Zpos p) by lia. rewrite (IH n) by lia. reflexivity.
  - destruct n as [|n]; [cbn in H; lia|]. cbn [popcount_pos cnt].
    rewrite Nat2Z.inj_succ, Z.pow_succ_r in H by lia.
    change (Z.odd (Z.pos p~0)) with false. cbn [Z.b2z].
    replace (Z.pos p~0 / 2) with (Zpos p) by lia. rewrite (IH n) by lia. lia.
  - destruct n as [|n]; [cbn in H; lia|]. cbn [popcount_pos cnt].
    change (1 / 2) with 0. rewrite cnt_0. reflexivity.
Qed.
Lemma u64_count_ones_cnt d : dok d -> u64_count_ones d = cnt 64 d.
Proof.
  unfold dok. rewrite B_pow. intros H. unfold u64_count_ones.
  destruct d as [|p|p]; [now rewrite cnt_0 | | lia]. apply popcount_cnt. exact (proj2 H).
Qed.

Lemma fold_sum f ds : forall z, fold_left (fun acc d => acc + f d) ds z = z + sum_digits f ds.
Proof.
  unfold sum_digits. induction ds as [|d r IH]; intros z; cbn [fold_left]; [lia|].
  rewrite (IH (z + f d)), (IH (0 + f d)). lia.
Qed.
Lemma sum_digits_cons f d r : sum_digits f (d :: r) = f d + sum_digits f r.
Proof. unfold sum_digits at 1. cbn [fold_left]. rewrite fold_sum. lia. Qed.

Lemma cnt_cons n d u : dok d -> cnt (64 + n) (d + B * u) = cnt 64 d + cnt n u.
Proof.
  intros Hd. rewrite cnt_add. change (Z.of_nat 64) with 64. rewrite <- B_pow. unfold dok in Hd.
  pose proof B_pos.
  rewrite (Z.mul_comm B), Z.div_add, (Z.div_small d) by lia. f_equal.
  apply cnt_low. change (Z.of_nat 64) with 64. rewrite <- B_pow. apply Z_mod_plus_full.
Qed.
Lemma sum_ones ds : digs ds -> sum_digits u64_count_ones ds = cnt (64 * length ds) (uval ds).
Proof.
  induction ds as [|d r IH]; intros H.
  - reflexivity.
  - apply digs_cons in H as [Hd Hr]. rewrite sum_digits_cons, IH, u64_count_ones_cnt by auto.
    cbn [length]. rewrite uval_cons.
    replace (64 * S (length r))%nat with (64 + 64 * length r)%nat by lia. now rewrite cnt_cons.
Qed.
Lemma sum_zeros ds :
  sum_digits u64_count_zeros ds = 64 * Z.of_nat (length ds) - sum_digits u64_count_ones ds.
Proof.
  induction ds as [|d r IH]; [reflexivity|].
  rewrite !sum_digits_cons, IH. unfold u64_count_zeros. cbn [length]. lia.
Qed.

Lemma cnt_wf a : wf a -> cnt (64 * length (digits a)) (unsigned a) = ones_below (unsigned a) (len a).
Proof.
  intros Hwf. pose proof (unsigned_bound a Hwf) as Hu. apply wf_sh in Hwf as (H0 & H1 & H2).
  pose proof (required_digits_bound _ H0).
  replace (len a) with (Z.of_nat (Z.to_nat (len a))) by lia. rewrite <- cnt_ones_below.
  replace (64 * length (digits a))%nat with (Z.to_nat (len a) + (64 * length (digits a) - Z.to_nat (len a)))%nat by lia.
  rewrite cnt_add. rewrite Z2Nat.id by lia. rewrite (Z.div_small (unsigned a)) by lia. rewrite cnt_0. lia.
Qed.

Lemma ones_below_bound u w : 0 <= w -> 0 <= ones_below u w <= w.
Proof.
  intros. replace w with (Z.of_nat (Z.to_nat w)) by lia. rewrite <- cnt_ones_below.
  apply cnt_bound.
Qed.

Lemma unused_bits_spec w : 0 < w -> unused_bits w = Val (64 * Z.of_nat (required_digits w) - w).
Proof.
  intros Hw. unfold unused_bits, usize_sub, excess_bits. cbv zeta. rewrite required_digits_Z by auto.
  destruct (Z.eqb_spec (w mod 64) 0).
  - destruct (Z.leb_spec 64 64); [|lia]. f_equal. lia.
  - destruct (Z.leb_spec (w mod 64) 64); [|lia]. f_equal. lia.
Qed.

Lemma count_ones_spec a : wf a -> count_ones a = Val (ones_below (unsigned a) (len a)).
Proof.
  intros Hwf. unfold count_ones, as_digit_slice. rewrite sum_ones by (now apply wf_sh in Hwf as (_ & _ & ?)).
  now rewrite <- cnt_wf.
Qed.
Lemma count_zeros_spec a : wf a -> count_zeros a = Val (len a - ones_below (unsigned a) (len a)).
Proof.
  intros Hwf. unfold count_zeros, as_digit_slice, width.
  pose proof (wf_sh _ Hwf) as (H0 & H1 & H2).
  rewrite sum_zeros, sum_ones by auto. change (uval (digits a)) with (unsigned a).
  rewrite cnt_wf by auto. rewrite unused_bits_spec by auto. cbn [bind].
  pose proof (ones_below_bound (unsigned a) (len a)). pose proof (required_digits_bound _ H0).
  unfold usize_sub. destruct (Z.leb_spec (64 * Z.of_nat (required_digits (len a)) - len a)
    (64 * Z.of_nat (length (digits a)) - ones_below (unsigned a) (len a))); [|lia].
  f_equal. lia.
Qed.

(** * Leading zeros *)
Lemma count_run_acc f ds : forall z, count_run f ds z = z + count_run f ds 0.
Proof.
  induction ds as [|d r IH]; intros z; cbn [count_run]; cbv zeta; [lia|].
  destruct (negb (f d =? 64)); [lia|]. rewrite (IH (z + f d)), (IH (0 + f d)). lia.
Qed.
Lemma leading_run ds :
  digs ds ->
  let k := count_run u64_leading_zeros (rev ds) 0 in
  0 <= k <= 64 * Z.of_nat (length ds) /\
  uval ds < 2 ^ (64 * Z.of_nat (length ds) - k) /\
  (k < 64 * Z.of_nat (length ds) -> 2 ^ (64 * Z.of_nat (length ds) - k - 1) <= uval ds).
Proof.
  induction ds as [|d init IH] using rev_ind; intros H; cbv zeta in *.
  - cbn [rev count_run length]. rewrite uval_nil. change (Z.of_nat 0) with 0.
    change (2 ^ (64 * 0 - 0)) with 1. lia.
  - apply digs_app in H as [Hi Hd]. apply digs_cons in Hd as [Hd _]. specialize (IH Hi).
    rewrite rev_unit, app_length, uval_app, uval_one. cbn [count_run length]. cbv zeta.
    pose proof (uval_bound _ Hi) as Hb. pose proof (P_pos (length init)).
    set (n := length init) in *.
    destruct (Z.eq_dec d 0) as [->|N].
    + change (u64_leading_zeros 0) with 64. change (negb (64 =? 64)) with false. cbv iota.
      rewrite count_run_acc. set (k := count_run _ (rev init) 0) in *.
      replace (64 * Z.of_nat (n + 1) - (0 + 64 + k)) with (64 * Z.of_nat n - k) by lia.
      destruct IH as (I1 & I2 & I3). split; [lia|]. split; [lia|]. intros Hk. specialize (I3 ltac:(lia)). lia.
    + destruct (d_leading_zeros_spec d Hd N) as [L1 L2]. unfold d_leading_zeros in *.
      set (z := u64_leading_zeros d) in *. destruct (Z.eqb_spec z 64); [lia|]. cbn [negb].
      split; [lia|].
      replace (64 * Z.of_nat (n + 1) - (0 + z)) with (64 * Z.of_nat n + (64 - z)) by lia.
      replace (64 * Z.of_nat n + (64 - z) - 1) with (64 * Z.of_nat n + (63 - z)) by lia.
      rewrite !Z.pow_add_r by lia. rewrite <- P_pow.
      set (x := 2 ^ (64 - z)) in *. set (y := 2 ^ (63 - z)) in *. split; [nia|]. intros _. nia.
Qed.

Lemma leading_zeros_spec a :
  wf a -> exists k, leading_zeros a = Val k /\ 0 <= k <= len a /\ unsigned a < 2 ^ (len a - k) /\
    (k < len a -> 2 ^ (len a - k - 1) <= unsigned a).
Proof.
  intros Hwf. pose proof (unsigned_bound _ Hwf) as Hu. pose proof (wf_sh _ Hwf) as (H0 & H1 & H2).
  unfold leading_zeros, as_digit_slice, width. rewrite unused_bits_spec by auto. cbn [bind].
  pose proof (leading_run (digits a) H2) as L. cbv zeta in L.
  set (k := count_run _ _ 0) in *. destruct L as (L1 & L2 & L3). rewrite H1 in *.
  fold (unsigned a) in *. pose proof (required_digits_bound _ H0).
  set (n := Z.of_nat (required_digits (len a))) in *.
  assert (64 * n - len a <= k).
  { destruct (Z.leb_spec (64 * n - len a) k); auto. exfalso. specialize (L3 ltac:(lia)).
    assert (2 ^ len a <= 2 ^ (64 * n - k - 1)) by (apply Z.pow_le_mono_r; lia). lia. }
  unfold usize_sub. destruct (Z.leb_spec (64 * n - len a) k); [|lia].
  eexists; split; [reflexivity|]. split; [lia|].
  replace (len a - (k - (64 * n - len a))) with (64 * n - k) by lia. split; auto.
  intros Hk. apply L3. lia.
Qed.

(** * Trailing zeros *)
Lemma ctz_pos_spec p : 0 <= ctz_pos p /\ exists q, Zpos p = 2 ^ ctz_pos p * (2 * q + 1).
Proof.
  induction p as [p IH|p IH|]; cbn [ctz_pos].
  - split; [lia|]. exists (Zpos p). change (2 ^ 0) with 1. lia.
  - destruct IH as (H & q & E). split; [lia|]. exists q. rewrite Z.pow_add_r by lia.
    change (2 ^ 1) with 2. lia.
  - split; [lia|]. exists 0. reflexivity.
Qed.
Lemma u64_tz_spec d : dok d -> d <> 0 ->
  0 <= u64_trailing_zeros d < 64 /\ exists q, d = 2 ^ u64_trailing_zeros d * (2 * q + 1).
Proof.
  unfold dok. rewrite B_pow. intros Hd N. destruct d as [|p|p]; [lia| |lia]. cbn [u64_trailing_zeros].
  destruct (ctz_pos_spec p) as (H & q & E). split; [|eauto]. split; auto.
  apply Z.nle_gt. intros Hge. assert (2 ^ 64 <= 2 ^ ctz_pos p) by (apply Z.pow_le_mono_r; lia).
  assert (0 < 2 ^ ctz_pos p) by (apply Z.pow_pos_nonneg; lia). assert (0 <= q) by nia. nia.
Qed.
Lemma trailing_run ds :
  digs ds ->
  let k := count_run u64_trailing_zeros ds 0 in
  (uval ds = 0 -> k = 64 * Z.of_nat (length ds)) /\
  (uval ds <> 0 -> 0 <= k /\ exists q, uval ds = 2 ^ k * (2 * q + 1)).
Proof.
  induction ds as [|d r IH]; intros H; cbv zeta in *.
  - rewrite uval_nil. split; [reflexivity | lia].
  - apply digs_cons in H as [Hd Hr]. specialize (IH Hr). rewrite uval_cons. cbn [count_run length]. cbv zeta.
    pose proof (uval_nonneg _ Hr). pose proof B_pos.
    destruct (Z.eq_dec d 0) as [->|N].
    + change (u64_trailing_zeros 0) with 64. change (negb (64 =? 64)) with false. cbv iota.
      rewrite count_run_acc. set (k := count_run _ r 0) in *. destruct IH as [I1 I2]. split.
      * intros E. rewrite I1 by nia. lia.
      * intros E. destruct I2 as (Ik & q & Eq); [nia|]. split; [lia|]. exists q.
        rewrite Z.pow_add_r by lia. change (2 ^ (0 + 64)) with (2 ^ 64). rewrite <- B_pow, Eq. lia.
    + destruct (u64_tz_spec d Hd N) as (T1 & q & T2). set (z := u64_trailing_zeros d) in *.
      destruct (Z.eqb_spec z 64); [lia|]. cbn [negb]. unfold dok in Hd. split; [intros; exfalso; nia|]. intros _.
      split; [lia|]. exists (q + 2 ^ (63 - z) * uval r).
      replace (0 + z) with z by lia.
      assert (B = 2 ^ z * (2 * 2 ^ (63 - z))) as EB.
      { rewrite <- Z.pow_succ_r, <- Z.pow_add_r, B_pow by lia. f_equal. lia. }
      rewrite T2 at 1. rewrite EB. ring.
Qed.

Lemma odd_factor_bits k q : 0 <= k -> Z.testbit (2 ^ k * (2 * q + 1)) k = true /\
  forall i, 0 <= i < k -> Z.testbit (2 ^ k * (2 * q + 1)) i = false.
Proof.
  intros Hk. split.
  - rewrite Z.mul_comm, Z.mul_pow2_bits by lia. rewrite Z.sub_diag, Z.bit0_odd.
    rewrite Z.add_comm, Z.odd_add_mul_2. reflexivity.
  - intros i Hi. rewrite Z.mul_comm. apply Z.mul_pow2_bits_low. lia.
Qed.

Lemma trailing_zeros_spec a :
  wf a -> exists k, trailing_zeros a = Val k /\
    (unsigned a = 0 -> k = len a) /\
    (unsigned a <> 0 -> 0 <= k < len a /\ bit a k = true /\ forall i, 0 <= i < k -> bit a i = false).
Proof.
  intros Hwf. pose proof (unsigned_bound _ Hwf) as Hu. pose proof (wf_sh _ Hwf) as (H0 & H1 & H2).
  unfold trailing_zeros, as_digit_slice, width.
  pose proof (trailing_run (digits a) H2) as L. cbv zeta in L.
  set (k := count_run _ _ 0) in *. destruct L as [L1 L2]. fold (unsigned a) in *. rewrite H1 in *.
  pose proof (required_digits_bound _ H0).
  destruct (Z.eq_dec (unsigned a) 0) as [E|N].
  - specialize (L1 E). destruct (Z.leb_spec (len a) k); [|lia].
    rewrite unused_bits_spec by auto. cbn [bind]. unfold usize_sub.
    destruct (Z.leb_spec (64 * Z.of_nat (required_digits (len a)) - len a) k); [|lia].
    eexists; split; [reflexivity|]. split; intros; lia.
  - destruct (L2 N) as (Hk & q & Eq). destruct (odd_factor_bits k q Hk) as [O1 O2].
    assert (k < len a) as Hk2.
    { destruct (Z.ltb_spec k (len a)); auto. exfalso.
      rewrite <- Eq in O1. rewrite (testbit_high _ (len a)) in O1 by auto. discriminate. }
    destruct (Z.leb_spec (len a) k); [lia|]. eexists; split; [reflexivity|].
    split; [lia|]. intros _. split; [lia|]. unfold bit. rewrite Eq. split; [exact O1|].
    exact O2.
Qed.

(** * [is_one] and [is_all_set]: what the code decides *)
Lemma digits_snoc a : shape a -> exists init d, digits a = init ++ [d] /\ digs init /\ dok d /\
  length init = (required_digits (len a) - 1)%nat.
Proof.
  intros Ha. destruct (list_last_cases _ (digits_nonempty a Ha)) as (init & d & E).
  destruct Ha as (H0 & H1 & H2). rewrite E in *. apply digs_app in H2 as [Hi Hd].
  apply digs_cons in Hd as [Hd _]. rewrite app_length in H1. cbn in H1. exists init, d. repeat split; auto; try apply Hd; lia.
Qed.

Lemma is_one_char a :
  wf a ->
  is_one a = Val (unsigned a =? 2 ^ (64 * (Z.of_nat (required_digits (len a)) - 1))).
Proof.
  intros Hwf. pose proof (wf_sh _ Hwf) as Ha. pose proof Ha as (H0 & H1 & H2). unfold is_one, unsigned.
  destruct (shape_viewP a Ha) as [d Hw Ea Hd Hs ->|Hw Hl Hs ->]; cbn [bind].
  - rewrite required_digits_1 by lia. rewrite Ea. cbn [digits]. now rewrite uval_one.
  - destruct (digits_snoc a Ha) as (init & d & E & Hi & Hd & Li). rewrite E.
    rewrite last_digit_app, removelast_app1. cbn [bind]. f_equal.
    rewrite forallb_zero by auto. rewrite uval_app, uval_one.
    replace (64 * (Z.of_nat (required_digits (len a)) - 1)) with (64 * Z.of_nat (length init))
      by (pose proof (required_digits_pos _ H0); lia).
    rewrite <- P_pow. pose proof (uval_bound _ Hi). pose proof (P_pos (length init)). unfold ONE, dok in *.
    apply eq_true_iff_eq. rewrite andb_true_iff, !Z.eqb_eq. split; [intros [-> ->]; lia|].
    intros Eq. assert (d = 1) by nia. subst. lia.
Qed.

Lemma forallb_ones ds : digs ds -> forallb (fun d => d =? ONES) ds = (uval ds =? P (length ds) - 1).
Proof.
  induction ds as [|d r IH]; intros H; cbn [forallb length].
  - rewrite uval_nil, P_0. reflexivity.
  - apply digs_cons in H as [Hd Hr]. rewrite IH by auto. rewrite uval_cons, P_S, ONES_B.
    pose proof (uval_bound _ Hr). pose proof B_pos. unfold dok in Hd.
    apply eq_true_iff_eq. rewrite andb_true_iff, !Z.eqb_eq. split; [intros [-> ->]; lia|].
    intros E. assert (uval r = P (length r) - 1) by nia. split; [nia|auto].
Qed.

Lemma is_all_set_char a :
  wf a ->
  is_all_set a =
    Val (if len a mod 64 =? 0
         then unsigned a mod 2 ^ (len a - 64) =? 2 ^ (len a - 64) - 1
         else unsigned a =? 2 ^ len a - 1).
Proof.
  intros Hwf. pose proof (unsigned_bound _ Hwf) as Hu.
  pose proof (wf_sh _ Hwf) as Ha. pose proof Ha as (H0 & H1 & H2).
  destruct (digits_snoc a Ha) as (init & d & E & Hi & Hd & Li).
  unfold is_all_set.
  assert (split_most_significant_digit a = Val (d, init)) as ->.
  { unfold split_most_significant_digit.
    destruct (shape_viewP a Ha) as [d' Hw Ea Hd' Hs ->|Hw Hl Hs ->]; cbn [bind].
    - rewrite Ea in E. cbn in E. destruct init as [|? [|]]; try discriminate. now injection E as ->.
    - now rewrite E, last_digit_app, removelast_app1. }
  cbn [bind]. rewrite forallb_ones by auto. unfold excess_bits, width. cbv zeta.
  unfold unsigned in *. rewrite E in *. rewrite uval_app, uval_one in *.
  pose proof (required_digits_Z _ H0) as Hr.
  pose proof (uval_bound _ Hi) as Hb. pose proof (P_pos (length init)).
  destruct (Z.eqb_spec (len a mod 64) 0) as [Em|Em].
  - f_equal. replace (len a - 64) with (64 * Z.of_nat (length init)) by lia. rewrite <- P_pow.
    rewrite Z.mul_comm, Z_mod_plus_full, Z.mod_small by lia. reflexivity.
  - assert (len a = 64 * Z.of_nat (length init) + len a mod 64) as El by lia.
    assert (0 < 2 ^ (len a mod 64)) by (apply Z.pow_pos_nonneg; lia).
    assert (EP : 2 ^ len a = P (length init) * 2 ^ (len a mod 64)).
    { rewrite El at 1. rewrite Z.pow_add_r, <- P_pow by lia. reflexivity. }
    assert (d < 2 ^ (len a mod 64)) as Hd2.
    { unfold dok in Hd. rewrite EP in Hu. nia. }
    assert (Hc : (u64_count_ones d =? len a mod 64) = (d =? 2 ^ (len a mod 64) - 1)).
    { rewrite u64_count_ones_cnt by auto.
      pose (m := Z.to_nat (len a mod 64)). assert (Z.of_nat m = len a mod 64) as Em' by (unfold m; lia).
      replace 64%nat with (m + (64 - m))%nat at 1 by lia. rewrite cnt_add, Em'.
      unfold dok in Hd. rewrite (Z.div_small d) by lia. rewrite cnt_0, Z.add_0_r.
      pose proof (cnt_full m d) as F. rewrite Em' in F. rewrite (Z.mod_small d) in F by lia.
      apply eq_true_iff_eq. rewrite !Z.eqb_eq. exact F. }
    rewrite Hc. unfold dok in Hd.
    destruct (Z.eqb_spec d (2 ^ (len a mod 64) - 1)) as [Ed|Ed]; cbn [negb]; f_equal;
      apply eq_true_iff_eq; rewrite ?Z.eqb_eq; rewrite EP; split; try discriminate; intros Eq; try nia.
Qed.
