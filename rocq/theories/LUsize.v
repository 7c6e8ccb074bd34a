(** Proofs about lengths on a machine whose [usize] is small. *)
From Verif Require Export SpecUsize MUsize LFacts LCount LMul LParse LSerde LRand.

Lemma usize_bound_64 M : usize_bound M -> exists k, M = 64 * k /\ 4 <= k.
Proof.
  intros (p & Hp & ->). exists (2 ^ (p - 6)). split.
  - replace p with (6 + (p - 6)) at 1 by lia. rewrite Z.pow_add_r by lia. reflexivity.
  - change 4 with (2 ^ 2). apply Z.pow_le_mono_r; lia.
Qed.

Lemma usz_fit M checks z : z < M -> usz M checks z = Val z.
Proof. intros H. unfold usz. destruct (Z.ltb_spec z M); [reflexivity|lia]. Qed.

Lemma z_from_iter_fit M checks ds : usize_bound M -> 64 * Z.of_nat (length ds) < M -> z_from_iter M checks ds = from_iter ds.
Proof.
  intros HM H. unfold z_from_iter, from_iter.
  destruct (length ds) as [|[|n]]; auto. rewrite usz_fit by lia. reflexivity.
Qed.

Lemma z_from_iter_stop M checks ds : usize_bound M -> M <= 64 * Z.of_nat (length ds) ->
  z_from_iter M checks ds = Stop (too_wide checks).
Proof.
  intros HM H. destruct (usize_bound_64 M HM) as (k & -> & Hk). unfold z_from_iter.
  destruct (length ds) as [|[|n]] eqn:E; [lia|lia|].
  unfold usz. destruct (Z.ltb_spec (Z.of_nat (S (S n)) * 64) (64 * k)); [lia|].
  destruct checks; [reflexivity|]. cbn [bind too_wide].
  rewrite (Z.mul_comm _ 64), Z.mul_mod_distr_l by lia.
  set (m := Z.of_nat (S (S n)) mod k).
  assert (0 <= m < k) by (apply Z.mod_pos_bound; lia).
  unfold bitwidth_new. destruct (Z.eqb_spec (64 * m) 0); [reflexivity|]. cbn [unwrap bind].
  destruct (Nat.eqb_spec (S (S n)) (required_digits (64 * m))) as [X|]; [|reflexivity].
  exfalso. unfold required_digits in X. lia.
Qed.

(** * Counting *)
Lemma ones_range d : dok d -> 0 <= u64_count_ones d <= 64.
Proof. intros H. rewrite u64_count_ones_cnt by auto. apply (cnt_bound 64). Qed.
Lemma zeros_range d : dok d -> 0 <= u64_count_zeros d <= 64.
Proof. intros H. unfold u64_count_zeros. pose proof (ones_range d H). lia. Qed.
Lemma lz_range d : dok d -> 0 <= u64_leading_zeros d <= 64.
Proof.
  intros H. destruct (Z.eqb_spec d 0) as [->|N]; [cbn; lia|].
  pose proof (d_leading_zeros_spec d H N) as [X _]. unfold d_leading_zeros in X. lia.
Qed.
Lemma tz_range d : dok d -> 0 <= u64_trailing_zeros d <= 64.
Proof.
  intros H. destruct (Z.eqb_spec d 0) as [->|N]; [cbn; lia|].
  pose proof (u64_tz_spec d H N) as [X _]. lia.
Qed.

Lemma z_sum_fold M checks f ds : (forall d, dok d -> 0 <= f d <= 64) -> digs ds ->
  forall z, 0 <= z -> z + 64 * Z.of_nat (length ds) < M ->
  fold_o (fun acc d => usz M checks (acc + f d)) ds z = Val (z + sum_digits f ds).
Proof.
  intros Hf. induction ds as [|d r IH]; intros Hd z Hz H; cbn [fold_o].
  - unfold sum_digits. cbn. f_equal. lia.
  - apply digs_cons in Hd as [Hd Hr]. specialize (Hf d Hd). cbn [length] in H.
    rewrite usz_fit by lia. cbn [bind]. rewrite IH by (auto; lia). rewrite sum_digits_cons. f_equal. lia.
Qed.
Lemma z_sum_digits_fit M checks f ds : (forall d, dok d -> 0 <= f d <= 64) -> digs ds ->
  64 * Z.of_nat (length ds) < M -> z_sum_digits M checks f ds = Val (sum_digits f ds).
Proof. intros Hf Hd H. unfold z_sum_digits. rewrite z_sum_fold by (auto; lia). reflexivity. Qed.
Lemma z_count_run_fit M checks f ds : (forall d, dok d -> 0 <= f d <= 64) -> digs ds ->
  forall z, 0 <= z -> z + 64 * Z.of_nat (length ds) < M ->
  z_count_run M checks f ds z = Val (count_run f ds z).
Proof.
  intros Hf. induction ds as [|d r IH]; intros Hd z Hz H; cbn [z_count_run count_run]; auto.
  apply digs_cons in Hd as [Hd Hr]. specialize (Hf d Hd). cbn [length] in H. cbv zeta.
  rewrite usz_fit by lia. cbn [bind]. destruct (negb (f d =? 64)); auto. apply IH; auto; lia.
Qed.

(** The digits of an integer that can exist fill fewer bits than [usize] counts. *)
Lemma wf_fill M a : usize_bound M -> wf a -> len a <= M - 64 -> 64 * Z.of_nat (length (digits a)) < M.
Proof.
  intros HM Ha H. destruct (usize_bound_64 M HM) as (k & -> & Hk). destruct Ha as (H0 & H1 & _).
  rewrite H1. lia.
Qed.

Lemma z_counts M checks a : usize_bound M -> wf a -> len a <= M - 64 ->
  z_count_ones M checks a = count_ones a /\ z_count_zeros M checks a = count_zeros a /\
  z_leading_zeros M checks a = leading_zeros a /\ z_trailing_zeros M checks a = trailing_zeros a.
Proof.
  intros HM Ha H. pose proof (wf_fill M a HM Ha H) as Hn. apply wf_sh in Ha as (_ & _ & Hd).
  unfold z_count_ones, count_ones, z_count_zeros, count_zeros, z_leading_zeros, leading_zeros,
    z_trailing_zeros, trailing_zeros, as_digit_slice.
  rewrite !z_sum_digits_fit by (auto using ones_range, zeros_range).
  rewrite (z_count_run_fit M checks u64_trailing_zeros) by (auto using tz_range; lia).
  rewrite (z_count_run_fit M checks u64_leading_zeros).
  - cbn [bind]. repeat split.
  - apply lz_range.
  - apply Forall_rev. exact Hd.
  - lia.
  - rewrite rev_length. lia.
Qed.

(** * Multiplication *)
Lemma mul_no_overflow_mod lhs rhs ls rs :
  digs lhs -> digs rhs -> length lhs = length rhs ->
  (0 < ls < length lhs)%nat -> (0 < rs < length rhs)%nat ->
  uval (skipn (S ls) lhs) = 0 -> uval (skipn (S rs) rhs) = 0 ->
  exists ds, mul_no_overflow lhs rhs ls rs = Val ds /\ digs ds /\ length ds = length lhs /\
    uval ds = (uval lhs * uval rhs) mod P (length lhs).
Proof.
  intros Hl Hr Hlen Hls Hrs Zl Zr. unfold mul_no_overflow.
  rewrite (idx_nth lhs 0) by lia. cbn [bind]. set (mult := nth 0 lhs 0).
  assert (dok mult) as Hm by now apply nth_dok.
  destruct (mul_push_first mult rhs rs) as (sum & c & Ef & L1 & D1 & C1 & V1); auto; try lia.
  unfold bind at 1 in Ef. destruct (idx rhs 0) as [r0| |]; try discriminate. cbn [bind].
  destruct (d_carrying_mul mult r0) as [lo hi]. apply Val_inj in Ef. rewrite Ef. clear Ef.
  rewrite ?idx_nth by lia. cbn [bind].
  destruct (d_carrying_mul_add_spec mult (nth rs rhs 0) c) as (lo1 & hi1 & -> & Hlo & Hhi & E); auto using nth_dok.
  set (sum1 := (sum ++ [lo1]) ++ [hi1]).
  assert (digs sum1 /\ length sum1 = (rs + 2)%nat /\ uval sum1 = mult * uval (firstn (S rs) rhs))
    as (D2 & L2 & V2).
  { unfold sum1. split; [|split].
    - apply digs_app; split; [apply digs_app; split; auto|]; apply digs_cons; split; auto using digs_nil.
    - rewrite !app_length. cbn [length]. lia.
    - rewrite !uval_app, !uval_one, app_length, L1. cbn [length].
      rewrite uval_firstn_S by lia. replace (rs + 1)%nat with (S rs) by lia. rewrite P_S.
      pose proof (P_pos rs). nia. }
  set (R := uval (firstn (S rs) rhs)) in *.
  pose (I := fun i s => digs s /\ length s = (i + rs + 1)%nat /\ uval s = uval (firstn i lhs) * R).
  destruct (for_range_inv I (mul_full_row lhs rhs rs) (ls - 1) 1 sum1) as (sum2 & -> & I1 & I2 & I3).
  - unfold I. split; auto. split; [lia|]. rewrite V2, uval_firstn_S by lia. cbn [firstn].
    rewrite uval_nil, P_0. fold mult. lia.
  - intros i s Hi (I1 & I2 & I3).
    destruct (mul_full_row_spec lhs rhs rs i s) as (s' & -> & J1 & J2 & J3); auto; try lia.
    eexists; split; [reflexivity|]. unfold I. split; auto. split; [lia|].
    fold R in J3. rewrite J3, I3, (uval_firstn_S lhs) by lia. lia.
  - cbn [bind]. replace (1 + (ls - 1))%nat with ls in * by lia.
    destruct (mul_full_row_spec lhs rhs rs ls sum2) as (s' & -> & J1 & J2 & J3); auto; try lia.
    cbn [bind]. rewrite I3 in J3. fold R in J3.
    assert (uval s' = uval lhs * uval rhs) as J4.
    { rewrite J3. rewrite (uval_sig lhs ls), (uval_sig rhs rs) by (auto; lia).
      rewrite (uval_firstn_S lhs) by lia. fold R. lia. }
    destruct (Nat.ltb_spec (length lhs) (length s')).
    + eexists; split; [reflexivity|]. split; [now apply digs_firstn|].
      split; [rewrite firstn_length_le; lia|].
      rewrite uval_firstn_mod by (auto; lia). now rewrite J4.
    + eexists; split; [reflexivity|].
      split; [apply digs_app; split; auto; now apply digs_skipn|].
      split; [rewrite app_length, skipn_length; lia|].
      rewrite uval_app.
      assert (uval (skipn (length s') lhs) = 0) as ->.
      { replace (length s') with (S ls + (length s' - S ls))%nat by lia.
        rewrite <- skipn_skipn_add.
        rewrite uval_skipn_div; [rewrite Zl; apply Z.div_0_l; pose proof (P_pos (length s' - S ls)); lia
          | now apply digs_skipn | rewrite skipn_length; lia]. }
      rewrite Z.mod_small; [lia|]. rewrite <- J4. pose proof (uval_bound _ J1) as X.
      pose proof (P_mono (length s') (length lhs)). lia.
Qed.

Lemma binary_digits_unique u b : 0 < b -> 2 ^ (b - 1) <= u < 2 ^ b -> binary_digits u = b.
Proof.
  intros Hb H. unfold binary_digits. pose proof (Z.pow_pos_nonneg 2 (b - 1)).
  destruct (Z.eqb_spec u 0); [lia|].
  rewrite (Z.log2_unique u (b - 1)); [lia|lia|]. replace (Z.succ (b - 1)) with b by lia. auto.
Qed.

Lemma z_sig_bits_fit M checks ds i b : digs ds -> (i < length ds)%nat -> 64 * Z.of_nat (length ds) < M ->
  sig_bits ds i = Val b -> z_sig_bits M checks ds i = Val b /\ b <= 64 * Z.of_nat (length ds).
Proof.
  intros Hd Hi HM. unfold sig_bits, z_sig_bits. rewrite idx_nth by auto. cbn [bind]. intros E.
  apply Val_inj in E. pose proof (lz_range (nth i ds 0) (nth_dok _ _ Hd)) as L. unfold d_leading_zeros in *.
  rewrite usz_fit by lia. cbn [bind]. rewrite usz_fit by lia. split; [f_equal|]; lia.
Qed.

Lemma big_sig ds i : digs ds -> (i < length ds)%nat -> nth i ds 0 <> 0 -> uval (skipn (S i) ds) = 0 ->
  (i <> 0%nat <-> B <= uval ds).
Proof.
  intros Hd Hi Hn Hz. rewrite (uval_sig ds i) by auto. rewrite uval_firstn_S by auto.
  pose proof (nth_dok i ds Hd) as Hk. unfold dok in Hk.
  pose proof (uval_bound _ (digs_firstn i ds Hd)) as Hb. rewrite firstn_length_le in Hb by lia.
  pose proof (uval_nonneg _ (digs_firstn i ds Hd)).
  destruct i as [|i].
  - cbn [firstn]. rewrite uval_nil, P_0. lia.
  - split; intros _; [|lia]. rewrite P_S. pose proof (P_pos i). pose proof B_pos.
    set (x := nth (S i) ds 0) in *. assert (B * 1 <= B * P i) by nia. assert (B * P i <= x * (B * P i)) by nia. lia.
Qed.

Lemma z_mul_digits_eq M checks ls rs :
  digs ls -> digs rs -> length ls = length rs -> (2 <= length ls)%nat -> 64 * Z.of_nat (length ls) < M ->
  z_mul_digits M checks ls rs =
    if checks && (B <=? uval ls) && (B <=? uval rs) && (M <=? binary_digits (uval ls) + binary_digits (uval rs))
    then Trap else mul_digits ls rs.
Proof.
  intros Hl Hr Hlen H2 HM. unfold z_mul_digits, mul_digits.
  pose proof (rposition_nonzero_spec rs Hr) as Sr. pose proof (rposition_nonzero_spec ls Hl) as Sl.
  pose proof B_pos as HB.
  destruct (rposition_nonzero rs) as [ri|].
  2:{ rewrite Sr. destruct (Z.leb_spec B 0); [lia|]. rewrite !andb_false_r. reflexivity. }
  destruct (rposition_nonzero ls) as [li|].
  2:{ rewrite Sl. destruct (Z.leb_spec B 0); [lia|]. rewrite !andb_false_r. reflexivity. }
  destruct Sr as (Sr1 & Sr2 & Sr3). destruct Sl as (Sl1 & Sl2 & Sl3).
  pose proof (big_sig ls li Hl Sl1 Sl2 Sl3) as Gl. pose proof (big_sig rs ri Hr Sr1 Sr2 Sr3) as Gr.
  destruct (Nat.eqb_spec li 0) as [El|Nl].
  { destruct (Z.leb_spec B (uval ls)); [tauto|]. rewrite andb_false_r. reflexivity. }
  destruct (Nat.eqb_spec ri 0) as [Er|Nr].
  { destruct (Z.leb_spec B (uval rs)); [tauto|]. rewrite !andb_false_r. reflexivity. }
  destruct (Z.leb_spec B (uval ls)); [|lia]. destruct (Z.leb_spec B (uval rs)); [|lia].
  destruct (sig_bits_spec ls li) as (lb & El & B1 & B2 & B2'); auto.
  destruct (sig_bits_spec rs ri) as (rb & Er & B3 & B4 & B4'); auto.
  destruct (z_sig_bits_fit M checks ls li lb) as (Zl & Ll); auto.
  destruct (z_sig_bits_fit M checks rs ri rb) as (Zr & Lr); auto; [lia|].
  rewrite El, Er, Zl, Zr. cbn [bind].
  rewrite (binary_digits_unique (uval ls) lb), (binary_digits_unique (uval rs) rb) by auto.
  rewrite (usz_fit M checks (Z.of_nat (length ls) * 64)) by lia.
  unfold usz. destruct (Z.ltb_spec (lb + rb) M) as [Hs|Hs].
  - destruct (Z.leb_spec M (lb + rb)); [lia|]. rewrite andb_false_r. reflexivity.
  - destruct (Z.leb_spec M (lb + rb)); [|lia]. destruct checks; [reflexivity|]. cbn [andb bind].
    destruct (Z.leb_spec (lb + rb) (Z.of_nat (length ls) * 64)); [lia|].
    destruct (mul_wrapping_spec ls rs) as (d1 & -> & D1 & L1 & q & V1); auto.
    destruct (Z.leb_spec ((lb + rb) mod M) (Z.of_nat (length ls) * 64)); [|reflexivity].
    destruct (mul_no_overflow_mod ls rs li ri) as (d2 & -> & D2 & L2 & V2); auto; try lia.
    cbn [bind]. do 2 f_equal. apply uval_inj; auto; [lia|].
    rewrite V2. pose proof (uval_bound _ D1) as X. rewrite L1 in X. pose proof (uval_nonneg _ D1).
    pose proof (P_pos (length ls)).
    rewrite <- (Z.mod_small (uval d1) (P (length ls))) by lia. rewrite V1, Z.mod_add by lia. reflexivity.
Qed.

Lemma z_multiply M checks a b : usize_bound M -> wf a -> wf b -> len a <= M - 64 ->
  z_wrapping_mul_assign M checks a b =
    if checks && (len a =? len b) && (2 ^ 64 <=? unsigned a) && (2 ^ 64 <=? unsigned b) &&
       (M <=? binary_digits (unsigned a) + binary_digits (unsigned b))
    then Trap else wrapping_mul_assign a b.
Proof.
  intros HM Ha Hb HL. pose proof (wf_fill M a HM Ha HL) as Hn.
  unfold z_wrapping_mul_assign, wrapping_mul_assign, zip_access_data, width.
  destruct (Z.eqb_spec (len a) (len b)) as [E|E]; cbn [negb].
  2:{ rewrite andb_false_r. reflexivity. }
  pose proof (unsigned_bound a Ha) as Ua.
  pose proof (wf_sh _ Ha) as (A0 & A1 & A2). pose proof (wf_sh _ Hb) as (B0 & B1 & B2).
  destruct (Z.le_gt_cases (len a) 64) as [Hs|Hs].
  - rewrite storage_inl by auto.
    assert (2 ^ len a <= 2 ^ 64) by (apply Z.pow_le_mono_r; lia).
    destruct (Z.leb_spec (2 ^ 64) (unsigned a)); [lia|]. rewrite andb_false_r. cbn [andb].
    destruct (read_inl a), (read_inl b); reflexivity.
  - rewrite storage_ext by auto. cbn [bind]. unfold as_digit_slice. rewrite z_mul_digits_eq; auto.
    + rewrite andb_true_r. unfold unsigned. rewrite B_pow.
      destruct (_ && _ && _ && _); reflexivity.
    + rewrite A1, B1, E. reflexivity.
    + rewrite A1. apply required_digits_2. lia.
Qed.
