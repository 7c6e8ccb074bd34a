(** Proofs about division, part 6: [large_div_by_large] and the whole algorithm on slices. *)
From Verif Require Export LDiv5.

Lemma move_loop n duo div :
  digs duo -> digs div -> (n <= length duo)%nat -> (n <= length div)%nat ->
  exists duo' div', for_range n 0 move_step (duo, div) = Val (duo', div') /\
    digs duo' /\ digs div' /\ length duo' = length duo /\ length div' = length div /\
    skipn n duo' = skipn n duo /\ skipn n div' = skipn n div /\
    uval (firstn n duo') = 0 /\ uval (firstn n div') = uval (firstn n duo).
Proof.
  intros H1 H2 L1 L2.
  pose (I := fun i (st : list Z * list Z) => let '(u, v) := st in
    digs u /\ digs v /\ length u = length duo /\ length v = length div /\
    skipn i u = skipn i duo /\ skipn i v = skipn i div /\
    uval (firstn i u) = 0 /\ uval (firstn i v) = uval (firstn i duo)).
  destruct (for_range_inv I move_step n 0 (duo, div)) as ([u v] & E & Hi).
  - unfold I. cbn [firstn skipn]. rewrite uval_nil. auto 10.
  - intros i [u v] Hi (I1 & I2 & I3 & I4 & I5 & I6 & I7 & I8). unfold move_step.
    rewrite idx_nth by lia. cbn [bind]. rewrite !upd_updl by lia. cbn [bind]. rewrite d_unset_all_0.
    eexists; split; [reflexivity|]. unfold I. rewrite !updl_length by lia.
    split; [apply updl_digs; auto; apply dok_0|]. split; [apply updl_digs; auto using nth_dok|].
    split; [auto|]. split; [auto|].
    split; [now apply updl_skipn_S; [lia|]|]. split; [now apply updl_skipn_S; [lia|]|].
    rewrite !uval_firstn_updl by lia. rewrite uval_firstn_S by lia.
    rewrite (nth_of_skipn_eq u duo i) by (auto; lia). split; lia.
  - destruct Hi as (I1 & I2 & I3 & I4 & I5 & I6 & I7 & I8). cbn [Nat.add] in *.
    exists u, v. auto 10.
Qed.

Lemma unset_none hi lo ds : (hi <= lo)%nat -> unset_take_skip hi lo ds = ds.
Proof.
  intros H. unfold unset_take_skip. rewrite skipn_all2 by (rewrite firstn_length; lia).
  cbn [map app]. replace (Nat.max lo hi) with lo by lia. apply firstn_skipn.
Qed.

Lemma moved_done len duo div sd dsd :
  digs duo -> digs div -> length duo = len -> length div = len -> (dsd <= sd < len)%nat ->
  uval (skipn (S sd) duo) = 0 -> uval (skipn (S dsd) div) = 0 -> uval duo < uval div ->
  exists duo' div',
    (let! (duo, div) := for_range (sd + 1) 0 move_step (duo, div) in
     Val (duo, unset_take_skip (dsd + 1) (sd + 1) div)) = Val (duo', div') /\
    div_done len (uval duo) (uval div) duo' div'.
Proof.
  intros H1 H2 L1 L2 Hs Z1 Z2 Hlt.
  replace (sd + 1)%nat with (S sd) by lia.
  destruct (move_loop (S sd) duo div) as (duo' & div' & -> & D1 & D2 & D3 & D4 & D5 & D6 & D7 & D8); auto; try lia.
  cbn [bind]. rewrite unset_none by lia. eexists _, _. split; [reflexivity|].
  pose proof (uval_nonneg duo H1).
  assert (Z3 : uval (skipn (S sd) div) = 0).
  { apply skipn_small; auto; [lia|]. rewrite (uval_sig div dsd) by (auto; lia).
    pose proof (firstn_bound (S dsd) div H2 ltac:(lia)).
    assert (P (S dsd) <= P (S sd)).
    { replace (S sd) with (S dsd + (sd - dsd))%nat by lia. rewrite P_add. pose proof (P_pos (S dsd)). pose proof (P_pos (sd - dsd)). nia. }
    lia. }
  apply (div_done_intro _ _ _ _ _ 0 (uval duo)); auto; try lia.
  - rewrite (uval_split (S sd)) by lia. rewrite D7, D5, Z1. lia.
  - rewrite (uval_split (S sd)) by lia. rewrite D8, D6, Z3, <- uval_sig by (auto; lia). lia.
Qed.

Lemma equal_done len duo div sd :
  digs duo -> digs div -> length duo = len -> length div = len -> (1 <= sd < len)%nat ->
  uval (skipn (S sd) duo) = 0 -> uval (skipn (S sd) div) = 0 ->
  0 < uval div -> uval div <= uval duo < 2 * uval div ->
  exists duo' div',
    (let! div := twos_complement (S sd) div in special0_same (S sd) duo div ONE) = Val (duo', div') /\
    div_done len (uval duo) (uval div) duo' div'.
Proof.
  intros H1 H2 L1 L2 Hs Z1 Z2 HV HX.
  pose proof (uval_sig duo sd ltac:(lia) Z1) as HXf. pose proof (uval_sig div sd ltac:(lia) Z2) as HVf.
  pose proof (firstn_bound (S sd) duo H1 ltac:(lia)) as Hb. rewrite <- HXf in Hb.
  assert (Hl1 : (S sd <= length duo)%nat) by lia. assert (Hl2 : (S sd <= length div)%nat) by lia.
  assert (Hl3 : (2 <= S sd)%nat) by lia.
  assert (Hr : 0 <= uval duo - uval div < uval div) by lia.
  assert (Hr2 : 0 <= uval duo - uval div < P (S sd)) by lia.
  destruct (twos_complement_spec (S sd) div H2 Hl2) as (nd & -> & T1 & T2 & T3 & T4). cbn [bind].
  destruct (special0_same_spec (S sd) duo nd ONE) as (duo' & div' & -> & D1 & D2 & D3 & D4 & D5 & D6 & D7 & D8);
    auto.
  { apply dok_1. }
  { rewrite T2. auto. }
  eexists _, _. split; [reflexivity|]. rewrite <- HXf, T4, <- HVf in D8.
  rewrite Zplus_mod_idemp_r in D8. replace (uval duo + - uval div) with (uval duo - uval div) in D8 by ring.
  rewrite Z.mod_small in D8 by exact Hr2.
  apply (div_done_intro _ _ _ _ _ 1 (uval duo - uval div)); auto.
  - congruence.
  - congruence.
  - rewrite (uval_split (S sd)) by lia. rewrite D4, D3, Z1. unfold ONE. lia.
  - rewrite (uval_split (S sd)) by lia. rewrite D7, T3, Z2, D8. lia.
  - ring.
Qed.

Lemma sig_d_spec div dsd : digs div -> (1 <= dsd < length div)%nat -> nth dsd div 0 <> 0 -> uval (skipn (S dsd) div) = 0 ->
  let lz := d_leading_zeros (nth dsd div 0) in
  (if lz =? 0 then Val (nth dsd div 0)
   else let! y := idx div (dsd - 1) in let! k := usize_sub 64 lz in
        Val (d_or (d_shl (nth dsd div 0) lz) (d_shr y k)))
  = Val (uval div / 2 ^ (64 * Z.of_nat dsd - lz)) /\ 0 <= uval div / 2 ^ (64 * Z.of_nat dsd - lz) < B.
Proof.
  intros Hd Hs Hn Hz lz.
  destruct (d_leading_zeros_spec (nth dsd div 0)) as [H1 H2]; auto using nth_dok. fold lz in H1, H2.
  destruct (sig_spec div dsd) as (_ & Hf & Hb); auto; [lia|]. fold lz in Hb.
  assert (Hp : 0 < 2 ^ (64 * Z.of_nat dsd - lz)) by (apply Z.pow_pos_nonneg; lia).
  assert (HB : 0 <= uval div / 2 ^ (64 * Z.of_nat dsd - lz) < B).
  { split; [apply Z.div_pos; auto; apply uval_nonneg; auto|]. apply Z.div_lt_upper_bound; auto.
    rewrite B_pow, <- Z.pow_add_r by lia. replace (64 * Z.of_nat dsd - lz + 64) with (64 * Z.of_nat dsd + 64 - lz) by lia. lia. }
  split; [|auto]. rewrite <- Hf. rewrite <- Hf in HB.
  destruct (Z.eqb_spec lz 0) as [E|E].
  - f_equal. rewrite E. replace (64 * Z.of_nat dsd - 0) with (64 * Z.of_nat dsd) by lia. rewrite <- P_pow, uval_firstn_S by lia.
    pose proof (firstn_bound dsd div Hd ltac:(lia)).
    apply (Z.div_unique_pos _ _ _ (uval (firstn dsd div))); lia.
  - rewrite idx_nth by lia. cbn [bind]. unfold usize_sub. destruct (Z.leb_spec lz 64); [|lia]. cbn [bind]. f_equal.
    set (x := nth dsd div 0) in *. set (y := nth (dsd - 1) div 0).
    assert (Hx : dok x) by now apply nth_dok. assert (Hy : dok y) by now apply nth_dok.
    assert (Ex : uval (firstn (S dsd) div) = uval (firstn (dsd - 1) div) + (y + B * x) * P (dsd - 1)).
    { rewrite uval_firstn_S by lia. fold x. replace dsd with (S (dsd - 1)) at 1 2 by lia.
      rewrite uval_firstn_S by lia. fold y. rewrite P_S. ring. }
    pose proof (firstn_bound (dsd - 1) div Hd ltac:(lia)) as Hlow. rewrite Ex.
    set (low := uval (firstn (dsd - 1) div)) in *.
    assert (HP : 2 ^ (64 * Z.of_nat dsd - lz) = 2 ^ (64 - lz) * P (dsd - 1)).
    { rewrite P_pow, <- Z.pow_add_r by lia. f_equal. lia. }
    rewrite HP. pose proof (P_pos (dsd - 1)) as HQ. set (Q := P (dsd - 1)) in *.
    unfold d_or, d_shl, d_shr, u64_wshl, u64_wshr.
    rewrite (Z.mod_small lz), (Z.mod_small (64 - lz)) by lia.
    rewrite Z.shiftl_mul_pow2, Z.shiftr_div_pow2 by lia.
    assert (HBs : B = 2 ^ lz * 2 ^ (64 - lz)) by (apply B_split; lia).
    assert (Hpl : 0 < 2 ^ lz) by (apply Z.pow_pos_nonneg; lia).
    assert (Hpk : 0 < 2 ^ (64 - lz)) by (apply Z.pow_pos_nonneg; lia).
    unfold dok in *.
    rewrite (Z.mod_small (x * 2 ^ lz)) by (set (p := 2 ^ lz) in *; set (k := 2 ^ (64 - lz)) in *; clearbody p k; clear - H2 Hx HBs Hpl; nia).
    pose proof (Z.div_mod y (2 ^ (64 - lz)) ltac:(lia)) as Ey. pose proof (Z.mod_pos_bound y (2 ^ (64 - lz)) Hpk) as By.
    assert (Hyk : 0 <= y / 2 ^ (64 - lz) < 2 ^ lz).
    { split; [apply Z.div_pos; lia|]. apply Z.div_lt_upper_bound; lia. }
    rewrite lor_add_low by lia.
    set (yq := y / 2 ^ (64 - lz)) in *. set (yr := y mod 2 ^ (64 - lz)) in *.
    set (p := 2 ^ lz) in *. set (k := 2 ^ (64 - lz)) in *. clearbody yq yr p k low Q x.
    apply (Z.div_unique_pos _ _ _ (low + yr * Q)); [clear - By Hlow HQ; nia|]. rewrite Ey, HBs. ring.
Qed.

Lemma large_div_by_large_spec len duo sd div dsd :
  digs duo -> digs div -> length duo = len -> length div = len ->
  (2 <= sd < len)%nat -> (1 <= dsd <= sd)%nat ->
  nth sd duo 0 <> 0 -> uval (skipn (S sd) duo) = 0 -> nth dsd div 0 <> 0 -> uval (skipn (S dsd) div) = 0 ->
  exists duo' div', large_div_by_large len duo sd div dsd = Val (duo', div') /\
    div_done len (uval duo) (uval div) duo' div'.
Proof.
  intros H1 H2 L1 L2 Hs Hd N1 Z1 N2 Z2.
  unfold large_div_by_large. rewrite ?idx_nth by lia. cbn [bind].
  destruct (sig_spec duo sd) as (Hlz & HXf & HX); auto; [lia|].
  destruct (sig_spec div dsd) as (Hvz & HVf & HV); auto; [lia|].
  destruct (sig_d_spec div dsd) as [Esig Bsig]; auto; [lia|].
  cbv zeta in *. set (dlz := d_leading_zeros (nth dsd div 0)) in *.
  set (lz := d_leading_zeros (nth sd duo 0)) in *.
  unfold usize_sub at 1 2. destruct (Z.leb_spec lz 64); [|lia]. cbn [bind].
  destruct (Z.leb_spec dlz 64); [|lia]. cbn [bind].
  replace (Z.of_nat sd * 64 + (64 - lz)) with (64 * Z.of_nat sd + 64 - lz) by lia.
  replace (Z.of_nat dsd * 64 + (64 - dlz)) with (64 * Z.of_nat dsd + 64 - dlz) by lia.
  set (vb := 64 * Z.of_nat dsd + 64 - dlz) in *.
  assert (Evb : vb = 64 * Z.of_nat dsd + 64 - dlz) by reflexivity.
  replace (64 * Z.of_nat dsd + 63 - dlz) with (vb - 1) in HV by lia. clearbody vb.
  set (sb := 64 * Z.of_nat sd + 64 - lz) in *.
  assert (Esb : sb = 64 * Z.of_nat sd + 64 - lz) by reflexivity.
  destruct (Z.ltb_spec sb vb) as [Hlt|Hge].
  - apply moved_done; auto; [lia|].
    assert (2 ^ sb <= 2 ^ (vb - 1)) by (apply Z.pow_le_mono_r; lia). lia.
  - destruct (Z.eqb_spec sb vb) as [Heq|Hne].
    + replace (sd + 1)%nat with (S sd) by lia.
      assert (HdP : (S dsd = S sd)) by lia. assert (dsd = sd) by lia. subst dsd. clear HdP.
      rewrite uge_spec by (auto; lia). cbn [bind]. rewrite HXf, HVf.
      destruct (Z.leb_spec (uval div) (uval duo)) as [HVX|HVX].
      * assert (2 ^ vb = 2 * 2 ^ (vb - 1)) as E2 by (rewrite <- Z.pow_succ_r by lia; f_equal; lia).
        assert (0 < 2 ^ (vb - 1)) by (apply Z.pow_pos_nonneg; lia).
        rewrite Heq in HX. apply equal_done; auto; lia.
      * rewrite <- (Nat.add_1_r sd). apply moved_done; auto; lia.
    + destruct (Z.ltb_spec (sb - vb) 64) as [H64|H64].
      * apply mul_or_mul_sub1_spec with (vb := vb); auto; lia.
      * unfold nsub. destruct (Nat.leb_spec 1 dsd); [|lia]. cbn [bind].
        rewrite Esig. cbn [bind].
        replace (64 * Z.of_nat dsd - dlz) with (vb - 64) in * by lia.
        assert (EW : dd_wadd (dd (uval div / 2 ^ (vb - 64))) (dd ONE) = uval div / 2 ^ (vb - 64) + 1).
        { unfold dd_wadd, dd, ONE. apply Z.mod_small. rewrite BB_B. pose proof B_gt1 as HB1. clear - Bsig HB1. nia. }
        rewrite EW.
        replace (64 - dlz + 64 * Z.of_nat (dsd - 1)) with (vb - 64) by lia.
        apply div_loop_spec; auto; fold lz; try (clear HX HV HXf HVf; lia).
        -- apply digs_repeat, dok_0.
        -- apply repeat_length.
        -- unfold ZERO. rewrite uval_repeat0. lia.
        -- rewrite <- L1. apply uval_bound; auto.
Qed.

(** ** The whole algorithm *)
Lemma zip_left ls : forall rs, length ls = length rs -> zip_update (fun d _ => d_unset_all d) ls rs = repeat 0 (length ls).
Proof.
  induction ls as [|l ls IH]; intros [|r rs] H; cbn in H; try discriminate; cbn [zip_update length repeat]; auto.
  rewrite d_unset_all_0, IH by lia. auto.
Qed.
Lemma zip_right ls : forall rs, length ls = length rs -> zip_update (fun _ d => d) ls rs = rs.
Proof.
  induction ls as [|l ls IH]; intros [|r rs] H; cbn in H; try discriminate; cbn [zip_update]; auto.
  rewrite IH by lia. auto.
Qed.

Lemma divrem_spec duo div : digs duo -> digs div -> length duo = length div -> 0 < uval div ->
  exists duo' div', aarons_algorithm_divrem duo div = Val (duo', div', true) /\
    div_done (length duo) (uval duo) (uval div) duo' div'.
Proof.
  intros H1 H2 L HV. unfold aarons_algorithm_divrem.
  pose proof (rposition_nonzero_spec div H2) as Rv.
  destruct (rposition_nonzero div) as [dsd|]; [|lia]. destruct Rv as (V1 & V2 & V3).
  pose proof (rposition_nonzero_spec duo H1) as Rd.
  destruct (rposition_nonzero duo) as [sd|].
  2:{ eexists _, _. split; [reflexivity|]. rewrite map_unset_all.
      apply (div_done_intro _ _ _ _ _ 0 0); auto; try lia.
      - apply digs_repeat, dok_0.
      - rewrite repeat_length. lia.
      - apply uval_repeat0. }
  destruct Rd as (D1 & D2 & D3).
  destruct (sig_spec duo sd) as (Hlz & HXf & HX); auto.
  destruct (sig_spec div dsd) as (Hvz & HVf & HVb); auto.
  pose proof (uval_nonneg duo H1).
  destruct (Nat.ltb_spec sd dsd) as [Hlt|Hge].
  { eexists _, _. split; [reflexivity|]. rewrite zip_left, zip_right by auto.
    apply (div_done_intro _ _ _ _ _ 0 (uval duo)); auto; try lia.
    - apply digs_repeat, dok_0.
    - apply repeat_length.
    - apply uval_repeat0.
    - split; auto. cbv zeta in *.
      assert (2 ^ (64 * Z.of_nat sd + 64 - d_leading_zeros (nth sd duo 0)) <= 2 ^ (64 * Z.of_nat dsd + 63 - d_leading_zeros (nth dsd div 0)))
        by (apply Z.pow_le_mono_r; lia). lia. }
  destruct (Nat.eqb_spec sd 0) as [->|Hs0]; destruct (Nat.eqb_spec dsd 0) as [->|Hd0]; [| lia | |].
  - rewrite ?idx_nth by lia. cbn [bind].
    assert (E1 : uval duo = nth 0 duo 0) by (apply uval_only0; auto).
    assert (E2 : uval div = nth 0 div 0) by (apply uval_only0; auto).
    pose proof (nth_dok 0 duo H1) as B1. pose proof (nth_dok 0 div H2) as B2. unfold dok in B1, B2.
    unfold d_wrapping_divrem, d_wrapping_div, d_wrapping_rem. unfold d_is_zero, ZERO in *.
    destruct (Z.eqb_spec (nth 0 div 0) 0); [lia|]. cbn [bind]. rewrite !upd_updl by lia. cbn [bind].
    eexists _, _. split; [reflexivity|]. rewrite E1, E2.
    set (x := nth 0 duo 0) in *. set (y := nth 0 div 0) in *.
    pose proof (Z.mod_pos_bound x y ltac:(lia)) as Br. pose proof (Z.div_mod x y ltac:(lia)) as Ed.
    assert (Bq : 0 <= x / y < B).
    { split; [apply Z.div_pos; lia|]. apply Z.div_lt_upper_bound; nia. }
    apply (div_done_intro _ _ _ _ _ (x / y) (x mod y)); auto; rewrite ?updl_length by lia; try lia.
    + apply updl_digs; auto.
    + apply updl_digs; auto. unfold dok. lia.
    + rewrite updl_uval by lia. rewrite P_0, E1. fold x. lia.
    + rewrite updl_uval by lia. rewrite P_0, E2. fold y. lia.
  - rewrite ?idx_nth by lia. cbn [bind].
    pose proof (nth_dok 0 div H2) as B2.
    assert (E2 : uval div = nth 0 div 0) by (apply uval_only0; auto).
    assert (Hres : forall duo' div', div_result duo div duo' div' -> div_done (length duo) (uval duo) (uval div) duo' div').
    { intros duo' div' (R1 & R2 & R3 & R4 & R5 & R6). unfold div_done. repeat split; auto; lia. }
    destruct (Z.leb_spec 32 (d_leading_zeros (nth 0 div 0))) as [H32|H32].
    + destruct (large_div_by_u32_spec duo sd div) as (duo' & div' & -> & R); auto.
      { split; [lia|]. rewrite <- E2.
        assert (2 ^ (64 * Z.of_nat 0 + 64 - d_leading_zeros (nth 0 div 0)) <= 2 ^ 32) by (apply Z.pow_le_mono_r; lia).
        cbv zeta in *. change B32 with (2 ^ 32). lia. }
      cbn [bind]. eauto.
    + destruct (large_div_by_small_spec duo sd div) as (duo' & div' & -> & R); auto.
      cbn [bind]. eauto.
  - destruct (Nat.eqb_spec sd 1) as [->|Hs1].
    + assert (dsd = 1%nat) by lia. subst dsd.
      rewrite ?idx_nth by lia. cbn [bind].
      rewrite !dd_from_lo_hi_spec by auto using nth_dok.
      rewrite <- !two_digits by (auto; lia). unfold dd_wdivrem.
      destruct (Z.eqb_spec (uval div) 0); [lia|]. cbn [bind].
      assert (EX : uval duo < BB).
      { rewrite two_digits by (auto; lia).
        pose proof (nth_dok 0 duo H1). pose proof (nth_dok 1 duo H1). unfold dok in *. rewrite BB_B. nia. }
      assert (EV : uval div < BB).
      { rewrite two_digits by (auto; lia).
        pose proof (nth_dok 0 div H2). pose proof (nth_dok 1 div H2). unfold dok in *. rewrite BB_B. nia. }
      set (X := uval duo) in *. set (V := uval div) in *.
      pose proof (Z.mod_pos_bound X V HV) as Br. pose proof (Z.div_mod X V ltac:(lia)) as Ed.
      assert (Bq : 0 <= X / V < BB).
      { split; [apply Z.div_pos; lia|]. apply Z.div_lt_upper_bound; nia. }
      destruct (dd_lo_hi (X / V) Bq) as (Eq & Q1 & Q2).
      destruct (dd_lo_hi (X mod V) ltac:(lia)) as (Er & R1 & R2).
      rewrite !upd_updl by (rewrite ?updl_length; lia). cbn [bind].
      rewrite !upd_updl by (rewrite ?updl_length; lia). cbn [bind].
      eexists _, _. split; [reflexivity|].
      destruct (updl2 div (dd_lo (X mod V)) (dd_hi (X mod V))) as (F1 & F2 & F3 & F4 & F5); auto; try lia.
      destruct (updl2 duo (dd_lo (X / V)) (dd_hi (X / V))) as (G1 & G2 & G3 & G4 & G5); auto; try lia.
      apply (div_done_intro _ _ _ _ _ (X / V) (X mod V)); auto; try lia.
      * rewrite two_digits by (try rewrite G3; auto; lia). rewrite G4, G5. auto.
      * rewrite two_digits by (try rewrite F3; auto; lia). rewrite F4, F5. auto.
    + destruct (large_div_by_large_spec (length duo) duo sd div dsd) as (duo' & div' & -> & R); auto; try lia.
      cbn [bind]. eauto.
Qed.

Lemma divrem_zero duo div : digs div -> uval div = 0 -> aarons_algorithm_divrem duo div = Val (duo, div, false).
Proof.
  intros H E. unfold aarons_algorithm_divrem. pose proof (rposition_nonzero_spec div H) as R.
  destruct (rposition_nonzero div) as [i|]; auto. destruct R as (R1 & R2 & R3).
  exfalso. apply uval_zero_iff in E; auto. rewrite Forall_forall in E. apply R2, E, nth_In; auto.
Qed.

Lemma swap_loop n : forall i duo div, (i + n = length duo)%nat -> length div = length duo ->
  for_range n i swap_step (duo, div) =
  Val (firstn i duo ++ skipn i div, firstn i div ++ skipn i duo).
Proof.
  induction n as [|n IH]; intros i duo div Hi L; cbn [for_range].
  - rewrite !firstn_all2, !skipn_all2, !app_nil_r by lia. reflexivity.
  - unfold swap_step at 1. rewrite !idx_nth by lia. cbn [bind]. rewrite !upd_updl by lia. cbn [bind].
    rewrite IH by (rewrite !updl_length; lia). f_equal.
    assert (F : forall (a : list Z) v, (i < length a)%nat -> firstn (S i) (updl a i v) = firstn i a ++ [v]).
    { intros a v Ha. unfold updl. rewrite firstn_app, firstn_length_le by lia.
      rewrite firstn_firstn. replace (Nat.min (S i) i) with i by lia. replace (S i - i)%nat with 1%nat by lia. reflexivity. }
    rewrite !F, !updl_skipn by lia.
    assert (G : forall (a : list Z), (i < length a)%nat -> skipn i a = nth i a 0 :: skipn (S i) a).
    { intros a Ha. rewrite (nth_split_eq a i Ha) at 1. rewrite skipn_app, skipn_all2 by (rewrite firstn_length_le; lia).
      rewrite firstn_length_le, Nat.sub_diag by lia. reflexivity. }
    rewrite (G duo), (G div) by lia. rewrite <- !app_assoc. reflexivity.
Qed.

Lemma remdiv_spec duo div : digs duo -> digs div -> length duo = length div -> 0 < uval div ->
  exists rem quo, aarons_algorithm_remdiv duo div = Val (rem, quo, true) /\
    div_done (length duo) (uval duo) (uval div) quo rem.
Proof.
  intros H1 H2 L HV. unfold aarons_algorithm_remdiv.
  destruct (divrem_spec duo div) as (q & r & -> & D); auto. cbn [bind].
  destruct D as (D1 & D2 & D3 & D4 & D5). rewrite swap_loop by lia. cbn [bind firstn skipn app].
  eexists _, _. split; [reflexivity|]. unfold div_done. auto.
Qed.
Lemma remdiv_zero duo div : digs div -> uval div = 0 -> aarons_algorithm_remdiv duo div = Val (duo, div, false).
Proof. intros H E. unfold aarons_algorithm_remdiv. now rewrite divrem_zero. Qed.
