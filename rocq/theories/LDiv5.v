(** Proofs about division, part 5: the main loop and the whole slice algorithm. *)
From Verif Require Export LDiv4.
Ltac Zify.zify_post_hook ::= idtac.

(** ** Small loops *)
Lemma nth_firstn n : forall i (ds : list Z), (i < n)%nat -> nth i (firstn n ds) 0 = nth i ds 0.
Proof.
  induction n as [|n IH]; intros [|i] [|d ds] H; cbn [firstn nth]; auto; try lia.
  - apply IH. lia.
Qed.

Lemma find_sd_spec n duo : digs duo -> (n <= length duo)%nat -> uval (skipn n duo) = 0 ->
  (find_sd n duo = Val None /\ uval duo = 0) \/
  (exists i, find_sd n duo = Val (Some i) /\ (i < n)%nat /\ nth i duo 0 <> 0 /\ uval (skipn (S i) duo) = 0).
Proof.
  intros Hd. induction n as [|n IH]; intros Hn Hz; cbn [find_sd].
  - left. auto.
  - rewrite idx_nth by lia. cbn [bind]. unfold d_is_zero, ZERO.
    destruct (Z.eqb_spec (nth n duo 0) 0) as [E|E]; cbn [negb].
    + destruct IH as [IH|(i & I1 & I2 & I3)].
      * lia.
      * rewrite uval_skipn_nth by lia. rewrite E, Hz. lia.
      * auto.
      * right. exists i. repeat split; try tauto; lia.
    + right. exists n. repeat split; auto.
Qed.

Lemma copy_range_tail i len dst src : length dst = len -> length src = len -> (i <= len)%nat ->
  copy_range i len dst src = Val (firstn i dst ++ skipn i src).
Proof.
  intros L1 L2 Hi. unfold copy_range. rewrite L1, L2.
  destruct (Nat.leb_spec i len); [|lia]. rewrite Nat.leb_refl. cbn [andb].
  rewrite (firstn_all2 (skipn i src)) by (rewrite skipn_length; lia). rewrite (skipn_all2 dst) by lia. now rewrite app_nil_r.
Qed.
Lemma copy_range_all len dst src : length dst = len -> length src = len -> copy_range 0 len dst src = Val src.
Proof. intros. rewrite copy_range_tail by (auto; lia). reflexivity. Qed.

Lemma quo_add_carry_from_spec n : forall i len duo quo c,
  digs duo -> digs quo -> length duo = len -> length quo = len -> (i + n = len)%nat -> 0 <= c <= 1 ->
  exists duo' c', quo_add_carry_from n i len duo quo c = Val duo' /\ digs duo' /\ length duo' = len /\
    firstn i duo' = firstn i duo /\ 0 <= c' <= 1 /\
    uval (skipn i duo') + c' * P n = uval (skipn i quo) + c.
Proof.
  induction n as [|n IH]; intros i len duo quo c H1 H2 L1 L2 Hi Hc; cbn [quo_add_carry_from].
  - exists duo, c. rewrite !skipn_all2 by lia. rewrite uval_nil, P_0. do 5 (split; [solve [auto]|]). lia.
  - unfold d_is_zero, ZERO. destruct (Z.eqb_spec c 0) as [->|Hn].
    + rewrite copy_range_tail by (auto; lia). eexists _, 0. split; [reflexivity|].
      assert (Lf : length (firstn i duo) = i) by (rewrite firstn_length_le; lia).
      split; [apply digs_app; auto using digs_firstn, digs_skipn|].
      split; [rewrite app_length, skipn_length; lia|].
      split; [rewrite firstn_app, Lf, Nat.sub_diag; cbn [firstn]; rewrite app_nil_r, firstn_all2; auto; lia|].
      split; [lia|]. rewrite skipn_app, Lf, Nat.sub_diag, skipn_all2 by lia. cbn [skipn app]. lia.
    + rewrite idx_nth by lia. cbn [bind].
      destruct (d_carrying_add_spec (nth i quo 0) c) as (t & c1 & -> & Ht & Hc1 & E); auto using nth_dok.
      { unfold dok. pose proof B_gt1. lia. }
      rewrite upd_updl by lia. cbn [bind].
      destruct (IH (S i) len (updl duo i t) quo c1) as (duo' & c' & -> & D1 & D2 & D3 & D4 & D5); auto using updl_digs.
      { rewrite updl_length; lia. } { lia. }
      exists duo', c'. split; [auto|]. split; [auto|]. split; [auto|].
      assert (Et : nth i duo' 0 = t /\ firstn i duo' = firstn i duo).
      { assert (E1 : firstn i (firstn (S i) duo') = firstn i (firstn (S i) (updl duo i t))) by now rewrite D3.
        rewrite !firstn_firstn in E1. replace (Nat.min i (S i)) with i in E1 by lia.
        rewrite (updl_firstn duo) in E1 by lia. split; auto.
        rewrite <- (nth_firstn (S i) i duo'), D3, nth_firstn by lia. apply updl_nth_same; lia. }
      destruct Et as [Et Ef]. split; [auto|]. split; [auto|].
      rewrite (uval_skipn_nth duo' i), (uval_skipn_nth quo i) by lia. rewrite Et, P_S. nia.
Qed.

Lemma quo_add1_from_eq n : forall i len duo quo,
  digs duo -> digs quo -> length duo = len -> length quo = len -> (i + n = len)%nat ->
  exists duo' c', quo_add1_from n i len duo quo = Val duo' /\ digs duo' /\ length duo' = len /\
    firstn i duo' = firstn i duo /\ 0 <= c' <= 1 /\
    uval (skipn i duo') + c' * P n = uval (skipn i quo) + 1.
Proof.
  induction n as [|n IH]; intros i len duo quo H1 H2 L1 L2 Hi; cbn [quo_add1_from].
  - exists duo, 1. rewrite !skipn_all2 by lia. rewrite uval_nil, P_0. do 4 (split; [solve [auto]|]). lia.
  - rewrite idx_nth by lia. cbn [bind]. unfold d_overflowing_add, u64_oadd, ONE.
    pose proof (nth_dok i quo H2) as Hq. unfold dok in Hq. pose proof B_pos.
    destruct (Z.leb_spec B (nth i quo 0 + 1)) as [Ho|Ho].
    + assert (nth i quo 0 = B - 1) as Eq by lia. rewrite Eq. replace (B - 1 + 1) with B by lia.
      rewrite Z.mod_same by lia. rewrite upd_updl by lia. cbn [bind].
      destruct (IH (S i) len (updl duo i 0) quo) as (duo' & c' & -> & D1 & D2 & D3 & D4 & D5); auto using updl_digs, dok_0.
      { rewrite updl_length; lia. } { lia. }
      exists duo', c'. split; [auto|]. split; [auto|]. split; [auto|].
      assert (Et : nth i duo' 0 = 0 /\ firstn i duo' = firstn i duo).
      { assert (E1 : firstn i (firstn (S i) duo') = firstn i (firstn (S i) (updl duo i 0))) by now rewrite D3.
        rewrite !firstn_firstn in E1. replace (Nat.min i (S i)) with i in E1 by lia.
        rewrite (updl_firstn duo) in E1 by lia. split; auto.
        rewrite <- (nth_firstn (S i) i duo'), D3, nth_firstn by lia. apply updl_nth_same; lia. }
      destruct Et as [Et Ef]. split; [auto|]. split; [auto|].
      rewrite (uval_skipn_nth duo' i), (uval_skipn_nth quo i) by lia. rewrite Et, Eq, P_S. nia.
    + rewrite Z.mod_small by lia. rewrite upd_updl by lia. cbn [bind].
      rewrite copy_range_tail by (rewrite ?updl_length; auto; lia). eexists _, 0. split; [reflexivity|].
      set (x := updl duo i (nth i quo 0 + 1)).
      assert (Lx : length x = len) by (unfold x; rewrite updl_length; lia).
      assert (Dx : digs x) by (apply updl_digs; auto; unfold dok; lia).
      assert (Lf : length (firstn (S i) x) = S i) by (rewrite firstn_length_le; lia).
      split; [apply digs_app; auto using digs_firstn, digs_skipn|].
      split; [rewrite app_length, skipn_length; lia|].
      split. { rewrite firstn_app, Lf. replace (i - S i)%nat with O by lia. rewrite firstn_O, app_nil_r, firstn_firstn.
               replace (Nat.min i (S i)) with i by lia. apply updl_firstn; lia. }
      split; [lia|]. rewrite (uval_skipn_nth _ i) by (rewrite app_length, skipn_length; lia).
      rewrite app_nth1 by lia. rewrite nth_firstn by lia. unfold x at 1. rewrite updl_nth_same by lia.
      rewrite skipn_app, Lf, Nat.sub_diag, (skipn_all2 (firstn (S i) x)) by lia. rewrite skipn_O, app_nil_l.
      rewrite (uval_skipn_nth quo i) by lia. lia.
Qed.

Lemma fill_zero_spec len div : digs div -> length div = len ->
  exists div', for_range len 0 (fun i div => upd div i ZERO) div = Val div' /\
    digs div' /\ length div' = len /\ uval div' = 0.
Proof.
  intros Hd L.
  pose (I := fun i (x : list Z) => digs x /\ length x = len /\ uval (firstn i x) = 0).
  destruct (for_range_inv I (fun i div => upd div i ZERO) len 0 div) as (x & E & Hi).
  - unfold I. cbn [firstn]. rewrite uval_nil. auto.
  - intros i x Hi (I1 & I2 & I3). rewrite upd_updl by lia. eexists; split; [reflexivity|]. unfold I.
    split; [apply updl_digs; auto; apply dok_0|]. split; [rewrite updl_length; lia|].
    rewrite uval_firstn_updl by lia. unfold ZERO. lia.
  - destruct Hi as (I1 & I2 & I3). cbn [Nat.add] in I3. exists x. rewrite uval_firstn_len in I3 by lia. auto.
Qed.

Lemma copy_loop_spec len duo quo : digs duo -> digs quo -> length duo = len -> length quo = len ->
  exists duo', for_range len 0 (fun i duo => let! q := idx quo i in upd duo i q) duo = Val duo' /\
    digs duo' /\ length duo' = len /\ uval duo' = uval quo.
Proof.
  intros Hd Hq L L2.
  pose (I := fun i (x : list Z) => digs x /\ length x = len /\ uval (firstn i x) = uval (firstn i quo)).
  destruct (for_range_inv I (fun i duo => let! q := idx quo i in upd duo i q) len 0 duo) as (x & E & Hi).
  - unfold I. cbn [firstn]. auto.
  - intros i x Hi (I1 & I2 & I3). rewrite idx_nth by lia. cbn [bind]. rewrite upd_updl by lia.
    eexists; split; [reflexivity|]. unfold I.
    split; [apply updl_digs; auto using nth_dok|]. split; [rewrite updl_length; lia|].
    rewrite uval_firstn_updl, uval_firstn_S by lia. lia.
  - destruct Hi as (I1 & I2 & I3). cbn [Nat.add] in I3. exists x. rewrite !uval_firstn_len in I3 by lia. auto.
Qed.

(** ** Two-digit tail *)
Lemma two_digits ds : digs ds -> (2 <= length ds)%nat -> uval (skipn 2 ds) = 0 ->
  uval ds = nth 0 ds 0 + B * nth 1 ds 0.
Proof.
  intros Hd L Hz. rewrite (uval_split 2) by lia. rewrite Hz.
  rewrite !uval_firstn_S by lia. cbn [firstn]. rewrite uval_nil, P_0, P_1. lia.
Qed.
Lemma updl2 ds x y : digs ds -> (2 <= length ds)%nat -> dok x -> dok y ->
  let ds' := updl (updl ds 0 x) 1 y in
  digs ds' /\ length ds' = length ds /\ skipn 2 ds' = skipn 2 ds /\ nth 0 ds' 0 = x /\ nth 1 ds' 0 = y.
Proof.
  intros Hd L Hx Hy ds'. unfold ds'.
  split; [auto using updl_digs|]. split; [rewrite !updl_length; rewrite ?updl_length; lia|].
  split; [rewrite !updl_skipn; auto; rewrite ?updl_length; lia|].
  split; [rewrite updl_nth_other by (rewrite ?updl_length; lia); apply updl_nth_same; lia|].
  apply updl_nth_same. rewrite updl_length; lia.
Qed.

Lemma small_tail_spec len duo div quo A :
  digs duo -> digs div -> digs quo -> length duo = len -> length div = len -> length quo = len -> (2 <= len)%nat ->
  uval (skipn 2 duo) = 0 -> uval (skipn 2 div) = 0 -> 0 < uval div ->
  A = uval quo * uval div + uval duo -> A < P len ->
  exists duo' div', small_tail len duo div quo = Val (duo', div') /\ div_done len A (uval div) duo' div'.
Proof.
  intros H1 H2 H3 L1 L2 L3 Hl Z1 Z2 HV EA HA. unfold small_tail.
  rewrite ?idx_nth by lia. cbn [bind].
  rewrite !dd_from_lo_hi_spec by auto using nth_dok.
  rewrite <- !two_digits by (auto; lia). unfold dd_wdivrem.
  destruct (Z.eqb_spec (uval div) 0); [lia|]. cbn [bind].
  set (X := uval duo) in *. set (V := uval div) in *.
  assert (BX : 0 <= X < BB).
  { split; [apply uval_nonneg; auto|]. unfold X. rewrite two_digits by (auto; lia).
    pose proof (nth_dok 0 duo H1). pose proof (nth_dok 1 duo H1). unfold dok in *. rewrite BB_B. nia. }
  assert (BV : V < BB).
  { unfold V. rewrite two_digits by (auto; lia).
    pose proof (nth_dok 0 div H2). pose proof (nth_dok 1 div H2). unfold dok in *. rewrite BB_B. nia. }
  pose proof (Z.mod_pos_bound X V HV) as Br. pose proof (Z.div_mod X V ltac:(lia)) as Ed.
  assert (Bq : 0 <= X / V < BB).
  { split; [apply Z.div_pos; lia|]. apply Z.div_lt_upper_bound; nia. }
  destruct (dd_lo_hi (X / V) Bq) as (Eq & Q1 & Q2).
  destruct (dd_lo_hi (X mod V) ltac:(lia)) as (Er & R1 & R2).
  set (q := X / V) in *. set (r := X mod V) in *.
  rewrite !upd_updl by (rewrite ?updl_length; lia). cbn [bind].
  rewrite !upd_updl by (rewrite ?updl_length; lia). cbn [bind].
  destruct (updl2 div (dd_lo r) (dd_hi r)) as (D1 & D2 & D3 & D4 & D5); auto; try lia.
  set (div' := updl _ 1 (dd_hi r)) in *.
  rewrite ?idx_nth by lia. cbn [bind].
  destruct (d_carrying_add_spec (nth 0 quo 0) (dd_lo q)) as (t & c & -> & Ht & Hc & Et); auto using nth_dok.
  rewrite !upd_updl by (rewrite ?updl_length; lia). cbn [bind].
  destruct (dd_add3_spec (nth 1 quo 0) (dd_hi q) c) as (S1 & S2 & S3); auto using nth_dok.
  cbv zeta in *. set (tt := dd_wadd _ (dd c)) in *.
  rewrite !upd_updl by (rewrite ?updl_length; lia). cbn [bind].
  destruct (updl2 duo t (dd_lo tt)) as (C1 & C2 & C3 & C4 & C5); auto; try lia.
  cbv zeta in *. set (duo1 := updl _ 1 (dd_lo tt)) in *.
  destruct (quo_add_carry_from_spec (len - 2) 2 len duo1 quo (dd_hi tt)) as (duo' & c' & -> & F1 & F2 & F3 & F4 & F5);
    auto; try lia.
  cbn [bind]. eexists _, _. split; [reflexivity|].
  assert (U1 : uval duo' + c' * P len = uval quo + q).
  { rewrite (uval_split 2 duo'), (uval_split 2 quo) by lia.
    rewrite F3. rewrite !uval_firstn_S by lia. cbn [firstn]. rewrite C4, C5, uval_nil, P_0, P_1.
    replace (P len) with (P 2 * P (len - 2)) by (rewrite <- P_add; f_equal; lia).
    replace (P 2) with (B * B) by (rewrite !P_S, P_0; lia).
    transitivity (t + B * dd_lo tt + B * B * (uval (skipn 2 duo') + c' * P (len - 2))); [ring|]. rewrite F5.
    transitivity (t + B * (dd_lo tt + B * dd_hi tt) + B * B * uval (skipn 2 quo)); [ring|]. rewrite S3.
    transitivity (t + B * c + B * (nth 1 quo 0 + dd_hi q) + B * B * uval (skipn 2 quo)); [ring|]. rewrite Et. lia. }
  assert (0 <= uval quo + q < P len).
  { apply (q_bound _ V X); try lia. apply uval_nonneg; auto. }
  pose proof (uval_bound duo' F1) as Bd. rewrite F2 in Bd.
  assert (c' = 0) by nia. subst c'.
  apply (div_done_intro _ _ _ _ _ (uval quo + q) r); auto; try lia.
  rewrite two_digits by (auto; try rewrite D3; auto; lia). rewrite D4, D5. auto.
Qed.

(** ** One main round *)
Lemma round_core X V L vb bits :
  0 <= L -> 64 <= vb -> bits = L + 64 - vb -> 0 <= bits ->
  2 ^ (L + 127) <= X < 2 ^ (L + 128) -> 2 ^ (vb - 1) <= V < 2 ^ vb ->
  let m := X / 2 ^ L / (V / 2 ^ (vb - 64) + 1) in
  1 <= m < 2 * B /\ 0 <= X - m * V * 2 ^ bits < 2 ^ (L + 66).
Proof.
  intros HL Hvb Eb Hb HX HV m.
  assert (Hp : 0 < 2 ^ L) by (apply Z.pow_pos_nonneg; lia).
  assert (Hv : 0 < 2 ^ (vb - 64)) by (apply Z.pow_pos_nonneg; lia).
  assert (Hbt : 0 < 2 ^ bits) by (apply Z.pow_pos_nonneg; lia).
  assert (EL : 2 ^ L = 2 ^ (vb - 64) * 2 ^ bits) by (rewrite <- Z.pow_add_r by lia; f_equal; lia).
  replace (2 ^ (L + 66)) with (2 ^ L * 2 ^ 66) in * by (rewrite <- Z.pow_add_r by lia; auto).
  replace (2 ^ (L + 127)) with (2 ^ L * 2 ^ 127) in * by (rewrite <- Z.pow_add_r by lia; auto).
  replace (2 ^ (L + 128)) with (2 ^ L * 2 ^ 128) in * by (rewrite <- Z.pow_add_r by lia; auto).
  replace (2 ^ (vb - 1)) with (2 ^ (vb - 64) * 2 ^ 63) in * by (rewrite <- Z.pow_add_r by lia; f_equal; lia).
  replace (2 ^ vb) with (2 ^ (vb - 64) * 2 ^ 64) in * by (rewrite <- Z.pow_add_r by lia; f_equal; lia).
  set (p := 2 ^ L) in *. set (v := 2 ^ (vb - 64)) in *. set (bt := 2 ^ bits) in *.
  pose proof (Z.div_mod X p ltac:(lia)) as EX. pose proof (Z.mod_pos_bound X p Hp) as BX.
  pose proof (Z.div_mod V v ltac:(lia)) as EV. pose proof (Z.mod_pos_bound V v Hv) as BV.
  set (ds := X / p) in *. set (vs := V / v) in *. set (x0 := X mod p) in *. set (v0 := V mod v) in *.
  assert (Bds : 2 ^ 127 <= ds < 2 ^ 128) by (clearbody ds x0 p; clear - HX EX BX Hp; nia).
  assert (Bvs : 2 ^ 63 <= vs < 2 ^ 64) by (clearbody vs v0 v; clear - HV EV BV Hv; nia).
  pose proof (Z.div_mod ds (vs + 1) ltac:(lia)) as Em. pose proof (Z.mod_pos_bound ds (vs + 1) ltac:(lia)) as Bm.
  fold m in Em. set (m0 := ds mod (vs + 1)) in *.
  clearbody ds vs x0 v0 m0 m p v bt. rewrite B_pow in *.
  assert (M1 : 1 <= m) by (clear - Em Bm Bds Bvs; nia).
  assert (M2 : m < 2 * 2 ^ 64) by (clear - Em Bm Bds Bvs; nia).
  assert (M3 : 1 + vs + m <= 2 ^ 66) by lia.
  split; [lia|]. subst X V p.
  assert (N1 : m * (v * vs + v0) * bt <= m * (vs + 1) * (v * bt)).
  { replace (m * (vs + 1) * (v * bt)) with (m * (v * vs + v) * bt) by ring.
    apply Z.mul_le_mono_nonneg_r; [lia|]. apply Z.mul_le_mono_nonneg_l; lia. }
  assert (N2 : m * vs * (v * bt) <= m * (v * vs + v0) * bt).
  { replace (m * vs * (v * bt)) with (m * (v * vs) * bt) by ring.
    apply Z.mul_le_mono_nonneg_r; [lia|]. apply Z.mul_le_mono_nonneg_l; lia. }
  set (z := m * (v * vs + v0) * bt) in *. clearbody z.
  set (p := v * bt) in *. clearbody p. clear v v0 bt Hv Hbt BV HV.
  split.
  - assert (m * (vs + 1) * p <= ds * p) by (apply Z.mul_le_mono_nonneg_r; lia). lia.
  - assert ((ds - vs - m) * p <= m * vs * p) by (apply Z.mul_le_mono_nonneg_r; lia).
    assert ((1 + vs + m) * p <= 2 ^ 66 * p) by (apply Z.mul_le_mono_nonneg_r; lia). lia.
Qed.

Lemma sub_round duo div sd dg b m :
  digs duo -> digs div -> (dg <= sd < length duo)%nat -> length div = length duo -> 0 <= b < 64 ->
  1 <= m < 2 * B -> uval duo < P (S sd) -> uval (skipn (S sd) duo) = 0 ->
  m * 2 ^ b * P dg * uval div <= uval duo ->
  exists duo', (if d_is_zero (dd_hi m) then sub_lo duo div sd dg b m else sub_hi duo div sd dg b m) = Val duo' /\
    digs duo' /\ length duo' = length duo /\ uval (skipn (S sd) duo') = 0 /\
    uval duo' = uval duo - m * 2 ^ b * P dg * uval div.
Proof.
  intros H1 H2 Hs L Hb Hm HX Hz Hle.
  assert (HmBB : 0 <= m < BB) by (rewrite BB_B; pose proof B_gt1; nia).
  destruct (dd_lo_hi m HmBB) as (Em & Hlo & Hhi). unfold dok in Hlo, Hhi. pose proof B_pos.
  assert (Ex : exists duo', (if d_is_zero (dd_hi m) then sub_lo duo div sd dg b m else sub_hi duo div sd dg b m) = Val duo' /\
    digs duo' /\ length duo' = length duo /\ skipn (S sd) duo' = skipn (S sd) duo /\
    uval (firstn (S sd) duo') =
      (uval (firstn (S sd) duo) - m * 2 ^ b * P dg * uval (firstn (S sd - dg) div)) mod P (S sd)).
  { unfold d_is_zero, ZERO. destruct (Z.eqb_spec (dd_hi m) 0) as [E|E].
    - apply sub_lo_spec; auto; try lia. unfold dok. lia.
    - apply sub_hi_spec; auto; try lia. nia. }
  destruct Ex as (duo' & -> & D1 & D2 & D3 & D4).
  exists duo'. split; [auto|]. split; [auto|]. split; [auto|]. split; [now rewrite D3|].
  assert (Hpb : 0 < 2 ^ b) by (apply Z.pow_pos_nonneg; lia).
  pose proof (P_pos dg) as HPd. pose proof (uval_nonneg div H2) as HV.
  assert (EV : uval (firstn (S sd - dg) div) = uval div).
  { apply uval_firstn_small; auto; [lia|].
    assert (EP : P (S sd) = P dg * P (S sd - dg)) by (rewrite <- P_add; f_equal; lia).
    assert (Hk : P dg * uval div <= m * 2 ^ b * P dg * uval div).
    { replace (m * 2 ^ b * P dg * uval div) with ((m * 2 ^ b) * (P dg * uval div)) by ring.
      assert (1 <= m * 2 ^ b) by nia. assert (0 <= P dg * uval div) by nia. nia. }
    apply Z.mul_lt_mono_pos_l with (P dg); auto. rewrite <- EP. lia. }
  rewrite EV in D4. rewrite (uval_sig duo' sd) by (try rewrite D3; auto; lia). rewrite D4.
  rewrite <- (uval_sig duo sd) by (auto; lia). apply Z.mod_small.
  assert (0 <= m * 2 ^ b * P dg * uval div).
  { apply Z.mul_nonneg_nonneg; auto. apply Z.mul_nonneg_nonneg; [|lia]. apply Z.mul_nonneg_nonneg; lia. }
  lia.
Qed.

Lemma main_round len duo div quo sd lz dsd vb A L :
  digs div -> length div = len -> (1 <= dsd)%nat -> (dsd + 2 <= len)%nat ->
  64 * Z.of_nat dsd < vb ->
  2 ^ (vb - 1) <= uval div < 2 ^ vb ->
  digs duo -> digs quo -> length duo = len -> length quo = len ->
  (2 <= sd < len)%nat -> uval (skipn (S sd) duo) = 0 -> 0 <= lz < 64 ->
  L = 64 * Z.of_nat sd - 64 - lz ->
  2 ^ (L + 127) <= uval duo < 2 ^ (L + 128) ->
  A = uval quo * uval div + uval duo -> A < P len -> vb - 64 <= L ->
  exists m quo' duo1,
    dd_wdiv (uval duo / 2 ^ L) (uval div / 2 ^ (vb - 64) + 1) = Val m /\
    add_to_quo quo (Z.to_nat ((L - (vb - 64)) / 64)) ((L - (vb - 64)) mod 64) m = Val quo' /\
    (if d_is_zero (dd_hi m)
     then sub_lo duo div sd (Z.to_nat ((L - (vb - 64)) / 64)) ((L - (vb - 64)) mod 64) m
     else sub_hi duo div sd (Z.to_nat ((L - (vb - 64)) / 64)) ((L - (vb - 64)) mod 64) m) = Val duo1 /\
    digs quo' /\ length quo' = len /\ digs duo1 /\ length duo1 = len /\ uval (skipn (S sd) duo1) = 0 /\
    A = uval quo' * uval div + uval duo1 /\ 0 <= uval duo1 < 2 ^ (L + 66).
Proof.
  intros Hdv Ldv Hd1 Hd2 Hvb HV Hduo Hquo Ld Lq Hs Hz Hlz EL HX EA HA Hmain.
  assert (HV1 : 0 < uval div).
  { assert (0 < 2 ^ (vb - 1)) by (apply Z.pow_pos_nonneg; lia). lia. }
  assert (HQ0 : 0 <= uval quo) by now apply uval_nonneg.
  destruct (round_core (uval duo) (uval div) L vb (L - (vb - 64))) as (M1 & M2); try lia.
  unfold dd_wdiv, dd_wdivrem.
  assert (Hvs : 0 <= uval div / 2 ^ (vb - 64)) by (apply Z.div_pos; [lia|apply Z.pow_pos_nonneg; lia]).
  destruct (Z.eqb_spec (uval div / 2 ^ (vb - 64) + 1) 0) as [E|_]; [clear - E Hvs; lia|]. cbn [bind]. clear Hvs.
  set (m := uval duo / 2 ^ L / (uval div / 2 ^ (vb - 64) + 1)) in *. cbv zeta in M1, M2. clearbody m.
  set (bits := L - (vb - 64)) in *. assert (Ebt : bits = L - (vb - 64)) by reflexivity. clearbody bits.
  pose proof (Z.div_mod bits 64 ltac:(lia)) as Ebits. pose proof (Z.mod_pos_bound bits 64 ltac:(lia)) as Bb.
  set (b := bits mod 64) in *. clearbody b.
  assert (Hdg0 : 0 <= bits / 64) by (apply Z.div_pos; lia).
  set (dgz := bits / 64) in *. clearbody dgz.
  set (dg := Z.to_nat dgz) in *.
  assert (Edg : bits = b + 64 * Z.of_nat dg) by lia. clearbody dg. clear dgz Ebits Hdg0.
  assert (Epow : 2 ^ bits = 2 ^ b * P dg) by (rewrite P_pow, <- Z.pow_add_r by lia; f_equal; lia).
  assert (Emul : m * uval div * 2 ^ bits = m * 2 ^ b * P dg * uval div) by (rewrite Epow; ring).
  rewrite Emul in M2. clear Emul Epow.
  assert (Hp1 : 0 <= m * 2 ^ b * P dg).
  { pose proof (P_pos dg). assert (0 < 2 ^ b) by (apply Z.pow_pos_nonneg; lia).
    apply Z.mul_nonneg_nonneg; [|lia]. apply Z.mul_nonneg_nonneg; lia. }
  destruct (add_to_quo_spec quo dg b m) as (quo' & EQ & Q1 & Q2 & Q3); auto; try lia.
  { rewrite Lq. apply (q_bound _ (uval div) (uval duo)); auto; lia. }
  destruct (sub_round duo div sd dg b m) as (duo1 & ED & D1 & D2 & D3 & D4); auto; try lia.
  { rewrite (P_S_pow sd lz) by auto. replace (64 * Z.of_nat sd + 64 - lz) with (L + 128) by lia.
    assert (0 < 2 ^ lz) by (apply Z.pow_pos_nonneg; lia). clear - H HX. nia. }
  exists m, quo', duo1. split; [reflexivity|]. split; [auto|]. split; [auto|].
  split; [auto|]. split; [lia|]. split; [auto|]. split; [lia|]. split; [auto|].
  split; [rewrite Q3, D4; lia|]. rewrite D4. auto.
Qed.

(** ** The ends of the loop *)
Lemma small_done len duo div quo A :
  digs duo -> digs quo -> length duo = len -> length quo = len ->
  A = uval quo * uval div + uval duo -> uval duo < uval div -> div_done len A (uval div) quo duo.
Proof.
  intros H1 H3 L1 L3 EA Hlt. pose proof (uval_nonneg duo H1).
  apply (div_done_intro _ _ _ _ _ (uval quo) (uval duo)); auto; lia.
Qed.
Lemma copy_done len duo div quo A :
  digs duo -> digs quo -> length duo = len -> length quo = len -> length div = len ->
  A = uval quo * uval div + uval duo -> uval duo < uval div ->
  exists duo' div',
    (let! dv := copy_range 0 len div duo in let! du := copy_range 0 len duo quo in Val (du, dv)) = Val (duo', div') /\
    div_done len A (uval div) duo' div'.
Proof.
  intros. rewrite !copy_range_all by auto. cbn [bind]. eexists _, _. split; [reflexivity|]. now apply small_done.
Qed.

Lemma equal_bits_done len duo div quo vb A :
  digs duo -> digs div -> digs quo -> length duo = len -> length div = len -> length quo = len -> (2 <= len)%nat ->
  1 <= vb -> 2 ^ (vb - 1) <= uval duo < 2 ^ vb -> 2 ^ (vb - 1) <= uval div < 2 ^ vb ->
  A = uval quo * uval div + uval duo -> A < P len ->
  exists duo' div',
    (let! ge := uge len duo len div in
     if ge : bool then
       let! div := twos_complement len div in
       let! div := add_macro len div duo in
       let! duo := quo_add1_from len 0 len duo quo in
       Val (duo, div)
     else
       let! div := copy_range 0 len div duo in
       let! duo := copy_range 0 len duo quo in
       Val (duo, div)) = Val (duo', div') /\ div_done len A (uval div) duo' div'.
Proof.
  intros H1 H2 H3 L1 L2 L3 Hl Hvb HX HV EA HA.
  rewrite uge_spec by (auto; lia). cbn [bind]. rewrite !uval_firstn_len by lia.
  destruct (Z.leb_spec (uval div) (uval duo)) as [Hge|Hlt]; [|apply copy_done; auto].
  assert (2 ^ vb = 2 * 2 ^ (vb - 1)) as E2 by (rewrite <- Z.pow_succ_r by lia; f_equal; lia).
  assert (0 < 2 ^ (vb - 1)) by (apply Z.pow_pos_nonneg; lia).
  destruct (neg_sub_spec len div) as (nd & -> & N1 & N2 & N3); auto. cbn [bind].
  destruct (add_macro_spec len nd duo) as (div' & -> & V1 & V2 & V3); auto. cbn [bind].
  destruct (quo_add1_from_eq len 0 len duo quo) as (duo' & c' & -> & W1 & W2 & _ & W4 & W5); auto.
  rewrite !skipn_O in W5. cbn [bind]. eexists _, _. split; [reflexivity|].
  pose proof (P_pos len) as HPl.
  pose proof (uval_nonneg quo H3).
  assert (Bq : 0 <= uval quo + 1 < P len).
  { apply (q_bound _ (uval div) (uval duo)); lia. }
  pose proof (uval_bound duo' W1) as Bd. rewrite W2 in Bd.
  assert (Hc : c' = 0 \/ c' = 1) by lia. destruct Hc as [-> | ->]; [|lia].
  pose proof (uval_bound duo H1) as Bd1. rewrite L1 in Bd1.
  apply (div_done_intro _ _ _ _ _ (uval quo + 1) (uval duo - uval div)); auto; try lia.
  rewrite V3, N3, mod_add_opp by auto. apply Z.mod_small. lia.
Qed.

(** ** The loop *)
Lemma div_loop_spec len div dsd vb A : forall fuel duo quo sd,
  digs div -> length div = len -> (1 <= dsd)%nat -> (dsd + 2 <= len)%nat -> uval (skipn (S dsd) div) = 0 ->
  64 * Z.of_nat dsd < vb <= 64 * Z.of_nat dsd + 64 ->
  2 ^ (vb - 1) <= uval div < 2 ^ vb ->
  digs duo -> digs quo -> length duo = len -> length quo = len ->
  (2 <= sd < len)%nat -> nth sd duo 0 <> 0 -> uval (skipn (S sd) duo) = 0 ->
  vb < 64 * Z.of_nat sd + 64 - d_leading_zeros (nth sd duo 0) ->
  A = uval quo * uval div + uval duo -> A < P len ->
  64 * Z.of_nat sd + 64 - d_leading_zeros (nth sd duo 0) - vb < 62 * Z.of_nat fuel ->
  exists duo' div', div_loop fuel len duo div quo sd (d_leading_zeros (nth sd duo 0)) dsd vb (vb - 64)
      (uval div / 2 ^ (vb - 64) + 1) = Val (duo', div') /\ div_done len A (uval div) duo' div'.
Proof.
  induction fuel as [|fuel IH]; intros duo quo sd Hdv Ldv Hd1 Hd2 Hzv Hvb HV Hduo Hquo Ld Lq Hs Hn Hz Hsb EA HA Hf.
  { destruct (d_leading_zeros_spec (nth sd duo 0)) as [? _]; auto using nth_dok. lia. }
  cbn [div_loop].
  destruct (sig_spec duo sd) as (Hlz & HXf & HX); auto; [lia|].
  set (lz := d_leading_zeros (nth sd duo 0)) in *.
  assert (HX1 : 0 < uval duo).
  { assert (0 < 2 ^ (64 * Z.of_nat sd + 63 - lz)) by (apply Z.pow_pos_nonneg; lia). lia. }
  assert (HV1 : 0 < uval div).
  { assert (0 < 2 ^ (vb - 1)) by (apply Z.pow_pos_nonneg; lia). lia. }
  assert (HQ0 : 0 <= uval quo) by now apply uval_nonneg.
  unfold nsub at 1, usize_sub at 1. destruct (Nat.leb_spec 2 sd); [|lia]. destruct (Z.leb_spec lz 64); [|lia]. cbn [bind].
  destruct (top_digit_small duo sd lz) as [T1 T2]; auto; [lia|lia|].
  rewrite (sig_dd_spec duo sd lz) by (auto; lia). cbn [bind]. rewrite T2.
  replace (64 - lz + 64 * Z.of_nat (sd - 2)) with (64 * Z.of_nat sd - 64 - lz) by lia.
  set (L := 64 * Z.of_nat sd - 64 - lz) in *.
  assert (EL : L = 64 * Z.of_nat sd - 64 - lz) by reflexivity. clearbody L.
  assert (Elz : lz = d_leading_zeros (nth sd duo 0)) by reflexivity. clearbody lz.
  destruct (Z.leb_spec (vb - 64) L) as [Hmain|Helse].
  2:{ apply (mul_or_mul_sub1_quo_spec len duo div quo sd lz dsd vb _ A); auto; try lia.
      rewrite sig_dd_spec by (auto; lia). rewrite T2. now subst L. }
  destruct (main_round len duo div quo sd lz dsd vb A L)
    as (m & quo' & duo1 & -> & E2 & E3 & Q1 & Lq' & D1 & Ld1 & D3 & EA1 & HX'); auto; try lia.
  { replace (L + 127) with (64 * Z.of_nat sd + 63 - lz) by lia.
    replace (L + 128) with (64 * Z.of_nat sd + 64 - lz) by lia. auto. }
  cbn [bind]. rewrite E2. cbn [bind]. rewrite E3. cbn [bind]. clear E2 E3 m.
  replace (sd + 1)%nat with (S sd) by lia.
  destruct (find_sd_spec (S sd) duo1) as [[-> X0]|(sd' & -> & S1 & S2 & S3)]; auto; [lia| |]; cbn [bind].
  - destruct (fill_zero_spec len div) as (div' & -> & V1 & V2 & V3); auto. cbn [bind].
    destruct (copy_loop_spec len duo1 quo') as (duo' & -> & W1 & W2 & W3); auto; try lia. cbn [bind].
    eexists _, _. split; [reflexivity|].
    apply (div_done_intro _ _ _ _ _ (uval quo') 0); auto; lia.
  - rewrite idx_nth by lia. cbn [bind].
    destruct (sig_spec duo1 sd') as (Hlz' & HXf' & HXX); auto; [lia|].
    set (lz' := d_leading_zeros (nth sd' duo1 0)) in *.
    unfold usize_sub at 1. destruct (Z.leb_spec lz' 64); [|lia]. cbn [bind].
    replace (Z.of_nat sd' * 64 + (64 - lz')) with (64 * Z.of_nat sd' + 64 - lz') by lia.
    set (sb' := 64 * Z.of_nat sd' + 64 - lz') in *.
    replace (64 * Z.of_nat sd' + 63 - lz') with (sb' - 1) in HXX by (clear; unfold sb'; lia).
    assert (Hdec : sb' - 1 < L + 66).
    { apply (Z.pow_lt_mono_r_iff 2); [lia| |]; clear - EL Hlz Hs HXX HX' Hd1 Hvb Hmain; lia. }
    assert (Hfuel : sb' - vb < 62 * Z.of_nat fuel) by (clear - Hf Hdec EL; lia).
    assert (Hsd' : (sd' < len)%nat) by (clear - S1 Hs; lia).
    assert (Hl2 : (2 <= len)%nat) by (clear - Hs; lia). assert (Hvb1 : 64 < vb) by (clear - Hd1 Hvb; lia).
    clear Hduo Ld Hn Hz Hsb HX HX1 HXf T1 T2 Hmain HX' Hdec Hf EA D3 S1.
    destruct (Z.eqb_spec sb' vb) as [Eb|Nb].
    + rewrite Eb in HXX. apply equal_bits_done with (vb := vb); auto. lia.
    + destruct (Z.ltb_spec sb' vb) as [Hlt|Hge].
      * apply copy_done; auto.
        assert (2 ^ sb' <= 2 ^ (vb - 1)) by (apply Z.pow_le_mono_r; lia). lia.
      * destruct (Nat.ltb_spec sd' 2) as [Hs2|Hs2].
        -- assert (B1 : 2 ^ sb' <= P 2) by (rewrite P_pow; apply Z.pow_le_mono_r; lia).
           assert (B2 : 2 ^ vb <= P 2) by (rewrite P_pow; apply Z.pow_le_mono_r; lia).
           apply small_tail_spec; auto.
           ++ apply skipn_small; auto; lia.
           ++ apply skipn_small; auto; lia.
        -- apply IH; auto. unfold sb', lz' in *. lia.
Qed.
