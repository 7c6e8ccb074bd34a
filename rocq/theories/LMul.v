(** Proofs about multiplication. *)
From Verif Require Export LArith.

Lemma nth_of_skipn_eq (xs ys : list Z) i :
  (i < length xs)%nat -> length xs = length ys -> skipn i xs = skipn i ys -> nth i xs 0 = nth i ys 0.
Proof.
  intros Hi Hl E. rewrite <- (firstn_skipn i xs), <- (firstn_skipn i ys).
  rewrite !app_nth2; rewrite ?firstn_length_le by lia; try lia. now rewrite E.
Qed.
Lemma skipn_S_eq (xs ys : list Z) i : skipn i xs = skipn i ys -> skipn (S i) xs = skipn (S i) ys.
Proof.
  intros E. replace (S i) with (i + 1)%nat by lia. rewrite <- !skipn_skipn_add. now rewrite E.
Qed.

Lemma rposition_nonzero_spec ds :
  digs ds ->
  match rposition_nonzero ds with
  | None => uval ds = 0
  | Some i => (i < length ds)%nat /\ nth i ds 0 <> 0 /\ uval (skipn (S i) ds) = 0
  end.
Proof.
  induction ds as [|d r IH]; intros H; cbn [rposition_nonzero].
  - reflexivity.
  - apply digs_cons in H as [Hd Hr]. specialize (IH Hr).
    destruct (rposition_nonzero r) as [i|].
    + destruct IH as (H1 & H2 & H3). cbn [length nth]. split; [lia|]. auto.
    + unfold d_is_zero, ZERO. destruct (Z.eqb_spec d 0).
      * rewrite uval_cons, IH. lia.
      * cbn [length nth skipn]. split; [lia|]. auto.
Qed.

Lemma uval_sig ds i :
  (i < length ds)%nat -> uval (skipn (S i) ds) = 0 -> uval ds = uval (firstn (S i) ds).
Proof. intros H E. rewrite (uval_split (S i)) by lia. rewrite E. lia. Qed.

Lemma d_leading_zeros_spec d :
  dok d -> d <> 0 -> 0 <= d_leading_zeros d < 64 /\ 2 ^ (63 - d_leading_zeros d) <= d < 2 ^ (64 - d_leading_zeros d).
Proof.
  intros Hd Hn. unfold d_leading_zeros, u64_leading_zeros. destruct (Z.eqb_spec d 0); [lia|].
  unfold dok in Hd. rewrite B_pow in Hd.
  assert (0 <= Z.log2 d < 64).
  { split; [apply Z.log2_nonneg|]. apply Z.log2_lt_pow2; lia. }
  pose proof (Z.log2_spec d). replace (64 - (63 - Z.log2 d)) with (Z.succ (Z.log2 d)) by lia.
  replace (63 - (63 - Z.log2 d)) with (Z.log2 d) by lia. lia.
Qed.

Lemma sig_bits_spec ds i :
  digs ds -> (i < length ds)%nat -> nth i ds 0 <> 0 -> uval (skipn (S i) ds) = 0 ->
  exists b, sig_bits ds i = Val b /\ 0 < b /\ uval ds < 2 ^ b /\ 2 ^ (b - 1) <= uval ds.
Proof.
  intros Hd Hi Hn Hz. unfold sig_bits. rewrite idx_nth by auto. cbn [bind].
  destruct (d_leading_zeros_spec (nth i ds 0)) as [H1 H2]; auto using nth_dok.
  eexists; split; [reflexivity|]. split; [lia|].
  rewrite (uval_sig ds i) by auto. rewrite uval_firstn_S by auto.
  pose proof (uval_bound _ (digs_firstn i ds Hd)) as Hb. rewrite firstn_length_le in Hb by lia.
  pose proof (P_pos i).
  split.
  - rewrite Z.pow_add_r by lia. rewrite (Z.mul_comm (Z.of_nat i)), <- P_pow.
    set (X := 2 ^ (64 - _)) in *. nia.
  - replace (Z.of_nat i * 64 + (64 - d_leading_zeros (nth i ds 0)) - 1)
      with (64 * Z.of_nat i + (63 - d_leading_zeros (nth i ds 0))) by lia.
    rewrite Z.pow_add_r by lia. rewrite <- P_pow.
    set (X := 2 ^ (63 - _)) in *. nia.
Qed.

Lemma mul_push_loop_spec mult rs :
  forall sum c, dok mult -> digs rs -> dok c ->
  exists out c', mul_push_loop mult rs sum c = (sum ++ out, c') /\ length out = length rs /\
    digs out /\ dok c' /\ uval out + c' * P (length rs) = mult * uval rs + c.
Proof.
  induction rs as [|r rs IH]; intros sum c Hm Hr Hc; cbn [mul_push_loop].
  - exists [], c. rewrite app_nil_r. cbn [length]. rewrite uval_nil, P_0.
    split; auto. split; auto. split; [apply digs_nil|]. split; auto. lia.
  - apply digs_cons in Hr as [Hr Hrs].
    destruct (d_carrying_mul_add_spec mult r c) as (lo & hi & -> & Hlo & Hhi & E); auto.
    destruct (IH (sum ++ [lo]) hi) as (out & c' & -> & Hl & Hd & Hc' & E'); auto.
    exists (lo :: out), c'. rewrite <- app_assoc. cbn [app length].
    split; auto. split; [lia|]. split; [apply digs_cons; auto|]. split; auto.
    rewrite !uval_cons, P_S. nia.
Qed.

(** First row, pushed digit by digit, up to index [k]. *)
Lemma mul_push_first mult rhs k :
  dok mult -> digs rhs -> (0 < k <= length rhs)%nat ->
  exists sum c,
    (let! r0 := idx rhs 0 in
     let '(lo, hi) := d_carrying_mul mult r0 in
     Val (mul_push_loop mult (skipn 1 (firstn k rhs)) [lo] hi)) = Val (sum, c) /\
    length sum = k /\ digs sum /\ dok c /\ uval sum + c * P k = mult * uval (firstn k rhs).
Proof.
  intros Hm Hr Hk. rewrite ?idx_nth by lia. cbn [bind].
  destruct (d_carrying_mul_spec mult (nth 0 rhs 0)) as (lo & hi & -> & Hlo & Hhi & E); auto using nth_dok.
  destruct (mul_push_loop_spec mult (skipn 1 (firstn k rhs)) [lo] hi) as (out & c & -> & Hl & Hd & Hc & E'); auto.
  { now apply digs_skipn, digs_firstn. }
  exists ([lo] ++ out), c. split; auto.
  rewrite skipn_length, firstn_length_le in * by lia.
  split; [cbn [app length]; lia|]. split; [apply digs_cons; auto|]. split; auto.
  cbn [app]. rewrite uval_cons.
  rewrite (uval_split 1 (firstn k rhs)) by (rewrite firstn_length_le; lia).
  rewrite firstn_firstn. replace (Nat.min 1 k) with 1%nat by lia.
  rewrite uval_firstn_S by lia. cbn [firstn]. rewrite uval_nil, P_0, P_1.
  replace k with (S (k - 1)) at 1 by lia. rewrite P_S. nia.
Qed.

Lemma mul_row_loop mult rhs li k sum :
  dok mult -> digs rhs -> digs sum -> (0 < k <= length rhs)%nat -> (li + k <= length sum)%nat ->
  exists sum' mc ac,
    (let! st := mul_row_first mult rhs li sum in
     for_range (k - 1) 1 (mul_row_step mult rhs li) st) = Val (sum', mc, ac) /\
    digs sum' /\ length sum' = length sum /\ dok mc /\ 0 <= ac <= 1 /\
    uval sum' + (mc + ac) * P (li + k) = uval sum + mult * uval (firstn k rhs) * P li.
Proof.
  intros Hm Hr Hs Hk Hlen. unfold mul_row_first.
  rewrite ?idx_nth by lia. cbn [bind].
  destruct (d_carrying_mul_spec mult (nth 0 rhs 0)) as (lo0 & hi0 & -> & Hlo0 & Hhi0 & E0); auto using nth_dok.
  rewrite ?idx_nth by lia. cbn [bind].
  destruct (d_carrying_add_spec (nth li sum 0) lo0) as (v & c & -> & Hv & Hc & E1); auto using nth_dok.
  rewrite upd_updl by lia. cbn [bind].
  pose (I := fun j (st : list Z * Z * Z) =>
    let '(sum', mc, ac) := st in
    digs sum' /\ length sum' = length sum /\ dok mc /\ 0 <= ac <= 1 /\
    uval sum' + (mc + ac) * P (li + j) = uval sum + mult * uval (firstn j rhs) * P li).
  destruct (for_range_inv I (mul_row_step mult rhs li) (k - 1) 1 (updl sum li v, hi0, c))
    as ([[sum' mc] ac] & Ef & Hi).
  - unfold I. split; [now apply updl_digs|]. rewrite updl_length by lia. do 3 (split; auto).
    rewrite updl_uval by lia. rewrite uval_firstn_S by lia. cbn [firstn]. rewrite uval_nil.
    rewrite P_add, P_1, P_0. pose proof (P_pos li). nia.
  - intros j [[s mc] ac] Hj (I1 & I2 & I3 & I4 & I5). unfold mul_row_step.
    rewrite ?idx_nth by lia. cbn [bind].
    destruct (d_carrying_mul_add_spec mult (nth j rhs 0) mc) as (lo & hi & -> & Hlo & Hhi & E); auto using nth_dok.
    rewrite ?idx_nth by lia. cbn [bind]. rewrite upd_updl by lia. cbn [bind].
    destruct (dd_add3_spec (nth (li + j) s 0) lo ac) as (T1 & T2 & T3); auto using nth_dok.
    cbv zeta in *. set (t := dd_wadd _ _) in *.
    eexists; split; [reflexivity|]. unfold I.
    split; [now apply updl_digs|]. rewrite updl_length by lia. do 3 (split; auto).
    rewrite updl_uval by lia. rewrite uval_firstn_S by lia.
    replace (li + S j)%nat with (S (li + j)) by lia. rewrite P_S.
    rewrite P_add in *. pose proof (P_pos li). pose proof (P_pos j). nia.
  - rewrite Ef. exists sum', mc, ac. split; auto.
    replace (1 + (k - 1))%nat with k in Hi by lia. exact Hi.
Qed.

Lemma mul_full_row_spec lhs rhs rs li sum :
  digs lhs -> digs rhs -> digs sum -> (0 < rs < length rhs)%nat -> (li < length lhs)%nat ->
  length sum = (li + rs + 1)%nat ->
  exists sum', mul_full_row lhs rhs rs li sum = Val sum' /\ digs sum' /\
    length sum' = (li + rs + 2)%nat /\
    uval sum' = uval sum + nth li lhs 0 * uval (firstn (S rs) rhs) * P li.
Proof.
  intros Hl Hr Hs Hrs Hli Hlen. unfold mul_full_row. rewrite ?idx_nth by lia. cbn [bind].
  set (mult := nth li lhs 0). assert (dok mult) as Hm by now apply nth_dok.
  destruct (mul_row_loop mult rhs li rs sum) as (sum' & mc & ac & Ef & I1 & I2 & I3 & I4 & I5); auto; try lia.
  unfold bind at 1 in Ef. destruct (mul_row_first mult rhs li sum) as [st| |]; try discriminate.
  cbn [bind]. rewrite Ef. cbn [bind]. rewrite ?idx_nth by lia. cbn [bind].
  destruct (d_carrying_mul_add_spec mult (nth rs rhs 0) mc) as (lo & hi & -> & Hlo & Hhi & E); auto using nth_dok.
  rewrite ?idx_nth by lia. cbn [bind]. rewrite upd_updl by lia. cbn [bind].
  destruct (dd_add3_spec (nth (li + rs) sum' 0) lo ac) as (T1 & T2 & T3); auto using nth_dok.
  cbv zeta in *. set (t := dd_wadd _ _) in *.
  assert (V : uval (updl sum' (li + rs) (dd_lo t)) + (dd_hi t + hi) * P (li + rs + 1)
      = uval sum + mult * uval (firstn (S rs) rhs) * P li).
  { rewrite updl_uval by lia. rewrite uval_firstn_S by lia.
    replace (li + rs + 1)%nat with (S (li + rs)) by lia. rewrite P_S.
    rewrite P_add in *. pose proof (P_pos li). pose proof (P_pos rs). nia. }
  assert (D : digs (updl sum' (li + rs) (dd_lo t))) by now apply updl_digs.
  assert (X : dd_hi t + hi < B).
  { pose proof (uval_bound _ D) as Hb1. rewrite updl_length, I2, Hlen in Hb1 by lia.
    pose proof (uval_bound _ Hs) as Hb2. rewrite Hlen in Hb2.
    pose proof (uval_bound _ (digs_firstn (S rs) rhs Hr)) as Hb3. rewrite firstn_length_le in Hb3 by lia.
    unfold dok in Hm.
    replace (li + rs + 1)%nat with (li + S rs)%nat in * by lia. rewrite P_add in *.
    pose proof (P_pos li). pose proof (P_pos (S rs)). pose proof B_pos.
    set (p := P li) in *. set (q := P (S rs)) in *. set (U := uval (firstn (S rs) rhs)) in *.
    set (S' := uval (updl _ _ _)) in *. set (S0 := uval sum) in *.
    assert (mult * U <= (B - 1) * (q - 1)) by nia.
    assert (mult * U * p <= (B - 1) * (q - 1) * p) by nia.
    assert ((dd_hi t + hi) * (p * q) < B * (p * q)) by nia.
    assert (0 < p * q) by nia. nia. }
  eexists; split; [reflexivity|].
  unfold d_wrapping_add, u64_wadd. unfold dok in Hhi. rewrite Z.mod_small by lia.
  split; [apply digs_app; split; auto; apply digs_cons; split; [unfold dok; lia | apply digs_nil]|].
  rewrite app_length, updl_length, I2, Hlen by lia. cbn [length]. split; [lia|].
  rewrite uval_app, uval_one, updl_length, I2, Hlen by lia. lia.
Qed.

Lemma mul_no_overflow_spec lhs rhs ls rs :
  digs lhs -> digs rhs -> length lhs = length rhs ->
  (0 < ls < length lhs)%nat -> (0 < rs < length rhs)%nat ->
  uval (skipn (S ls) lhs) = 0 -> uval (skipn (S rs) rhs) = 0 ->
  uval lhs * uval rhs < P (length lhs) ->
  exists ds, mul_no_overflow lhs rhs ls rs = Val ds /\ digs ds /\ length ds = length lhs /\
    uval ds = uval lhs * uval rhs.
Proof.
  intros Hl Hr Hlen Hls Hrs Zl Zr Hfit. unfold mul_no_overflow.
  rewrite (idx_nth lhs 0) by lia. cbn [bind]. set (mult := nth 0 lhs 0).
  assert (dok mult) as Hm by now apply nth_dok.
  destruct (mul_push_first mult rhs rs) as (sum & c & Ef & L1 & D1 & C1 & V1); auto; try lia.
  unfold bind at 1 in Ef. destruct (idx rhs 0) as [r0| |]; try discriminate. cbn [bind].
  destruct (d_carrying_mul mult r0) as [lo hi]. apply Val_inj in Ef. rewrite Ef. clear Ef.
  rewrite ?idx_nth by lia. cbn [bind].
  destruct (d_carrying_mul_add_spec mult (nth rs rhs 0) c) as (lo1 & hi1 & -> & Hlo & Hhi & E); auto using nth_dok.
  set (sum1 := (sum ++ [lo1]) ++ [hi1]).
  assert (digs sum1 /\ length sum1 = (rs + 2)%nat /\ uval sum1 = mult * uval (firstn (S rs) rhs))
    as (D2 & L2 & V2).
  { unfold sum1. split; [|split].
    - apply digs_app; split; [apply digs_app; split; auto|]; apply digs_cons; split; auto using digs_nil.
    - rewrite !app_length. cbn [length]. lia.
    - rewrite !uval_app, !uval_one, app_length, L1. cbn [length].
      rewrite uval_firstn_S by lia. replace (rs + 1)%nat with (S rs) by lia. rewrite P_S.
      pose proof (P_pos rs). nia. }
  set (R := uval (firstn (S rs) rhs)) in *.
  pose (I := fun i s => digs s /\ length s = (i + rs + 1)%nat /\ uval s = uval (firstn i lhs) * R).
  destruct (for_range_inv I (mul_full_row lhs rhs rs) (ls - 1) 1 sum1) as (sum2 & -> & I1 & I2 & I3).
  - unfold I. split; auto. split; [lia|]. rewrite V2, uval_firstn_S by lia. cbn [firstn].
    rewrite uval_nil, P_0. fold mult. lia.
  - intros i s Hi (I1 & I2 & I3).
    destruct (mul_full_row_spec lhs rhs rs i s) as (s' & -> & J1 & J2 & J3); auto; try lia.
    eexists; split; [reflexivity|]. unfold I. split; auto. split; [lia|].
    fold R in J3. rewrite J3, I3, (uval_firstn_S lhs) by lia. lia.
  - cbn [bind]. replace (1 + (ls - 1))%nat with ls in * by lia.
    destruct (mul_full_row_spec lhs rhs rs ls sum2) as (s' & -> & J1 & J2 & J3); auto; try lia.
    cbn [bind]. rewrite I3 in J3. fold R in J3.
    assert (uval s' = uval lhs * uval rhs) as J4.
    { rewrite J3. rewrite (uval_sig lhs ls), (uval_sig rhs rs) by (auto; lia).
      rewrite (uval_firstn_S lhs) by lia. fold R. lia. }
    destruct (Nat.ltb_spec (length lhs) (length s')).
    + eexists; split; [reflexivity|]. split; [now apply digs_firstn|].
      split; [rewrite firstn_length_le; lia|].
      rewrite uval_firstn_mod by (auto; lia). rewrite J4. apply Z.mod_small.
      pose proof (uval_nonneg _ Hl). pose proof (uval_nonneg _ Hr). nia.
    + eexists; split; [reflexivity|].
      split; [apply digs_app; split; auto; now apply digs_skipn|].
      split; [rewrite app_length, skipn_length; lia|].
      rewrite uval_app.
      assert (uval (skipn (length s') lhs) = 0) as ->; [|lia].
      replace (length s') with (S ls + (length s' - S ls))%nat by lia.
      rewrite <- skipn_skipn_add.
      rewrite uval_skipn_div; [rewrite Zl; apply Z.div_0_l; pose proof (P_pos (length s' - S ls)); lia
        | now apply digs_skipn | rewrite skipn_length; lia].
Qed.

Lemma mul_wrap_row_spec lhs rhs sig li sum :
  digs lhs -> digs rhs -> digs sum -> (0 < li < sig)%nat -> length lhs = S sig -> length rhs = S sig ->
  length sum = S sig ->
  exists sum', mul_wrap_row lhs rhs sig li sum = Val sum' /\ digs sum' /\ length sum' = S sig /\
    exists q, uval sum' = uval sum + nth li lhs 0 * uval rhs * P li + q * P (S sig).
Proof.
  intros Hl Hr Hs Hli L1 L2 L3. unfold mul_wrap_row. rewrite ?idx_nth by lia. cbn [bind].
  set (mult := nth li lhs 0). assert (dok mult) as Hm by now apply nth_dok.
  destruct (mul_row_loop mult rhs li (sig - li) sum) as (sum' & mc & ac & Ef & I1 & I2 & I3 & I4 & I5); auto; try lia.
  unfold bind at 1 in Ef. destruct (mul_row_first mult rhs li sum) as [st| |]; try discriminate.
  cbn [bind]. rewrite Ef. cbn [bind]. rewrite ?idx_nth by lia. cbn [bind].
  rewrite ?idx_nth by lia. cbn [bind].
  unfold d_wrapping_add, d_wrapping_mul, u64_wadd, u64_wmul.
  set (r := nth (sig - li) rhs 0). set (s := nth sig sum' 0).
  set (X := mult * r + mc + s + ac).
  assert (((((mult * r) mod B + mc) mod B + s) mod B + ac) mod B = X mod B) as ->.
  { unfold X. rewrite (Zplus_mod_idemp_l (mult * r)), (Zplus_mod_idemp_l (mult * r + mc)),
      (Zplus_mod_idemp_l (mult * r + mc + s)). reflexivity. }
  rewrite upd_updl by lia. eexists; split; [reflexivity|].
  split; [apply updl_digs; auto; apply dok_mod|]. rewrite updl_length by lia. split; [lia|].
  rewrite updl_uval by lia. fold s.
  pose proof (Z.div_mod X B) as DX. pose proof B_pos.
  rewrite (uval_split (S (sig - li)) rhs) by lia. rewrite uval_firstn_S by lia. fold r.
  exists (- (X / B) - mult * uval (skipn (S (sig - li)) rhs)).
  replace (X mod B) with (X - B * (X / B)) by lia. unfold X.
  replace (li + (sig - li))%nat with sig in I5 by lia.
  assert (P sig = P li * P (sig - li)) as EP by (rewrite <- P_add; f_equal; lia).
  rewrite !P_S. clear DX. generalize (X / B) as q; intros q.
  set (F := uval (firstn (sig - li) rhs)) in *. set (Sk := uval (skipn _ rhs)) in *.
  rewrite !EP in *. set (p := P li) in *. set (p' := P (sig - li)) in *.
  replace (uval sum') with (uval sum + mult * F * p - (mc + ac) * (p * p')) by lia.
  ring.
Qed.

Lemma mul_wrapping_spec lhs rhs :
  digs lhs -> digs rhs -> length lhs = length rhs -> (2 <= length lhs)%nat ->
  exists ds, mul_wrapping lhs rhs = Val ds /\ digs ds /\ length ds = length lhs /\
    exists q, uval ds = uval lhs * uval rhs + q * P (length lhs).
Proof.
  intros Hl Hr Hlen H2. unfold mul_wrapping, nsub.
  destruct (Nat.leb_spec 1 (length lhs)); [|lia]. cbn [bind].
  remember (length lhs - 1)%nat as sig eqn:Esig.
  assert (length lhs = S sig) as L1 by lia. assert (length rhs = S sig) as L2 by lia.
  rewrite (idx_nth lhs 0) by lia. cbn [bind]. set (l0 := nth 0 lhs 0).
  assert (dok l0) as Hm by now apply nth_dok.
  destruct (mul_push_first l0 rhs sig) as (sum & c & Ef & LS & D1 & C1 & V1); auto; try lia.
  rewrite (idx_nth rhs 0) in * by lia. cbn [bind] in *. set (r0 := nth 0 rhs 0) in *.
  destruct (d_carrying_mul l0 r0) as [lo hi]. apply Val_inj in Ef. rewrite Ef. clear Ef.
  rewrite ?idx_nth by lia. cbn [bind].
  unfold d_wrapping_mul_add, u64_wadd, u64_wmul.
  set (rr := nth sig rhs 0).
  set (sum1 := sum ++ [_]).
  pose proof B_pos as HB.
  assert (digs sum1 /\ length sum1 = S sig /\ exists q, uval sum1 = l0 * uval rhs + q * P (S sig))
    as (D2 & LS2 & q2 & V2).
  { unfold sum1. split; [|split].
    - apply digs_app; split; auto. apply digs_cons; split; auto using digs_nil, dok_mod.
    - rewrite app_length. cbn [length]. lia.
    - rewrite Zplus_mod_idemp_l. set (X := l0 * rr + c).
      exists (- (X / B)). rewrite uval_app, uval_one, LS.
      pose proof (Z.div_mod X B). replace (X mod B) with (X - B * (X / B)) by lia.
      rewrite <- (firstn_all rhs), L2, uval_firstn_S by lia. fold rr. rewrite P_S.
      unfold X. generalize ((l0 * rr + c) / B) as q; intros q. nia. }
  pose (I := fun i s => digs s /\ length s = S sig /\
     exists q, uval s = uval (firstn i lhs) * uval rhs + q * P (S sig)).
  destruct (for_range_inv I (mul_wrap_row lhs rhs sig) (sig - 1) 1 sum1) as (sum2 & -> & I1 & I2 & q3 & I3).
  - unfold I. split; auto. split; auto. exists q2. rewrite V2, uval_firstn_S by lia. cbn [firstn].
    rewrite uval_nil, P_0. fold l0. lia.
  - intros i s Hi (I1 & I2 & q & I3).
    destruct (mul_wrap_row_spec lhs rhs sig i s) as (s' & -> & J1 & J2 & q' & J3); auto; try lia.
    eexists; split; [reflexivity|]. unfold I. split; auto. split; auto. exists (q + q').
    rewrite J3, I3, uval_firstn_S by lia. lia.
  - cbn [bind]. replace (1 + (sig - 1))%nat with sig in * by lia.
    rewrite ?idx_nth by lia. cbn [bind]. rewrite ?idx_nth by lia. cbn [bind].
    set (l := nth sig lhs 0). set (s := nth sig sum2 0).
    eexists; split; [reflexivity|].
    split; [apply digs_app; split; [now apply digs_firstn|]; apply digs_cons; split; auto using digs_nil, dok_mod|].
    rewrite app_length, firstn_length_le by lia. cbn [length]. split; [lia|].
    rewrite Zplus_mod_idemp_l. set (X := l * r0 + s).
    rewrite uval_app, uval_one, firstn_length_le by lia.
    assert (uval sum2 = uval (firstn sig sum2) + s * P sig) as E2.
    { rewrite <- (firstn_all sum2) at 1. rewrite I2. apply uval_firstn_S. lia. }
    assert (uval lhs = uval (firstn sig lhs) + l * P sig) as E3.
    { rewrite <- (firstn_all lhs) at 1. rewrite L1. apply uval_firstn_S. lia. }
    assert (uval rhs = r0 + B * uval (skipn 1 rhs)) as E4.
    { unfold r0. rewrite <- uval_skipn_nth by lia. reflexivity. }
    rewrite L1. exists (q3 - X / B - l * uval (skipn 1 rhs)).
    pose proof (Z.div_mod X B). replace (X mod B) with (X - B * (X / B)) by lia.
    assert (uval (firstn sig sum2) = uval (firstn sig lhs) * uval rhs + q3 * P (S sig) - s * P sig) as -> by lia.
    rewrite E3, E4. rewrite P_S. unfold X. generalize ((l * r0 + s) / B) as q; intros q. ring.
Qed.

Lemma nth_zero_of_skipn ds i j :
  digs ds -> uval (skipn i ds) = 0 -> (i <= j)%nat -> nth j ds 0 = 0.
Proof.
  intros Hd Hz Hij. destruct (Nat.ltb_spec j (length ds)); [|now apply nth_overflow].
  apply uval_zero_iff in Hz; [|now apply digs_skipn].
  rewrite <- (firstn_skipn i ds). rewrite app_nth2; rewrite firstn_length_le by lia; [|lia].
  eapply Forall_forall in Hz; [exact Hz|]. apply nth_In. rewrite skipn_length. lia.
Qed.

Lemma mul_small_lhs_spec lhs rhs rs :
  digs lhs -> digs rhs -> length lhs = length rhs -> (0 < rs < length rhs)%nat ->
  uval (skipn 1 lhs) = 0 -> uval (skipn (S rs) rhs) = 0 ->
  exists ds, mul_small_lhs lhs rhs rs = Val ds /\ digs ds /\ length ds = length lhs /\
    exists q, uval ds = uval lhs * uval rhs + q * P (length lhs).
Proof.
  intros Hl Hr Hlen Hrs Zl Zr. unfold mul_small_lhs.
  rewrite ?idx_nth by lia. cbn [bind]. set (mult := nth 0 lhs 0).
  assert (dok mult) as Hm by now apply nth_dok.
  assert (uval lhs = mult) as EL.
  { rewrite (uval_sig lhs 0) by (auto; lia). rewrite uval_firstn_S by lia. cbn [firstn].
    rewrite uval_nil, P_0. fold mult. lia. }
  destruct (d_carrying_mul_spec mult (nth 0 rhs 0)) as (lo & hi & -> & Hlo & Hhi & E); auto using nth_dok.
  rewrite upd_updl by lia. cbn [bind].
  pose (I := fun i (st : list Z * Z) => let '(ds, mc) := st in
    digs ds /\ length ds = length lhs /\ dok mc /\ (forall j, (i <= j)%nat -> nth j ds 0 = 0) /\
    uval ds + mc * P i = mult * uval (firstn i rhs)).
  destruct (for_range_inv I (mul_small_step mult rhs) (rs - 1) 1 (updl lhs 0 lo, hi))
    as ([ds mc] & -> & I1 & I2 & I3 & I4 & I5).
  - unfold I. split; [now apply updl_digs|]. rewrite updl_length by lia. split; auto. split; auto.
    split.
    + intros j Hj. rewrite updl_nth_other by lia. eapply nth_zero_of_skipn; eauto.
    + rewrite updl_uval, EL by lia. rewrite uval_firstn_S by lia. cbn [firstn].
      rewrite uval_nil, P_0, P_1. fold mult. lia.
  - intros i [ds mc] Hi (I1 & I2 & I3 & I4 & I5). unfold mul_small_step.
    rewrite ?idx_nth by lia. cbn [bind].
    destruct (d_carrying_mul_add_spec mult (nth i rhs 0) mc) as (lo' & hi' & -> & Hlo' & Hhi' & E'); auto using nth_dok.
    rewrite upd_updl by lia. cbn [bind]. eexists; split; [reflexivity|]. unfold I.
    split; [now apply updl_digs|]. rewrite updl_length by lia. split; auto. split; auto.
    split.
    + intros j Hj. rewrite updl_nth_other by lia. apply I4; lia.
    + rewrite updl_uval by lia. rewrite (I4 i) by lia. rewrite uval_firstn_S by lia. rewrite P_S.
      pose proof (P_pos i). nia.
  - cbn [bind]. replace (1 + (rs - 1))%nat with rs in * by lia.
    unfold nsub. destruct (Nat.leb_spec 1 (length ds)); [|lia]. cbn [bind].
    rewrite ?idx_nth by lia. cbn [bind].
    assert (uval rhs = uval (firstn rs rhs) + nth rs rhs 0 * P rs) as ER.
    { rewrite (uval_sig rhs rs) by (auto; lia). apply uval_firstn_S. lia. }
    destruct (Nat.eqb_spec rs (length ds - 1)) as [Er|Er].
    + rewrite upd_updl by lia. eexists; split; [reflexivity|].
      unfold d_wrapping_mul_add, u64_wadd, u64_wmul. rewrite Zplus_mod_idemp_l.
      set (X := mult * nth rs rhs 0 + mc).
      split; [apply updl_digs; auto; apply dok_mod|]. rewrite updl_length by lia. split; auto.
      rewrite updl_uval by lia. rewrite (I4 rs) by lia. rewrite EL, ER.
      exists (- (X / B)). pose proof (Z.div_mod X B). pose proof B_pos.
      replace (X mod B) with (X - B * (X / B)) by lia.
      replace (length lhs) with (S rs) by lia. rewrite P_S. unfold X.
      generalize ((mult * nth rs rhs 0 + mc) / B); intros q. pose proof (P_pos rs). nia.
    + destruct (d_carrying_mul_add_spec mult (nth rs rhs 0) mc) as (lo' & hi' & -> & Hlo' & Hhi' & E'); auto using nth_dok.
      rewrite upd_updl by lia. cbn [bind]. rewrite upd_updl by (rewrite updl_length; lia).
      eexists; split; [reflexivity|].
      split; [apply updl_digs; auto; now apply updl_digs|].
      rewrite !updl_length by (rewrite ?updl_length; lia). split; auto.
      exists 0. rewrite updl_uval by (rewrite updl_length; lia).
      rewrite updl_nth_other by lia. rewrite updl_uval by lia.
      rewrite (I4 rs), (I4 (rs + 1)%nat) by lia. rewrite EL, ER.
      replace (rs + 1)%nat with (S rs) by lia. rewrite P_S. pose proof (P_pos rs). nia.
Qed.

Lemma mul_small_rhs_spec lhs rhs ls :
  digs lhs -> digs rhs -> length lhs = length rhs -> (0 < ls < length lhs)%nat ->
  uval (skipn (S ls) lhs) = 0 -> uval (skipn 1 rhs) = 0 ->
  exists ds, mul_small_rhs lhs rhs ls = Val ds /\ digs ds /\ length ds = length lhs /\
    exists q, uval ds = uval lhs * uval rhs + q * P (length lhs).
Proof.
  intros Hl Hr Hlen Hls Zl Zr. unfold mul_small_rhs.
  rewrite ?idx_nth by lia. cbn [bind]. rewrite ?idx_nth by lia. cbn [bind]. set (mult := nth 0 rhs 0).
  assert (dok mult) as Hm by now apply nth_dok.
  assert (uval rhs = mult) as ER.
  { rewrite (uval_sig rhs 0) by (auto; lia). rewrite uval_firstn_S by lia. cbn [firstn].
    rewrite uval_nil, P_0. fold mult. lia. }
  destruct (d_carrying_mul_spec mult (nth 0 lhs 0)) as (lo & hi & -> & Hlo & Hhi & E); auto using nth_dok.
  rewrite upd_updl by lia. cbn [bind].
  pose (I := fun i (st : list Z * Z) => let '(ds, mc) := st in
    digs ds /\ length ds = length lhs /\ dok mc /\ skipn i ds = skipn i lhs /\
    uval (firstn i ds) + mc * P i = mult * uval (firstn i lhs)).
  destruct (for_range_inv I (mul_small_step_inplace mult) (ls - 1) 1 (updl lhs 0 lo, hi))
    as ([ds mc] & -> & I1 & I2 & I3 & I4 & I5).
  - unfold I. split; [now apply updl_digs|]. rewrite updl_length by lia. split; auto. split; auto.
    split; [apply updl_skipn; lia|].
    rewrite !uval_firstn_S by (rewrite ?updl_length; lia). rewrite updl_nth_same by lia. cbn [firstn].
    rewrite uval_nil, P_0, P_1. lia.
  - intros i [ds mc] Hi (I1 & I2 & I3 & I4 & I5). unfold mul_small_step_inplace.
    rewrite ?idx_nth by lia. cbn [bind].
    destruct (d_carrying_mul_add_spec mult (nth i ds 0) mc) as (lo' & hi' & -> & Hlo' & Hhi' & E'); auto using nth_dok.
    rewrite upd_updl by lia. cbn [bind]. eexists; split; [reflexivity|]. unfold I.
    split; [now apply updl_digs|]. rewrite updl_length by lia. split; auto. split; auto.
    split; [rewrite updl_skipn by lia; now apply skipn_S_eq|].
    rewrite !uval_firstn_S by (rewrite ?updl_length; lia). rewrite updl_nth_same, updl_firstn by lia.
    rewrite <- (nth_of_skipn_eq ds lhs i) by (auto; lia). rewrite P_S.
    pose proof (P_pos i). nia.
  - cbn [bind]. replace (1 + (ls - 1))%nat with ls in * by lia.
    unfold nsub. destruct (Nat.leb_spec 1 (length ds)); [|lia]. cbn [bind].
    rewrite ?idx_nth by lia. cbn [bind].
    assert (EL : uval lhs = uval (firstn ls lhs) + nth ls lhs 0 * P ls).
    { rewrite (uval_sig lhs ls) by (auto; lia). apply uval_firstn_S. lia. }
    assert (ED : uval ds = uval (firstn ls ds) + nth ls lhs 0 * P ls).
    { rewrite (uval_sig ds ls).
      - rewrite uval_firstn_S by lia. rewrite <- (nth_of_skipn_eq ds lhs ls) by (auto; lia). reflexivity.
      - lia.
      - rewrite (skipn_S_eq ds lhs) by auto. exact Zl. }
    assert (Hn : nth ls ds 0 = nth ls lhs 0) by (apply nth_of_skipn_eq; auto; lia).
    rewrite Hn.
    destruct (Nat.eqb_spec ls (length ds - 1)) as [Er|Er].
    + rewrite upd_updl by lia. eexists; split; [reflexivity|].
      unfold d_wrapping_mul_add, u64_wadd, u64_wmul. rewrite Zplus_mod_idemp_l.
      set (X := mult * nth ls lhs 0 + mc).
      split; [apply updl_digs; auto; apply dok_mod|]. rewrite updl_length by lia. split; auto.
      rewrite updl_uval by lia. rewrite Hn, ER, EL, ED.
      exists (- (X / B)). pose proof (Z.div_mod X B). pose proof B_pos.
      replace (X mod B) with (X - B * (X / B)) by lia.
      replace (length lhs) with (S ls) by lia. rewrite P_S. unfold X.
      generalize ((mult * nth ls lhs 0 + mc) / B); intros q. pose proof (P_pos ls). nia.
    + destruct (d_carrying_mul_add_spec mult (nth ls lhs 0) mc) as (lo' & hi' & -> & Hlo' & Hhi' & E'); auto using nth_dok.
      rewrite upd_updl by lia. cbn [bind]. rewrite upd_updl by (rewrite updl_length; lia).
      eexists; split; [reflexivity|].
      split; [apply updl_digs; auto; now apply updl_digs|].
      rewrite !updl_length by (rewrite ?updl_length; lia). split; auto.
      exists 0. rewrite updl_uval by (rewrite updl_length; lia).
      rewrite updl_nth_other by lia. rewrite updl_uval by lia.
      assert (nth (ls + 1) ds 0 = 0) as ->.
      { apply nth_zero_of_skipn with (S ls); auto; [|lia]. rewrite (skipn_S_eq ds lhs) by auto. exact Zl. }
      rewrite Hn, ER, EL, ED. replace (ls + 1)%nat with (S ls) by lia. rewrite P_S.
      pose proof (P_pos ls). nia.
Qed.

Lemma mul_small_both_spec lhs rhs :
  digs lhs -> digs rhs -> length lhs = length rhs -> (2 <= length lhs)%nat ->
  uval (skipn 1 lhs) = 0 -> uval (skipn 1 rhs) = 0 ->
  exists ds, mul_small_both lhs rhs = Val ds /\ digs ds /\ length ds = length lhs /\
    uval ds = uval lhs * uval rhs.
Proof.
  intros Hl Hr Hlen H2 Zl Zr. unfold mul_small_both. rewrite ?idx_nth by lia. cbn [bind].
  destruct (d_carrying_mul_spec (nth 0 lhs 0) (nth 0 rhs 0)) as (lo & hi & E0 & Hlo & Hhi & E); auto using nth_dok.
  rewrite ?idx_nth by lia. cbn [bind]. rewrite E0.
  rewrite upd_updl by lia. cbn [bind]. rewrite upd_updl by (rewrite updl_length; lia).
  eexists; split; [reflexivity|]. split; [apply updl_digs; auto; now apply updl_digs|].
  rewrite !updl_length by (rewrite ?updl_length; lia). split; auto.
  rewrite updl_uval by (rewrite updl_length; lia). rewrite updl_nth_other by lia. rewrite updl_uval by lia.
  rewrite (nth_zero_of_skipn lhs 1 1) by auto.
  rewrite (uval_sig lhs 0), (uval_sig rhs 0) by (auto; lia). rewrite !uval_firstn_S by lia. cbn [firstn].
  rewrite uval_nil, P_0, P_1. lia.
Qed.

Lemma mul_digits_spec ls rs :
  digs ls -> digs rs -> length ls = length rs -> (2 <= length ls)%nat ->
  (mul_digits ls rs = Val None /\ uval ls * uval rs = 0) \/
  exists ds, mul_digits ls rs = Val (Some ds) /\ digs ds /\ length ds = length ls /\
    exists q, uval ds = uval ls * uval rs + q * P (length ls).
Proof.
  intros Hl Hr Hlen H2. unfold mul_digits.
  pose proof (rposition_nonzero_spec rs Hr) as Sr. pose proof (rposition_nonzero_spec ls Hl) as Sl.
  destruct (rposition_nonzero rs) as [ri|]; [|left; split; auto; rewrite Sr; lia].
  destruct (rposition_nonzero ls) as [li|]; [|left; split; auto; rewrite Sl; lia].
  destruct Sr as (Sr1 & Sr2 & Sr3). destruct Sl as (Sl1 & Sl2 & Sl3). right.
  destruct (Nat.eqb_spec li 0) as [->|Nl]; destruct (Nat.eqb_spec ri 0) as [->|Nr].
  - destruct (mul_small_both_spec ls rs) as (ds & -> & D & L & V); auto. cbn [bind].
    exists ds. do 3 (split; auto). exists 0. lia.
  - destruct (mul_small_lhs_spec ls rs ri) as (ds & -> & D & L & V); auto; try lia. cbn [bind].
    exists ds. auto.
  - destruct (mul_small_rhs_spec ls rs li) as (ds & -> & D & L & V); auto; try lia. cbn [bind].
    exists ds. auto.
  - destruct (sig_bits_spec ls li) as (lb & -> & B1 & B2 & B2'); auto.
    destruct (sig_bits_spec rs ri) as (rb & -> & B3 & B4 & B4'); auto. cbn [bind].
    destruct (Z.leb_spec (lb + rb) (Z.of_nat (length ls) * 64)).
    + destruct (mul_no_overflow_spec ls rs li ri) as (ds & -> & D & L & V); auto; try lia.
      { pose proof (uval_nonneg _ Hl). pose proof (uval_nonneg _ Hr).
        apply Z.lt_le_trans with (2 ^ lb * 2 ^ rb); [nia|].
        rewrite <- Z.pow_add_r, P_pow by lia. apply Z.pow_le_mono_r; lia. }
      cbn [bind]. exists ds. do 3 (split; auto). exists 0. lia.
    + destruct (mul_wrapping_spec ls rs) as (ds & -> & D & L & V); auto. cbn [bind].
      exists ds. auto.
Qed.

Lemma map_unset_all ds : map d_unset_all ds = repeat 0 (length ds).
Proof.
  induction ds as [|d r IH]; cbn [map length repeat]; auto. f_equal; auto.
  unfold d_unset_all, ZERO. apply Z.land_0_r.
Qed.

Lemma zero_is_apint w ds :
  0 < w -> length ds = required_digits w -> digs ds -> uval ds = 0 -> is_apint (mk_apint w ds) w 0.
Proof.
  intros Hw Hl Hd Hv. unfold is_apint. rewrite wf_shape. cbn.
  split; [|split; auto]. split; [now apply shape_mk|].
  rewrite Hv. apply Z.pow_pos_nonneg; lia.
Qed.

Lemma wrapping_mul_assign_spec a b :
  wf a -> wf b -> len a = len b ->
  exists c, wrapping_mul_assign a b = Val (c, Ok tt) /\
    is_apint c (len a) ((unsigned a * unsigned b) mod 2 ^ len a).
Proof.
  intros Ha Hb Hl. apply wf_sh in Ha, Hb. unfold wrapping_mul_assign.
  pose proof Ha as (Ha0 & Ha1 & Ha2). pose proof Hb as (Hb0 & Hb1 & Hb2).
  destruct (zip_access_data_spec a b Ha Hb Hl) as [(l & r & Hw & Ea & Eb & Hdl & Hdr & ->)|(Hw & ->)];
    cbn [bind].
  - unfold write_inl, unsigned. rewrite Ea, Eb. cbn [digits len]. rewrite !uval_one.
    unfold d_wrapping_mul, u64_wmul.
    destruct (clear_finish (len a) [(l * r) mod B] (l * r) (- ((l * r) / B))) as (c & -> & Hc); auto.
    + now rewrite required_digits_1 by lia.
    + apply digs_cons; split; [apply dok_mod | apply digs_nil].
    + rewrite uval_one, required_digits_1, P_1 by lia.
      pose proof (Z.div_mod (l * r) B). pose proof B_pos. lia.
    + eexists; split; [reflexivity | exact Hc].
  - destruct (mul_digits_spec (digits a) (digits b)) as [[-> E]|(ds & -> & Hd & Hn & q & E)]; auto.
    + congruence.
    + rewrite Ha1. now apply required_digits_2.
    + cbn [bind]. eexists; split; [reflexivity|]. unfold write_ext, unsigned. rewrite E, Z.mod_0_l by lia.
      rewrite map_unset_all. apply zero_is_apint; auto.
      * now rewrite repeat_length.
      * apply digs_repeat, dok_0.
      * apply uval_repeat_0.
    + cbn [bind]. unfold write_ext.
      destruct (clear_finish (len a) ds (uval (digits a) * uval (digits b)) q) as (c' & -> & Hc'); auto.
      * congruence.
      * rewrite E, Ha1. lia.
      * eexists; split; [reflexivity | exact Hc'].
Qed.
