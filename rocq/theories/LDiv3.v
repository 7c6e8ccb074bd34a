(** Proofs about division, part 3: subtracting a shifted multiple of the divisor. *)
From Verif Require Export LDiv2.

Lemma dd_wmul_dok a b : dok a -> dok b -> dd_wmul (dd a) (dd b) = a * b /\ 0 <= a * b < BB.
Proof.
  intros Ha Hb. pose proof BB_B. unfold dok in *. assert (0 <= a * b < BB) by nia.
  unfold dd_wmul, dd. split; [apply Z.mod_small|]; auto.
Qed.
Lemma dd_wmul_add a b c : dok a -> dok b -> dok c ->
  dd_wadd (dd_wmul (dd a) (dd b)) (dd c) = a * b + c /\ 0 <= a * b + c < BB.
Proof.
  intros Ha Hb Hc. destruct (dd_wmul_dok a b Ha Hb) as [-> _]. pose proof BB_B. unfold dok in *.
  assert (0 <= a * b + c < BB) by nia. unfold dd_wadd, dd. split; [apply Z.mod_small|]; auto.
Qed.
Lemma dd_shl_dok x b : 0 <= x <= B -> 0 <= b < 64 ->
  dd_shl (dd x) b = Val (x * 2 ^ b) /\ 0 <= x * 2 ^ b < BB /\ 0 < 2 ^ b /\ 2 * 2 ^ b <= B.
Proof.
  intros Hx Hb.
  assert (Hpb : 0 < 2 ^ b) by (apply Z.pow_pos_nonneg; lia).
  assert (HpB : 2 * 2 ^ b <= B).
  { rewrite B_pow. rewrite <- (Z.pow_succ_r 2 b) by lia. apply Z.pow_le_mono_r; lia. }
  pose proof BB_B. pose proof B_pos. assert (0 <= x * 2 ^ b < BB) by nia.
  unfold dd_shl, dd. destruct (Z.ltb_spec b 128); [|lia]. rewrite Z.shiftl_mul_pow2 by lia.
  rewrite Z.mod_small by auto. auto.
Qed.
Lemma hi_bound x p : 0 <= x < BB -> x <= B * p -> 0 <= dd_hi x <= p.
Proof.
  intros Hx Hp. destruct (dd_lo_hi x Hx) as (E & Hl & Hh). unfold dok in *. pose proof B_pos. nia.
Qed.
Lemma hi_bound_lt x p : 0 <= x < BB -> x < B * p -> 0 <= dd_hi x < p.
Proof.
  intros Hx Hp. destruct (dd_lo_hi x Hx) as (E & Hl & Hh). unfold dok in *. pose proof B_pos. nia.
Qed.
Lemma mod_step x y m k : 0 < m -> 0 <= x < m -> x = y + k * m -> x = y mod m.
Proof. intros Hm Hx E. apply (Z.mod_unique _ _ (- k)); [left; auto|lia]. Qed.

(** ** The multiplier fits one digit *)
Lemma sub_lo_spec duo div sd dg b mul :
  digs duo -> digs div -> (dg <= sd < length duo)%nat -> (sd - dg < length div)%nat ->
  0 <= b < 64 -> dok mul ->
  exists duo', sub_lo duo div sd dg b mul = Val duo' /\ digs duo' /\ length duo' = length duo /\
    skipn (S sd) duo' = skipn (S sd) duo /\
    uval (firstn (S sd) duo') =
      (uval (firstn (S sd) duo) - mul * 2 ^ b * P dg * uval (firstn (S sd - dg) div)) mod P (S sd).
Proof.
  intros Hd Hv Hs Hl Hb Hm. unfold sub_lo. rewrite (dd_lo_small mul Hm).
  rewrite ?idx_nth by lia. cbn [bind].
  destruct (dd_shl_dok (nth 0 div 0) b) as (-> & S1 & Hpb & HpB); auto.
  { pose proof (nth_dok 0 div Hv). unfold dok in *. lia. }
  cbn [bind]. destruct (dd_lo_hi _ S1) as (E0 & Hlo0 & Hhi0).
  assert (Hw0 : 0 <= dd_hi (nth 0 div 0 * 2 ^ b) < 2 ^ b).
  { apply hi_bound_lt; auto. pose proof (nth_dok 0 div Hv). unfold dok in *. nia. }
  set (s0 := dd_lo (nth 0 div 0 * 2 ^ b)) in *. set (w0 := dd_hi (nth 0 div 0 * 2 ^ b)) in *.
  destruct (dd_wmul_dok mul s0 Hm Hlo0) as (-> & Hm0).
  destruct (dd_lo_hi _ Hm0) as (E1 & Hlo1 & Hhi1).
  set (m0 := dd_lo (mul * s0)) in *. set (c0 := dd_hi (mul * s0)) in *.
  rewrite d_not_spec by auto.
  destruct (dd_add3_spec (B - 1 - m0) (nth dg duo 0) ONE) as (T1 & T2 & T3); auto using nth_dok.
  { unfold dok in *; lia. } { unfold ONE; lia. }
  cbv zeta in *. set (t2 := dd_wadd _ (dd ONE)) in *.
  rewrite upd_updl by lia. cbn [bind].
  pose (I := fun i (st : list Z * Z * Z * Z) => let '(x, w, mc, ac) := st in
    digs x /\ length x = length duo /\ skipn i x = skipn i duo /\
    0 <= w < 2 ^ b /\ dok mc /\ 0 <= ac <= 1 /\
    exists Sk Mk, Sk + w * P (i - dg) = uval (firstn (i - dg) div) * 2 ^ b /\
      Mk + mc * P (i - dg) = mul * Sk /\
      uval (firstn i x) + ac * P i = uval (firstn i duo) + P i - P dg * Mk).
  destruct (for_range_inv I (sub_lo_step div dg b mul) (sd - dg) (dg + 1) (updl duo dg (dd_lo t2), w0, c0, dd_hi t2))
    as ([[[x w] mc] ac] & -> & Hi).
  - unfold I. rewrite updl_length by lia. do 2 (split; [solve [auto using updl_digs]|]).
    replace (dg + 1)%nat with (S dg) by lia.
    split; [apply updl_skipn; lia|]. split; [auto|]. split; [auto|]. split; [auto|].
    exists s0, m0. replace (S dg - dg)%nat with 1%nat by lia.
    rewrite (uval_firstn_S div 0) by lia. change (firstn 0 div) with (@nil Z). rewrite uval_nil, P_0, P_1.
    split; [lia|]. split; [lia|]. rewrite uval_firstn_updl, uval_firstn_S, P_S by lia. cbn [firstn]. unfold ONE in *. nia.
  - intros i [[[x w] mc] ac] Hi (I1 & I2 & I3 & I4 & I5 & I6 & Sk & Mk & I7 & I8 & I9).
    unfold sub_lo_step, nsub. destruct (Nat.leb_spec dg i); [|lia]. cbn [bind].
    rewrite ?idx_nth by lia. cbn [bind].
    destruct (dd_shl_dok (nth (i - dg) div 0) b) as (-> & R1 & _ & _); auto.
    { pose proof (nth_dok (i - dg) div Hv). unfold dok in *. lia. }
    cbn [bind]. assert (EO : dd_or (nth (i - dg) div 0 * 2 ^ b) (dd w) = nth (i - dg) div 0 * 2 ^ b + w).
    { unfold dd_or, dd. apply lor_add_low; lia. }
    rewrite EO. clear EO.
    assert (R2 : 0 <= nth (i - dg) div 0 * 2 ^ b + w < BB /\ nth (i - dg) div 0 * 2 ^ b + w < B * 2 ^ b).
    { pose proof (nth_dok (i - dg) div Hv). unfold dok in *. pose proof BB_B. nia. }
    destruct R2 as [R2 R3]. destruct (dd_lo_hi _ R2) as (F0 & G0 & G1).
    pose proof (hi_bound_lt _ _ R2 R3) as G2.
    set (lo0 := dd_lo (nth (i - dg) div 0 * 2 ^ b + w)) in *.
    set (hi0 := dd_hi (nth (i - dg) div 0 * 2 ^ b + w)) in *.
    destruct (dd_wmul_add mul lo0 mc) as (-> & R4); auto.
    destruct (dd_lo_hi _ R4) as (F1 & G3 & G4).
    set (lo1 := dd_lo (mul * lo0 + mc)) in *. set (hi1 := dd_hi (mul * lo0 + mc)) in *.
    rewrite d_not_spec by auto. rewrite ?idx_nth by lia. cbn [bind].
    destruct (dd_add3_spec (B - 1 - lo1) (nth i x 0) ac) as (K1 & K2 & K3); auto using nth_dok.
    { unfold dok in *; lia. }
    cbv zeta in *. set (t := dd_wadd _ (dd ac)) in *.
    rewrite upd_updl by lia. cbn [bind]. eexists; split; [reflexivity|]. unfold I.
    rewrite updl_length by lia. do 2 (split; [solve [auto using updl_digs]|]).
    split; [now apply updl_skipn_S; [lia|]|]. split; [auto|]. split; [auto|]. split; [auto|].
    replace (S i - dg)%nat with (S (i - dg)) by lia. rewrite uval_firstn_S by lia.
    exists (Sk + lo0 * P (i - dg)), (Mk + lo1 * P (i - dg)). rewrite P_S.
    split; [transitivity (Sk + (lo0 + B * hi0) * P (i - dg)); [ring|rewrite F0]; nia|].
    split; [transitivity (Mk + (lo1 + B * hi1) * P (i - dg)); [ring|rewrite F1]; nia|].
    rewrite uval_firstn_updl, uval_firstn_S, P_S by lia.
    rewrite <- (nth_of_skipn_eq x duo i) by (auto; lia).
    assert (EP : P i = P dg * P (i - dg)) by (rewrite <- P_add; f_equal; lia).
    transitivity (uval (firstn i x) + (dd_lo t + B * dd_hi t) * P i); [ring|]. rewrite K3.
    transitivity ((uval (firstn i x) + ac * P i) + (B - 1 - lo1 + nth i x 0) * P i); [ring|]. rewrite I9, EP. ring.
  - destruct Hi as (I1 & I2 & I3 & I4 & I5 & I6 & Sk & Mk & I7 & I8 & I9). cbn [bind].
    replace (dg + 1 + (sd - dg))%nat with (S sd) in * by lia.
    eexists; split; [reflexivity|]. split; [auto|]. split; [auto|]. split; [auto|].
    apply (mod_step _ _ _ (1 - ac + mul * w + mc)); [apply P_pos|apply firstn_bound; auto; lia|].
    assert (EP : P (S sd) = P dg * P (S sd - dg)) by (rewrite <- P_add; f_equal; lia).
    set (V := uval (firstn (S sd - dg) div)) in *. set (Q := P (S sd - dg)) in *.
    assert (uval (firstn (S sd) x) = uval (firstn (S sd) duo) + P (S sd) - P dg * Mk - ac * P (S sd)) as -> by lia.
    assert (Mk = mul * Sk - mc * Q) as -> by lia. assert (Sk = V * 2 ^ b - w * Q) as -> by lia.
    rewrite EP. ring.
Qed.

(** ** The multiplier has a 65th bit *)
Lemma sub_hi_spec duo div sd dg b mul :
  digs duo -> digs div -> (dg <= sd < length duo)%nat -> (sd - dg < length div)%nat ->
  0 <= b < 64 -> B <= mul < 2 * B ->
  exists duo', sub_hi duo div sd dg b mul = Val duo' /\ digs duo' /\ length duo' = length duo /\
    skipn (S sd) duo' = skipn (S sd) duo /\
    uval (firstn (S sd) duo') =
      (uval (firstn (S sd) duo) - mul * 2 ^ b * P dg * uval (firstn (S sd - dg) div)) mod P (S sd).
Proof.
  intros Hd Hv Hs Hl Hb Hmul. unfold sub_hi.
  assert (HmBB : 0 <= mul < BB) by (rewrite BB_B; pose proof B_gt1; nia).
  destruct (dd_lo_hi mul HmBB) as (Em & Hm & Hmh).
  assert (dd_hi mul = 1) as Eh by (unfold dok in *; nia). rewrite Eh in *. clear Hmh.
  set (m := dd_lo mul) in *.
  rewrite ?idx_nth by lia. cbn [bind].
  destruct (d_carrying_mul_spec m (nth 0 div 0)) as (t0 & mc0 & -> & Ht0 & Hmc0 & E0); auto using nth_dok.
  rewrite d_not_spec by auto.
  assert (EA : dd_wadd (dd (B - 1 - t0)) (dd ONE) = B - t0).
  { unfold dd_wadd, dd, ONE. rewrite Z.mod_small; [lia|]. rewrite BB_B. pose proof B_gt1. unfold dok in *. nia. }
  rewrite EA. clear EA.
  destruct (dd_shl_dok (B - t0) b) as (EA & S1 & Hpb & HpB); auto.
  { unfold dok in *. lia. }
  unfold dd at 1 in EA. rewrite EA. clear EA. cbn [bind]. destruct (dd_lo_hi _ S1) as (E1 & Hlo0 & Hhi0).
  assert (Hw0 : 0 <= dd_hi ((B - t0) * 2 ^ b) <= 2 ^ b).
  { apply hi_bound; auto. unfold dok in *. nia. }
  set (s0 := dd_lo ((B - t0) * 2 ^ b)) in *. set (w0 := dd_hi ((B - t0) * 2 ^ b)) in *.
  destruct (d_carrying_add_spec s0 (nth dg duo 0)) as (x0 & c0 & -> & Hx0 & Hc0 & E2); auto using nth_dok.
  rewrite upd_updl by lia. cbn [bind].
  pose (I := fun i (st : list Z * Z * Z * Z * Z) => let '(x, mc, a0, w, a1) := st in
    digs x /\ length x = length duo /\ skipn i x = skipn i duo /\
    dok mc /\ 0 <= a0 <= 1 /\ 0 <= w <= 2 ^ b /\ 0 <= a1 <= 1 /\
    exists Tk Uk Vk, Tk + mc * P (i - dg) = m * uval (firstn (i - dg) div) /\
      Uk + a0 * P (i - dg) = Tk + B * uval (firstn (i - dg - 1) div) /\
      Vk + w * P (i - dg) = (P (i - dg) - Uk) * 2 ^ b /\
      uval (firstn i x) + a1 * P i = uval (firstn i duo) + P dg * Vk).
  destruct (for_range_inv I (sub_hi_step div dg b m) (sd - dg) (dg + 1) (updl duo dg x0, mc0, ZERO, w0, c0))
    as ([[[[x mc] a0] w] a1] & -> & Hi).
  - unfold I. rewrite updl_length by lia. do 2 (split; [solve [auto using updl_digs]|]).
    replace (dg + 1)%nat with (S dg) by lia.
    split; [apply updl_skipn; lia|]. split; [auto|]. split; [unfold ZERO; lia|]. split; [auto|]. split; [auto|].
    exists t0, t0, s0. replace (S dg - dg)%nat with 1%nat by lia. cbn [Nat.sub].
    rewrite (uval_firstn_S div 0) by lia. change (firstn 0 div) with (@nil Z). rewrite uval_nil, P_0, P_1. unfold ZERO.
    split; [lia|]. split; [lia|]. split; [lia|]. rewrite uval_firstn_updl, uval_firstn_S, P_S by lia. nia.
  - intros i [[[[x mc] a0] w] a1] Hi (I1 & I2 & I3 & I4 & I5 & I6 & I10 & Tk & Uk & Vk & I7 & I8 & I9 & I11).
    unfold sub_hi_step, nsub. destruct (Nat.leb_spec dg i); [|lia]. cbn [bind].
    rewrite ?idx_nth by lia. cbn [bind]. destruct (Nat.leb_spec 1 (i - dg)); [|lia]. cbn [bind].
    rewrite ?idx_nth by lia. cbn [bind].
    destruct (dd_wmul_add m (nth (i - dg) div 0) mc) as (-> & R0); auto using nth_dok.
    destruct (dd_lo_hi _ R0) as (F0 & G0 & G1).
    set (lo0 := dd_lo (m * _ + mc)) in *. set (hi0 := dd_hi (m * _ + mc)) in *.
    destruct (dd_add3_spec lo0 (nth (i - dg - 1) div 0) a0) as (K0 & K1 & K2); auto using nth_dok.
    cbv zeta in *. set (t1 := dd_wadd _ (dd a0)) in *.
    rewrite d_not_spec by auto.
    destruct (dd_shl_dok (B - 1 - dd_lo t1) b) as (-> & R1 & _ & _); auto.
    { unfold dok in *. lia. }
    cbn [bind].
    assert (R2 : 0 <= (B - 1 - dd_lo t1) * 2 ^ b + w < BB /\ (B - 1 - dd_lo t1) * 2 ^ b + w <= B * 2 ^ b).
    { rewrite BB_B. unfold dok in *. nia. }
    destruct R2 as [R2 R3]. destruct (dd_lo_hi _ R2) as (F1 & G3 & G4).
    pose proof (hi_bound _ _ R2 R3) as G2.
    assert (EA : dd_wadd ((B - 1 - dd_lo t1) * 2 ^ b) (dd w) = (B - 1 - dd_lo t1) * 2 ^ b + w).
    { unfold dd_wadd, dd. now apply Z.mod_small. }
    rewrite EA. clear EA.
    set (t2 := (B - 1 - dd_lo t1) * 2 ^ b + w) in *.
    rewrite ?idx_nth by lia. cbn [bind].
    destruct (dd_add3_spec (dd_lo t2) (nth i x 0) a1) as (K3 & K4 & K5); auto using nth_dok.
    cbv zeta in *. set (t3 := dd_wadd _ (dd a1)) in *.
    rewrite upd_updl by lia. cbn [bind]. eexists; split; [reflexivity|]. unfold I.
    rewrite updl_length by lia. do 2 (split; [solve [auto using updl_digs]|]).
    split; [now apply updl_skipn_S; [lia|]|]. do 4 (split; [solve [auto]|]).
    replace (S i - dg)%nat with (S (i - dg)) by lia. replace (S (i - dg) - 1)%nat with (S (i - dg - 1)) by lia.
    rewrite !uval_firstn_S by lia.
    assert (EQ : P (i - dg) = B * P (i - dg - 1)) by (rewrite <- P_S; f_equal; lia).
    exists (Tk + lo0 * P (i - dg)), (Uk + dd_lo t1 * P (i - dg)), (Vk + dd_lo t2 * P (i - dg)). rewrite P_S.
    split; [transitivity (Tk + (lo0 + B * hi0) * P (i - dg)); [ring|rewrite F0]; lia|].
    split; [transitivity (Uk + (dd_lo t1 + B * dd_hi t1) * P (i - dg)); [ring|rewrite K2];
            rewrite EQ in *; lia|].
    split; [transitivity (Vk + (dd_lo t2 + B * dd_hi t2) * P (i - dg)); [ring|rewrite F1]; unfold t2; lia|].
    rewrite uval_firstn_updl by lia. rewrite P_S.
    rewrite (uval_firstn_S duo i) by lia. rewrite <- (nth_of_skipn_eq x duo i) by (auto; lia).
    assert (EP : P i = P dg * P (i - dg)) by (rewrite <- P_add; f_equal; lia).
    transitivity (uval (firstn i x) + (dd_lo t3 + B * dd_hi t3) * P i); [ring|]. rewrite K5.
    transitivity ((uval (firstn i x) + a1 * P i) + (dd_lo t2 + nth i x 0) * P i); [ring|]. rewrite I11, EP. ring.
  - destruct Hi as (I1 & I2 & I3 & I4 & I5 & I6 & I10 & Tk & Uk & Vk & I7 & I8 & I9 & I11). cbn [bind].
    replace (dg + 1 + (sd - dg))%nat with (S sd) in * by lia.
    eexists; split; [reflexivity|]. split; [auto|]. split; [auto|]. split; [auto|].
    set (k := (S sd - dg)%nat) in *.
    assert (EV : uval (firstn k div) = uval (firstn (k - 1) div) + nth (k - 1) div 0 * P (k - 1)).
    { replace k with (S (k - 1)) at 1 by lia. apply uval_firstn_S. lia. }
    assert (EQ : P k = B * P (k - 1)) by (rewrite <- P_S; f_equal; lia).
    set (y := nth (k - 1) div 0) in *.
    apply (mod_step _ _ _ (2 ^ b + 2 ^ b * a0 + 2 ^ b * mc - w - a1 + 2 ^ b * y)); [apply P_pos|apply firstn_bound; auto; lia|].
    assert (EP : P (S sd) = P dg * P k) by (rewrite <- P_add; f_equal; lia).
    set (D := uval (firstn k div)) in *. set (D1 := uval (firstn (k - 1) div)) in *.
    assert (uval (firstn (S sd) x) = uval (firstn (S sd) duo) + P dg * Vk - a1 * P (S sd)) as -> by lia.
    assert (Vk = (P k - Uk) * 2 ^ b - w * P k) as -> by lia.
    assert (Uk = Tk + B * D1 - a0 * P k) as -> by lia.
    assert (Tk = m * D - mc * P k) as -> by lia.
    rewrite EP, EQ, <- Em. assert (D1 = D - y * P (k - 1)) as -> by lia. ring.
Qed.
