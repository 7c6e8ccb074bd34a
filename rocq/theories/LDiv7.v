(** API-level facts about the division operations. *)
From Verif Require Export LLaws LDiv6.
From Verif Require Import MDiv.

Lemma mk_is_apint w ds u : 0 < w -> length ds = required_digits w -> digs ds -> uval ds = u -> u < 2 ^ w ->
  is_apint (mk_apint w ds) w u.
Proof.
  intros Hw Hl Hd Hu Hlt. unfold is_apint. split; [|auto].
  apply wf_shape. split; [unfold shape; auto|]. unfold unsigned; cbn [digits len]. lia.
Qed.

Lemma div_bounds x y m : 0 <= x < m -> 0 < y < m -> 0 <= x / y < m /\ 0 <= x mod y < m.
Proof.
  intros Hx Hy. pose proof (Z.mod_pos_bound x y). assert (0 <= x / y) by (apply Z.div_pos; lia).
  assert (x / y <= x) by (apply Z.div_le_upper_bound; nia). lia.
Qed.

Lemma inl_is_apint w d : 0 < w <= 64 -> 0 <= d < 2 ^ w -> is_apint (mk_apint w [d]) w d.
Proof.
  intros Hw Hd. apply mk_is_apint; [lia| | |apply uval_one|lia].
  - rewrite required_digits_1 by lia. reflexivity.
  - constructor; [|constructor]. unfold dok. split; [lia|].
    apply Z.lt_le_trans with (2 ^ w); [lia|]. replace B with (2 ^ 64) by reflexivity. apply Z.pow_le_mono_r; lia.
Qed.

(** All four unsigned operations at once. *)
Lemma udiv_all a b : wf a -> wf b -> len a = len b -> unsigned b <> 0 ->
  exists q r,
    wrapping_udivrem_assign a b = Val (q, r, Ok tt) /\
    wrapping_uremdiv_assign a b = Val (r, q, Ok tt) /\
    wrapping_udiv_assign a b = Val (q, Ok tt) /\ into_wrapping_udiv a b = Val (Ok q) /\
    wrapping_urem_assign a b = Val (r, Ok tt) /\ into_wrapping_urem a b = Val (Ok r) /\
    is_apint q (len a) (unsigned a / unsigned b) /\
    is_apint r (len a) (unsigned a mod unsigned b).
Proof.
  intros Ha Hb E Hnz. pose proof (unsigned_bound a Ha) as Ua. pose proof (unsigned_bound b Hb) as Ub.
  rewrite <- E in Ub.
  destruct (div_bounds (unsigned a) (unsigned b) (2 ^ len a) Ua) as [Qb Rb]; [lia|].
  pose proof (wf_sh a Ha) as Sa. pose proof (wf_sh b Hb) as Sb.
  destruct (zip_access_data_spec a b Sa Sb E) as [(l & r & Hw & Ea & Eb & Hl & Hr & Hz)|(Hw & Hz)].
  - assert (El : unsigned a = l) by (rewrite Ea; unfold unsigned; cbn [digits]; apply uval_one).
    assert (Er : unsigned b = r) by (rewrite Eb; unfold unsigned; cbn [digits]; apply uval_one).
    rewrite El, Er in *.
    assert (Zr : d_is_zero r = false) by (unfold d_is_zero, ZERO; apply Z.eqb_neq; auto).
    assert (Zr' : (r =? 0) = false) by (now apply Z.eqb_neq).
    exists (mk_apint (len a) [l / r]), (mk_apint (len a) [l mod r]).
    assert (D1 : wrapping_udiv_assign a b = Val (mk_apint (len a) [l / r], Ok tt)).
    { unfold wrapping_udiv_assign. rewrite Hz. cbn [bind]. rewrite Zr. cbn [negb].
      unfold d_wrapping_div. rewrite Zr'. reflexivity. }
    assert (D2 : wrapping_urem_assign a b = Val (mk_apint (len a) [l mod r], Ok tt)).
    { unfold wrapping_urem_assign. rewrite Hz. cbn [bind]. rewrite Zr. cbn [negb].
      unfold d_wrapping_rem. rewrite Zr'. reflexivity. }
    split.
    { unfold wrapping_udivrem_assign. rewrite Hz. cbn [bind]. rewrite Zr. cbn [negb].
      unfold d_wrapping_divrem, d_wrapping_div, d_wrapping_rem. rewrite Zr'. cbn [bind]. unfold write_inl. now rewrite E. }
    split.
    { unfold wrapping_uremdiv_assign. rewrite Hz. cbn [bind]. rewrite Zr. cbn [negb].
      unfold d_wrapping_divrem, d_wrapping_div, d_wrapping_rem. rewrite Zr'. cbn [bind]. unfold write_inl. now rewrite E. }
    split; [exact D1|]. split; [unfold into_wrapping_udiv; now apply try_forward_ok|].
    split; [exact D2|]. split; [unfold into_wrapping_urem; now apply try_forward_ok|].
    split; apply inl_is_apint; auto.
  - destruct Sa as (Pa & La & Da). destruct Sb as (Pb & Lb & Db).
    assert (LL : length (digits a) = length (digits b)) by congruence.
    assert (Pos : 0 < uval (digits b)) by (unfold unsigned in *; lia).
    destruct (divrem_spec _ _ Da Db LL Pos) as (d1 & v1 & E1 & F1).
    destruct (remdiv_spec _ _ Da Db LL Pos) as (v2 & d2 & E2 & F2).
    destruct F1 as (F1a & F1b & F1c & F1d & F1e & F1f). destruct F2 as (F2a & F2b & F2c & F2d & F2e & F2f).
    assert (d2 = d1) by (apply uval_inj; auto; congruence).
    assert (v2 = v1) by (apply uval_inj; auto; congruence). subst d2 v2.
    exists (mk_apint (len a) d1), (mk_apint (len a) v1).
    assert (D1 : wrapping_udiv_assign a b = Val (mk_apint (len a) d1, Ok tt)).
    { unfold wrapping_udiv_assign. rewrite Hz. cbn [bind]. rewrite E1. reflexivity. }
    assert (D2 : wrapping_urem_assign a b = Val (mk_apint (len a) v1, Ok tt)).
    { unfold wrapping_urem_assign. rewrite Hz. cbn [bind]. rewrite E2. reflexivity. }
    split.
    { unfold wrapping_udivrem_assign. rewrite Hz. cbn [bind]. rewrite E1. cbn [bind]. unfold write_ext. now rewrite E. }
    split.
    { unfold wrapping_uremdiv_assign. rewrite Hz. cbn [bind]. rewrite E2. cbn [bind]. unfold write_ext. now rewrite E. }
    split; [exact D1|]. split; [unfold into_wrapping_udiv; now apply try_forward_ok|].
    split; [exact D2|]. split; [unfold into_wrapping_urem; now apply try_forward_ok|].
    split; apply mk_is_apint; try lia; auto; congruence.
Qed.

Lemma udiv_zero_fact a b : wf a -> wf b -> len a = len b -> unsigned b = 0 ->
  wrapping_udivrem_assign a b = Val (a, b, Err (DivisionByZero UnsignedDivRem a)) /\
  wrapping_uremdiv_assign a b = Val (a, b, Err (DivisionByZero UnsignedRemDiv a)) /\
  wrapping_udiv_assign a b = Val (a, Err (DivisionByZero UnsignedDiv a)) /\
  into_wrapping_udiv a b = Val (Err (DivisionByZero UnsignedDiv a)) /\
  wrapping_urem_assign a b = Val (a, Err (DivisionByZero UnsignedRem a)) /\
  into_wrapping_urem a b = Val (Err (DivisionByZero UnsignedRem a)).
Proof.
  intros Ha Hb E Hnz.
  assert (G : forall op, division_by_zero op a = Val (DivisionByZero op a)).
  { intros op. unfold division_by_zero. now rewrite clone_spec. }
  pose proof (wf_sh a Ha) as Sa. pose proof (wf_sh b Hb) as Sb.
  assert (D : (wrapping_udivrem_assign a b = Val (a, b, Err (DivisionByZero UnsignedDivRem a)) /\
    wrapping_uremdiv_assign a b = Val (a, b, Err (DivisionByZero UnsignedRemDiv a))) /\
    wrapping_udiv_assign a b = Val (a, Err (DivisionByZero UnsignedDiv a)) /\
    wrapping_urem_assign a b = Val (a, Err (DivisionByZero UnsignedRem a))).
  2:{ destruct D as ((D1 & D2) & D3 & D4). split; [exact D1|split; [exact D2|split; [exact D3|]]].
    split; [eapply try_forward_err; exact D3|]. split; [exact D4|]. eapply try_forward_err; exact D4. }
  unfold wrapping_udivrem_assign, wrapping_uremdiv_assign, wrapping_udiv_assign, wrapping_urem_assign.
  destruct (zip_access_data_spec a b Sa Sb E) as [(l & r & Hw & Ea & Eb & Hl & Hr & Hz)|(Hw & Hz)].
  - assert (Er : unsigned b = r) by (rewrite Eb; unfold unsigned; cbn [digits]; apply uval_one).
    rewrite Hnz in Er. rewrite <- Er in Hz. rewrite Hz. cbn [bind].
    change (d_is_zero 0) with true. cbn [negb]. rewrite !G. cbn [bind]. auto.
  - destruct Sb as (Pb & Lb & Db). rewrite Hz. cbn [bind].
    rewrite divrem_zero, remdiv_zero by auto. cbn [bind].
    replace (write_ext a (digits a)) with a by now destruct a.
    replace (write_ext b (digits b)) with b by now destruct b.
    rewrite !G. cbn [bind]. auto.
Qed.

Lemma udiv_mismatch a b : len a <> len b ->
  wrapping_udivrem_assign a b = Val (a, b, Err (UnmatchingBitwidth (len a) (len b))) /\
  wrapping_uremdiv_assign a b = Val (a, b, Err (UnmatchingBitwidth (len a) (len b))) /\
  wrapping_udiv_assign a b = Val (a, Err (UnmatchingBitwidth (len a) (len b))) /\
  into_wrapping_udiv a b = Val (Err (UnmatchingBitwidth (len a) (len b))) /\
  wrapping_urem_assign a b = Val (a, Err (UnmatchingBitwidth (len a) (len b))) /\
  into_wrapping_urem a b = Val (Err (UnmatchingBitwidth (len a) (len b))).
Proof.
  intros E. unfold into_wrapping_udiv, into_wrapping_urem, try_forward_bin_mut_impl,
    wrapping_udivrem_assign, wrapping_uremdiv_assign, wrapping_udiv_assign, wrapping_urem_assign.
  rewrite !zip_access_data_mismatch by auto. cbn [bind]. auto 10.
Qed.

(** * Signed division *)

Lemma neg_if_spec f x w z : is_apint x w (z mod 2 ^ w) ->
  exists c, neg_if f x = Val c /\ is_apint c w ((if f : bool then - z else z) mod 2 ^ w).
Proof.
  intros Hx. pose proof (is_apint_pow_pos _ _ _ Hx) as (Hp & Hw & Hu). destruct Hx as (Wx & Lx & Ux).
  destruct f; cbn [neg_if].
  - destruct (wrapping_neg_spec x Wx) as (c & E & Hc). exists c. split; [exact E|].
    rewrite Lx, Ux in Hc. replace ((- z) mod 2 ^ w) with ((- (z mod 2 ^ w)) mod 2 ^ w); [exact Hc|].
    rewrite (Z.mod_eq z (2 ^ w)) by lia.
    replace (- (z - 2 ^ w * (z / 2 ^ w))) with (- z + (z / 2 ^ w) * 2 ^ w) by lia. now rewrite Z_mod_plus_full.
  - exists x. unfold is_apint. auto.
Qed.

Lemma self_signed a : wf a -> is_apint a (len a) (signed a mod 2 ^ len a).
Proof. intros H. unfold is_apint. rewrite signed_mod by auto. auto. Qed.

Lemma abs_spec a : wf a ->
  exists c, neg_if (bit a (len a - 1)) a = Val c /\ is_apint c (len a) (Z.abs (signed a)).
Proof.
  intros H. pose proof (signed_range a H) as R. pose proof (wf_len a H) as Hw.
  pose proof (pow2_double (len a) Hw) as D.
  destruct (neg_if_spec (bit a (len a - 1)) a (len a) (signed a) (self_signed a H)) as (c & E & Hc).
  exists c. split; [exact E|]. rewrite (bit_msb_neg a H) in Hc.
  replace (Z.abs (signed a)) with ((if signed a <? 0 then - signed a else signed a) mod 2 ^ len a); [exact Hc|].
  destruct (Z.ltb_spec (signed a) 0); rewrite Z.mod_small by lia; lia.
Qed.

Lemma signed_zero a : wf a -> (signed a = 0 <-> unsigned a = 0).
Proof.
  intros H. pose proof (signed_mod a H) as M. pose proof (signed_range a H) as R. pose proof (wf_len a H) as Hw.
  assert (0 < 2 ^ len a) by (apply Z.pow_pos_nonneg; lia). pose proof (pow2_double (len a) Hw) as D.
  split; intros E.
  - rewrite E in M. rewrite Z.mod_0_l in M by lia. lia.
  - rewrite E in M. apply Z.mod_divide in M; [|lia]. destruct M as (k & K).
    assert (k = 0) by nia. subst k. lia.
Qed.

Lemma quot_signs x y : y <> 0 ->
  Z.quot x y = (if xorb (x <? 0) (y <? 0) then - (Z.abs x / Z.abs y) else Z.abs x / Z.abs y).
Proof.
  intros Hy. rewrite Z.quot_div by auto.
  destruct (Z.ltb_spec x 0), (Z.ltb_spec y 0); cbn [xorb];
    rewrite ?(Z.sgn_neg x), ?(Z.sgn_neg y), ?(Z.sgn_pos y) by lia; try lia.
  - destruct (Z.eq_dec x 0) as [->|]; [|rewrite Z.sgn_pos by lia; lia].
    cbn [Z.sgn Z.abs]. rewrite Z.div_0_l by lia. lia.
  - destruct (Z.eq_dec x 0) as [->|]; [|rewrite Z.sgn_pos by lia; lia].
    cbn [Z.sgn Z.abs]. rewrite Z.div_0_l by lia. lia.
Qed.
Lemma rem_signs x y : y <> 0 ->
  Z.rem x y = (if x <? 0 then - (Z.abs x mod Z.abs y) else Z.abs x mod Z.abs y).
Proof.
  intros Hy. rewrite Z.rem_mod by auto. destruct (Z.ltb_spec x 0).
  - rewrite Z.sgn_neg by lia. lia.
  - destruct (Z.eq_dec x 0) as [->|]; [|rewrite Z.sgn_pos by lia; lia].
    cbn [Z.sgn Z.abs]. rewrite Z.mod_0_l by lia. lia.
Qed.
Lemma rem_range w x y : 0 < w -> y <> 0 -> - 2 ^ (w - 1) <= y < 2 ^ (w - 1) ->
  - 2 ^ (w - 1) <= Z.rem x y < 2 ^ (w - 1).
Proof. intros Hw Hy R. pose proof (Z.rem_bound_abs x y Hy). lia. Qed.

(** The negated quotient and remainder of the absolute values. *)
Lemma finish_q q w x y : y <> 0 -> 0 < w -> is_apint q w (Z.abs x / Z.abs y) ->
  exists c, neg_if (xorb (x <? 0) (y <? 0)) q = Val c /\ is_apint c w (Z.quot x y mod 2 ^ w).
Proof.
  intros Hy Hw Hq. pose proof (is_apint_pow_pos _ _ _ Hq) as (Hp & _ & Hu).
  rewrite <- (Z.mod_small (Z.abs x / Z.abs y) (2 ^ w)) in Hq by lia.
  destruct (neg_if_spec (xorb (x <? 0) (y <? 0)) q w _ Hq) as (c & E & Hc).
  exists c. split; [exact E|]. rewrite quot_signs by auto. exact Hc.
Qed.
Lemma finish_r r w x y : y <> 0 -> 0 < w -> is_apint r w (Z.abs x mod Z.abs y) ->
  exists c, neg_if (x <? 0) r = Val c /\ is_apint c w (Z.rem x y mod 2 ^ w).
Proof.
  intros Hy Hw Hq. pose proof (is_apint_pow_pos _ _ _ Hq) as (Hp & _ & Hu).
  rewrite <- (Z.mod_small (Z.abs x mod Z.abs y) (2 ^ w)) in Hq by lia.
  destruct (neg_if_spec (x <? 0) r w _ Hq) as (c & E & Hc).
  exists c. split; [exact E|]. rewrite rem_signs by auto. exact Hc.
Qed.

Lemma sdiv_all a b : wf a -> wf b -> len a = len b -> signed b <> 0 ->
  exists q r,
    wrapping_sdivrem_assign a b = Val (q, r, Ok tt) /\
    wrapping_sremdiv_assign a b = Val (r, q, Ok tt) /\
    wrapping_sdiv_assign a b = Val (q, Ok tt) /\ into_wrapping_sdiv a b = Val (Ok q) /\
    wrapping_srem_assign a b = Val (r, Ok tt) /\ into_wrapping_srem a b = Val (Ok r) /\
    is_apint q (len a) (Z.quot (signed a) (signed b) mod 2 ^ len a) /\
    signed q = wrap_signed (len a) (Z.quot (signed a) (signed b)) /\
    is_apint r (len a) (Z.rem (signed a) (signed b) mod 2 ^ len a) /\
    signed r = Z.rem (signed a) (signed b).
Proof.
  intros Ha Hb E Hnz. pose proof (wf_len a Ha) as Hw.
  assert (Ub : unsigned b <> 0) by (rewrite signed_zero in Hnz; auto).
  destruct (abs_spec a Ha) as (x & Ex & Hx). destruct (abs_spec b Hb) as (y & Ey & Hy).
  rewrite <- E in Hy.
  pose proof Hx as (Wx & Lx & Ux). pose proof Hy as (Wy & Ly & Uy).
  destruct (udiv_all x y) as (q0 & r0 & D1 & D2 & _ & _ & _ & _ & Hq & Hr); auto; [congruence|lia|].
  rewrite Lx, Ux, Uy in Hq, Hr.
  destruct (finish_q q0 (len a) (signed a) (signed b) Hnz Hw Hq) as (q & Eq & Hqq).
  destruct (finish_r r0 (len a) (signed a) (signed b) Hnz Hw Hr) as (r & Er & Hrr).
  exists q, r.
  assert (Zb : is_zero b = Val false).
  { rewrite is_zero_spec by (now apply wf_sh). f_equal. now apply Z.eqb_neq. }
  pose proof (msb_spec a (wf_sh a Ha)) as Ma. pose proof (msb_spec b (wf_sh b Hb)) as Mb.
  assert (Ma' : bit a (len a - 1) = (signed a <? 0)) by (now apply bit_msb_neg).
  assert (Mb' : bit b (len b - 1) = (signed b <? 0)) by (now apply bit_msb_neg).
  rewrite Ma' in *. rewrite Mb' in *.
  assert (S1 : wrapping_sdiv_assign a b = Val (q, Ok tt)).
  { unfold wrapping_sdiv_assign. rewrite Zb. cbn [bind]. rewrite clone_spec by auto. cbn [bind].
    rewrite Ma, Mb. cbn [bind]. rewrite Ex, Ey. cbn [bind]. rewrite D1. cbn [unwrap_mut2 unwrap bind].
    destruct (signed a <? 0), (signed b <? 0); cbn [xorb] in Eq; rewrite Eq; reflexivity. }
  assert (S2 : wrapping_srem_assign a b = Val (r, Ok tt)).
  { unfold wrapping_srem_assign. rewrite Zb. cbn [bind]. rewrite clone_spec by auto. cbn [bind].
    rewrite Ma, Mb. cbn [bind]. rewrite Ex, Ey. cbn [bind]. rewrite D2. cbn [unwrap_mut2 unwrap bind].
    destruct (signed a <? 0), (signed b <? 0); cbn [xorb] in Er; rewrite Er; reflexivity. }
  split.
  { unfold wrapping_sdivrem_assign. rewrite Zb. cbn [bind].
    rewrite Ma, Mb. cbn [bind].
    destruct (signed a <? 0), (signed b <? 0); rewrite Ex, Ey; cbn [bind]; rewrite D1;
      cbn [unwrap_mut2 unwrap bind]; cbn [xorb] in Eq; rewrite Eq; cbn [bind]; rewrite Er; reflexivity. }
  split.
  { unfold wrapping_sremdiv_assign. rewrite Zb. cbn [bind].
    rewrite Ma, Mb. cbn [bind].
    destruct (signed a <? 0), (signed b <? 0); rewrite Ex, Ey; cbn [bind]; rewrite D2;
      cbn [unwrap_mut2 unwrap bind]; cbn [xorb] in Eq; rewrite Er; cbn [bind]; rewrite Eq; reflexivity. }
  split; [exact S1|]. split; [eapply try_forward_ok; exact S1|].
  split; [exact S2|]. split; [eapply try_forward_ok; exact S2|].
  split; [exact Hqq|]. split; [now apply is_apint_signed|]. split; [exact Hrr|].
  rewrite (is_apint_signed r (len a) (Z.rem (signed a) (signed b))) by auto.
  apply wrap_signed_small; auto. apply rem_range; auto. rewrite E. now apply signed_range.
Qed.

Lemma sdiv_zero_fact a b : wf a -> wf b -> unsigned b = 0 ->
  wrapping_sdivrem_assign a b = Val (a, b, Err (DivisionByZero SignedDivRem a)) /\
  wrapping_sremdiv_assign a b = Val (a, b, Err (DivisionByZero SignedRemDiv a)) /\
  wrapping_sdiv_assign a b = Val (a, Err (DivisionByZero SignedDiv a)) /\
  into_wrapping_sdiv a b = Val (Err (DivisionByZero SignedDiv a)) /\
  wrapping_srem_assign a b = Val (a, Err (DivisionByZero SignedRem a)) /\
  into_wrapping_srem a b = Val (Err (DivisionByZero SignedRem a)).
Proof.
  intros Ha Hb Hz.
  assert (G : forall op, division_by_zero op a = Val (DivisionByZero op a)).
  { intros op. unfold division_by_zero. now rewrite clone_spec. }
  assert (Zb : is_zero b = Val true).
  { rewrite is_zero_spec by (now apply wf_sh). f_equal. now apply Z.eqb_eq. }
  unfold into_wrapping_sdiv, into_wrapping_srem, try_forward_bin_mut_impl, wrapping_sdivrem_assign,
    wrapping_sremdiv_assign, wrapping_sdiv_assign, wrapping_srem_assign.
  rewrite Zb. cbn [bind]. rewrite !G. cbn [bind]. auto 10.
Qed.

Lemma sdiv_mismatch_panic a b : wf a -> wf b -> len a <> len b -> unsigned b <> 0 ->
  wrapping_sdivrem_assign a b = Panic /\ wrapping_sremdiv_assign a b = Panic /\
  wrapping_sdiv_assign a b = Panic /\ into_wrapping_sdiv a b = Panic /\
  wrapping_srem_assign a b = Panic /\ into_wrapping_srem a b = Panic.
Proof.
  intros Ha Hb E Hnz.
  destruct (abs_spec a Ha) as (x & Ex & Hx). destruct (abs_spec b Hb) as (y & Ey & Hy).
  destruct Hx as (Wx & Lx & Ux). destruct Hy as (Wy & Ly & Uy).
  destruct (udiv_mismatch x y) as (D1 & D2 & _); [congruence|].
  assert (Zb : is_zero b = Val false).
  { rewrite is_zero_spec by (now apply wf_sh). f_equal. now apply Z.eqb_neq. }
  pose proof (msb_spec a (wf_sh a Ha)) as Ma. pose proof (msb_spec b (wf_sh b Hb)) as Mb.
  assert (S1 : wrapping_sdiv_assign a b = Panic).
  { unfold wrapping_sdiv_assign. rewrite Zb. cbn [bind]. rewrite clone_spec by auto. cbn [bind].
    rewrite Ma, Mb. cbn [bind]. rewrite Ex, Ey. cbn [bind]. rewrite D1. reflexivity. }
  assert (S2 : wrapping_srem_assign a b = Panic).
  { unfold wrapping_srem_assign. rewrite Zb. cbn [bind]. rewrite clone_spec by auto. cbn [bind].
    rewrite Ma, Mb. cbn [bind]. rewrite Ex, Ey. cbn [bind]. rewrite D2. reflexivity. }
  split.
  { unfold wrapping_sdivrem_assign. rewrite Zb. cbn [bind]. rewrite Ma, Mb. cbn [bind].
    destruct (bit a (len a - 1)), (bit b (len b - 1)); rewrite Ex, Ey; cbn [bind]; rewrite D1; reflexivity. }
  split.
  { unfold wrapping_sremdiv_assign. rewrite Zb. cbn [bind]. rewrite Ma, Mb. cbn [bind].
    destruct (bit a (len a - 1)), (bit b (len b - 1)); rewrite Ex, Ey; cbn [bind]; rewrite D2; reflexivity. }
  split; [exact S1|]. split; [unfold into_wrapping_sdiv, try_forward_bin_mut_impl; now rewrite S1|].
  split; [exact S2|]. unfold into_wrapping_srem, try_forward_bin_mut_impl; now rewrite S2.
Qed.

(** * The statements of the properties *)

Lemma sdiv_mismatch_refuted : exists a b, wf a /\ wf b /\ len a <> len b /\
  forall e, into_wrapping_sdiv a b <> Val (Err e) /\ into_wrapping_srem a b <> Val (Err e).
Proof.
  exists (mk_apint 8 [7]), (mk_apint 16 [2]).
  assert (W1 : wf (mk_apint 8 [7])) by (apply (inl_is_apint 8 7); lia).
  assert (W2 : wf (mk_apint 16 [2])) by (apply (inl_is_apint 16 2); lia).
  do 2 (split; [assumption|]). split; [cbn [len]; discriminate|]. intros e.
  destruct (sdiv_mismatch_panic _ _ W1 W2) as (_ & _ & _ & E1 & _ & E2); [discriminate|discriminate|].
  rewrite E1, E2. split; discriminate.
Qed.

Lemma udiv_identity a b : wf a -> wf b -> len a = len b -> unsigned b <> 0 ->
  exists q r,
    into_wrapping_udiv a b = Val (Ok q) /\ into_wrapping_urem a b = Val (Ok r) /\
    wrapping_udivrem_assign a b = Val (q, r, Ok tt) /\ wrapping_uremdiv_assign a b = Val (r, q, Ok tt) /\
    checked_ult r b = Val (Ok true) /\ unsigned a = unsigned q * unsigned b + unsigned r /\
    (let? p := into_wrapping_mul q b in into_wrapping_add p r) = Val (Ok a).
Proof.
  intros Ha Hb E Hnz. destruct (udiv_all a b Ha Hb E Hnz) as (q & r & D1 & D2 & _ & D3 & _ & D4 & Hq & Hr).
  exists q, r. pose proof (unsigned_bound b Hb) as Ub. pose proof (unsigned_bound a Ha) as Ua.
  pose proof (Z.mod_pos_bound (unsigned a) (unsigned b)) as Mb.
  pose proof (Z.div_mod (unsigned a) (unsigned b) Hnz) as DM.
  do 4 (split; [assumption|]).
  pose proof Hq as (Wq & Lq & Uq). pose proof Hr as (Wr & Lr & Ur).
  split; [|split].
  - rewrite (proj1 (ucmp_fact r b Wr Hb ltac:(congruence))). f_equal. f_equal. apply Z.ltb_lt. lia.
  - rewrite Uq, Ur. lia.
  - assert (Db : is_apint b (len a) (unsigned b)) by (unfold is_apint; auto).
    eapply denotes_eq; [|apply denotes_ok; apply self_den; auto].
    eapply denotes_bind; [apply mul_den; eassumption|]. intros c Hc.
    eapply denotes_val; [apply add_den; eassumption|].
    rewrite Zplus_mod_idemp_l. rewrite Z.mod_small by lia. lia.
Qed.

Lemma sdiv_identity a b : wf a -> wf b -> len a = len b -> unsigned b <> 0 ->
  exists q r,
    into_wrapping_sdiv a b = Val (Ok q) /\ into_wrapping_srem a b = Val (Ok r) /\
    wrapping_sdivrem_assign a b = Val (q, r, Ok tt) /\ wrapping_sremdiv_assign a b = Val (r, q, Ok tt) /\
    Z.abs (signed r) < Z.abs (signed b) /\ (signed r = 0 \/ Z.sgn (signed r) = Z.sgn (signed a)) /\
    (let? p := into_wrapping_mul q b in into_wrapping_add p r) = Val (Ok a).
Proof.
  intros Ha Hb E Hnz. assert (Hs : signed b <> 0) by (rewrite signed_zero; auto).
  destruct (sdiv_all a b Ha Hb E Hs) as (q & r & D1 & D2 & _ & D3 & _ & D4 & Hq & _ & Hr & Sr).
  exists q, r. do 4 (split; [assumption|]). rewrite Sr.
  split; [apply Z.rem_bound_abs; auto|]. split.
  { destruct (Z.eq_dec (Z.rem (signed a) (signed b)) 0); [left; auto|right]. apply Z.rem_sign_nz; auto. }
  pose proof (self_signed b Hb) as Db. rewrite <- E in Db.
  eapply denotes_eq; [|apply denotes_ok; apply (self_signed a Ha)].
  eapply denotes_bind; [apply mul_den; eassumption|]. intros c Hc.
  eapply denotes_val; [apply add_den; eassumption|].
  rewrite <- Zmult_mod, <- Zplus_mod. f_equal.
  rewrite (Z.mul_comm (Z.quot _ _)). symmetry. apply Z.quot_rem, Hs.
Qed.

Lemma udiv_den a b w u v : is_apint a w u -> is_apint b w v -> v <> 0 -> denotes (into_wrapping_udiv a b) w (u / v).
Proof.
  intros (A & <- & <-) (Bb & E & <-) N.
  destruct (udiv_all a b A Bb (eq_sym E) N) as (q & r & _ & _ & _ & H & _ & _ & Hq & _). exists q; auto.
Qed.

Lemma shift_div_fact a s : wf a -> 0 <= s < len a ->
  (forall p, is_apint p (len a) (2 ^ s) ->
    into_wrapping_lshr a s = into_wrapping_udiv a p /\ into_wrapping_shl a s = into_wrapping_mul a p).
Proof.
  intros Ha Hs p Hp. assert (0 < 2 ^ s) by (apply Z.pow_pos_nonneg; lia). split.
  - eapply denotes_eq; [eapply lshr_den; [apply self_den; auto|lia]|].
    apply udiv_den; [apply self_den; auto|assumption|lia].
  - assert (s + 0 < len a) by (clear - Hs; lia).
    destruct (shift_fact a s 0 Ha (proj1 Hs) (Z.le_refl 0)) as (_ & _ & _ & F & _); [assumption|]. apply F, Hp.
Qed.
