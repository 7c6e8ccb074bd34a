(** Lemmas for C81: the additions that report overflow. *)
From Coq Require Import ZArith List Lia Bool.
From Verif Require Import LFacts.
Import ListNotations.
Open Scope Z_scope.

Lemma add_prefix_spec ls rs m :
  digs ls -> digs rs -> length ls = length rs -> (0 < m <= length ls)%nat ->
  exists lo c0, d_carrying_add (nth 0 ls 0) (nth 0 rs 0) = (lo, c0) /\
  exists ds c, for_range (m - 1) 1 (add_step rs) (updl ls 0 lo, c0) = Val (ds, c) /\ digs ds /\ length ds = length ls /\
    0 <= c <= 1 /\ skipn m ds = skipn m ls /\ uval (firstn m ds) + c * P m = uval (firstn m ls) + uval (firstn m rs).
Proof.
  intros Hl Hr He Hn.
  destruct (d_carrying_add_spec (nth 0 ls 0) (nth 0 rs 0)) as (lo & c & Ec & Hlo & Hc & E); auto using nth_dok.
  exists lo, c. split; [exact Ec|].
  pose (I := fun i (st : list Z * Z) =>
    let '(ds, c) := st in
    digs ds /\ length ds = length ls /\ 0 <= c <= 1 /\ skipn i ds = skipn i ls /\
    uval (firstn i ds) + c * P i = uval (firstn i ls) + uval (firstn i rs)).
  destruct (for_range_inv I (add_step rs) (m - 1) 1 (updl ls 0 lo, c))
    as ([ds c'] & Ef & Hi).
  - unfold I. rewrite updl_length by lia. split; [now apply updl_digs|]. split; auto. split; auto.
    split; [now apply updl_skipn; lia|].
    rewrite !uval_firstn_S by (rewrite ?updl_length; lia). rewrite updl_nth_same by lia.
    cbn [firstn]. rewrite !uval_nil, P_0, P_1. lia.
  - intros i [ds c'] Hi (I1 & I2 & I3 & I4 & I5).
    unfold add_step. rewrite !idx_nth by lia. cbn [bind]. rewrite upd_updl by lia. cbn [bind].
    destruct (dd_add3_spec (nth i ds 0) (nth i rs 0) c') as (S1 & S2 & S3); auto using nth_dok.
    cbv zeta in *. set (t := dd_wadd _ _) in *.
    eexists; split; [reflexivity|]. unfold I.
    split; [apply updl_digs; auto|]. rewrite updl_length by lia. split; auto. split; auto.
    assert (nth i ds 0 = nth i ls 0) as En.
    { rewrite <- (firstn_skipn i ds), <- (firstn_skipn i ls).
      rewrite !app_nth2; rewrite ?firstn_length_le by lia; try lia.
      now rewrite I4. }
    split.
    + rewrite updl_skipn by lia.
      replace (S i) with (i + 1)%nat by lia. rewrite <- !skipn_skipn_add. now rewrite I4.
    + rewrite !uval_firstn_S by (rewrite ?updl_length; lia).
      rewrite updl_nth_same, updl_firstn by lia. rewrite P_S, <- En. nia.
  - exists ds, c'. replace (1 + (m - 1))%nat with m in Hi by lia. split; [exact Ef|]. exact Hi.
Qed.

(** Masking keeps the low [64 - e] bits. *)
Lemma mask_low e t : 0 < e < 64 -> 0 <= t < B -> d_and t (d_shr ONES e) = t mod 2 ^ (64 - e).
Proof.
  intros He Ht. unfold d_and.
  assert (d_shr ONES e = Z.ones (64 - e)) as ->.
  { unfold d_shr. pose proof (Z.ones_div_pow2 64 e ltac:(lia)) as Q. rewrite <- Q. unfold u64_wshr.
    rewrite Z.mod_small by lia. rewrite Z.shiftr_div_pow2 by lia. reflexivity. }
  apply Z.land_ones. lia.
Qed.

(** The number of bits that the unsigned addition keeps: the width if it is a multiple
    of 64, otherwise the mask has the wrong length. *)
Definition kept (w : Z) : Z := 64 * ((w + 63) / 64) - w mod 64.
Lemma kept_full w : w mod 64 = 0 -> kept w = w.
Proof. intros H. unfold kept. rewrite H. pose proof (Z.div_mod w 64 ltac:(lia)). replace (w + 63) with (63 + (w / 64) * 64) by lia.
  rewrite Z.div_add by lia. change (63 / 64) with 0. lia. Qed.
Lemma kept_nat w : 0 < w -> 64 * ((w + 63) / 64) = 64 * Z.of_nat (required_digits w).
Proof.
  intros H. unfold required_digits. replace (w + 63) with ((w - 1) + 1 * 64) by lia. rewrite Z.div_add by lia.
  rewrite Z2Nat.id; [reflexivity|]. pose proof (Z.div_pos (w - 1) 64). lia.
Qed.
Lemma excess_none w : excess_bits w = None -> w mod 64 = 0.
Proof. unfold excess_bits. destruct (Z.eqb_spec (w mod 64) 0); [auto|discriminate]. Qed.
Lemma excess_some w e : excess_bits w = Some e -> e = w mod 64 /\ 0 < e < 64.
Proof.
  unfold excess_bits. destruct (Z.eqb_spec (w mod 64) 0); [discriminate|]. intros [= <-].
  pose proof (Z.mod_pos_bound w 64 ltac:(lia)). split; [reflexivity|lia].
Qed.
(** Splitting a number at a digit. *)
Lemma split_mod lo t n k : 0 <= lo < P n -> 0 <= k -> (lo + t * P n) mod 2 ^ (64 * Z.of_nat n + k) = lo + (t mod 2 ^ k) * P n.
Proof.
  intros Hlo Hk. rewrite P_pow in *. rewrite Z.pow_add_r by lia. set (p := 2 ^ (64 * Z.of_nat n)) in *. set (q := 2 ^ k).
  assert (0 < p) by (apply Z.pow_pos_nonneg; lia). assert (0 < q) by (apply Z.pow_pos_nonneg; lia).
  symmetry. apply (Z.mod_unique_pos _ _ (t / q)); pose proof (Z.div_mod t q ltac:(lia)); pose proof (Z.mod_pos_bound t q ltac:(lia)); nia.
Qed.
Lemma split_ge lo t n k : 0 <= lo < P n -> 0 <= k -> (2 ^ (64 * Z.of_nat n + k) <=? lo + t * P n) = (2 ^ k <=? t).
Proof.
  intros Hlo Hk. rewrite P_pow in *. rewrite Z.pow_add_r by lia. set (p := 2 ^ (64 * Z.of_nat n)) in *. set (q := 2 ^ k).
  assert (0 < p) by (apply Z.pow_pos_nonneg; lia).
  destruct (Z.leb_spec q t); [apply Z.leb_le|apply Z.leb_gt]; nia.
Qed.
Lemma mod_changes t k : 0 <= k -> 0 <= t -> negb (t mod 2 ^ k =? t) = (2 ^ k <=? t).
Proof.
  intros Hk Ht. assert (0 < 2 ^ k) by (apply Z.pow_pos_nonneg; lia).
  destruct (Z.leb_spec (2 ^ k) t) as [L|L].
  - pose proof (Z.mod_pos_bound t (2 ^ k) ltac:(lia)). destruct (Z.eqb_spec (t mod 2 ^ k) t); [lia|reflexivity].
  - rewrite Z.mod_small by lia. rewrite Z.eqb_refl. reflexivity.
Qed.

Lemma top_digit a e : wf a -> 64 < len a -> excess_bits (len a) = Some e ->
  let last := (length (digits a) - 1)%nat in
  length (digits a) = S last /\ (0 < last)%nat /\ len a = 64 * Z.of_nat last + e /\ kept (len a) = 64 * Z.of_nat last + (64 - e) /\
  0 <= nth last (digits a) 0 < 2 ^ e /\ unsigned a = uval (firstn last (digits a)) + nth last (digits a) 0 * P last.
Proof.
  intros (H0 & H1 & H2 & H3) Hw He last. destruct (excess_some _ _ He) as [Ee Hr].
  pose proof (Z.div_mod (len a) 64 ltac:(lia)) as Q. rewrite <- Ee in Q.
  assert (Hq : (len a + 63) / 64 = len a / 64 + 1).
  { replace (len a + 63) with ((e - 1) + (len a / 64 + 1) * 64) by lia. rewrite Z.div_add by lia. rewrite Z.div_small by lia. lia. }
  assert (Hl : length (digits a) = S last) by (unfold last; lia).
  assert (E : len a / 64 = Z.of_nat last) by lia.
  assert (U : uval (digits a) = uval (firstn last (digits a)) + nth last (digits a) 0 * P last).
  { rewrite <- (firstn_all (digits a)) at 1. rewrite Hl. rewrite uval_firstn_S by lia. lia. }
  split; [exact Hl|]. split; [lia|]. split; [lia|]. split; [unfold kept; rewrite Hq, <- Ee; lia|]. split; [|exact U].
  apply digs_digit_ok in H2. pose proof (nth_dok last _ H2) as D.
  pose proof (uval_bound (firstn last (digits a)) (digs_firstn _ _ H2)) as R.
  split; [apply D|]. replace (len a) with (64 * Z.of_nat last + e) in H3 by lia. rewrite Z.pow_add_r, <- P_pow in H3 by lia.
  pose proof (P_pos last). nia.
Qed.

Lemma uadd_spec a b :
  wf a -> wf b -> len a = len b ->
  exists c, overflowing_uadd_assign a b = Val (c, Ok (2 ^ kept (len a) <=? unsigned a + unsigned b)) /\
    (shape c /\ len c = len a) /\ unsigned c = (unsigned a + unsigned b) mod 2 ^ kept (len a).
Proof.
  intros Ha Hb Hl. pose proof (wf_sh _ Ha) as Sa. pose proof (wf_sh _ Hb) as Sb. unfold overflowing_uadd_assign.
  pose proof Sa as (Sa0 & Sa1 & Sa2). pose proof Sb as (Sb0 & Sb1 & Sb2). pose proof B_pow as HB.
  assert (Ea2 : 0 <= unsigned a < 2 ^ len a) by (destruct Ha as (_ & _ & _ & Ha3); split; [apply uval_bound; exact Sa2|exact Ha3]).
  assert (Eb2 : 0 <= unsigned b < 2 ^ len a) by (rewrite Hl; destruct Hb as (_ & _ & _ & Hb3); split; [apply uval_bound; exact Sb2|exact Hb3]).
  destruct (zip_access_data_spec a b Sa Sb Hl) as [(l & r & Hw & Ea & Eb & Hdl & Hdr & ->)|(Hw & ->)]; cbn [bind];
    change (width a) with (len a); destruct (excess_bits (len a)) as [e|] eqn:Ex.
  - destruct (excess_some _ _ Ex) as [Ee He]. assert (Ua : unsigned a = l) by (unfold unsigned; rewrite Ea; apply uval_one).
    assert (Ub : unsigned b = r) by (unfold unsigned; rewrite Eb; apply uval_one). rewrite Ua in Ea2 |- *. rewrite Ub in Eb2 |- *.
    assert (Hlt : len a < 64). { destruct (Z.eq_dec (len a) 64) as [X|X]; [|lia]. rewrite X in Ee. change (64 mod 64) with 0 in Ee. lia. }
    rewrite Z.mod_small in Ee by lia. subst e.
    assert (K : kept (len a) = 64 - len a).
    { unfold kept. rewrite (Z.mod_small (len a)) by lia. replace (len a + 63) with ((len a - 1) + 1 * 64) by lia. rewrite Z.div_add, Z.div_small by lia. lia. }
    assert (M : 2 ^ len a * 2 <= B). { rewrite HB. change 2 with (2 ^ 1) at 2. rewrite <- Z.pow_add_r by lia. apply Z.pow_le_mono_r; lia. }
    unfold d_wrapping_add, u64_wadd. rewrite (Z.mod_small (l + r)) by lia. rewrite !mask_low by lia. rewrite K.
    eexists. split; [rewrite mod_changes by lia; reflexivity|]. split; [split; [|reflexivity]|].
    { split; [exact Sa0|]. split; [cbn [write_inl digits len length]; now rewrite required_digits_1 by lia|]. apply digs_cons. split; [|apply digs_nil].
      assert (0 < 2 ^ (64 - len a)) by (apply Z.pow_pos_nonneg; lia). pose proof (Z.mod_pos_bound (l + r) (2 ^ (64 - len a)) ltac:(lia)).
      split; [lia|]. pose proof (Z.mod_le (l + r) (2 ^ (64 - len a))). lia. }
    unfold unsigned. cbn [write_inl digits]. rewrite uval_one. reflexivity.
  - pose proof (excess_none _ Ex) as E0. rewrite (kept_full _ E0). assert (len a = 64) as Hw64.
    { pose proof (Z.div_mod (len a) 64 ltac:(lia)). assert (0 < len a / 64) by nia. nia. }
    assert (Ua : unsigned a = l) by (unfold unsigned; rewrite Ea; apply uval_one).
    assert (Ub : unsigned b = r) by (unfold unsigned; rewrite Eb; apply uval_one). rewrite Ua in Ea2 |- *. rewrite Ub in Eb2 |- *. unfold d_overflowing_add, u64_oadd.
    eexists. split; [rewrite Hw64, <- HB; reflexivity|]. split; [split; [|reflexivity]|].
    { split; [exact Sa0|]. split; [cbn [write_inl digits len length]; now rewrite required_digits_1 by lia|]. apply digs_cons. split; [apply dok_mod|apply digs_nil]. }
    unfold unsigned. cbn [write_inl digits]. rewrite uval_one, Hw64, HB. reflexivity.
  - assert (Hw' : 64 < len a) by lia.
    destruct (top_digit a e Ha Hw' Ex) as (L1 & L2 & L3 & L4 & L5 & L6). rewrite Hl in Ex.
    destruct (top_digit b e Hb ltac:(lia) Ex) as (M1 & _ & _ & _ & M5 & M6).
    assert (EL : length (digits a) = length (digits b)) by congruence. rewrite <- EL in M1, M5, M6.
    set (last := (length (digits a) - 1)%nat) in *.
    rewrite !idx_nth by lia. cbn [bind].
    destruct (add_prefix_spec (digits a) (digits b) last Sa2 Sb2 EL ltac:(lia)) as (lo & c0 & Ec & ds & c & Ef & D1 & D2 & D3 & D4 & D5).
    rewrite Ec. rewrite upd_updl by lia. cbn [bind]. unfold nsub. rewrite updl_length by lia.
    destruct (Nat.leb_spec 1 (length (digits a))); [|lia]. cbn [bind]. fold last.
    rewrite Ef. cbn [bind]. rewrite !idx_nth by lia. cbn [bind]. rewrite upd_updl by lia. cbn [bind].
    assert (En : nth last ds 0 = nth last (digits a) 0).
    { rewrite <- (firstn_skipn last ds), <- (firstn_skipn last (digits a)).
      rewrite !app_nth2; rewrite ?firstn_length_le by lia; try lia. now rewrite D4. }
    rewrite En. destruct (excess_some _ _ Ex) as [_ He].
    assert (M : 2 ^ e * 2 <= B). { rewrite HB. change 2 with (2 ^ 1) at 2. rewrite <- Z.pow_add_r by lia. apply Z.pow_le_mono_r; lia. }
    set (l := nth last (digits a) 0) in *. set (r := nth last (digits b) 0) in *.
    unfold d_wrapping_add, u64_wadd. rewrite (Z.mod_small (l + r)) by lia. rewrite (Z.mod_small (l + r + c)) by lia.
    rewrite !mask_low by lia. rewrite mod_changes by lia.
    pose proof (uval_bound (firstn last ds) (digs_firstn _ _ D1)) as R. rewrite firstn_length_le in R by lia.
    assert (Sum : unsigned a + unsigned b = uval (firstn last ds) + (l + r + c) * P last) by lia.
    rewrite Sum, L4. rewrite split_mod, split_ge by lia.
    eexists. split; [reflexivity|]. split; [split; [|reflexivity]|].
    { split; [exact Sa0|]. split; [cbn [write_ext digits len]; rewrite updl_length by lia; congruence|]. cbn [write_ext digits]. apply updl_digs; [exact D1|].
      assert (0 < 2 ^ (64 - e)) by (apply Z.pow_pos_nonneg; lia). pose proof (Z.mod_pos_bound (l + r + c) (2 ^ (64 - e)) ltac:(lia)).
      split; [lia|]. pose proof (Z.mod_le (l + r + c) (2 ^ (64 - e))). lia. }
    unfold unsigned. cbn [write_ext digits].
    rewrite <- (firstn_all (updl _ _ _)). rewrite updl_length, D2, L1 by lia.
    rewrite uval_firstn_S by (rewrite updl_length; lia). rewrite updl_nth_same, updl_firstn by lia. lia.
  - pose proof (excess_none _ Ex) as E0. rewrite (kept_full _ E0).
    assert (EL : length (digits a) = length (digits b)) by congruence.
    assert (Pw : P (length (digits a)) = 2 ^ len a).
    { rewrite P_pow. f_equal. rewrite Sa1, <- kept_nat by lia. pose proof (kept_full _ E0) as K. unfold kept in K. lia. }
    destruct (add_digits_spec (digits a) (digits b)) as (ds & c & -> & Hd & Hn & Hc & E); auto.
    { rewrite Sa1. now apply required_digits_pos. }
    cbn [bind]. rewrite Pw in E. pose proof (uval_bound ds Hd) as R. rewrite Hn, Pw in R. fold (unsigned a) (unsigned b) in E.
    exists (write_ext a ds). split; [|split; [split; [|reflexivity]|]].
    + f_equal. f_equal. f_equal. unfold d_is_zero, ZERO. destruct (Z.eqb_spec c 0), (Z.leb_spec (2 ^ len a) (unsigned a + unsigned b)); try reflexivity; nia.
    + split; [exact Sa0|]. split; [cbn [write_ext digits len]; congruence|exact Hd].
    + unfold unsigned at 1. cbn [write_ext digits]. apply (Z.mod_unique_pos _ _ c); lia.
Qed.

Lemma uadd_exact_fact a b :
  wf a -> wf b -> len a = len b ->
  let kept := 64 * ((len a + 63) / 64) - len a mod 64 in
  exists c, overflowing_uadd_assign a b = Val (c, Ok (2 ^ kept <=? unsigned a + unsigned b)) /\
    len c = len a /\ unsigned c = (unsigned a + unsigned b) mod 2 ^ kept.
Proof. intros Ha Hb Hl k. destruct (uadd_spec a b Ha Hb Hl) as (c & E & (_ & H) & U). exists c. auto. Qed.
Lemma kept_half w : w mod 64 = 32 -> kept w = w.
Proof. intros H. unfold kept. rewrite H. pose proof (Z.div_mod w 64 ltac:(lia)). replace (w + 63) with (31 + (w / 64 + 1) * 64) by lia.
  rewrite Z.div_add by lia. change (31 / 64) with 0. lia. Qed.
Lemma uadd_partial_fact a b :
  wf a -> wf b -> len a = len b -> len a mod 64 = 0 \/ len a mod 64 = 32 ->
  exists c f, overflowing_uadd_assign a b = Val (c, Ok f) /\
    is_apint c (len a) ((unsigned a + unsigned b) mod 2 ^ len a) /\
    (f = true <-> 2 ^ len a <= unsigned a + unsigned b).
Proof.
  intros Ha Hb Hl Hw. destruct (uadd_spec a b Ha Hb Hl) as (c & E & (S & H) & U).
  assert (K : kept (len a) = len a) by (destruct Hw; [now apply kept_full|now apply kept_half]). rewrite K in E, U.
  exists c. eexists. split; [exact E|]. split; [|apply Z.leb_le]. split; [|split; [exact H|exact U]].
  apply wf_shape. split; [exact S|]. fold (unsigned c). rewrite U, H. apply Z.mod_pos_bound. apply Z.pow_pos_nonneg; [lia|].
  destruct S as [S0 _]. rewrite <- H. lia.
Qed.
(** Every value of a width is the value of an integer. *)
Fixpoint spread (n : nat) (u : Z) : list Z := match n with O => [] | S n => u mod B :: spread n (u / B) end.
Lemma spread_spec n : forall u, 0 <= u < P n -> digs (spread n u) /\ length (spread n u) = n /\ uval (spread n u) = u.
Proof.
  induction n as [|n IH]; intros u Hu; cbn [spread].
  - rewrite P_0 in Hu. split; [apply digs_nil|]. split; [reflexivity|]. rewrite uval_nil. lia.
  - rewrite P_S in Hu. pose proof B_pos as HB. pose proof (Z.div_mod u B ltac:(lia)).
    destruct (IH (u / B)) as (I1 & I2 & I3). { split; [apply Z.div_pos; lia|apply Z.div_lt_upper_bound; lia]. }
    split; [apply digs_cons; split; [apply dok_mod|exact I1]|]. split; [cbn [length]; congruence|]. rewrite uval_cons, I3. lia.
Qed.
Lemma mk_value w u : 0 < w -> 0 <= u < 2 ^ w -> exists a, wf a /\ len a = w /\ unsigned a = u.
Proof.
  intros Hw Hu. destruct (spread_spec (required_digits w) u) as (S1 & S2 & S3).
  { rewrite P_pow. rewrite <- kept_nat by lia. split; [lia|]. eapply Z.lt_le_trans; [apply Hu|]. apply Z.pow_le_mono_r; [lia|].
    pose proof (Z.div_mod (w + 63) 64 ltac:(lia)). pose proof (Z.mod_pos_bound (w + 63) 64 ltac:(lia)). lia. }
  exists (mk_apint w (spread (required_digits w) u)). split; [|split; [reflexivity|exact S3]].
  apply wf_shape. split; [split; [exact Hw|split; [exact S2|exact S1]]|]. cbn [digits len]. rewrite S3. lia.
Qed.
Lemma uadd_refuted_fact w :
  0 < w -> w mod 64 <> 0 -> w mod 64 <> 32 ->
  exists a b c f, wf a /\ wf b /\ len a = w /\ len b = w /\ overflowing_uadd_assign a b = Val (c, Ok f) /\
    ~ (f = true <-> 2 ^ w <= unsigned a + unsigned b).
Proof.
  intros Hw H0 H32. pose proof (Z.div_mod w 64 ltac:(lia)) as Q. pose proof (Z.mod_pos_bound w 64 ltac:(lia)) as R.
  assert (K : kept w = w + 64 - 2 * (w mod 64)).
  { unfold kept. replace (w + 63) with ((w mod 64 - 1) + (w / 64 + 1) * 64) by lia. rewrite Z.div_add, Z.div_small by lia. lia. }
  assert (W : 2 ^ w = 2 * 2 ^ (w - 1)) by (rewrite <- Z.pow_succ_r by lia; f_equal; lia). pose proof (Z.pow_pos_nonneg 2 (w - 1) ltac:(lia) ltac:(lia)).
  assert (D : 0 <= w / 64) by (apply Z.div_pos; lia).
  destruct (Z.lt_ge_cases (w mod 64) 32) as [L|L].
  - destruct (mk_value w (2 ^ w - 1) Hw ltac:(lia)) as (a & Wa & La & Ua).
    destruct (uadd_spec a a Wa Wa eq_refl) as (c & E & _). exists a, a, c. eexists. do 4 (split; [assumption|]). split; [exact E|].
    rewrite La, Ua, K. assert (2 ^ (w + 1) <= 2 ^ (w + 64 - 2 * (w mod 64))) by (apply Z.pow_le_mono_r; lia).
    rewrite Z.pow_add_r, Z.pow_1_r in H1 by lia. destruct (Z.leb_spec (2 ^ (w + 64 - 2 * (w mod 64))) (2 ^ w - 1 + (2 ^ w - 1))); [lia|].
    intros [_ X]. discriminate X. lia.
  - assert (P : 2 ^ (w + 64 - 2 * (w mod 64)) <= 2 ^ (w - 1)) by (apply Z.pow_le_mono_r; lia).
    pose proof (Z.pow_pos_nonneg 2 (w + 64 - 2 * (w mod 64)) ltac:(lia) ltac:(lia)).
    destruct (mk_value w (2 ^ (w + 64 - 2 * (w mod 64))) Hw ltac:(lia)) as (a & Wa & La & Ua). destruct (mk_value w 0 Hw ltac:(lia)) as (b & Wb & Lb & Ub).
    destruct (uadd_spec a b Wa Wb ltac:(congruence)) as (c & E & _). exists a, b, c. eexists. do 4 (split; [assumption|]). split; [exact E|].
    rewrite La, Ua, Ub, K. destruct (Z.leb_spec (2 ^ (w + 64 - 2 * (w mod 64))) (2 ^ (w + 64 - 2 * (w mod 64)) + 0)); [|lia].
    intros [X _]. specialize (X eq_refl). lia.
Qed.
Lemma sadd_fact a b :
  wf a -> wf b -> len a = len b ->
  exists c f, overflowing_sadd_assign a b = Val (c, Ok f) /\ wf c /\ len c = len a /\
    signed c = wrap_signed (len a) (signed a + signed b) /\
    (f = true <-> ~ - 2 ^ (len a - 1) <= signed a + signed b < 2 ^ (len a - 1)).
Proof.
  intros Ha Hb Hl. destruct (add_fact a b Ha Hb Hl) as (c & E & _ & (Wc & Lc & _) & Sc). unfold overflowing_sadd_assign.
  rewrite (msb_spec _ (wf_sh _ Ha)), (msb_spec _ (wf_sh _ Hb)). cbn [bind]. rewrite E. cbn [bind]. rewrite (msb_spec _ (wf_sh _ Wc)). cbn [bind].
  exists c. eexists. split; [reflexivity|]. split; [exact Wc|]. split; [exact Lc|]. split; [exact Sc|].
  assert (N : forall x, wf x -> bit x (len x - 1) = (signed x <? 0)).
  { intros x Wx. pose proof (wf_sh _ Wx) as (X0 & _). unfold bit. pose proof (wf_len x Wx). destruct Wx as (_ & _ & W2 & W3).
    assert (0 <= unsigned x) by (apply uval_bound; apply digs_digit_ok; exact W2). rewrite msb_ltb by (unfold unsigned in *; lia).
    unfold signed, to_signed. assert (2 ^ len x = 2 * 2 ^ (len x - 1)) by (rewrite <- Z.pow_succ_r by lia; f_equal; lia).
    fold (unsigned x) in W3. destruct (Z.ltb_spec (unsigned x) (2 ^ (len x - 1))); cbn [negb]; symmetry; [apply Z.ltb_ge|apply Z.ltb_lt]; lia. }
  rewrite (N a Ha), (N b Hb), (N c Wc). pose proof (signed_range a Ha) as Ra. pose proof (signed_range b Hb) as Rb. rewrite <- Hl in Rb.
  pose proof (signed_range c Wc) as Rc. rewrite Lc in Rc. pose proof (wf_len a Ha) as L0.
  assert (M : exists k, signed c = signed a + signed b + k * (2 * 2 ^ (len a - 1))).
  { rewrite Sc. unfold wrap_signed, to_signed. assert (2 ^ len a = 2 * 2 ^ (len a - 1)) as <- by (rewrite <- Z.pow_succ_r by lia; f_equal; lia).
    pose proof (Z.div_mod (signed a + signed b) (2 ^ len a)) as Q. pose proof (Z.pow_pos_nonneg 2 (len a)).
    destruct (_ <? _); [exists (- ((signed a + signed b) / 2 ^ len a))|exists (- ((signed a + signed b) / 2 ^ len a) - 1)]; lia. }
  destruct M as [k M]. set (h := 2 ^ (len a - 1)) in *. clearbody h. clear - Ra Rb Rc M.
  assert (k = 0 \/ k = 1 \/ k = -1) as [->|[->| ->]] by nia;
  destruct (Z.ltb_spec (signed a) 0), (Z.ltb_spec (signed b) 0), (Z.ltb_spec (signed c) 0); cbn [Bool.eqb andb negb]; split; intros X; first [discriminate X | reflexivity | lia].
Qed.
Lemma overflow_mismatch_fact a b :
  wf a -> wf b -> len a <> len b ->
  overflowing_uadd_assign a b = Val (a, Err (UnmatchingBitwidth (len a) (len b))) /\
  overflowing_sadd_assign a b = Val (a, Err (UnmatchingBitwidth (len a) (len b))).
Proof.
  intros Ha Hb E. split.
  - unfold overflowing_uadd_assign. rewrite zip_access_data_mismatch by auto. reflexivity.
  - unfold overflowing_sadd_assign. rewrite (msb_spec _ (wf_sh _ Ha)), (msb_spec _ (wf_sh _ Hb)). cbn [bind].
    rewrite add_mismatch by auto. reflexivity.
Qed.
