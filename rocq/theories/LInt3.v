(** [Int], continued: single bits, queries, primitives, constants. *)
From Verif Require Export LInt2.

Lemma clear_low u p w : 0 <= p < w -> Z.clearbit (u mod 2 ^ w) p = Z.clearbit u p mod 2 ^ w.
Proof.
  intros Hp. apply Z.bits_inj'. intros i Hi. destruct (Z.lt_ge_cases i w).
  - rewrite Z.mod_pow2_bits_low by lia. destruct (Z.eq_dec i p) as [->|N].
    + now rewrite !Z.clearbit_eq by lia.
    + rewrite !Z.clearbit_neq by lia. now rewrite Z.mod_pow2_bits_low by lia.
  - rewrite Z.mod_pow2_bits_high by lia. rewrite Z.clearbit_neq by lia. now rewrite Z.mod_pow2_bits_high by lia.
Qed.
Lemma set_low u p w : 0 <= p < w -> Z.setbit (u mod 2 ^ w) p = Z.setbit u p mod 2 ^ w.
Proof.
  intros Hp. apply Z.bits_inj'. intros i Hi. destruct (Z.lt_ge_cases i w).
  - rewrite Z.mod_pow2_bits_low by lia. destruct (Z.eq_dec i p) as [->|N].
    + now rewrite !Z.setbit_eq by lia.
    + rewrite !Z.setbit_neq by lia. now rewrite Z.mod_pow2_bits_low by lia.
  - rewrite Z.mod_pow2_bits_high by lia. rewrite Z.setbit_neq by lia. now rewrite Z.mod_pow2_bits_high by lia.
Qed.
Lemma flip_low u p w : 0 <= p < w -> Z.lxor (u mod 2 ^ w) (2 ^ p) = Z.lxor u (2 ^ p) mod 2 ^ w.
Proof.
  intros Hp. apply Z.bits_inj'. intros i Hi. destruct (Z.lt_ge_cases i w).
  - rewrite Z.mod_pow2_bits_low by lia. rewrite !Z.lxor_spec. now rewrite Z.mod_pow2_bits_low by lia.
  - rewrite Z.mod_pow2_bits_high by lia. rewrite Z.lxor_spec, Z.mod_pow2_bits_high by lia.
    rewrite Z.pow2_bits_false by lia. reflexivity.
Qed.

Lemma int_bit_fact x w v p : is_int x w v ->
  (0 <= p < w -> int_get_bit_at x p = Val (Ok (Z.testbit v p)) /\
    (exists c, int_set_bit_at x p = Val (c, Ok tt) /\ is_int c w (wrap_signed w (Z.setbit v p))) /\
    (exists c, int_unset_bit_at x p = Val (c, Ok tt) /\ is_int c w (wrap_signed w (Z.clearbit v p))) /\
    (exists c, int_flip_bit_at x p = Val (c, Ok tt) /\ is_int c w (wrap_signed w (Z.lxor v (2 ^ p))))) /\
  (w <= p -> int_get_bit_at x p = Val (Err (InvalidBitAccess p w)) /\
    int_set_bit_at x p = Val (x, Err (InvalidBitAccess p w)) /\
    int_unset_bit_at x p = Val (x, Err (InvalidBitAccess p w)) /\
    int_flip_bit_at x p = Val (x, Err (InvalidBitAccess p w))) /\
  (exists c, int_set_all x = Val c /\ is_int c w (-1)) /\
  (exists c, int_unset_all x = Val c /\ is_int c w 0) /\
  (exists c, int_flip_all x = Val c /\ is_int c w (- v - 1)).
Proof.
  intros Hx. destruct (is_int_open x w v Hx) as (Wx & Lx & Hw & Sx & Ux). pose proof (is_int_range x w v Hx) as (_ & R).
  pose proof (pow2_double w Hw) as D.
  assert (P : 0 < 2 ^ (w - 1)) by (apply Z.pow_pos_nonneg; lia).
  unfold int_get_bit_at, int_set_bit_at, int_unset_bit_at, int_flip_bit_at, int_upd.
  split; [|split].
  - intros Hp. rewrite <- Lx in Hp. split.
    { rewrite (get_bit_at_fact _ _ Wx Hp), (signed_bit _ _ Wx Hp), Sx. reflexivity. }
    destruct (set_bit_at_num (iapint x) p Wx Hp) as (c1 & -> & H1).
    destruct (unset_bit_at_num (iapint x) p Wx Hp) as (c2 & -> & H2).
    destruct (flip_bit_at_num (iapint x) p Wx Hp) as (c3 & -> & H3). cbn [bind].
    rewrite Lx, Ux in *. rewrite set_low in H1 by auto. rewrite clear_low in H2 by auto. rewrite flip_low in H3 by auto.
    split; [exists (mk_int c1); split; [reflexivity|now apply int_of_mod]|].
    split; [exists (mk_int c2); split; [reflexivity|now apply int_of_mod]|].
    exists (mk_int c3); split; [reflexivity|now apply int_of_mod].
  - intros Hp. rewrite <- Lx in Hp. destruct (bit_oob_fact (iapint x) p Hp) as (-> & -> & -> & ->). cbn [bind].
    rewrite Lx. destruct x. auto.
  - destruct (whole_fact (iapint x) Wx) as ((c1 & E1 & H1) & (c2 & E2 & H2) & (c3 & E3 & H3)).
    rewrite Lx, Ux in *. unfold int_set_all, int_unset_all, int_flip_all, int_new. rewrite E1, E2, E3. cbn [bind].
    split; [exists (mk_int c1)|split; [exists (mk_int c2)|exists (mk_int c3)]].
    + split; [reflexivity|]. rewrite <- (wrap_signed_small w (-1)) by lia. apply int_of_mod; [lia|].
      replace (-1 mod 2 ^ w) with (2 ^ w - 1); [exact H1|]. apply Z.mod_unique_pos with (-1); lia.
    + split; [reflexivity|]. rewrite <- (wrap_signed_small w 0) by lia. apply int_of_mod; [lia|].
      rewrite Z.mod_0_l by lia. exact H2.
    + split; [reflexivity|]. rewrite <- (wrap_signed_small w (- v - 1)) by lia. apply int_of_mod; [lia|].
      replace ((- v - 1) mod 2 ^ w) with (2 ^ w - 1 - v mod 2 ^ w); [exact H3|].
      pose proof (Z.mod_pos_bound v (2 ^ w) ltac:(lia)). pose proof (Z.div_mod v (2 ^ w) ltac:(lia)).
      apply Z.mod_unique_pos with (- (v / 2 ^ w) - 1); nia.
Qed.

Lemma signed_split a : wf a ->
  signed a = unsigned a mod 2 ^ (len a - 1) - (if bit a (len a - 1) then 2 ^ (len a - 1) else 0).
Proof.
  intros H. pose proof (wf_len a H) as Hw. pose proof (unsigned_bound a H) as U. pose proof (pow2_double _ Hw) as D.
  rewrite (bit_msb_neg a H). unfold signed, to_signed. destruct (Z.ltb_spec (unsigned a) (2 ^ (len a - 1))).
  - rewrite Z.mod_small by lia. destruct (Z.ltb_spec (unsigned a) 0); lia.
  - destruct (Z.ltb_spec (unsigned a - 2 ^ len a) 0); [|lia].
    replace (unsigned a mod 2 ^ (len a - 1)) with (unsigned a - 2 ^ (len a - 1)); [lia|].
    apply Z.mod_unique_pos with 1; lia.
Qed.
Lemma signed_msb_set a c s : wf a -> wf c -> len c = len a ->
  (forall i, 0 <= i -> bit c i = if i =? len a - 1 then s else bit a i) ->
  signed c = unsigned a mod 2 ^ (len a - 1) - (if s : bool then 2 ^ (len a - 1) else 0).
Proof.
  intros Ha Hc L Hb. pose proof (wf_len a Ha). rewrite (signed_split c Hc), L. rewrite (Hb (len a - 1)), Z.eqb_refl by lia.
  f_equal. apply Z.bits_inj'. intros i Hi. destruct (Z.lt_ge_cases i (len a - 1)).
  - rewrite !Z.mod_pow2_bits_low by lia. specialize (Hb i Hi). destruct (Z.eqb_spec i (len a - 1)); [lia|exact Hb].
  - now rewrite !Z.mod_pow2_bits_high by lia.
Qed.

Lemma int_msb_fact x w v : is_int x w v ->
  int_msb x = Val (v <? 0) /\
  (exists c, int_set_msb x = Val c /\ is_int c w (if v <? 0 then v else v - 2 ^ (w - 1))) /\
  (exists c, int_unset_msb x = Val c /\ is_int c w (if v <? 0 then v + 2 ^ (w - 1) else v)) /\
  (exists c, int_flip_msb x = Val c /\ is_int c w (if v <? 0 then v + 2 ^ (w - 1) else v - 2 ^ (w - 1))).
Proof.
  intros (Wx & Lx & Sx). destruct (predicates_fact _ Wx) as (_ & M & _). pose proof (wf_len _ Wx).
  split; [unfold int_msb; rewrite M, Sx; reflexivity|].
  pose proof (signed_split _ Wx) as S. rewrite (bit_msb_neg _ Wx) in S.
  destruct (sign_bit_fact (iapint x) Wx) as ((c1 & E1 & W1 & L1 & B1) & (c2 & E2 & W2 & L2 & B2) & (c3 & E3 & W3 & L3 & B3)).
  unfold int_set_msb, int_unset_msb, int_flip_msb, int_new. rewrite E1, E2, E3. cbn [bind].
  pose proof (signed_msb_set _ c1 true Wx W1 L1 B1) as S1. pose proof (signed_msb_set _ c2 false Wx W2 L2 B2) as S2.
  assert (S3 := signed_msb_set _ c3 (negb (signed (iapint x) <? 0)) Wx W3 L3).
  rewrite Sx, Lx in *.
  split; [exists (mk_int c1)|split; [exists (mk_int c2)|exists (mk_int c3)]]; (split; [reflexivity|]).
  - split; [exact W1|split; [cbn [iapint]; congruence|]]. cbn [iapint]. rewrite S1. destruct (v <? 0); lia.
  - split; [exact W2|split; [cbn [iapint]; congruence|]]. cbn [iapint]. rewrite S2. destruct (v <? 0); lia.
  - split; [exact W3|split; [cbn [iapint]; congruence|]]. cbn [iapint]. rewrite S3.
    + destruct (v <? 0); cbn [negb]; lia.
    + intros i Hi. rewrite (B3 i Hi). destruct (Z.eqb_spec i (w - 1)) as [->|]; [|reflexivity].
      rewrite <- Lx at 1. rewrite (bit_msb_neg _ Wx), Sx. reflexivity.
Qed.

Lemma ones_below_signed a : wf a -> ones_below (unsigned a) (len a) = ones_below (signed a) (len a).
Proof.
  intros H. pose proof (wf_len a H). unfold ones_below. do 2 f_equal. apply filter_ext_in. intros i Hi.
  apply in_map_iff in Hi. destruct Hi as (k & <- & Hk). apply in_seq in Hk.
  change (Z.testbit (unsigned a) (Z.of_nat k)) with (bit a (Z.of_nat k)). apply signed_bit; [auto|lia].
Qed.
Lemma odd_mod_pow u w : 0 < w -> Z.odd (u mod 2 ^ w) = Z.odd u.
Proof. intros Hw. rewrite <- !Z.bit0_odd. now rewrite Z.mod_pow2_bits_low by lia. Qed.

Lemma int_query_fact x w v : is_int x w v ->
  int_width x = w /\ int_is_zero x = Val (v =? 0) /\ int_is_all_unset x = Val (v =? 0) /\
  int_is_even x = Val (Z.even v) /\ int_is_odd x = Val (Z.odd v) /\
  int_is_positive x = Val (0 <=? v) /\ int_is_negative x = Val (v <? 0) /\ int_signum x = Val (Z.sgn v) /\
  (exists o z, int_count_ones x = Val o /\ int_count_zeros x = Val z /\ o = ones_below v w /\ o + z = w) /\
  (exists k, int_leading_zeros x = Val k /\ (v < 0 -> k = 0) /\
    (0 <= v -> 0 < k <= w /\ v < 2 ^ (w - k) /\ (k < w -> 2 ^ (w - k - 1) <= v))) /\
  (exists k, int_trailing_zeros x = Val k /\ (v = 0 -> k = w) /\
    (v <> 0 -> 0 <= k < w /\ Z.testbit v k = true /\ forall i, 0 <= i < k -> Z.testbit v i = false)).
Proof.
  intros Hx. destruct (is_int_open x w v Hx) as (Wx & Lx & Hw & Sx & Ux). pose proof (is_int_range x w v Hx) as (_ & R).
  pose proof (pow2_double w Hw) as D. assert (P : 0 < 2 ^ (w - 1)) by (apply Z.pow_pos_nonneg; lia).
  destruct (predicates_fact (iapint x) Wx) as (_ & Hm & _ & H1 & H2 & H3 & H4). rewrite Sx in Hm.
  pose proof (signed_zero _ Wx) as SZ. rewrite Sx in SZ.
  assert (EZ : (unsigned (iapint x) =? 0) = (v =? 0)).
  { destruct (Z.eqb_spec v 0), (Z.eqb_spec (unsigned (iapint x)) 0); tauto || auto. }
  assert (Zr : int_is_zero x = Val (v =? 0)) by (unfold int_is_zero; rewrite H3, EZ; reflexivity).
  assert (Pos : int_is_positive x = Val (0 <=? v)).
  { unfold int_is_positive, int_msb. rewrite Hm. cbn [bind]. f_equal. destruct (Z.ltb_spec v 0), (Z.leb_spec 0 v); cbn; lia. }
  assert (Neg : int_is_negative x = Val (v <? 0)).
  { unfold int_is_negative. rewrite Pos. cbn [bind]. f_equal. destruct (Z.ltb_spec v 0), (Z.leb_spec 0 v); cbn; lia. }
  split; [exact Lx|]. split; [exact Zr|]. split; [unfold int_is_all_unset; rewrite H4, EZ; reflexivity|].
  split. { unfold int_is_even. rewrite H1, Ux. f_equal. rewrite <- !Z.negb_odd. f_equal. now apply odd_mod_pow. }
  split. { unfold int_is_odd. rewrite H2, Ux. f_equal. now apply odd_mod_pow. }
  split; [exact Pos|]. split; [exact Neg|].
  split. { unfold int_signum. rewrite Zr. cbn [bind]. destruct (Z.eqb_spec v 0) as [->|]; [reflexivity|]. rewrite Neg. cbn [bind].
    f_equal. destruct (Z.ltb_spec v 0); [now rewrite Z.sgn_neg|rewrite Z.sgn_pos; lia]. }
  split. { destruct (count_fact (iapint x) Wx) as (o & z & E1 & E2 & Eo & Es). exists o, z. rewrite Lx in *.
    split; [exact E1|]. split; [exact E2|]. split; [|exact Es]. rewrite Eo, <- Lx, ones_below_signed, Sx by auto. reflexivity. }
  split.
  - destruct (leading_zeros_spec (iapint x) Wx) as (k & E & K1 & K2 & K3). exists k. split; [exact E|]. rewrite Lx in *. split.
    + intros Hn. assert (U : unsigned (iapint x) = v + 2 ^ w) by (rewrite Ux; symmetry; apply Z.mod_unique_pos with (-1); lia).
      destruct (Z.eq_dec k 0); [assumption|]. pose proof (pow2_mono (w - k) (w - 1) ltac:(lia)). lia.
    + intros Hp. assert (U : unsigned (iapint x) = v) by (rewrite Ux; apply Z.mod_small; lia). rewrite U in *.
      split; [|auto]. split; [|lia]. destruct (Z.eq_dec k 0) as [->|]; [|lia].
      specialize (K3 ltac:(lia)). replace (w - 0 - 1) with (w - 1) in K3 by lia. lia.
  - destruct (trailing_zeros_spec (iapint x) Wx) as (k & E & K1 & K2). exists k. split; [exact E|]. rewrite Lx in *.
    split; [intros Hz; apply K1; tauto|]. intros Hz. destruct K2 as (K2 & K3 & K4); [tauto|]. split; [exact K2|].
    assert (T : forall i, 0 <= i < w -> Z.testbit v i = Z.testbit (unsigned (iapint x)) i).
    { intros i Hi. rewrite Ux. now rewrite Z.mod_pow2_bits_low by lia. }
    split; [rewrite T by lia; exact K3|]. intros i Hi. rewrite T by lia. now apply K4.
Qed.

Lemma int_predicates_partial x w v : is_int x w v ->
  (w <= 64 -> int_is_one x = Val (v =? 1)) /\ (w mod 64 <> 0 -> int_is_all_set x = Val (v =? -1)).
Proof.
  intros Hx. destruct (is_int_open x w v Hx) as (Wx & Lx & Hw & Sx & Ux). pose proof (is_int_range x w v Hx) as (_ & R).
  pose proof (pow2_double w Hw) as D. assert (P : 0 < 2 ^ (w - 1)) by (apply Z.pow_pos_nonneg; lia).
  assert (M : forall z, - 2 ^ (w - 1) <= z < 2 ^ (w - 1) -> (unsigned (iapint x) =? z mod 2 ^ w) = (v =? z)).
  { intros z Hz. rewrite Ux. destruct (Z.eqb_spec v z) as [->|N]; [apply Z.eqb_refl|]. apply Z.eqb_neq. intros E. apply N.
    rewrite <- (wrap_signed_small w v), <- (wrap_signed_small w z) by lia. now apply wrap_signed_mod. }
  split.
  - intros Hl. unfold int_is_one, int_width, width. rewrite Lx. destruct (Z.eqb_spec w 1) as [->|N].
    + f_equal. symmetry. apply Z.eqb_neq. change (2 ^ (1 - 1)) with 1 in R. lia.
    + rewrite (is_one_partial _ Wx) by lia. f_equal. assert (2 <= 2 ^ (w - 1)) by (apply (pow2_mono 1); lia).
      rewrite <- (M 1) by lia. rewrite (Z.mod_small 1) by lia. reflexivity.
  - intros Hl. unfold int_is_all_set. rewrite (is_all_set_partial _ Wx) by (rewrite Lx; auto). f_equal.
    rewrite <- (M (-1)) by lia. f_equal. rewrite Lx. apply Z.mod_unique_pos with (-1); lia.
Qed.

Lemma int_abs_fact x w v : is_int x w v ->
  exists c, int_wrapping_abs x = Val c /\ int_into_abs x = Val c /\
    (v <> - 2 ^ (w - 1) -> is_int c w (Z.abs v)) /\ (v = - 2 ^ (w - 1) -> is_int c w v).
Proof.
  intros Hx. pose proof (is_int_range x w v Hx) as (Hw & R). pose proof (pow2_double w Hw) as D.
  assert (P : 0 < 2 ^ (w - 1)) by (apply Z.pow_pos_nonneg; lia).
  destruct (int_arith_fact x x w v v Hx Hx) as (_ & _ & _ & (c & E & _ & Hc)).
  destruct (int_msb_fact x w v Hx) as (M & _). unfold int_into_abs, forward_mut_impl, int_wrapping_abs. rewrite M. cbn [bind].
  destruct (Z.ltb_spec v 0).
  - exists c. split; [exact E|split; [exact E|]]. split.
    + intros N. rewrite wrap_signed_small in Hc by lia. now rewrite Z.abs_neq by lia.
    + intros ->. replace (wrap_signed w (- - 2 ^ (w - 1))) with (- 2 ^ (w - 1)) in Hc; [exact Hc|].
      rewrite <- (wrap_signed_small w (- 2 ^ (w - 1))) at 1 by lia. apply wrap_signed_mod.
      symmetry. replace (- - 2 ^ (w - 1)) with (- 2 ^ (w - 1) + 1 * 2 ^ w) by lia. apply Z.mod_add. lia.
  - exists x. split; [reflexivity|split; [reflexivity|]]. split; [intros _; rewrite Z.abs_eq by lia; exact Hx|intros _; exact Hx].
Qed.

Lemma int_prim_fact x w v : is_int x w v ->
  int_resize_to_bool x = Val (Z.odd v) /\ int_resize_to_i8 x = Val (wrap_signed 8 v) /\
  int_resize_to_i16 x = Val (wrap_signed 16 v) /\ int_resize_to_i32 x = Val (wrap_signed 32 v) /\
  int_resize_to_i64 x = Val (wrap_signed 64 v) /\ int_resize_to_i128 x = Val (wrap_signed 128 v).
Proof.
  intros Hx. destruct (is_int_open x w v Hx) as (Wx & Lx & Hw & Sx & Ux).
  destruct (resize_prim_fact (iapint x) Wx) as (R1 & _ & _ & _ & _ & _ & R2 & R3 & R4 & R5 & R6). rewrite Sx in *.
  rewrite Ux, odd_mod_pow in R1 by auto. do 5 (split; [assumption|]). assumption.
Qed.

Lemma int_try_partial x w v : is_int x w v ->
  (w <= 8 \/ 0 <= v < 2 ^ 7 -> int_try_to_i8 x = Val (Ok v)) /\
  (w <= 16 \/ 0 <= v < 2 ^ 15 -> int_try_to_i16 x = Val (Ok v)) /\
  (w <= 32 \/ 0 <= v < 2 ^ 31 -> int_try_to_i32 x = Val (Ok v)) /\
  (w <= 64 \/ 0 <= v < 2 ^ 63 -> int_try_to_i64 x = Val (Ok v)) /\
  (w <= 128 \/ 0 <= v < 2 ^ 127 -> int_try_to_i128 x = Val (Ok v)) /\
  (0 <= v -> int_try_to_bool x = Val (if v =? 0 then Ok false else if v =? 1 then Ok true
    else Err (ValueUnrepresentable (int_into_apint x) PBool))) /\
  (v < 0 -> 1 < w -> int_try_to_bool x = Val (Err (ValueUnrepresentable (int_into_apint x) PBool))).
Proof.
  intros Hx. destruct (is_int_open x w v Hx) as (Wx & Lx & Hw & Sx & Ux). pose proof (is_int_range x w v Hx) as (_ & R).
  pose proof (pow2_double w Hw) as D. assert (P : 0 < 2 ^ (w - 1)) by (apply Z.pow_pos_nonneg; lia).
  destruct (try_signed_partial (iapint x) Wx) as (T1 & T2 & T3 & T4 & T5). rewrite Sx, Lx in *.
  destruct (try_unsigned_fact (iapint x) Wx) as (T6 & _). rewrite Ux in T6.
  do 5 (split; [assumption|]). split.
  - intros Hv. rewrite Z.mod_small in T6 by lia. exact T6.
  - intros Hv H1. assert (2 <= 2 ^ (w - 1)) by (apply (pow2_mono 1); lia).
    assert (E : v mod 2 ^ w = v + 2 ^ w) by (symmetry; apply Z.mod_unique_pos with (-1); lia). rewrite E in T6.
    destruct (Z.eqb_spec (v + 2 ^ w) 0); [lia|]. destruct (Z.eqb_spec (v + 2 ^ w) 1); [lia|]. exact T6.
Qed.

Lemma i_new m w v : (exists c, m = Val c /\ wf c /\ len c = w /\ signed c = v) -> exists x, int_new m = Val x /\ is_int x w v.
Proof. intros (c & -> & H). exists (mk_int c). auto. Qed.
Lemma int_constructor_fact :
  (forall b, exists x, int_from_bool b = Val x /\ is_int x 1 (if b : bool then -1 else 0)) /\
  (forall v, - 2 ^ 7 <= v < 2 ^ 7 -> exists x, int_from_i8 v = Val x /\ is_int x 8 v) /\
  (forall v, - 2 ^ 15 <= v < 2 ^ 15 -> exists x, int_from_i16 v = Val x /\ is_int x 16 v) /\
  (forall v, - 2 ^ 31 <= v < 2 ^ 31 -> exists x, int_from_i32 v = Val x /\ is_int x 32 v) /\
  (forall v, - 2 ^ 63 <= v < 2 ^ 63 -> exists x, int_from_i64 v = Val x /\ is_int x 64 v) /\
  (forall v, - 2 ^ 127 <= v < 2 ^ 127 -> exists x, int_from_i128 v = Val x /\ is_int x 128 v) /\
  (forall w, 0 < w ->
    (exists x, int_zero w = Val x /\ int_all_unset w = Val x /\ is_int x w 0) /\
    (w = 1 -> int_one w = Val None) /\
    (1 < w -> exists x, int_one w = Val (Some x) /\ is_int x w 1) /\
    (exists x, int_all_set w = Val x /\ is_int x w (-1)) /\
    (exists x, int_min_value w = Val x /\ is_int x w (- 2 ^ (w - 1))) /\
    (exists x, int_max_value w = Val x /\ is_int x w (2 ^ (w - 1) - 1)) /\
    (forall x v, is_int x w v -> - 2 ^ (w - 1) <= v <= 2 ^ (w - 1) - 1)) /\
  (forall vals, vals <> [] -> let w := 64 * Z.of_nat (length vals) in
    exists x, int_from_array vals = Val x /\ is_int x w (wrap_signed w (be_value (map (fun v => v mod 2 ^ 64) vals)))).
Proof.
  destruct from_signed_fact as (H2 & H3 & H4 & H5 & H6). destruct from_unsigned_fact as (H1 & _).
  split. { intros b. apply i_new. destruct (H1 b) as (c & E & W & L & U). exists c. split; [exact E|]. split; [exact W|].
    split; [exact L|]. unfold signed. rewrite L, U. destruct b; reflexivity. }
  split; [intros v Hv; apply i_new, H2, Hv|]. split; [intros v Hv; apply i_new, H3, Hv|].
  split; [intros v Hv; apply i_new, H4, Hv|]. split; [intros v Hv; apply i_new, H5, Hv|]. split; [intros v Hv; apply i_new, H6, Hv|].
  split; [|intros vals Hne w; destruct (from_array_fact vals Hne) as (_ & (c & E & W & L & U));
    assert (Hw : 0 < w) by (subst w; rewrite <- L; now apply wf_len); exists (mk_int c); unfold int_from_array, int_new; rewrite E;
    split; [reflexivity|]; apply int_of_mod; [exact Hw|]; split; [exact W|split; [exact L|]]; fold w in L; rewrite <- U, <- L;
    symmetry; apply Z.mod_small; now apply unsigned_bound].
  intros w Hw. pose proof (pow2_double w Hw) as D. assert (P : 0 < 2 ^ (w - 1)) by (apply Z.pow_pos_nonneg; lia).
  assert (S : forall c u, is_apint c w u -> - 2 ^ (w - 1) <= u < 2 ^ (w - 1) -> is_int (mk_int c) w u).
  { intros c u (W & L & U) Hu. split; [exact W|split; [exact L|]]. cbn [iapint]. rewrite signed_wrap, L, U by auto.
    now apply wrap_signed_small. }
  destruct (constants_fact w Hw) as ((z & Z1 & Z2 & Z3 & Z4) & (o & O1 & O2) & (m & M1 & M2 & M3) & Hmin & Hmax & Hr).
  split. { exists (mk_int z). unfold int_all_unset, int_zero, int_new. rewrite Z1. cbn [bind]. split; [reflexivity|split; [reflexivity|]].
    apply S; [assumption|lia]. }
  split; [intros ->; reflexivity|].
  split. { intros H. exists (mk_int o). unfold int_one, int_new. destruct (Z.eqb_spec w 1); [lia|]. rewrite O1. cbn [bind].
    split; [reflexivity|]. assert (2 <= 2 ^ (w - 1)) by (apply (pow2_mono 1); lia). apply S; [assumption|lia]. }
  split. { exists (mk_int m). unfold int_all_set, int_new. rewrite M1. cbn [bind]. split; [reflexivity|].
    rewrite <- (wrap_signed_small w (-1)) by lia. apply int_of_mod; [lia|].
    replace (-1 mod 2 ^ w) with (2 ^ w - 1); [exact M3|]. apply Z.mod_unique_pos with (-1); lia. }
  split; [apply i_new, Hmin|split; [apply i_new, Hmax|]]. intros x v (Wx & Lx & Sx). subst v. now apply Hr.
Qed.

Lemma int_other_fact x y w v w' v' : is_int x w v -> is_int y w' v' ->
  int_clone x = Val x /\ int_assign x y = Val y /\ (w = w' -> int_strict_assign x y = Val (y, Ok tt)) /\
  is_int (int_from_apint (int_into_apint x)) w v /\
  is_uint (int_into_unsigned x) w (v mod 2 ^ w) /\
  (int_eqb x y = true <-> int_hash_feed x = int_hash_feed y) /\
  (exists s, int_fmt_binary x = Val s /\ canonical_numeral 2 97 s /\ string_value 2 s = v mod 2 ^ w) /\
  (exists s, int_fmt_lower_hex x = Val s /\ canonical_numeral 16 97 s /\ string_value 16 s = v mod 2 ^ w) /\
  (exists s, int_fmt_upper_hex x = Val s /\ canonical_numeral 16 65 s /\ string_value 16 s = v mod 2 ^ w).
Proof.
  intros Hx Hy. destruct (is_int_open x w v Hx) as (Wx & Lx & Hw & Sx & Ux). destruct Hy as (Wy & Ly & Uy).
  destruct (assign_fact (iapint x) (iapint y) Wx Wy) as (E1 & E2 & E3 & _).
  destruct (format_fact (iapint x) Wx) as ((s1 & c1 & F1 & F2 & F3 & _) & (s2 & c2 & G1 & G2 & G3 & _) & (s3 & c3 & K1 & K2 & K3 & _)).
  rewrite Ux in *.
  unfold int_clone, int_assign, int_strict_assign, int_new, int_upd. rewrite E1, E2. cbn [bind].
  split; [destruct x; reflexivity|]. split; [destruct y; reflexivity|].
  split; [intros H; rewrite (E3 ltac:(congruence)); destruct y; reflexivity|]. split; [destruct x; exact Hx|].
  split; [split; [exact Wx|split; [exact Lx|exact Ux]]|].
  split; [apply (eq_hash_fact (iapint x) (iapint y) Wx Wy)|].
  split; [exists s1; auto|split; [exists s2; auto|exists s3; auto]].
Qed.

Lemma int_random_fact : forall (S : Type) (next : S -> Z * S) s, (forall s, digit_ok (fst (next s))) ->
  (forall w, 0 < w -> let n := Z.to_nat ((w + 63) / 64) in
    exists c, int_random_with_width_using next w s = Val (c, state_after next n s) /\
      is_int c w (wrap_signed w (words_value next n s))) /\
  (forall x w v, is_int x w v -> let n := Z.to_nat ((w + 63) / 64) in
    exists c, int_randomize_using next x s = Val (c, state_after next n s) /\
      is_int c w (wrap_signed w (words_value next n s))).
Proof.
  intros S next s Hn. split.
  - intros w Hw n. destruct (random_fact S next w s Hn Hw) as (c & E & Hc). exists (mk_int c).
    unfold int_random_with_width_using. rewrite E. split; [reflexivity|]. now apply int_of_mod.
  - intros x w v (Wx & Lx & Ux) n. destruct (randomize_fact S next (iapint x) s Hn Wx) as (c & E & _ & Hc).
    exists (mk_int c). unfold int_randomize_using. rewrite E. pose proof (wf_len _ Wx). subst w. split; [reflexivity|]. now apply int_of_mod.
Qed.
