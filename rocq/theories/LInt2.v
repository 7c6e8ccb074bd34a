(** [Int] is the signed view. *)
From Verif Require Export LInt.

Lemma int_of_mod c w z : 0 < w -> is_apint c w (z mod 2 ^ w) -> is_int (mk_int c) w (wrap_signed w z).
Proof. intros Hw H. split; [apply H|]. split; [apply H|]. now apply is_apint_signed. Qed.
Lemma is_int_open x w v : is_int x w v ->
  wf (iapint x) /\ len (iapint x) = w /\ 0 < w /\ signed (iapint x) = v /\ unsigned (iapint x) = v mod 2 ^ w.
Proof.
  intros (H & L & S). split; [exact H|]. split; [exact L|]. split; [subst w; now apply wf_len|]. split; [exact S|].
  subst w v. symmetry. now apply signed_mod.
Qed.
Lemma is_int_range x w v : is_int x w v -> 0 < w /\ - 2 ^ (w - 1) <= v < 2 ^ (w - 1).
Proof. intros (H & L & S). subst. split; [now apply wf_len|now apply signed_range]. Qed.

Lemma signed_testbit a i : wf a -> 0 <= i ->
  Z.testbit (signed a) i = if i <? len a then bit a i else bit a (len a - 1).
Proof.
  intros H Hi. pose proof (wf_len a H) as Hw. destruct (Z.ltb_spec i (len a)).
  - unfold bit. rewrite <- (signed_mod a H). now rewrite Z.mod_pow2_bits_low by lia.
  - rewrite (bit_msb_neg a H). pose proof (signed_range a H) as R.
    pose proof (pow2_mono (len a - 1) i ltac:(lia)) as M.
    rewrite Z.testbit_odd, Z.shiftr_div_pow2 by lia.
    destruct (Z.ltb_spec (signed a) 0).
    + replace (signed a / 2 ^ i) with (-1); [reflexivity|]. apply Z.div_unique with (signed a + 2 ^ i); lia.
    + rewrite Z.div_small by lia. reflexivity.
Qed.
Lemma signed_bits a z : wf a -> (forall i, 0 <= i < len a -> bit a i = Z.testbit z i) ->
  signed a = wrap_signed (len a) z.
Proof.
  intros H Hb. pose proof (wf_len a H) as Hw. rewrite (signed_wrap a H). apply wrap_signed_mod.
  apply Z.bits_inj'. intros i Hi. destruct (Z.lt_ge_cases i (len a)).
  - rewrite !Z.mod_pow2_bits_low by lia. apply Hb. lia.
  - now rewrite !Z.mod_pow2_bits_high by lia.
Qed.
Lemma wrap_mul w x y k : x mod 2 ^ w = y mod 2 ^ w -> (x * k) mod 2 ^ w = (y * k) mod 2 ^ w.
Proof. intros E. rewrite <- (Zmult_mod_idemp_l x), E, Zmult_mod_idemp_l. reflexivity. Qed.

Lemma int_arith_fact x y w u v : is_int x w u -> is_int y w v ->
  (exists c, int_wrapping_add_assign x y = Val (c, Ok tt) /\ int_into_wrapping_add x y = Val (Ok c) /\
    is_int c w (wrap_signed w (u + v))) /\
  (exists c, int_wrapping_sub_assign x y = Val (c, Ok tt) /\ int_into_wrapping_sub x y = Val (Ok c) /\
    is_int c w (wrap_signed w (u - v))) /\
  (exists c, int_wrapping_mul_assign x y = Val (c, Ok tt) /\ int_into_wrapping_mul x y = Val (Ok c) /\
    is_int c w (wrap_signed w (u * v))) /\
  (exists c, int_wrapping_neg x = Val c /\ int_into_wrapping_neg x = Val c /\ is_int c w (wrap_signed w (- u))).
Proof.
  intros (Wx & Lx & Ux) (Wy & Ly & Uy). subst u v. assert (E : len (iapint x) = len (iapint y)) by congruence. subst w.
  split; [|split; [|split]].
  - destruct (add_fact (iapint x) (iapint y) Wx Wy E) as (c & E1 & _ & (H1 & H2 & _) & H3).
    i_two (fun a b => wrapping_add_assign a (iapint b)) x y c E1. split; [exact H1|split; [exact H2|exact H3]].
  - destruct (sub_fact (iapint x) (iapint y) Wx Wy E) as (c & E1 & _ & (H1 & H2 & _) & H3).
    i_two (fun a b => wrapping_sub_assign a (iapint b)) x y c E1. split; [exact H1|split; [exact H2|exact H3]].
  - destruct (mul_fact (iapint x) (iapint y) Wx Wy E) as (c & E1 & _ & (H1 & H2 & _) & H3).
    i_two (fun a b => wrapping_mul_assign a (iapint b)) x y c E1. split; [exact H1|split; [exact H2|exact H3]].
  - destruct (neg_fact (iapint x) Wx) as (c & E1 & _ & (H1 & H2 & _) & H3). exists (mk_int c).
    unfold int_into_wrapping_neg, forward_mut_impl, int_wrapping_neg, int_new. rewrite E1. cbn [bind].
    split; [reflexivity|split; [reflexivity|]]. split; [exact H1|split; [exact H2|exact H3]].
Qed.

Lemma int_no_overflow_fact w z : 0 < w -> - 2 ^ (w - 1) <= z < 2 ^ (w - 1) -> wrap_signed w z = z.
Proof. apply wrap_signed_small. Qed.

Lemma quot_small w u v : 0 < w -> - 2 ^ (w - 1) <= u < 2 ^ (w - 1) -> v <> 0 -> v <> -1 -> v <> 1 ->
  - 2 ^ (w - 1) <= u ÷ v < 2 ^ (w - 1).
Proof.
  intros Hw Hu H0 Hm H1. assert (P : 0 < 2 ^ (w - 1)) by (apply Z.pow_pos_nonneg; lia).
  set (m := 2 ^ (w - 1)) in *. clearbody m. pose proof (Z.quot_abs u v H0) as Q.
  rewrite Z.quot_div_nonneg in Q by lia.
  assert (Z.abs u / Z.abs v <= Z.abs u / 2) by (apply Z.div_le_compat_l; lia).
  assert (Z.abs u / 2 <= m / 2) by (apply Z.div_le_mono; lia).
  assert (m / 2 < m) by (apply Z.div_lt; lia). set (q := u ÷ v) in *. clearbody q. lia.
Qed.

Lemma int_div_fact x y w u v : is_int x w u -> is_int y w v -> v <> 0 ->
  (exists q, int_wrapping_div_assign x y = Val (q, Ok tt) /\ int_into_wrapping_div x y = Val (Ok q) /\
    is_int q w (wrap_signed w (Z.quot u v)) /\ (~ (u = - 2 ^ (w - 1) /\ v = -1) -> is_int q w (Z.quot u v))) /\
  (exists r, int_wrapping_rem_assign x y = Val (r, Ok tt) /\ int_into_wrapping_rem x y = Val (Ok r) /\
    is_int r w (Z.rem u v)).
Proof.
  intros Hx Hy Hv. pose proof (is_int_range x w u Hx) as (Hw & Ru). pose proof (is_int_range y w v Hy) as (_ & Rv).
  destruct Hx as (Wx & Lx & Ux). destruct Hy as (Wy & Ly & Uy). assert (E : len (iapint x) = len (iapint y)) by congruence.
  rewrite <- Uy in Hv.
  destruct (sdiv_all (iapint x) (iapint y) Wx Wy E Hv) as (q & r & _ & _ & E1 & _ & E2 & _ & Hq & Sq & Hr & Sr).
  rewrite Ux, Uy, Lx in *. split.
  - i_two (fun a b => wrapping_sdiv_assign a (iapint b)) x y q E1.
    assert (I : is_int (mk_int q) w (wrap_signed w (u ÷ v))) by (split; [apply Hq|split; [apply Hq|exact Sq]]).
    split; [exact I|]. intros N. rewrite wrap_signed_small in I; [exact I|lia|].
    destruct (Z.eq_dec v (-1)) as [Ev|Ev].
    + rewrite Ev. replace (u ÷ -1) with (- u); [assert (u <> - 2 ^ (w - 1)) by (intros K; apply N; auto); lia|]. pose proof (Z.quot_opp_r u 1 ltac:(lia)) as Q. rewrite Z.quot_1_r in Q. symmetry. exact Q.
    + destruct (Z.eq_dec v 1) as [Ev1|Ev1]; [rewrite Ev1, Z.quot_1_r; lia|].
      now apply quot_small.
  - i_two (fun a b => wrapping_srem_assign a (iapint b)) x y r E2. split; [apply Hr|split; [apply Hr|exact Sr]].
Qed.

Lemma int_div_zero_fact x y w w' u : is_int x w u -> is_int y w' 0 ->
  int_wrapping_div_assign x y = Val (x, Err (DivisionByZero SignedDiv (int_into_apint x))) /\
  int_into_wrapping_div x y = Val (Err (DivisionByZero SignedDiv (int_into_apint x))) /\
  int_wrapping_rem_assign x y = Val (x, Err (DivisionByZero SignedRem (int_into_apint x))) /\
  int_into_wrapping_rem x y = Val (Err (DivisionByZero SignedRem (int_into_apint x))).
Proof.
  intros (Wx & Lx & Ux) (Wy & Ly & Uy). apply (signed_zero _ Wy) in Uy.
  destruct (sdiv_zero_fact (iapint x) (iapint y) Wx Wy Uy) as (_ & _ & E1 & _ & E2 & _).
  destruct (i_err (fun a b => wrapping_sdiv_assign a (iapint b)) x y _ E1) as (A1 & A2).
  destruct (i_err (fun a b => wrapping_srem_assign a (iapint b)) x y _ E2) as (B1 & B2).
  split; [exact A1|split; [exact A2|split; [exact B1|exact B2]]].
Qed.

Lemma int_div_mismatch_panic x y w w' u v : is_int x w u -> is_int y w' v -> w <> w' -> v <> 0 ->
  int_wrapping_div_assign x y = Panic /\ int_into_wrapping_div x y = Panic /\
  int_wrapping_rem_assign x y = Panic /\ int_into_wrapping_rem x y = Panic.
Proof.
  intros (Wx & Lx & Ux) (Wy & Ly & Uy) Hw Hv. subst.
  assert (U : unsigned (iapint y) <> 0) by (intros Z; apply Hv; now apply signed_zero).
  destruct (sdiv_mismatch_panic (iapint x) (iapint y) Wx Wy Hw U) as (_ & _ & E1 & _ & E2 & _).
  unfold int_into_wrapping_div, int_into_wrapping_rem, try_forward_bin_mut_impl, int_wrapping_div_assign,
    int_wrapping_rem_assign, int_upd. rewrite E1, E2. auto.
Qed.

Lemma int_mismatch_fact x y : int_width x <> int_width y ->
  let err := UnmatchingBitwidth (int_width x) (int_width y) in
  int_wrapping_add_assign x y = Val (x, Err err) /\ int_into_wrapping_add x y = Val (Err err) /\
  int_wrapping_sub_assign x y = Val (x, Err err) /\ int_into_wrapping_sub x y = Val (Err err) /\
  int_wrapping_mul_assign x y = Val (x, Err err) /\ int_into_wrapping_mul x y = Val (Err err) /\
  int_bitand_assign x y = Val (x, Err err) /\ int_into_bitand x y = Val (Err err) /\
  int_bitor_assign x y = Val (x, Err err) /\ int_into_bitor x y = Val (Err err) /\
  int_bitxor_assign x y = Val (x, Err err) /\ int_into_bitxor x y = Val (Err err) /\
  int_strict_assign x y = Val (x, Err err).
Proof.
  intros H err. unfold int_width, width in *. 
  destruct (mutating_mismatch (iapint x) (iapint y) H) as (E1 & _ & E2 & _ & E3 & _ & E4 & _ & E5 & _ & E6 & _ & E7).
  split; [exact (proj1 (i_err (fun a b => wrapping_add_assign a (iapint b)) x y _ E1))|].
  split; [exact (proj2 (i_err (fun a b => wrapping_add_assign a (iapint b)) x y _ E1))|].
  split; [exact (proj1 (i_err (fun a b => wrapping_sub_assign a (iapint b)) x y _ E2))|].
  split; [exact (proj2 (i_err (fun a b => wrapping_sub_assign a (iapint b)) x y _ E2))|].
  split; [exact (proj1 (i_err (fun a b => wrapping_mul_assign a (iapint b)) x y _ E3))|].
  split; [exact (proj2 (i_err (fun a b => wrapping_mul_assign a (iapint b)) x y _ E3))|].
  split; [exact (proj1 (i_err (fun a b => bitand_assign a (iapint b)) x y _ E4))|].
  split; [exact (proj2 (i_err (fun a b => bitand_assign a (iapint b)) x y _ E4))|].
  split; [exact (proj1 (i_err (fun a b => bitor_assign a (iapint b)) x y _ E5))|].
  split; [exact (proj2 (i_err (fun a b => bitor_assign a (iapint b)) x y _ E5))|].
  split; [exact (proj1 (i_err (fun a b => bitxor_assign a (iapint b)) x y _ E6))|].
  split; [exact (proj2 (i_err (fun a b => bitxor_assign a (iapint b)) x y _ E6))|].
  exact (proj1 (i_err (fun a b => strict_assign a (iapint b)) x y _ E7)).
Qed.

Lemma int_cmp_fact x y w u v : is_int x w u -> is_int y w v ->
  int_checked_lt x y = Val (Ok (u <? v)) /\ int_checked_le x y = Val (Ok (u <=? v)) /\
  int_checked_gt x y = Val (Ok (v <? u)) /\ int_checked_ge x y = Val (Ok (v <=? u)) /\
  int_eqb x y = (u =? v).
Proof.
  intros (Wx & Lx & Ux) (Wy & Ly & Uy). subst u v. assert (E : len (iapint x) = len (iapint y)) by congruence.
  destruct (scmp_fact (iapint x) (iapint y) Wx Wy E) as (H1 & H2 & H3 & H4). rewrite Z.gtb_ltb in H3. rewrite Z.geb_leb in H4.
  do 4 (split; [assumption|]). unfold int_eqb. destruct (eq_hash_fact (iapint x) (iapint y) Wx Wy) as (H & _).
  pose proof (signed_mod _ Wx) as Mx. pose proof (signed_mod _ Wy) as My. rewrite <- E in My.
  destruct (Z.eqb_spec (signed (iapint x)) (signed (iapint y))) as [Eu|Eu]; [apply H; split; congruence|].
  destruct (apint_eqb (iapint x) (iapint y)); [|reflexivity]. destruct H as (H & _). destruct (H eq_refl) as (_ & Hu).
  exfalso. apply Eu. unfold signed. congruence.
Qed.

Lemma int_shift_fact x w v s : is_int x w v -> 0 <= s < w ->
  (exists c, int_wrapping_shl_assign x s = Val (c, Ok tt) /\ int_into_wrapping_shl x s = Val (Ok c) /\
    is_int c w (wrap_signed w (v * 2 ^ s))) /\
  (exists c, int_wrapping_shr_assign x s = Val (c, Ok tt) /\ int_into_wrapping_shr x s = Val (Ok c) /\
    is_int c w (v / 2 ^ s)).
Proof.
  intros (Wx & Lx & Ux) Hs. subst v w. pose proof (wf_len _ Wx) as Hw. split.
  - destruct (shl_fact (iapint x) s Wx Hs) as (c & E1 & E2 & H). exists (mk_int c).
    unfold int_wrapping_shl_assign, int_into_wrapping_shl, int_upd, int_map. rewrite E1, E2.
    split; [reflexivity|split; [reflexivity|]]. apply int_of_mod; [lia|].
    rewrite (wrap_mul _ _ (unsigned (iapint x))); [exact H|].
    rewrite (signed_mod _ Wx). symmetry. apply Z.mod_small. now apply unsigned_bound.
  - destruct (ashr_fact (iapint x) s Wx Hs) as (c & E1 & E2 & H). exists (mk_int c).
    unfold int_wrapping_shr_assign, int_into_wrapping_shr, int_upd, int_map. rewrite E1, E2. auto.
Qed.
Lemma int_shift_err_fact x w v s : is_int x w v -> w <= s ->
  let err := InvalidShiftAmount s w in
  int_wrapping_shl_assign x s = Val (x, Err err) /\ int_into_wrapping_shl x s = Val (Err err) /\
  int_wrapping_shr_assign x s = Val (x, Err err) /\ int_into_wrapping_shr x s = Val (Err err).
Proof.
  intros (Wx & Lx & Ux) Hs err. subst w. destruct (shift_err_fact (iapint x) s Wx Hs) as (E1 & E2 & _ & _ & E3 & E4).
  unfold int_wrapping_shl_assign, int_into_wrapping_shl, int_wrapping_shr_assign, int_into_wrapping_shr, int_upd, int_map.
  rewrite E1, E2, E3, E4. destruct x. auto.
Qed.

Lemma int_resize_fact x w v t : is_int x w v -> 0 < t ->
  (t <= w -> exists c, int_truncate x t = Val (c, Ok tt) /\ int_into_truncate x t = Val (Ok c) /\
    is_int c t (wrap_signed t v)) /\
  (w < t -> int_truncate x t = Val (x, Err (TruncationBitWidthTooLarge t w)) /\
    int_into_truncate x t = Val (Err (TruncationBitWidthTooLarge t w))) /\
  (w <= t -> exists c, int_extend x t = Val (c, Ok tt) /\ int_into_extend x t = Val (Ok c) /\ is_int c t v) /\
  (t < w -> int_extend x t = Val (x, Err (ExtensionBitWidthTooSmall t w)) /\
    int_into_extend x t = Val (Err (ExtensionBitWidthTooSmall t w))) /\
  (exists c, int_resize x t = Val c /\ int_into_resize x t = Val c /\ is_int c t (wrap_signed t v)).
Proof.
  intros (Wx & Lx & Ux) Ht. subst v w. split; [|split; [|split; [|split]]].
  - intros H. destruct (truncate_fact (iapint x) t Wx) as (c & E1 & _ & Hc); [lia|]. i_two truncate x t c E1.
    apply int_of_mod; [lia|]. now rewrite signed_low by (auto; lia).
  - intros H. exact (i_err truncate x t _ (proj1 (truncate_err_fact (iapint x) t H))).
  - intros H. destruct (sign_extend_fact (iapint x) t Wx H) as (c & E1 & _ & Hc). i_two sign_extend x t c E1. exact Hc.
  - intros H. exact (i_err sign_extend x t _ (proj1 (sign_extend_err_fact (iapint x) t H))).
  - destruct (resize_fact (iapint x) t Wx Ht) as (_ & c & _ & _ & _ & E1 & _ & Hc & Sc). exists (mk_int c).
    unfold int_into_resize, forward_bin_mut_impl, int_resize, int_new. rewrite E1. cbn [bind].
    split; [reflexivity|split; [reflexivity|]]. split; [apply Hc|split; [apply Hc|exact Sc]].
Qed.

Lemma int_bits c w f : wf c -> len c = w -> (forall i, 0 <= i < w -> bit c i = Z.testbit f i) ->
  (forall i, w <= i -> Z.testbit f i = Z.testbit f (w - 1)) -> is_int (mk_int c) w f.
Proof.
  intros H L Hb Hs. split; [exact H|split; [exact L|]]. cbn [iapint]. pose proof (wf_len c H).
  apply Z.bits_inj'. intros i Hi. rewrite signed_testbit by auto. rewrite L. destruct (Z.ltb_spec i w).
  - apply Hb. lia.
  - rewrite Hs by lia. apply Hb. lia.
Qed.
Lemma signed_high a i : wf a -> len a <= i -> Z.testbit (signed a) i = Z.testbit (signed a) (len a - 1).
Proof.
  intros H Hi. pose proof (wf_len a H). rewrite !signed_testbit by (auto; lia).
  destruct (Z.ltb_spec i (len a)), (Z.ltb_spec (len a - 1) (len a)); try lia. reflexivity.
Qed.
Lemma signed_bit a i : wf a -> 0 <= i < len a -> bit a i = Z.testbit (signed a) i.
Proof. intros H Hi. rewrite signed_testbit by (auto; lia). destruct (Z.ltb_spec i (len a)); [reflexivity|lia]. Qed.

Lemma int_bitwise_fact x y w u v : is_int x w u -> is_int y w v ->
  (exists c, int_bitand_assign x y = Val (c, Ok tt) /\ int_into_bitand x y = Val (Ok c) /\ is_int c w (Z.land u v)) /\
  (exists c, int_bitor_assign x y = Val (c, Ok tt) /\ int_into_bitor x y = Val (Ok c) /\ is_int c w (Z.lor u v)) /\
  (exists c, int_bitxor_assign x y = Val (c, Ok tt) /\ int_into_bitxor x y = Val (Ok c) /\ is_int c w (Z.lxor u v)) /\
  (exists c, int_bitnot x = Val c /\ int_into_bitnot x = Val c /\ is_int c w (- u - 1)).
Proof.
  intros (Wx & Lx & Ux) (Wy & Ly & Uy). subst u v. assert (E : len (iapint x) = len (iapint y)) by congruence.
  split; [|split; [|split]].
  - destruct (bitand_fact (iapint x) (iapint y) Wx Wy E) as (c & E1 & _ & Wc & Lc & Hc).
    i_two (fun a b => bitand_assign a (iapint b)) x y c E1. apply int_bits; [exact Wc|congruence| |].
    + intros i Hi. rewrite Hc, Z.land_spec, <- !signed_bit by (auto; lia). reflexivity.
    + intros i Hi. rewrite !Z.land_spec, (signed_high _ i Wx), (signed_high _ i Wy) by lia. congruence.
  - destruct (bitor_fact (iapint x) (iapint y) Wx Wy E) as (c & E1 & _ & Wc & Lc & Hc).
    i_two (fun a b => bitor_assign a (iapint b)) x y c E1. apply int_bits; [exact Wc|congruence| |].
    + intros i Hi. rewrite Hc, Z.lor_spec, <- !signed_bit by (auto; lia). reflexivity.
    + intros i Hi. rewrite !Z.lor_spec, (signed_high _ i Wx), (signed_high _ i Wy) by lia. congruence.
  - destruct (bitxor_fact (iapint x) (iapint y) Wx Wy E) as (c & E1 & _ & Wc & Lc & Hc).
    i_two (fun a b => bitxor_assign a (iapint b)) x y c E1. apply int_bits; [exact Wc|congruence| |].
    + intros i Hi. rewrite Hc, Z.lxor_spec, <- !signed_bit by (auto; lia). reflexivity.
    + intros i Hi. rewrite !Z.lxor_spec, (signed_high _ i Wx), (signed_high _ i Wy) by lia. congruence.
  - destruct (bitnot_fact (iapint x) Wx) as (c & E1 & _ & Wc & Lc & Hc). exists (mk_int c).
    unfold int_into_bitnot, forward_mut_impl, int_bitnot, int_new. rewrite E1. cbn [bind].
    split; [reflexivity|split; [reflexivity|]]. pose proof (wf_len _ Wx) as Hw.
    replace (- signed (iapint x) - 1) with (Z.lnot (signed (iapint x))) by (unfold Z.lnot; lia).
    apply int_bits; [exact Wc|congruence| |].
    + intros i Hi. rewrite Z.lnot_spec by lia. rewrite <- signed_bit by (auto; lia). apply Hc. lia.
    + intros i Hi. rewrite !Z.lnot_spec by lia. rewrite (signed_high _ i Wx) by lia. congruence.
Qed.
