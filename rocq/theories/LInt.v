(** [UInt] is the unsigned view. *)
From Verif Require Export LDiv7 LFacts LLaws LPrim LSerial3 LRand LCount SpecInt MInt.

Ltac uopen H := let W := fresh "W" in let L := fresh "L" in let U := fresh "U" in destruct H as (W & L & U).

Lemma u_bin {R : Type} (op : apint -> R -> mut_result) (x : uint) (y : R) c : op (uapint x) y = Val (c, Ok tt) ->
  uint_upd (op (uapint x) y) = Val (mk_uint c, Ok tt) /\
  try_forward_bin_mut_impl (fun x y => uint_upd (op (uapint x) y)) x y = Val (Ok (mk_uint c)).
Proof. intros E. unfold try_forward_bin_mut_impl, uint_upd. rewrite E. split; reflexivity. Qed.
Lemma u_err {R : Type} (op : apint -> R -> mut_result) (x : uint) (y : R) e : op (uapint x) y = Val (uapint x, Err e) ->
  uint_upd (op (uapint x) y) = Val (x, Err e) /\
  try_forward_bin_mut_impl (fun x y => uint_upd (op (uapint x) y)) x y = Val (Err e).
Proof. intros E. unfold try_forward_bin_mut_impl, uint_upd. rewrite E. destruct x. split; reflexivity. Qed.
Lemma i_bin {R : Type} (op : apint -> R -> mut_result) (x : int) (y : R) c : op (iapint x) y = Val (c, Ok tt) ->
  int_upd (op (iapint x) y) = Val (mk_int c, Ok tt) /\
  try_forward_bin_mut_impl (fun x y => int_upd (op (iapint x) y)) x y = Val (Ok (mk_int c)).
Proof. intros E. unfold try_forward_bin_mut_impl, int_upd. rewrite E. split; reflexivity. Qed.
Lemma i_err {R : Type} (op : apint -> R -> mut_result) (x : int) (y : R) e : op (iapint x) y = Val (iapint x, Err e) ->
  int_upd (op (iapint x) y) = Val (x, Err e) /\
  try_forward_bin_mut_impl (fun x y => int_upd (op (iapint x) y)) x y = Val (Err e).
Proof. intros E. unfold try_forward_bin_mut_impl, int_upd. rewrite E. destruct x. split; reflexivity. Qed.

(** The two forms of an operation, from the in-place form on [ApInt]. *)
Ltac u_two op x y c E := let A := fresh in let B := fresh in
  destruct (u_bin op x y c E) as (A & B); exists (mk_uint c); split; [exact A|split; [exact B|]].
Ltac i_two op x y c E := let A := fresh in let B := fresh in
  destruct (i_bin op x y c E) as (A & B); exists (mk_int c); split; [exact A|split; [exact B|]].

Lemma uint_arith_fact x y w u v : is_uint x w u -> is_uint y w v ->
  (exists c, uint_wrapping_add_assign x y = Val (c, Ok tt) /\ uint_into_wrapping_add x y = Val (Ok c) /\
    is_uint c w ((u + v) mod 2 ^ w)) /\
  (exists c, uint_wrapping_sub_assign x y = Val (c, Ok tt) /\ uint_into_wrapping_sub x y = Val (Ok c) /\
    is_uint c w ((u - v) mod 2 ^ w)) /\
  (exists c, uint_wrapping_mul_assign x y = Val (c, Ok tt) /\ uint_into_wrapping_mul x y = Val (Ok c) /\
    is_uint c w ((u * v) mod 2 ^ w)) /\
  (exists c, uint_wrapping_neg x = Val c /\ uint_into_wrapping_neg x = Val c /\ is_uint c w ((- u) mod 2 ^ w)).
Proof.
  intros (Wx & Lx & Ux) (Wy & Ly & Uy). subst u v. assert (E : len (uapint x) = len (uapint y)) by congruence. subst w.
  split; [|split; [|split]].
  - destruct (add_fact (uapint x) (uapint y) Wx Wy E) as (c & E1 & _ & H & _).
    u_two (fun a b => wrapping_add_assign a (uapint b)) x y c E1. exact H.
  - destruct (sub_fact (uapint x) (uapint y) Wx Wy E) as (c & E1 & _ & H & _).
    u_two (fun a b => wrapping_sub_assign a (uapint b)) x y c E1. exact H.
  - destruct (mul_fact (uapint x) (uapint y) Wx Wy E) as (c & E1 & _ & H & _).
    u_two (fun a b => wrapping_mul_assign a (uapint b)) x y c E1. exact H.
  - destruct (neg_fact (uapint x) Wx) as (c & E1 & _ & H & _). exists (mk_uint c).
    unfold uint_into_wrapping_neg, forward_mut_impl, uint_wrapping_neg, uint_new. rewrite E1. cbn [bind]. auto.
Qed.

Lemma uint_div_fact x y w u v : is_uint x w u -> is_uint y w v -> v <> 0 ->
  (exists q, uint_wrapping_div_assign x y = Val (q, Ok tt) /\ uint_into_wrapping_div x y = Val (Ok q) /\
    is_uint q w (u / v)) /\
  (exists r, uint_wrapping_rem_assign x y = Val (r, Ok tt) /\ uint_into_wrapping_rem x y = Val (Ok r) /\
    is_uint r w (u mod v)).
Proof.
  intros (Wx & Lx & Ux) (Wy & Ly & Uy) Hv. subst u v. assert (E : len (uapint x) = len (uapint y)) by congruence. subst w.
  destruct (udiv_all (uapint x) (uapint y) Wx Wy E Hv) as (q & r & _ & _ & E1 & _ & E2 & _ & Hq & Hr). split.
  - u_two (fun a b => wrapping_udiv_assign a (uapint b)) x y q E1. exact Hq.
  - u_two (fun a b => wrapping_urem_assign a (uapint b)) x y r E2. exact Hr.
Qed.

Lemma uint_div_zero_fact x y w u : is_uint x w u -> is_uint y w 0 ->
  uint_wrapping_div_assign x y = Val (x, Err (DivisionByZero UnsignedDiv (uint_into_apint x))) /\
  uint_into_wrapping_div x y = Val (Err (DivisionByZero UnsignedDiv (uint_into_apint x))) /\
  uint_wrapping_rem_assign x y = Val (x, Err (DivisionByZero UnsignedRem (uint_into_apint x))) /\
  uint_into_wrapping_rem x y = Val (Err (DivisionByZero UnsignedRem (uint_into_apint x))).
Proof.
  intros (Wx & Lx & Ux) (Wy & Ly & Uy). assert (E : len (uapint x) = len (uapint y)) by congruence.
  destruct (udiv_zero_fact (uapint x) (uapint y) Wx Wy E Uy) as (_ & _ & E1 & _ & E2 & _).
  destruct (u_err (fun a b => wrapping_udiv_assign a (uapint b)) x y _ E1) as (A1 & A2).
  destruct (u_err (fun a b => wrapping_urem_assign a (uapint b)) x y _ E2) as (B1 & B2).
  split; [exact A1|split; [exact A2|split; [exact B1|exact B2]]].
Qed.

Lemma uint_mismatch_fact x y : uint_width x <> uint_width y ->
  let err := UnmatchingBitwidth (uint_width x) (uint_width y) in
  uint_wrapping_add_assign x y = Val (x, Err err) /\ uint_into_wrapping_add x y = Val (Err err) /\
  uint_wrapping_sub_assign x y = Val (x, Err err) /\ uint_into_wrapping_sub x y = Val (Err err) /\
  uint_wrapping_mul_assign x y = Val (x, Err err) /\ uint_into_wrapping_mul x y = Val (Err err) /\
  uint_wrapping_div_assign x y = Val (x, Err err) /\ uint_into_wrapping_div x y = Val (Err err) /\
  uint_wrapping_rem_assign x y = Val (x, Err err) /\ uint_into_wrapping_rem x y = Val (Err err) /\
  uint_bitand_assign x y = Val (x, Err err) /\ uint_into_bitand x y = Val (Err err) /\
  uint_bitor_assign x y = Val (x, Err err) /\ uint_into_bitor x y = Val (Err err) /\
  uint_bitxor_assign x y = Val (x, Err err) /\ uint_into_bitxor x y = Val (Err err) /\
  uint_strict_assign x y = Val (x, Err err).
Proof.
  intros H err. unfold uint_width, width in *. 
  destruct (mutating_mismatch (uapint x) (uapint y) H) as (E1 & _ & E2 & _ & E3 & _ & E4 & _ & E5 & _ & E6 & _ & E7).
  destruct (udiv_mismatch (uapint x) (uapint y) H) as (_ & _ & E8 & _ & E9 & _).
  split; [exact (proj1 (u_err (fun a b => wrapping_add_assign a (uapint b)) x y _ E1))|].
  split; [exact (proj2 (u_err (fun a b => wrapping_add_assign a (uapint b)) x y _ E1))|].
  split; [exact (proj1 (u_err (fun a b => wrapping_sub_assign a (uapint b)) x y _ E2))|].
  split; [exact (proj2 (u_err (fun a b => wrapping_sub_assign a (uapint b)) x y _ E2))|].
  split; [exact (proj1 (u_err (fun a b => wrapping_mul_assign a (uapint b)) x y _ E3))|].
  split; [exact (proj2 (u_err (fun a b => wrapping_mul_assign a (uapint b)) x y _ E3))|].
  split; [exact (proj1 (u_err (fun a b => wrapping_udiv_assign a (uapint b)) x y _ E8))|].
  split; [exact (proj2 (u_err (fun a b => wrapping_udiv_assign a (uapint b)) x y _ E8))|].
  split; [exact (proj1 (u_err (fun a b => wrapping_urem_assign a (uapint b)) x y _ E9))|].
  split; [exact (proj2 (u_err (fun a b => wrapping_urem_assign a (uapint b)) x y _ E9))|].
  split; [exact (proj1 (u_err (fun a b => bitand_assign a (uapint b)) x y _ E4))|].
  split; [exact (proj2 (u_err (fun a b => bitand_assign a (uapint b)) x y _ E4))|].
  split; [exact (proj1 (u_err (fun a b => bitor_assign a (uapint b)) x y _ E5))|].
  split; [exact (proj2 (u_err (fun a b => bitor_assign a (uapint b)) x y _ E5))|].
  split; [exact (proj1 (u_err (fun a b => bitxor_assign a (uapint b)) x y _ E6))|].
  split; [exact (proj2 (u_err (fun a b => bitxor_assign a (uapint b)) x y _ E6))|].
  exact (proj1 (u_err (fun a b => strict_assign a (uapint b)) x y _ E7)).
Qed.

Lemma uint_cmp_fact x y w u v : is_uint x w u -> is_uint y w v ->
  uint_checked_lt x y = Val (Ok (u <? v)) /\ uint_checked_le x y = Val (Ok (u <=? v)) /\
  uint_checked_gt x y = Val (Ok (v <? u)) /\ uint_checked_ge x y = Val (Ok (v <=? u)) /\
  uint_eqb x y = (u =? v).
Proof.
  intros (Wx & Lx & Ux) (Wy & Ly & Uy). subst u v. assert (E : len (uapint x) = len (uapint y)) by congruence.
  destruct (ucmp_fact (uapint x) (uapint y) Wx Wy E) as (H1 & H2 & H3 & H4). rewrite Z.gtb_ltb in H3. rewrite Z.geb_leb in H4.
  do 4 (split; [assumption|]). unfold uint_eqb. destruct (eq_hash_fact (uapint x) (uapint y) Wx Wy) as (H & _).
  destruct (Z.eqb_spec (unsigned (uapint x)) (unsigned (uapint y))) as [Eu|Eu]; [apply H; auto|].
  destruct (apint_eqb (uapint x) (uapint y)); [|reflexivity]. destruct H as (H & _). destruct (H eq_refl). contradiction.
Qed.

Lemma uint_shift_fact x w u s : is_uint x w u -> 0 <= s < w ->
  (exists c, uint_wrapping_shl_assign x s = Val (c, Ok tt) /\ uint_into_wrapping_shl x s = Val (Ok c) /\
    is_uint c w ((u * 2 ^ s) mod 2 ^ w)) /\
  (exists c, uint_wrapping_shr_assign x s = Val (c, Ok tt) /\ uint_into_wrapping_shr x s = Val (Ok c) /\
    is_uint c w (u / 2 ^ s)).
Proof.
  intros (Wx & Lx & Ux) Hs. subst u w. split.
  - destruct (shl_fact (uapint x) s Wx Hs) as (c & E1 & E2 & H). exists (mk_uint c).
    unfold uint_wrapping_shl_assign, uint_into_wrapping_shl, uint_upd, uint_map. rewrite E1, E2. auto.
  - destruct (lshr_fact (uapint x) s Wx Hs) as (c & E1 & E2 & H). exists (mk_uint c).
    unfold uint_wrapping_shr_assign, uint_into_wrapping_shr, uint_upd, uint_map. rewrite E1, E2. auto.
Qed.
Lemma uint_shift_err_fact x w u s : is_uint x w u -> w <= s ->
  let err := InvalidShiftAmount s w in
  uint_wrapping_shl_assign x s = Val (x, Err err) /\ uint_into_wrapping_shl x s = Val (Err err) /\
  uint_wrapping_shr_assign x s = Val (x, Err err) /\ uint_into_wrapping_shr x s = Val (Err err).
Proof.
  intros (Wx & Lx & Ux) Hs err. subst w. destruct (shift_err_fact (uapint x) s Wx Hs) as (E1 & E2 & E3 & E4 & _).
  unfold uint_wrapping_shl_assign, uint_into_wrapping_shl, uint_wrapping_shr_assign, uint_into_wrapping_shr, uint_upd, uint_map.
  rewrite E1, E2, E3, E4. destruct x. auto.
Qed.

Lemma uint_resize_fact x w u t : is_uint x w u -> 0 < t ->
  (t <= w -> exists c, uint_truncate x t = Val (c, Ok tt) /\ uint_into_truncate x t = Val (Ok c) /\
    is_uint c t (u mod 2 ^ t)) /\
  (w < t -> uint_truncate x t = Val (x, Err (TruncationBitWidthTooLarge t w)) /\
    uint_into_truncate x t = Val (Err (TruncationBitWidthTooLarge t w))) /\
  (w <= t -> exists c, uint_extend x t = Val (c, Ok tt) /\ uint_into_extend x t = Val (Ok c) /\ is_uint c t u) /\
  (t < w -> uint_extend x t = Val (x, Err (ExtensionBitWidthTooSmall t w)) /\
    uint_into_extend x t = Val (Err (ExtensionBitWidthTooSmall t w))) /\
  (exists c, uint_resize x t = Val c /\ uint_into_resize x t = Val c /\ is_uint c t (u mod 2 ^ t)).
Proof.
  intros (Wx & Lx & Ux) Ht. subst u w. split; [|split; [|split; [|split]]].
  - intros H. destruct (truncate_fact (uapint x) t Wx) as (c & E1 & _ & Hc); [lia|]. u_two truncate x t c E1. exact Hc.
  - intros H. exact (u_err truncate x t _ (proj1 (truncate_err_fact (uapint x) t H))).
  - intros H. destruct (zero_extend_fact (uapint x) t Wx H) as (c & E1 & _ & Hc). u_two zero_extend x t c E1. exact Hc.
  - intros H. exact (u_err zero_extend x t _ (proj1 (zero_extend_err_fact (uapint x) t H))).
  - destruct (resize_fact (uapint x) t Wx Ht) as (c & d & E1 & _ & Hc & _). exists (mk_uint c).
    unfold uint_into_resize, forward_bin_mut_impl, uint_resize, uint_new. rewrite E1. auto.
Qed.

Lemma uint_bitwise_fact x y w u v : is_uint x w u -> is_uint y w v ->
  (exists c, uint_bitand_assign x y = Val (c, Ok tt) /\ uint_into_bitand x y = Val (Ok c) /\ is_uint c w (Z.land u v)) /\
  (exists c, uint_bitor_assign x y = Val (c, Ok tt) /\ uint_into_bitor x y = Val (Ok c) /\ is_uint c w (Z.lor u v)) /\
  (exists c, uint_bitxor_assign x y = Val (c, Ok tt) /\ uint_into_bitxor x y = Val (Ok c) /\ is_uint c w (Z.lxor u v)) /\
  (exists c, uint_bitnot x = Val c /\ uint_into_bitnot x = Val c /\ is_uint c w (2 ^ w - 1 - u)).
Proof.
  intros (Wx & Lx & Ux) (Wy & Ly & Uy). subst u v. assert (E : len (uapint x) = len (uapint y)) by congruence. subst w.
  assert (Hb : forall c z, wf c -> (forall p, bit c p = Z.testbit z p) -> unsigned c = z).
  { intros c z Hc Hp. apply bits_unsigned; auto. }
  split; [|split; [|split]].
  - destruct (bitand_fact (uapint x) (uapint y) Wx Wy E) as (c & E1 & _ & Wc & Lc & Hc).
    u_two (fun a b => bitand_assign a (uapint b)) x y c E1. split; [exact Wc|split; [exact Lc|]].
    apply Hb; [exact Wc|]. intros p. rewrite Hc, Z.land_spec. reflexivity.
  - destruct (bitor_fact (uapint x) (uapint y) Wx Wy E) as (c & E1 & _ & Wc & Lc & Hc).
    u_two (fun a b => bitor_assign a (uapint b)) x y c E1. split; [exact Wc|split; [exact Lc|]].
    apply Hb; [exact Wc|]. intros p. rewrite Hc, Z.lor_spec. reflexivity.
  - destruct (bitxor_fact (uapint x) (uapint y) Wx Wy E) as (c & E1 & _ & Wc & Lc & Hc).
    u_two (fun a b => bitxor_assign a (uapint b)) x y c E1. split; [exact Wc|split; [exact Lc|]].
    apply Hb; [exact Wc|]. intros p. rewrite Hc, Z.lxor_spec. reflexivity.
  - destruct (not_den (uapint x) (len (uapint x)) (unsigned (uapint x))) as (c & E1 & Hc); [unfold is_apint; auto|].
    exists (mk_uint c). unfold uint_into_bitnot, forward_mut_impl, uint_bitnot, uint_new.
    unfold into_bitnot, forward_mut_impl in E1. rewrite E1. auto.
Qed.

Lemma uint_bit_fact x w u p : is_uint x w u ->
  (0 <= p < w -> uint_get_bit_at x p = Val (Ok (Z.testbit u p)) /\
    (exists c, uint_set_bit_at x p = Val (c, Ok tt) /\ is_uint c w (Z.setbit u p)) /\
    (exists c, uint_unset_bit_at x p = Val (c, Ok tt) /\ is_uint c w (Z.clearbit u p)) /\
    (exists c, uint_flip_bit_at x p = Val (c, Ok tt) /\ is_uint c w (Z.lxor u (2 ^ p)))) /\
  (w <= p -> uint_get_bit_at x p = Val (Err (InvalidBitAccess p w)) /\
    uint_set_bit_at x p = Val (x, Err (InvalidBitAccess p w)) /\
    uint_unset_bit_at x p = Val (x, Err (InvalidBitAccess p w)) /\
    uint_flip_bit_at x p = Val (x, Err (InvalidBitAccess p w))) /\
  (exists c, uint_set_all x = Val c /\ is_uint c w (2 ^ w - 1)) /\
  (exists c, uint_unset_all x = Val c /\ is_uint c w 0) /\
  (exists c, uint_flip_all x = Val c /\ is_uint c w (2 ^ w - 1 - u)).
Proof.
  intros (Wx & Lx & Ux). subst u w. unfold uint_get_bit_at, uint_set_bit_at, uint_unset_bit_at, uint_flip_bit_at, uint_upd.
  split; [|split].
  - intros Hp. split; [now apply get_bit_at_fact|].
    destruct (set_bit_at_num (uapint x) p Wx Hp) as (c1 & -> & H1).
    destruct (unset_bit_at_num (uapint x) p Wx Hp) as (c2 & -> & H2).
    destruct (flip_bit_at_num (uapint x) p Wx Hp) as (c3 & -> & H3). cbn [bind].
    split; [exists (mk_uint c1); auto|split; [exists (mk_uint c2); auto|exists (mk_uint c3); auto]].
  - intros Hp. destruct (bit_oob_fact (uapint x) p Hp) as (-> & -> & -> & ->). cbn [bind]. destruct x. auto.
  - destruct (whole_fact (uapint x) Wx) as ((c1 & E1 & H1) & (c2 & E2 & H2) & (c3 & E3 & H3)).
    unfold uint_set_all, uint_unset_all, uint_flip_all, uint_new. rewrite E1, E2, E3. cbn [bind].
    split; [exists (mk_uint c1); auto|split; [exists (mk_uint c2); auto|exists (mk_uint c3); auto]].
Qed.

Lemma uint_query_fact x w u : is_uint x w u ->
  uint_width x = w /\ uint_is_zero x = Val (u =? 0) /\ uint_is_all_unset x = Val (u =? 0) /\
  uint_is_even x = Val (Z.even u) /\ uint_is_odd x = Val (Z.odd u) /\
  (exists o z, uint_count_ones x = Val o /\ uint_count_zeros x = Val z /\ o = ones_below u w /\ o + z = w) /\
  (exists k, uint_leading_zeros x = Val k /\ 0 <= k <= w /\ u < 2 ^ (w - k) /\ (k < w -> 2 ^ (w - k - 1) <= u)) /\
  (exists k, uint_trailing_zeros x = Val k /\ (u = 0 -> k = w) /\
    (u <> 0 -> 0 <= k < w /\ Z.testbit u k = true /\ forall i, 0 <= i < k -> Z.testbit u i = false)).
Proof.
  intros (Wx & Lx & Ux). subst u w. destruct (predicates_fact (uapint x) Wx) as (_ & _ & _ & H1 & H2 & H3 & H4).
  split; [reflexivity|]. do 4 (split; [assumption|]). split; [now apply count_fact|].
  split; [now apply leading_zeros_spec|now apply trailing_zeros_spec].
Qed.

Lemma uint_prim_fact x w u : is_uint x w u ->
  uint_resize_to_bool x = Val (Z.odd u) /\ uint_resize_to_u8 x = Val (u mod 2 ^ 8) /\
  uint_resize_to_u16 x = Val (u mod 2 ^ 16) /\ uint_resize_to_u32 x = Val (u mod 2 ^ 32) /\
  uint_resize_to_u64 x = Val (u mod 2 ^ 64) /\ uint_resize_to_u128 x = Val (u mod 2 ^ 128) /\
  uint_try_to_bool x = Val (if u =? 0 then Ok false else if u =? 1 then Ok true
    else Err (ValueUnrepresentable (uint_into_apint x) PBool)) /\
  uint_try_to_u8 x = Val (if u <? 2 ^ 8 then Ok u else Err (ValueUnrepresentable (uint_into_apint x) PU8)) /\
  uint_try_to_u16 x = Val (if u <? 2 ^ 16 then Ok u else Err (ValueUnrepresentable (uint_into_apint x) PU16)) /\
  uint_try_to_u32 x = Val (if u <? 2 ^ 32 then Ok u else Err (ValueUnrepresentable (uint_into_apint x) PU32)) /\
  uint_try_to_u64 x = Val (if u <? 2 ^ 64 then Ok u else Err (ValueUnrepresentable (uint_into_apint x) PU64)) /\
  uint_try_to_u128 x = Val (if u <? 2 ^ 128 then Ok u else Err (ValueUnrepresentable (uint_into_apint x) PU128)).
Proof.
  intros (Wx & Lx & Ux). subst u w. destruct (resize_prim_fact (uapint x) Wx) as (R1 & R2 & R3 & R4 & R5 & R6 & _).
  destruct (try_unsigned_fact (uapint x) Wx) as (T1 & T2 & T3 & T4 & T5 & T6). do 11 (split; [assumption|]). assumption.
Qed.

Lemma u_new m w u : (exists c, m = Val c /\ is_apint c w u) -> exists x, uint_new m = Val x /\ is_uint x w u.
Proof. intros (c & -> & H). exists (mk_uint c). auto. Qed.
Lemma uint_constructor_fact :
  (forall b, exists x, uint_from_bool b = Val x /\ is_uint x 1 (if b : bool then 1 else 0)) /\
  (forall v, 0 <= v < 2 ^ 8 -> exists x, uint_from_u8 v = Val x /\ is_uint x 8 v) /\
  (forall v, 0 <= v < 2 ^ 16 -> exists x, uint_from_u16 v = Val x /\ is_uint x 16 v) /\
  (forall v, 0 <= v < 2 ^ 32 -> exists x, uint_from_u32 v = Val x /\ is_uint x 32 v) /\
  (forall v, 0 <= v < 2 ^ 64 -> exists x, uint_from_u64 v = Val x /\ is_uint x 64 v) /\
  (forall v, 0 <= v < 2 ^ 128 -> exists x, uint_from_u128 v = Val x /\ is_uint x 128 v) /\
  (forall vals, vals <> [] -> Forall digit_ok vals ->
    exists x, uint_from_array vals = Val x /\ is_uint x (64 * Z.of_nat (length vals)) (be_value vals)) /\
  (forall w, 0 < w ->
    (exists x, uint_zero w = Val x /\ uint_all_unset w = Val x /\ uint_min_value w = Val x /\ is_uint x w 0) /\
    (exists x, uint_one w = Val x /\ is_uint x w 1) /\
    (exists x, uint_all_set w = Val x /\ uint_max_value w = Val x /\ is_uint x w (2 ^ w - 1)) /\
    (forall x u, is_uint x w u -> 0 <= u <= 2 ^ w - 1)).
Proof.
  destruct from_unsigned_fact as (H1 & H2 & H3 & H4 & H5 & H6).
  split; [intros b; apply u_new, H1|]. split; [intros v Hv; apply u_new, H2, Hv|]. split; [intros v Hv; apply u_new, H3, Hv|].
  split; [intros v Hv; apply u_new, H4, Hv|]. split; [intros v Hv; apply u_new, H5, Hv|]. split; [intros v Hv; apply u_new, H6, Hv|].
  split; [intros vals Hne Hf; apply u_new, (from_array_fact vals Hne), Hf|]. intros w Hw.
  destruct (constants_fact w Hw) as ((z & Z1 & Z2 & Z3 & Z4) & Ho & (m & M1 & M2 & M3) & _).
  split; [|split; [apply u_new, Ho|split]].
  - exists (mk_uint z). unfold uint_all_unset, uint_zero, uint_min_value, uint_new. rewrite Z1, Z3. auto.
  - exists (mk_uint m). unfold uint_all_set, uint_max_value, uint_new. rewrite M1, M2. auto.
  - intros x u (Wx & Lx & Ux). subst u w. pose proof (unsigned_bound _ Wx). lia.
Qed.

Lemma uint_other_fact x y w u w' v : is_uint x w u -> is_uint y w' v ->
  uint_clone x = Val x /\ uint_assign x y = Val y /\ (w = w' -> uint_strict_assign x y = Val (y, Ok tt)) /\
  is_uint (uint_from_apint (uint_into_apint x)) w u /\
  is_int (uint_into_signed x) w (wrap_signed w u) /\
  (uint_eqb x y = true <-> uint_hash_feed x = uint_hash_feed y) /\
  (exists s, uint_fmt_binary x = Val s /\ canonical_numeral 2 97 s /\ string_value 2 s = u) /\
  (exists s, uint_fmt_lower_hex x = Val s /\ canonical_numeral 16 97 s /\ string_value 16 s = u) /\
  (exists s, uint_fmt_upper_hex x = Val s /\ canonical_numeral 16 65 s /\ string_value 16 s = u).
Proof.
  intros (Wx & Lx & Ux) (Wy & Ly & Uy). subst u w v w'.
  destruct (assign_fact (uapint x) (uapint y) Wx Wy) as (E1 & E2 & E3 & _).
  destruct (format_fact (uapint x) Wx) as ((s1 & c1 & F1 & F2 & F3 & _) & (s2 & c2 & G1 & G2 & G3 & _) & (s3 & c3 & K1 & K2 & K3 & _)).
  unfold uint_clone, uint_assign, uint_strict_assign, uint_new, uint_upd. rewrite E1, E2. cbn [bind].
  split; [destruct x; reflexivity|]. split; [destruct y; reflexivity|].
  split; [intros H; rewrite (E3 H); destruct y; reflexivity|]. split; [destruct x; unfold is_uint, is_apint; auto|].
  split. { split; [exact Wx|]. split; [reflexivity|]. unfold wrap_signed, signed. cbn [uint_into_signed iapint].
    rewrite Z.mod_small by (now apply unsigned_bound). reflexivity. }
  split; [apply (eq_hash_fact (uapint x) (uapint y) Wx Wy)|].
  split; [exists s1; auto|split; [exists s2; auto|exists s3; auto]].
Qed.

Lemma uint_random_fact : forall (S : Type) (next : S -> Z * S) s, (forall s, digit_ok (fst (next s))) ->
  (forall w, 0 < w -> let n := Z.to_nat ((w + 63) / 64) in
    exists c, uint_random_with_width_using next w s = Val (c, state_after next n s) /\
      is_uint c w (words_value next n s mod 2 ^ w)) /\
  (forall x w u, is_uint x w u -> let n := Z.to_nat ((w + 63) / 64) in
    exists c, uint_randomize_using next x s = Val (c, state_after next n s) /\
      is_uint c w (words_value next n s mod 2 ^ w)).
Proof.
  intros S next s Hn. split.
  - intros w Hw n. destruct (random_fact S next w s Hn Hw) as (c & E & Hc). exists (mk_uint c).
    unfold uint_random_with_width_using. rewrite E. auto.
  - intros x w u (Wx & Lx & Ux) n. destruct (randomize_fact S next (uapint x) s Hn Wx) as (c & E & _ & Hc).
    exists (mk_uint c). unfold uint_randomize_using. rewrite E. subst w. auto.
Qed.

Lemma uint_predicates_partial x w u : is_uint x w u ->
  (w <= 64 -> uint_is_one x = Val (u =? 1)) /\ (w mod 64 <> 0 -> uint_is_all_set x = Val (u =? 2 ^ w - 1)).
Proof.
  intros (Wx & Lx & Ux). subst u w. split; [intros H; now apply is_one_partial|intros H; now apply is_all_set_partial].
Qed.
