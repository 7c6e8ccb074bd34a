(** Proofs for MFuzz.v. *)
From Verif Require Export MFuzz.
From Coq Require Import Znumtheory.
From Verif Require Import LDiv7 LFacts LLaws LOverflow LInt4 LCount LSerial LEx.

Lemma assert_eq_ok a b w u : is_apint a w u -> is_apint b w u -> assert_eq a b = Val tt.
Proof.
  intros A B. rewrite (is_apint_unique a b w u A B). unfold assert_eq.
  now rewrite (proj2 (apint_eqb_eq b b) eq_refl).
Qed.
Lemma assert_eq_mod a b w u v : is_apint a w u -> is_apint b w v -> u = v -> assert_eq a b = Val tt.
Proof. intros A B <-. now apply (assert_eq_ok a b w u). Qed.

(** What the operations give, in terms of the values. *)
Lemma f_add a b w x y : is_apint a w x -> is_apint b w y ->
  exists c, op_unwrap (into_wrapping_add a b) = Val c /\ is_apint c w ((x + y) mod 2 ^ w).
Proof.
  intros (A & <- & <-) (B & L & <-). destruct (add_fact a b A B) as (c & _ & E & H & _); [congruence|].
  exists c. unfold op_unwrap. rewrite E. auto.
Qed.
Lemma f_sub a b w x y : is_apint a w x -> is_apint b w y ->
  exists c, op_unwrap (into_wrapping_sub a b) = Val c /\ is_apint c w ((x - y) mod 2 ^ w).
Proof.
  intros (A & <- & <-) (B & L & <-). destruct (sub_fact a b A B) as (c & _ & E & H & _); [congruence|].
  exists c. unfold op_unwrap. rewrite E. auto.
Qed.
Lemma f_mul a b w x y : is_apint a w x -> is_apint b w y ->
  exists c, op_unwrap (into_wrapping_mul a b) = Val c /\ is_apint c w ((x * y) mod 2 ^ w).
Proof.
  intros (A & <- & <-) (B & L & <-). destruct (mul_fact a b A B) as (c & _ & E & H & _); [congruence|].
  exists c. unfold op_unwrap. rewrite E. auto.
Qed.
Lemma f_inc a w x : is_apint a w x ->
  exists c, into_wrapping_inc a = Val c /\ wrapping_inc a = Val c /\ is_apint c w ((x + 1) mod 2 ^ w).
Proof. intros (A & <- & <-). destruct (inc_fact a A) as (c & E & F & H & _). eauto. Qed.
Lemma f_dec a w x : is_apint a w x ->
  exists c, wrapping_dec a = Val c /\ is_apint c w ((x - 1) mod 2 ^ w).
Proof. intros (A & <- & <-). destruct (dec_fact a A) as (c & E & F & H & _). eauto. Qed.
Lemma f_neg a w x : is_apint a w x ->
  exists c, into_wrapping_neg a = Val c /\ is_apint c w ((- x) mod 2 ^ w).
Proof. intros (A & <- & <-). destruct (neg_fact a A) as (c & E & F & H & _). eauto. Qed.
Lemma f_shl a w x s : is_apint a w x -> 0 <= s < w ->
  exists c, op_unwrap (into_wrapping_shl a s) = Val c /\ is_apint c w ((x * 2 ^ s) mod 2 ^ w).
Proof.
  intros (A & <- & <-) Hs. destruct (shl_fact a s A Hs) as (c & _ & E & H).
  exists c. unfold op_unwrap. rewrite E. auto.
Qed.
Lemma f_lshr a w x s : is_apint a w x -> 0 <= s < w ->
  exists c, op_unwrap (into_wrapping_lshr a s) = Val c /\ is_apint c w (x / 2 ^ s).
Proof.
  intros (A & <- & <-) Hs. destruct (lshr_fact a s A Hs) as (c & _ & E & H).
  exists c. unfold op_unwrap. rewrite E. auto.
Qed.
Lemma f_all_set w : 0 < w -> exists c, all_set w = Val c /\ unsigned_max_value w = Val c /\ is_apint c w (2 ^ w - 1).
Proof. intros H. destruct (constants_fact w H) as (_ & _ & C & _). exact C. Qed.
Lemma f_zero w : 0 < w -> exists c, zero w = Val c /\ is_apint c w 0.
Proof. intros H. destruct (constants_fact w H) as ((c & E & _ & _ & C) & _). eauto. Qed.
Lemma f_resize a w x t : is_apint a w x -> 0 < t ->
  exists c, into_zero_resize a t = Val c /\ is_apint c t (x mod 2 ^ t).
Proof. intros (A & <- & <-) Ht. destruct (resize_fact a t A Ht) as (c & d & _ & E & H & _). eauto. Qed.
Lemma f_extend a w x t : is_apint a w x -> w <= t ->
  exists c, op_unwrap (into_zero_extend a t) = Val c /\ is_apint c t x.
Proof.
  intros (A & <- & <-) Ht. destruct (zero_extend_fact a t A Ht) as (c & _ & E & H).
  exists c. unfold op_unwrap. rewrite E. auto.
Qed.
Lemma f_one w : 0 < w -> exists c, fuzz_one w = Val c /\ is_apint c w 1.
Proof.
  intros H. destruct (f_all_set 1) as (m & _ & E & M); [lia|]. change (2 ^ 1 - 1) with 1 in M.
  destruct (f_resize m 1 1 w M H) as (c & F & C). exists c. unfold fuzz_one. rewrite E. cbn [bind]. split; auto.
  rewrite Z.mod_small in C; auto. split; [lia|]. apply Z.pow_gt_1; lia.
Qed.

Ltac step H := let c := fresh "c" in let E := fresh "E" in let C := fresh "C" in
  destruct H as (c & E & C); [..|rewrite E; cbn [bind]].

Lemma range_of a w x : is_apint a w x -> 0 < w /\ 0 < 2 ^ w /\ 0 <= x < 2 ^ w.
Proof. intros H. destruct (is_apint_pow_pos a w x H) as (A & B & C). auto. Qed.

Lemma inc_dec_ok w lhs x : is_apint lhs w x -> fuzz_inc_dec w lhs = Val tt.
Proof.
  intros L. destruct (range_of _ _ _ L) as (Hw & Hp & Hx). unfold fuzz_inc_dec.
  destruct (f_inc lhs w x L) as (t & E & _ & T). rewrite E; cbn [bind].
  destruct (f_one w Hw) as (k & Ek & K). destruct (f_all_set w Hw) as (m & Em & _ & M).
  rewrite Ek; cbn [bind]. destruct (f_add lhs k w x 1 L K) as (s & Es & S1). rewrite Es; cbn [bind].
  rewrite (assert_eq_ok t s w _ T S1); cbn [bind]. rewrite Em; cbn [bind].
  destruct (f_sub lhs m w x _ L M) as (s2 & Es2 & S2). rewrite Es2; cbn [bind].
  rewrite (assert_eq_mod t s2 w _ _ T S2); cbn [bind].
  2:{ replace (x - (2 ^ w - 1)) with (x + 1 + (-1) * 2 ^ w) by lia. now rewrite Z_mod_plus_full. }
  destruct (f_dec t w _ T) as (t1 & E1 & T1). rewrite E1; cbn [bind].
  assert (T1' : is_apint t1 w x).
  { rewrite Zminus_mod_idemp_l in T1. replace (x + 1 - 1) with x in T1 by lia. now rewrite Z.mod_small in T1. }
  rewrite (assert_eq_ok t1 lhs w x T1' L); cbn [bind].
  destruct (f_dec t1 w _ T1') as (t2 & E2 & T2). rewrite E2; cbn [bind]. 
  destruct (f_sub lhs k w x 1 L K) as (s3 & Es3 & S3). rewrite Es3; cbn [bind].
  rewrite (assert_eq_ok t2 s3 w _ T2 S3); cbn [bind].
  destruct (f_add lhs m w x _ L M) as (s4 & Es4 & S4). rewrite Es4; cbn [bind].
  rewrite (assert_eq_mod t2 s4 w _ _ T2 S4); cbn [bind].
  2:{ replace (x + (2 ^ w - 1)) with (x - 1 + 1 * 2 ^ w) by lia. now rewrite Z_mod_plus_full. }
  destruct (f_inc t2 w _ T2) as (t3 & _ & E3 & T3). rewrite E3; cbn [bind].
  apply (assert_eq_mod t3 lhs w _ _ T3 L). rewrite Zplus_mod_idemp_l.
  replace (x - 1 + 1) with x by lia. now apply Z.mod_small.
Qed.

(** Rounding: the floor of a quotient from the truncated one. *)
Lemma floor_of_quot x y : 0 < y ->
  x / y = Z.quot x y - (if (x <? 0) && negb (Z.rem x y =? 0) then 1 else 0).
Proof.
  intros Hy. pose proof (Z.quot_rem' x y) as E. destruct (Z.ltb_spec x 0) as [N|N]; cbn [andb].
  - pose proof (Z.rem_bound_abs x y ltac:(lia)) as B. rewrite (Z.abs_eq y) in B by lia.
    destruct (Z.eqb_spec (Z.rem x y) 0) as [Q|Q]; cbn [negb].
    + symmetry. apply (Z.div_unique_pos x y _ 0); lia.
    + assert (Z.rem x y <= 0) by (apply Z.rem_nonpos; lia).
      symmetry. apply (Z.div_unique_pos x y _ (Z.rem x y + y)); lia.
  - rewrite Z.quot_div_nonneg by lia. lia.
Qed.
Lemma signed_inj a b : wf a -> wf b -> len a = len b -> signed a = signed b -> a = b.
Proof.
  intros A B L S. apply (is_apint_unique a b (len a) (unsigned a)); [now apply wf_is_apint|].
  split; auto. split; auto. rewrite <- (signed_mod a A), <- (signed_mod b B). congruence.
Qed.

Lemma signed_zero a : wf a -> (signed a =? 0) = (unsigned a =? 0).
Proof.
  intros A. pose proof (signed_mod a A) as M. pose proof (unsigned_bound a A) as U.
  destruct (Z.eqb_spec (signed a) 0) as [E|E].
  - rewrite E, Z.mod_0_l in M by lia. symmetry. now apply Z.eqb_eq.
  - symmetry. apply Z.eqb_neq. intros F. apply E. unfold signed, to_signed. rewrite F.
    pose proof (wf_len a A). destruct (Z.ltb_spec 0 (2 ^ (len a - 1))) as [|Q]; [lia|].
    pose proof (Z.pow_pos_nonneg 2 (len a - 1) ltac:(lia) ltac:(lia)). lia.
Qed.

(** Dividing by a power of two as a signed number and rounding down. *)
Lemma floored w s sl sp :
  0 <= s < w -> - 2 ^ (w - 1) <= sl < 2 ^ (w - 1) ->
  sp = (if s =? w - 1 then - 2 ^ s else 2 ^ s) -> ~ (s = w - 1 /\ sl = - 2 ^ (w - 1)) ->
  sl / 2 ^ s = Z.quot sl sp - (if (sl <? 0) && negb (Z.rem sl sp =? 0) then 1 else 0) /\
  - 2 ^ (w - 1) <= Z.quot sl sp < 2 ^ (w - 1).
Proof.
  intros Hs Hl Hp N. pose proof (Z.pow_pos_nonneg 2 s ltac:(lia) ltac:(lia)) as P.
  destruct (Z.eqb_spec s (w - 1)) as [->|F].
  - set (H := 2 ^ (w - 1)) in *. assert (Hl' : - H < sl < H) by lia.
    assert (Q : Z.quot sl sp = 0).
    { subst sp. rewrite Z.quot_opp_r by lia.
      assert (Z.quot sl H = 0) by (apply Z.quot_small_iff; lia). lia. }
    assert (R : Z.rem sl sp = sl).
    { subst sp. rewrite Z.rem_opp_r by lia. apply Z.rem_small_iff; lia. }
    rewrite Q, R. split; [|lia]. destruct (Z.ltb_spec sl 0) as [L|L]; cbn [andb].
    + destruct (Z.eqb_spec sl 0); [lia|]. cbn [negb]. symmetry. apply (Z.div_unique_pos sl H _ (sl + H)); lia.
    + rewrite Z.div_small by lia. lia.
  - subst sp. split; [now apply floor_of_quot|].
    assert (B : Z.abs (Z.quot sl (2 ^ s)) <= Z.abs sl).
    { rewrite <- Z.quot_abs by lia. rewrite (Z.abs_eq (2 ^ s)) by lia.
      rewrite Z.quot_div_nonneg by lia. apply Z.div_le_upper_bound; nia. }
    destruct (Z.ltb_spec sl 0) as [L|L].
    + assert (Z.quot sl (2 ^ s) <= 0).
      { pose proof (Z.quot_pos (- sl) (2 ^ s) ltac:(lia) ltac:(lia)) as Q. rewrite Z.quot_opp_l in Q by lia. lia. }
      lia.
    + pose proof (Z.quot_pos sl (2 ^ s) ltac:(lia) ltac:(lia)). lia.
Qed.

Lemma signed_pow w s p : 0 <= s < w -> is_apint p w (2 ^ s) ->
  signed p = (if s =? w - 1 then - 2 ^ s else 2 ^ s).
Proof.
  intros Hs (_ & L & U). unfold signed, to_signed. rewrite L, U.
  destruct (Z.eqb_spec s (w - 1)) as [->|F].
  - rewrite Z.ltb_irrefl. rewrite (pow2_double w) by lia. lia.
  - pose proof (Z.pow_lt_mono_r 2 s (w - 1) ltac:(lia) ltac:(lia) ltac:(lia)).
    destruct (Z.ltb_spec (2 ^ s) (2 ^ (w - 1))); lia.
Qed.

Lemma shifts_ok w lhs x s : is_apint lhs w x -> 0 <= s < w -> fuzz_shifts w w lhs s = Val tt.
Proof.
  intros L Hs. destruct (range_of _ _ _ L) as (Hw & Hp & Hx). unfold fuzz_shifts.
  pose proof (Z.pow_pos_nonneg 2 s ltac:(lia) ltac:(lia)) as Ps.
  assert (Bs : 2 ^ s < 2 ^ w) by (apply Z.pow_lt_mono_r; lia).
  assert (O1 : 1 < 2 ^ w) by (apply Z.pow_gt_1; lia).
  destruct (f_one w Hw) as (k & Ek & K). destruct (f_all_set w Hw) as (m & _ & Em & M).
  rewrite Ek; cbn [bind]. destruct (f_shl k w 1 s K Hs) as (p & Ep & Pw). rewrite Ep; cbn [bind].
  rewrite Z.mul_1_l, Z.mod_small in Pw by lia.
  destruct (f_shl lhs w x s L Hs) as (a1 & E1 & A1). rewrite E1; cbn [bind].
  destruct (f_mul lhs p w x _ L Pw) as (a2 & E2 & A2). rewrite E2; cbn [bind].
  rewrite (assert_eq_ok a1 a2 w _ A1 A2); cbn [bind].
  destruct (f_neg lhs w x L) as (n & En & N). rewrite En; cbn [bind].
  destruct (f_shl n w _ s N Hs) as (a3 & E3 & A3). rewrite E3; cbn [bind].
  rewrite Em; cbn [bind]. destruct (f_shl m w _ s M Hs) as (m' & Em' & M'). rewrite Em'; cbn [bind].
  destruct (f_mul lhs m' w x _ L M') as (a4 & E4 & A4). rewrite E4; cbn [bind].
  rewrite (assert_eq_mod a3 a4 w _ _ A3 A4); cbn [bind].
  2:{ rewrite Zmult_mod_idemp_l, Zmult_mod_idemp_r.
      replace (x * ((2 ^ w - 1) * 2 ^ s)) with (- x * 2 ^ s + (x * 2 ^ s) * 2 ^ w) by ring.
      now rewrite Z_mod_plus_full. }
  destruct (f_lshr lhs w x s L Hs) as (a5 & E5 & A5). rewrite E5; cbn [bind].
  pose proof L as (Wl & Ll & Ul). pose proof Pw as (Wp & Lp & Up).
  destruct (udiv_all lhs p Wl Wp) as (q1 & r1 & _ & _ & _ & D1 & _ & _ & Q1 & _); [congruence|lia|].
  unfold op_unwrap at 1. rewrite D1; cbn [bind unwrap]. rewrite Ll, Ul, Up in Q1.
  rewrite (assert_eq_ok a5 q1 w _ A5 Q1); cbn [bind].
  unfold usize_sub. destruct (Z.leb_spec 1 w) as [_|]; [|lia]. cbn [bind].
  pose proof (signed_pow w s p Hs Pw) as Sp.
  assert (NZ : signed p <> 0) by (rewrite Sp; destruct (s =? w - 1); lia).
  destruct (sdiv_all lhs p Wl Wp) as (q & r & DR & _ & _ & DQ & _ & _ & Q & SQ & R & SR); [congruence|exact NZ|].
  rewrite Ll in *.
  destruct ((s =? w - 1) && apint_eqb lhs p) eqn:B.
  - apply andb_prop in B as [_ B]. apply apint_eqb_eq in B. subst p.
    unfold op_unwrap. rewrite DQ; cbn [bind unwrap].
    apply (assert_eq_mod q k w _ _ Q K). rewrite Z.quot_same by exact NZ. apply Z.mod_small. lia.
  - rewrite DR; cbn [unwrap_mut2 bind unwrap].
    destruct (predicates_fact lhs Wl) as (_ & Ms & _). rewrite Ms; cbn [bind].
    pose proof R as (Wr & Lr & Ur). destruct (predicates_fact r Wr) as (_ & _ & _ & _ & _ & Zr & _).
    pose proof (signed_range lhs Wl) as RL. rewrite Ll in RL.
    destruct (floored w s (signed lhs) (signed p) Hs RL Sp) as (FL & FR).
    { intros [Es Esl]. apply Z.eqb_eq in Es as Es'. rewrite Es' in B, Sp. cbn [andb] in B.
      assert (lhs = p); [|subst; now rewrite (proj2 (apint_eqb_eq p p) eq_refl) in B].
      apply signed_inj; auto; [congruence|]. rewrite Sp, Esl. now rewrite Es. }
    destruct (ashr_fact lhs s Wl) as (c & _ & Ec & Wc & Lc & Sc); [lia|].
    rewrite wrap_signed_small in SQ by lia.
    rewrite Ll in Lc. pose proof Q as (Wq & Lq & _).
    assert (Fin : forall t, wf t -> len t = w -> signed t = signed c ->
        (let! u := op_unwrap (into_wrapping_ashr lhs s) in assert_eq t u) = Val tt).
    { intros t Wt Lt St. unfold op_unwrap. rewrite Ec; cbn [bind unwrap].
      assert (t = c) by (apply signed_inj; auto; congruence). subst t.
      apply (assert_eq_ok c c w (unsigned c)); (split; [auto|split; auto]). }
    assert (FE : (if signed lhs <? 0 then let! z := is_zero r in Val (negb z) else Val false)
        = Val ((signed lhs <? 0) && negb (Z.rem (signed lhs) (signed p) =? 0))).
    { destruct (signed lhs <? 0); auto. rewrite Zr; cbn [bind andb]. now rewrite <- signed_zero, SR by auto. }
    rewrite FE; cbn [bind]. destruct ((signed lhs <? 0) && _) eqn:FB.
    + destruct (dec_fact q Wq) as (t & Et & _ & (Wt & Lt & _) & St). rewrite Et; cbn [bind].
      apply Fin; auto; [congruence|]. rewrite St, SQ, Lq, Sc, FL.
      apply wrap_signed_small; auto. pose proof (signed_range c Wc) as RC. rewrite Lc in RC. lia.
    + cbn [bind]. apply Fin; auto. rewrite SQ. lia.
Qed.

Lemma mod_mod_le x a b : 0 <= a <= b -> (x mod 2 ^ b) mod 2 ^ a = x mod 2 ^ a.
Proof.
  intros H. symmetry. apply Zmod_div_mod; [apply Z.pow_pos_nonneg; lia|apply Z.pow_pos_nonneg; lia|].
  exists (2 ^ (b - a)). rewrite <- Z.pow_add_r by lia. f_equal. lia.
Qed.

Lemma wide_mul_ok w lhs rhs x y d :
  is_apint lhs w x -> is_apint rhs w y -> 2 * w < 2 ^ 64 -> fuzz_wide_mul w lhs rhs d = Val tt.
Proof.
  intros L R Hw2. destruct (range_of _ _ _ L) as (Hw & Hp & Hx). destruct (range_of _ _ _ R) as (_ & _ & Hy).
  unfold fuzz_wide_mul, bitwidth_new. pose proof (Z.mod_pos_bound d w Hw) as D.
  destruct (Z.eqb_spec (d mod w + 1) 0); [lia|]. cbn [unwrap bind].
  destruct (Z.ltb_spec (w * 2) (2 ^ 64)); [|lia]. cbn [bind].
  destruct (Z.eqb_spec (w * 2) 0); [lia|]. cbn [unwrap bind].
  destruct (f_extend lhs w x (w * 2) L) as (l & El & L'); [lia|]. rewrite El; cbn [bind].
  destruct (f_extend rhs w y (w * 2) R) as (r & Er & R'); [lia|]. rewrite Er; cbn [bind].
  destruct (f_mul l r _ x y L' R') as (p & Ep & P'). rewrite Ep; cbn [bind].
  destruct (f_resize p _ _ (d mod w + 1) P') as (p' & Ep' & P''); [lia|]. rewrite Ep'; cbn [bind].
  destruct (f_mul lhs rhs _ x y L R) as (q & Eq & Q'). rewrite Eq; cbn [bind].
  destruct (f_resize q _ _ (d mod w + 1) Q') as (q' & Eq' & Q''); [lia|]. rewrite Eq'; cbn [bind].
  apply (assert_eq_mod p' q' _ _ _ P'' Q''). rewrite !mod_mod_le by lia. reflexivity.
Qed.

Lemma f_and a b w x y : is_apint a w x -> is_apint b w y ->
  exists c, ap_op_bitand a b = Val c /\ ap_op_bitand_assign a b = Val c /\ is_apint c w (Z.land x y).
Proof.
  intros (A & <- & <-) (B & L & <-). destruct (ap_op_fact a b A B) as (_ & _ & _ & (c & E & F & W & Lc & H) & _); [congruence|].
  exists c. split; auto. split; auto. split; auto. split; auto. apply Z.bits_inj'. intros i _. rewrite Z.land_spec. apply H.
Qed.
Lemma f_or a b w x y : is_apint a w x -> is_apint b w y ->
  exists c, ap_op_bitor a b = Val c /\ ap_op_bitor_assign a b = Val c /\ is_apint c w (Z.lor x y).
Proof.
  intros (A & <- & <-) (B & L & <-). destruct (ap_op_fact a b A B) as (_ & _ & _ & _ & (c & E & F & W & Lc & H) & _); [congruence|].
  exists c. split; auto. split; auto. split; auto. split; auto. apply Z.bits_inj'. intros i _. rewrite Z.lor_spec. apply H.
Qed.
Lemma f_xor a b w x y : is_apint a w x -> is_apint b w y ->
  exists c, ap_op_bitxor_assign a b = Val c /\ is_apint c w (Z.lxor x y).
Proof.
  intros (A & <- & <-) (B & L & <-). destruct (ap_op_fact a b A B) as (_ & _ & _ & _ & _ & (c & E & F & W & Lc & H) & _); [congruence|].
  exists c. split; auto. split; auto. split; auto. apply Z.bits_inj'. intros i _. rewrite Z.lxor_spec. apply H.
Qed.

(** The mask leaves room for the product and a remainder. *)
Lemma mask_ok w lhs rhs x y :
  is_apint lhs w x -> is_apint rhs w y ->
  exists m v, fuzz_mask w w lhs rhs = Val m /\ is_apint m w v /\
    (y <> 0 -> (Z.land x v + 1) * y <= 2 ^ w).
Proof.
  intros L R. destruct (range_of _ _ _ L) as (Hw & Hp & Hx). destruct (range_of _ _ _ R) as (_ & _ & Hy).
  pose proof L as (Wl & Ll & Ul). pose proof R as (Wr & Lr & Ur). unfold fuzz_mask.
  destruct (leading_zeros_spec lhs Wl) as (a & Ea & Ba & Ua & _). rewrite Ea; cbn [bind].
  destruct (leading_zeros_spec rhs Wr) as (b & Eb & Bb & Ub & _). rewrite Eb; cbn [bind].
  rewrite Ll, Ul in *. rewrite Lr, Ur in *.
  assert (Low : forall k, 0 <= k <= w -> Z.land x (2 ^ k - 1) = x mod 2 ^ k).
  { intros k Hk. rewrite <- Z.land_ones by lia. f_equal. rewrite Z.ones_equiv. lia. }
  assert (Room : forall u c d, 0 <= u < 2 ^ c -> 0 <= c -> 0 <= d -> y < 2 ^ d -> c + d <= w -> (u + 1) * y <= 2 ^ w).
  { intros u c d Hu Hc Hd Hyd Hs. transitivity (2 ^ c * 2 ^ d); [|rewrite <- Z.pow_add_r by lia; apply Z.pow_le_mono_r; lia].
    apply Z.mul_le_mono_nonneg; lia. }
  destruct (Z.ltb_spec (a + b) w) as [T|T].
  - destruct (Z.eqb_spec b 0) as [->|Nb].
    + destruct (f_zero w Hw) as (z & Ez & Zz). exists z, 0. split; auto. split; auto.
      intros _. rewrite Z.land_0_r. lia.
    + unfold bitwidth_from_usize, bitwidth_new. destruct (Z.eqb_spec b 0); [lia|]. cbn [unwrap bind].
      destruct (f_all_set b) as (m & _ & Em & M); [lia|]. rewrite Em; cbn [bind].
      destruct (f_extend m b _ w M) as (m' & Em' & M'); [lia|].
      exists m', (2 ^ b - 1). split; auto. split; auto. intros _. rewrite Low by lia.
      apply (Room _ b (w - b)); try lia.
  - destruct (f_all_set w Hw) as (m & _ & Em & M). exists m, (2 ^ w - 1). split; auto. split; auto.
    intros _. rewrite Low by lia. rewrite Z.mod_small by lia. apply (Room _ (w - a) (w - b)); lia.
Qed.

Lemma division_ok w z lhs rhs third x y t :
  is_apint z w 0 -> is_apint lhs w x -> is_apint rhs w y -> is_apint third w t ->
  fuzz_division w w z lhs rhs third = Val tt.
Proof.
  intros Zz L R T. destruct (range_of _ _ _ R) as (Hw & Hp & Hy). destruct (range_of _ _ _ T) as (_ & _ & Ht).
  unfold fuzz_division. destruct (mask_ok w lhs rhs x y L R) as (m & v & Em & M & Room). rewrite Em; cbn [bind].
  destruct (f_and lhs m w x v L M) as (k & Ek & _ & K). rewrite Ek; cbn [bind].
  set (u := Z.land x v) in *. destruct (range_of _ _ _ K) as (_ & _ & Hu).
  destruct (f_mul k rhs w u y K R) as (p & Ep & P'). rewrite Ep; cbn [bind].
  destruct (apint_eqb rhs z) eqn:B; cbn [negb]; auto.
  pose proof R as (Wr & Lr & Ur).
  assert (Ny : y <> 0).
  { intros ->. rewrite (is_apint_unique rhs z w 0 R Zz) in B. now rewrite (proj2 (apint_eqb_eq z z) eq_refl) in B. }
  specialize (Room Ny). rewrite Z.mod_small in P' by nia.
  pose proof T as (Wt & Lt & Ut).
  destruct (udiv_all third rhs Wt Wr) as (q0 & r0 & _ & _ & _ & _ & _ & Er & _ & R0); [congruence|lia|].
  unfold op_unwrap at 1. rewrite Er; cbn [bind unwrap]. rewrite Lt, Ut, Ur in R0.
  pose proof (Z.mod_pos_bound t y ltac:(lia)) as Br. set (r := t mod y) in *.
  pose proof P' as (Wp & Lp & Up). pose proof R0 as (W0 & L0 & U0).
  destruct (uadd_spec p r0 Wp W0) as (c & Ec & (Sc & Lc) & Uc); [congruence|]. rewrite Ec; cbn [bind unwrap].
  rewrite Up, U0 in *. destruct (Z.leb_spec (2 ^ kept (len p)) (u * y + r)) as [F|F]; cbn [negb]; auto.
  rewrite Z.mod_small in Uc by nia.
  assert (Wc : wf c) by (apply wf_shape; split; [exact Sc|change (unsigned c < 2 ^ len c); rewrite Uc, Lc, Lp; nia]).
  destruct (udiv_all c rhs Wc Wr) as (q & r' & D & _ & _ & _ & _ & _ & Q & R'); [congruence|lia|].
  rewrite D; cbn [unwrap_mut2 bind unwrap]. rewrite Lc, Lp, Uc, Ur in Q, R'.
  assert (EQ : (u * y + r) / y = u) by (symmetry; apply (Z.div_unique_pos _ _ _ r); lia).
  assert (ER : (u * y + r) mod y = r) by (symmetry; apply (Z.mod_unique_pos _ _ u); lia).
  rewrite EQ in Q. rewrite ER in R'.
  rewrite (is_apint_unique q k w u Q K), (is_apint_unique r' r0 w r R' R0).
  now rewrite (proj2 (apint_eqb_eq k k) eq_refl), (proj2 (apint_eqb_eq r0 r0) eq_refl).
Qed.

(** Every identity holds. *)
Lemma identities_ok w z lhs rhs third x y t draws :
  is_apint z w 0 -> is_apint lhs w x -> is_apint rhs w y -> is_apint third w t -> 2 * w < 2 ^ 64 ->
  identities w w z lhs rhs third draws = Val tt.
Proof.
  intros Zz L R T H2. destruct (range_of _ _ _ R) as (Hw & _ & _). unfold identities.
  rewrite (inc_dec_ok w lhs x L); cbn [bind].
  rewrite (shifts_ok w lhs x _ L) by (apply Z.mod_pos_bound; lia); cbn [bind].
  rewrite (wide_mul_ok w lhs rhs x y _ L R H2); cbn [bind].
  now apply (division_ok w z lhs rhs third x y t).
Qed.

Definition at_width (w : Z) (a : apint) : Prop := wf a /\ len a = w.
Lemma at_is w a : at_width w a -> is_apint a w (unsigned a).
Proof. intros [H L]. split; auto. Qed.
Lemma is_at a w x : is_apint a w x -> at_width w a.
Proof. intros (H & L & _). split; auto. Qed.

Lemma below_ok w d : 0 < w -> w mod 2 ^ 32 <> 0 -> exists r, fuzz_below w d = Val r /\ 0 <= r < w.
Proof.
  intros Hw N. unfold fuzz_below. destruct (Z.eqb_spec (w mod 2 ^ 32) 0); [lia|].
  pose proof (Z.mod_pos_bound w (2 ^ 32) ltac:(lia)). pose proof (Z.mod_le w (2 ^ 32) ltac:(lia) ltac:(lia)).
  pose proof (Z.mod_pos_bound d (w mod 2 ^ 32) ltac:(lia)). eexists. split; [reflexivity|lia].
Qed.
Lemma turned_ok w d : 0 < w -> w mod 2 ^ 32 <> 0 -> exists m, fuzz_turned_ones w w d = Val m /\ at_width w m.
Proof.
  intros Hw N. unfold fuzz_turned_ones.
  destruct (below_ok w (draw_ones d) Hw N) as (r0 & -> & B0). cbn [bind].
  assert (B1 : 0 < (if r0 =? 0 then 1 else r0) <= w) by (destruct (Z.eqb_spec r0 0); lia).
  set (k := if r0 =? 0 then 1 else r0) in *. unfold bitwidth_new at 1. destruct (Z.eqb_spec k 0); [lia|]. cbn [unwrap bind].
  destruct (f_all_set k) as (m & _ & Em & M); [lia|]. rewrite Em; cbn [bind].
  destruct (f_extend m k _ w M) as (o & Eo & O'); [lia|]. rewrite Eo; cbn [bind].
  destruct (below_ok w (draw_turn d) Hw N) as (r1 & -> & B2). cbn [bind].
  destruct (Z.eqb_spec r1 0); [exists o; eauto using is_at|].
  destruct (f_shl o w _ r1 O' B2) as (l & El & L). rewrite El; cbn [bind].
  unfold usize_sub. destruct (Z.leb_spec r1 w); [|lia]. cbn [bind].
  destruct (f_lshr o w _ (w - r1) O') as (r & Er & R); [lia|]. rewrite Er; cbn [bind].
  destruct (f_or l r w _ _ L R) as (c & Ec & _ & C). eauto using is_at.
Qed.
Lemma update_ok w c m l r t : at_width w m -> at_width w l -> at_width w r -> at_width w t ->
  exists l' r' t', fuzz_update c m l r t = Val (l', r', t') /\ at_width w l' /\ at_width w r' /\ at_width w t'.
Proof.
  intros M L R T. apply at_is in M. pose proof (at_is _ _ L) as L'. pose proof (at_is _ _ R) as R'. pose proof (at_is _ _ T) as T'.
  destruct (f_and l m w _ _ L' M) as (? & _ & A1 & ?%is_at). destruct (f_and r m w _ _ R' M) as (? & _ & A2 & ?%is_at).
  destruct (f_and t m w _ _ T' M) as (? & _ & A3 & ?%is_at).
  destruct (f_or l m w _ _ L' M) as (? & _ & A4 & ?%is_at). destruct (f_or r m w _ _ R' M) as (? & _ & A5 & ?%is_at).
  destruct (f_or t m w _ _ T' M) as (? & _ & A6 & ?%is_at).
  destruct (f_xor l m w _ _ L' M) as (? & A7 & ?%is_at). destruct (f_xor r m w _ _ R' M) as (? & A8 & ?%is_at).
  destruct (f_xor t m w _ _ T' M) as (? & A9 & ?%is_at).
  destruct c as [[[[] []] []] []]; unfold fuzz_update;
    first [rewrite A1|rewrite A2|rewrite A3|rewrite A4|rewrite A5|rewrite A6|rewrite A7|rewrite A8|rewrite A9];
    cbn [bind]; eexists _, _, _; (split; [reflexivity|auto]).
Qed.
Lemma round_ok w z l r t d : 2 * w < 2 ^ 64 -> w mod 2 ^ 32 <> 0 -> is_apint z w 0 ->
  at_width w l -> at_width w r -> at_width w t ->
  exists l' r' t', fuzz_round w w z l r t d = Val (l', r', t') /\ at_width w l' /\ at_width w r' /\ at_width w t'.
Proof.
  intros H2 N Zz L R T. destruct (range_of _ _ _ Zz) as (Hw & _). unfold fuzz_round.
  destruct (turned_ok w d Hw N) as (m & -> & M). cbn [bind].
  destruct (update_ok w (draw_case d) m l r t M L R T) as (l' & r' & t' & -> & L' & R' & T'). cbn [bind].
  pose proof (at_is _ _ L') as IL. pose proof (at_is _ _ R') as IR. pose proof (at_is _ _ T') as IT.
  rewrite (identities_ok w z l' l' r' _ _ _ _ Zz IL IL IR H2); cbn [bind].
  rewrite (identities_ok w z l' r' t' _ _ _ _ Zz IL IR IT H2); cbn [bind].
  rewrite (identities_ok w z r' l' t' _ _ _ _ Zz IR IL IT H2); cbn [bind].
  rewrite (identities_ok w z t' l' r' _ _ _ _ Zz IT IL IR H2); cbn [bind].
  rewrite (identities_ok w z l' t' r' _ _ _ _ Zz IL IT IR H2); cbn [bind].
  rewrite (identities_ok w z t' r' l' _ _ _ _ Zz IT IR IL H2); cbn [bind].
  rewrite (identities_ok w z r' t' l' _ _ _ _ Zz IR IT IL H2); cbn [bind].
  exists l', r', t'. auto.
Qed.
Lemma rounds_ok w z ds : 2 * w < 2 ^ 64 -> w mod 2 ^ 32 <> 0 -> is_apint z w 0 ->
  forall l r t, at_width w l -> at_width w r -> at_width w t -> fuzz_rounds w w z l r t ds = Val tt.
Proof.
  intros H2 N Zz. induction ds as [|d ds IH]; intros l r t L R T; cbn [fuzz_rounds]; auto.
  destruct (round_ok w z l r t d) as (l' & r' & t' & -> & L' & R' & T'); auto. cbn [bind]. auto.
Qed.
Lemma f_from_zero w : 0 < w -> exists b z, from_u8 0 = Val b /\ into_zero_resize b w = Val z /\ is_apint z w 0.
Proof.
  intros Hw. destruct from_unsigned_fact as (_ & U & _). destruct (U 0) as (b & Eb & B); [lia|].
  destruct (f_resize b 8 0 w B Hw) as (z & Ez & Zz). rewrite Z.mod_0_l in Zz by (apply Z.pow_nonzero; lia). eauto.
Qed.
Lemma random_ok w ds : 0 < w -> 2 * w < 2 ^ 64 -> w mod 2 ^ 32 <> 0 -> fuzz_random w ds = Val tt.
Proof.
  intros Hw H2 N. unfold fuzz_random, bitwidth_new. destruct (Z.eqb_spec w 0); [lia|]. cbn [unwrap bind].
  destruct (f_from_zero w Hw) as (b & z & -> & Ez & Zz). cbn [bind]. rewrite Ez; cbn [bind].
  apply rounds_ok; eauto using is_at.
Qed.
Lemma random_multiple w d ds : 0 < w -> w mod 2 ^ 32 = 0 -> fuzz_random w (d :: ds) = Panic.
Proof.
  intros Hw N. unfold fuzz_random, bitwidth_new. destruct (Z.eqb_spec w 0); [lia|]. cbn [unwrap bind].
  destruct (f_from_zero w Hw) as (b & z & -> & Ez & Zz). cbn [bind]. rewrite Ez; cbn [bind fuzz_rounds].
  unfold fuzz_round, fuzz_turned_ones, fuzz_below. rewrite N. reflexivity.
Qed.

Lemma for_unit n : forall lo body, (forall i, (lo <= i < lo + n)%nat -> body i tt = Val tt) -> for_range n lo body tt = Val tt.
Proof.
  induction n as [|n IH]; intros lo body H; cbn [for_range]; auto.
  rewrite H by lia. cbn [bind]. apply IH. intros i Hi. apply H. lia.
Qed.
Lemma edge_digit_ok c : digit_ok (edge_digit c).
Proof.
  unfold edge_digit, digit_ok. destruct (Z.land c 3) as [|[p|[p|p|]|]|p]; try destruct p; cbn; lia.
Qed.
Lemma edge_apint_ok w cd code : 0 < w <= 64 * Z.of_nat cd -> exists a, edge_apint w (edge_digits cd code) = Val a /\ at_width w a.
Proof.
  intros Hw. unfold edge_apint, from_vec_u64.
  assert (Ln : length (edge_digits cd code) = cd) by (unfold edge_digits; now rewrite map_length, seq_length).
  assert (Dg : digs (rev (edge_digits cd code))).
  { apply digs_digit_ok. apply Forall_rev. apply Forall_forall. intros v. unfold edge_digits. rewrite in_map_iff.
    intros (i & <- & _). apply edge_digit_ok. }
  destruct (edge_digits cd code) as [|v vs] eqn:E; [cbn in Ln; lia|]. rewrite <- E in *.
  assert (NE : rev (edge_digits cd code) <> []) by (intros F; apply (f_equal (@length Z)) in F; rewrite rev_length, Ln in F; cbn in F; lia).
  destruct (from_iter_is _ NE Dg) as (c & Ec & C). unfold op_unwrap at 1. rewrite Ec; cbn [bind unwrap_opt].
  rewrite rev_length, Ln in C. unfold bitwidth_from_usize, bitwidth_new. destruct (Z.eqb_spec w 0); [lia|]. cbn [unwrap bind].
  pose proof C as (Wc & Lc & _). destruct (truncate_fact c w Wc) as (a & _ & Ea & A); [lia|].
  exists a. unfold op_unwrap. rewrite Ea; cbn [bind unwrap]. eauto using is_at.
Qed.
Lemma explode_ok cd inner : (cd < 32)%nat -> (forall i, inner i (edge_digits cd (Z.of_nat i)) = Val tt) -> explode cd inner = Val tt.
Proof.
  intros Hc H. unfold explode, edge_codes. rewrite Z.mod_small by lia.
  assert (B : 2 ^ (Z.of_nat cd * 2) < 2 ^ 64) by (apply Z.pow_lt_mono_r; lia).
  destruct (Z.ltb_spec (2 ^ (Z.of_nat cd * 2)) (2 ^ 64)); [|lia]. cbn [bind].
  apply for_unit. intros i _. apply H.
Qed.
Lemma edge_ok w draws : 0 < w <= 1984 -> fuzz_edge w draws = Val tt.
Proof.
  intros Hw. unfold fuzz_edge, bitwidth_new. destruct (Z.eqb_spec w 0); [lia|]. cbn [unwrap bind].
  destruct (f_from_zero w) as (b & z & -> & Ez & Zz); [lia|]. cbn [bind]. rewrite Ez; cbn [bind].
  set (cd := Z.to_nat (if w mod 64 =? 0 then w / 64 else w / 64 + 1)).
  assert (C : w <= 64 * Z.of_nat cd /\ (cd < 32)%nat).
  { pose proof (Z.div_mod w 64 ltac:(lia)). pose proof (Z.mod_pos_bound w 64 ltac:(lia)).
    unfold cd. destruct (Z.eqb_spec (w mod 64) 0); lia. }
  destruct C as [C1 C2]. clearbody cd.
  apply explode_ok; auto. intros i0. apply explode_ok; auto. intros i1. apply explode_ok; auto. intros i2.
  destruct (edge_apint_ok w cd (Z.of_nat i0)) as (x & -> & X); [lia|]. cbn [bind].
  destruct (edge_apint_ok w cd (Z.of_nat i1)) as (y & -> & Y); [lia|]. cbn [bind].
  destruct (edge_apint_ok w cd (Z.of_nat i2)) as (t & -> & T); [lia|]. cbn [bind].
  eapply identities_ok; eauto using at_is. lia.
Qed.
Lemma all_ok ts : Forall (fun t => t = Val tt) ts -> fuzz_all ts = Val tt.
Proof. induction 1 as [|t ts -> _ IH]; cbn [fuzz_all bind]; auto. Qed.
Lemma test_ok draws edges : fuzz_test draws edges = Val tt.
Proof.
  unfold fuzz_test.
  replace (from_vec_u64 [32; 234; 23]) with (Val (Some (mk_apint 192 [23; 234; 32]))) by (vm_compute; reflexivity).
  cbn [bind unwrap_opt].
  replace (from_u64_array [32; 234; 23]) with (Val (mk_apint 192 [23; 234; 32])) by (vm_compute; reflexivity).
  cbn [bind]. replace (assert_eq (mk_apint 192 [23; 234; 32]) (mk_apint 192 [23; 234; 32])) with (Val tt) by (vm_compute; reflexivity).
  cbn [bind]. rewrite all_ok.
  - cbn [bind]. apply all_ok. apply Forall_map. repeat constructor; apply edge_ok; lia.
  - apply Forall_map. repeat constructor; apply random_ok; (lia || (vm_compute; discriminate)).
Qed.

(** The room the mask leaves, and what the overflow test then reports. *)
Lemma masked_fits w lhs rhs third :
  wf lhs -> wf rhs -> wf third -> len lhs = w -> len rhs = w -> len third = w -> unsigned rhs <> 0 ->
  exists mask p, fuzz_mask w w lhs rhs = Val mask /\
    is_apint p w (Z.land (unsigned lhs) (unsigned mask) * unsigned rhs) /\
    Z.land (unsigned lhs) (unsigned mask) * unsigned rhs + unsigned third mod unsigned rhs < 2 ^ w /\
    (let! k := ap_op_bitand lhs mask in op_unwrap (into_wrapping_mul k rhs)) = Val p.
Proof.
  intros A B C L1 L2 L3 N. pose proof (at_is w lhs (conj A L1)) as IL. pose proof (at_is w rhs (conj B L2)) as IR.
  destruct (mask_ok w lhs rhs _ _ IL IR) as (m & v & Em & M & Room). specialize (Room N).
  destruct (f_and lhs m w _ _ IL M) as (k & Ek & _ & K). destruct (f_mul k rhs w _ _ K IR) as (p & Ep & P').
  destruct (range_of _ _ _ K) as (_ & _ & Hu). destruct (range_of _ _ _ IR) as (_ & _ & Hy).
  pose proof M as (_ & _ & Um).
  rewrite Z.mod_small in P' by nia. exists m, p. rewrite Um, Ek; cbn [bind].
  pose proof (Z.mod_pos_bound (unsigned third) (unsigned rhs) ltac:(lia)). repeat split; auto; try nia; apply P'.
Qed.
Lemma identities_fact w z lhs rhs third draws :
  wf lhs -> wf rhs -> wf third -> len lhs = w -> len rhs = w -> len third = w -> is_apint z w 0 -> 2 * w < 2 ^ 64 ->
  identities w w z lhs rhs third draws = Val tt.
Proof.
  intros A B C L1 L2 L3 Zz H2. eapply identities_ok; eauto;
    apply at_is; split; auto.
Qed.
