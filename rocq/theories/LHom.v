(** Truncation, extension and overflow tests across the arithmetic. *)
From Coq Require Import Btauto.
From Verif Require Export LLaws.

Lemma trunc_den a w u t : is_apint a w u -> 0 < t <= w -> denotes (into_truncate a t) t (u mod 2 ^ t).
Proof. intros (A & <- & <-) Ht. destruct (truncate_fact a t A Ht) as (c & _ & H & Hc). exists c; auto. Qed.
Lemma zext_den a w u t : is_apint a w u -> w <= t -> denotes (into_zero_extend a t) t u.
Proof. intros (A & <- & <-) Ht. destruct (zero_extend_fact a t A Ht) as (c & _ & H & Hc). exists c; auto. Qed.
Lemma sext_den a w u t : is_apint a w u -> w <= t -> denotes (into_sign_extend a t) t (to_signed w u mod 2 ^ t).
Proof.
  intros (A & <- & <-) Ht. destruct (sign_extend_fact a t A Ht) as (c & _ & H & W & L & S).
  exists c; split; auto. split; [auto|split; [auto|]]. fold (signed a). rewrite <- S.
  unfold signed. rewrite L. symmetry. apply to_signed_mod; [rewrite <- L; now apply wf_len|].
  rewrite <- L. now apply unsigned_bound.
Qed.
Lemma is_apint_range a w u : is_apint a w u -> - 2 ^ (w - 1) <= to_signed w u < 2 ^ (w - 1).
Proof. intros (A & <- & <-). exact (signed_range a A). Qed.
Lemma signed_den c w z : is_apint c w (z mod 2 ^ w) -> signed c = wrap_signed w z.
Proof. intros (W & L & V). unfold signed. now rewrite L, V. Qed.
Lemma sign_bit a : wf a -> msb a = Val (signed a <? 0).
Proof. intros Ha. rewrite msb_spec by now apply wf_sh. f_equal. now apply bit_msb_neg. Qed.

Lemma land_mod x y t : 0 <= t -> Z.land x y mod 2 ^ t = Z.land (x mod 2 ^ t) (y mod 2 ^ t).
Proof. intros. rewrite <- !Z.land_ones by lia. apply Z.bits_inj'; intros i _. rewrite !Z.land_spec. btauto. Qed.
Lemma lor_mod x y t : 0 <= t -> Z.lor x y mod 2 ^ t = Z.lor (x mod 2 ^ t) (y mod 2 ^ t).
Proof.
  intros. rewrite <- !Z.land_ones by lia. apply Z.bits_inj'; intros i _.
  rewrite !Z.land_spec, !Z.lor_spec, !Z.land_spec. btauto.
Qed.
Lemma lxor_mod x y t : 0 <= t -> Z.lxor x y mod 2 ^ t = Z.lxor (x mod 2 ^ t) (y mod 2 ^ t).
Proof.
  intros. rewrite <- !Z.land_ones by lia. apply Z.bits_inj'; intros i _.
  rewrite !Z.land_spec, !Z.lxor_spec, !Z.land_spec. btauto.
Qed.

(** Truncating the result is computing with truncated operands. *)
Lemma truncation_fact a b t : wf a -> wf b -> len a = len b -> 0 < t <= len a ->
  (let? c := into_wrapping_add a b in into_truncate c t) =
  (let? x := into_truncate a t in let? y := into_truncate b t in into_wrapping_add x y) /\
  (let? c := into_wrapping_sub a b in into_truncate c t) =
  (let? x := into_truncate a t in let? y := into_truncate b t in into_wrapping_sub x y) /\
  (let? c := into_wrapping_mul a b in into_truncate c t) =
  (let? x := into_truncate a t in let? y := into_truncate b t in into_wrapping_mul x y) /\
  (let? c := into_bitand a b in into_truncate c t) =
  (let? x := into_truncate a t in let? y := into_truncate b t in into_bitand x y) /\
  (let? c := into_bitor a b in into_truncate c t) =
  (let? x := into_truncate a t in let? y := into_truncate b t in into_bitor x y) /\
  (let? c := into_bitxor a b in into_truncate c t) =
  (let? x := into_truncate a t in let? y := into_truncate b t in into_bitxor x y) /\
  (let! c := into_wrapping_neg a in into_truncate c t) =
  (let? x := into_truncate a t in let! c := into_wrapping_neg x in Val (Ok c)) /\
  (let! c := into_bitnot a in into_truncate c t) =
  (let? x := into_truncate a t in let! c := into_bitnot x in Val (Ok c)) /\
  (forall s, 0 <= s < t ->
    (let? c := into_wrapping_shl a s in into_truncate c t) =
    (let? x := into_truncate a t in into_wrapping_shl x s)) /\
  (forall s, 0 < s <= t ->
    (let? x := into_truncate a t in into_truncate x s) = into_truncate a s).
Proof.
  intros Ha Hb E Ht. set (w := len a) in *.
  pose proof (self_den a w Ha eq_refl) as A. pose proof (self_den b w Hb (eq_sym E)) as Bb.
  pose proof (is_apint_pow_pos _ _ _ A) as (Hp & Hw & Ua).
  pose proof (is_apint_pow_pos _ _ _ Bb) as (_ & _ & Ub).
  set (x := unsigned a) in *. set (y := unsigned b) in *.
  assert (Hpt : 0 < 2 ^ t) by (apply Z.pow_pos_nonneg; lia).
  assert (MM : forall z, (z mod 2 ^ w) mod 2 ^ t = z mod 2 ^ t) by (intros; apply mod_mod_pow2; lia).
  assert (T2 : forall (op : apint -> apint -> outcome (result apint)) (f : Z -> Z -> Z),
    (forall a b w u v, is_apint a w u -> is_apint b w v -> 0 < w -> denotes (op a b) w (f u v mod 2 ^ w)) ->
    (f (x mod 2 ^ t) (y mod 2 ^ t)) mod 2 ^ t = f x y mod 2 ^ t ->
    (let? c := op a b in into_truncate c t) =
    (let? x := into_truncate a t in let? y := into_truncate b t in op x y)).
  { intros op f Hop Hf. apply (denotes_eq _ _ t (f x y mod 2 ^ t)).
    - eapply denotes_bind; [eapply Hop; eauto|]. intros d D.
      eapply denotes_val; [eapply trunc_den; eauto|apply MM].
    - eapply denotes_bind; [eapply (trunc_den a); eauto|]. intros d D.
      eapply denotes_bind; [eapply (trunc_den b); eauto|]. intros e De.
      eapply denotes_val; [eapply Hop; eauto; lia|exact Hf]. }
  split; [apply (T2 _ Z.add); [intros; now apply add_den|now rewrite <- Zplus_mod]|].
  split; [apply (T2 _ Z.sub); [intros; now apply sub_den|now rewrite <- Zminus_mod]|].
  split; [apply (T2 _ Z.mul); [intros; now apply mul_den|now rewrite <- Zmult_mod]|].
  split.
  { apply (T2 _ Z.land); [|rewrite !land_mod, !Z.mod_mod by lia; reflexivity].
    intros ? ? w' u v D De Hw'. eapply denotes_val; [eapply and_den; eauto|].
    rewrite land_mod by lia. apply is_apint_pow_pos in D, De. rewrite !Z.mod_small by lia. reflexivity. }
  split.
  { apply (T2 _ Z.lor); [|rewrite !lor_mod, !Z.mod_mod by lia; reflexivity].
    intros ? ? w' u v D De Hw'. eapply denotes_val; [eapply or_den; eauto|].
    rewrite lor_mod by lia. apply is_apint_pow_pos in D, De. rewrite !Z.mod_small by lia. reflexivity. }
  split.
  { apply (T2 _ Z.lxor); [|rewrite !lxor_mod, !Z.mod_mod by lia; reflexivity].
    intros ? ? w' u v D De Hw'. eapply denotes_val; [eapply xor_den; eauto|].
    rewrite lxor_mod by lia. apply is_apint_pow_pos in D, De. rewrite !Z.mod_small by lia. reflexivity. }
  split.
  { apply (denotes_eq _ _ t ((- x) mod 2 ^ t)).
    - eapply denotes_bindo; [eapply neg_den; eauto|]. intros d D.
      eapply denotes_val; [eapply trunc_den; eauto|apply MM].
    - eapply denotes_bind; [eapply (trunc_den a); eauto|]. intros d D.
      eapply denotes_bindo; [eapply neg_den; eauto|]. intros e De. apply denotes_ok.
      replace ((- x) mod 2 ^ t) with ((- (x mod 2 ^ t)) mod 2 ^ t); [exact De|].
      rewrite <- (Z.sub_0_l x), <- (Z.sub_0_l (x mod 2 ^ t)). apply Zminus_mod_idemp_r. }
  split.
  { apply (denotes_eq _ _ t ((- 1 - x) mod 2 ^ t)).
    - eapply denotes_bindo; [eapply not_den; eauto|]. intros d D.
      eapply denotes_val; [eapply trunc_den; eauto|].
      rewrite <- (MM (-1 - x)). f_equal. symmetry.
      replace (-1 - x) with (2 ^ w - 1 - x + (-1) * 2 ^ w) by lia. rewrite Z_mod_plus_full. apply Z.mod_small. lia.
    - eapply denotes_bind; [eapply (trunc_den a); eauto|]. intros d D.
      eapply denotes_bindo; [eapply not_den; eauto|]. intros e De. apply denotes_ok.
      replace ((-1 - x) mod 2 ^ t) with (2 ^ t - 1 - x mod 2 ^ t); [exact De|].
      pose proof (Z.mod_pos_bound x (2 ^ t) ltac:(lia)).
      rewrite <- Zminus_mod_idemp_r.
      replace (-1 - x mod 2 ^ t) with (2 ^ t - 1 - x mod 2 ^ t + (-1) * 2 ^ t) by lia.
      rewrite Z_mod_plus_full, (Z.mod_small (2 ^ t - 1 - x mod 2 ^ t)); lia. }
  split.
  { intros s Hs. apply (denotes_eq _ _ t ((x * 2 ^ s) mod 2 ^ t)).
    - eapply denotes_bind; [eapply shl_den; eauto; lia|]. intros d D.
      eapply denotes_val; [eapply trunc_den; eauto|apply MM].
    - eapply denotes_bind; [eapply (trunc_den a); eauto|]. intros d D.
      eapply denotes_val; [eapply shl_den; eauto; lia|]. apply Zmult_mod_idemp_l. }
  intros s Hs. apply (denotes_eq _ _ s (x mod 2 ^ s)).
  - eapply denotes_bind; [eapply (trunc_den a); eauto|]. intros d D.
    eapply denotes_val; [eapply trunc_den; eauto|]. apply mod_mod_pow2. lia.
  - eapply trunc_den; eauto. lia.
Qed.

(** With room for the result, arithmetic is exact. *)
Lemma unsigned_exact_fact a b n : wf a -> wf b -> len a = len b -> len a < n ->
  (exists c, (let? x := into_zero_extend a n in let? y := into_zero_extend b n in into_wrapping_add x y) = Val (Ok c) /\
    is_apint c n (unsigned a + unsigned b)) /\
  (exists c, (let? x := into_zero_extend a n in let? y := into_zero_extend b n in into_wrapping_sub x y) = Val (Ok c) /\
    wf c /\ len c = n /\ signed c = unsigned a - unsigned b) /\
  (2 * len a <= n ->
   exists c, (let? x := into_zero_extend a n in let? y := into_zero_extend b n in into_wrapping_mul x y) = Val (Ok c) /\
    is_apint c n (unsigned a * unsigned b)) /\
  (forall s, 0 <= s -> len a + s <= n ->
   exists c, (let? x := into_zero_extend a n in into_wrapping_shl x s) = Val (Ok c) /\
    is_apint c n (unsigned a * 2 ^ s)).
Proof.
  intros Ha Hb E Hn. set (w := len a) in *.
  pose proof (self_den a w Ha eq_refl) as A. pose proof (self_den b w Hb (eq_sym E)) as Bb.
  pose proof (is_apint_pow_pos _ _ _ A) as (Hp & Hw & Ua).
  pose proof (is_apint_pow_pos _ _ _ Bb) as (_ & _ & Ub).
  set (x := unsigned a) in *. set (y := unsigned b) in *.
  pose proof (pow2_double n ltac:(lia)) as D2. pose proof (pow2_mono w (n - 1) ltac:(lia)) as Mn.
  split.
  { eapply denotes_bind; [eapply (zext_den a w x n); eauto; lia|]. intros d D.
    eapply denotes_bind; [eapply (zext_den b w y n); eauto; lia|]. intros e De.
    eapply denotes_val; [eapply add_den; eauto|]. apply Z.mod_small. lia. }
  split.
  { assert (H : denotes (let? x := into_zero_extend a n in let? y := into_zero_extend b n in into_wrapping_sub x y)
      n ((x - y) mod 2 ^ n)).
    { eapply denotes_bind; [eapply (zext_den a w x n); eauto; lia|]. intros d D.
      eapply denotes_bind; [eapply (zext_den b w y n); eauto; lia|]. intros e De.
      eapply sub_den; eauto. }
    destruct H as (c & H & Hc). exists c. split; [exact H|].
    split; [apply Hc|split; [apply Hc|]]. rewrite (signed_den _ _ _ Hc). apply wrap_signed_small; lia. }
  split.
  { intros H2. eapply denotes_bind; [eapply (zext_den a w x n); eauto; lia|]. intros d D.
    eapply denotes_bind; [eapply (zext_den b w y n); eauto; lia|]. intros e De.
    eapply denotes_val; [eapply mul_den; eauto|]. apply Z.mod_small.
    pose proof (pow2_mono (w + w) n ltac:(lia)) as M2. rewrite Z.pow_add_r in M2 by lia. nia. }
  intros s Hs1 Hs2. eapply denotes_bind; [eapply (zext_den a w x n); eauto; lia|]. intros d D.
  eapply denotes_val; [eapply shl_den; eauto; lia|]. apply Z.mod_small.
  pose proof (pow2_mono (w + s) n ltac:(lia)) as M2. rewrite Z.pow_add_r in M2 by lia.
  assert (0 < 2 ^ s) by (apply Z.pow_pos_nonneg; lia). nia.
Qed.

Lemma mul_range x y h m : 0 < h -> - h <= x < h -> - h <= y < h -> 2 * h * h <= m -> - m <= x * y < m.
Proof.
  intros Hh Hx Hy Hm.
  assert (H : Z.abs x * Z.abs y <= h * h) by (apply Z.mul_le_mono_nonneg; lia).
  rewrite <- Z.abs_mul in H. assert (0 < h * h) by (apply Z.mul_pos_pos; lia). lia.
Qed.
Lemma signed_exact_fact a b n : wf a -> wf b -> len a = len b -> len a < n ->
  (exists c, (let? x := into_sign_extend a n in let? y := into_sign_extend b n in into_wrapping_add x y) = Val (Ok c) /\
    wf c /\ len c = n /\ signed c = signed a + signed b) /\
  (exists c, (let? x := into_sign_extend a n in let? y := into_sign_extend b n in into_wrapping_sub x y) = Val (Ok c) /\
    wf c /\ len c = n /\ signed c = signed a - signed b) /\
  (exists c, (let? x := into_sign_extend a n in let! y := into_wrapping_neg x in Val (Ok y)) = Val (Ok c) /\
    wf c /\ len c = n /\ signed c = - signed a) /\
  (2 * len a <= n ->
   exists c, (let? x := into_sign_extend a n in let? y := into_sign_extend b n in into_wrapping_mul x y) = Val (Ok c) /\
    wf c /\ len c = n /\ signed c = signed a * signed b) /\
  (forall s, 0 <= s -> len a + s <= n ->
   exists c, (let? x := into_sign_extend a n in into_wrapping_shl x s) = Val (Ok c) /\
    wf c /\ len c = n /\ signed c = signed a * 2 ^ s).
Proof.
  intros Ha Hb E Hn. set (w := len a) in *.
  pose proof (self_den a w Ha eq_refl) as A. pose proof (self_den b w Hb (eq_sym E)) as Bb.
  pose proof (is_apint_pow_pos _ _ _ A) as (Hp & Hw & Ua).
  pose proof (is_apint_range _ _ _ A) as Ra. pose proof (is_apint_range _ _ _ Bb) as Rb.
  change (to_signed w (unsigned a)) with (signed a) in Ra.
  assert (to_signed w (unsigned b) = signed b) as Eb by (unfold signed; now rewrite <- E). rewrite Eb in Rb.
  pose proof (pow2_double w ltac:(lia)) as D1.
  pose proof (pow2_double n ltac:(lia)) as D2. pose proof (pow2_mono w (n - 1) ltac:(lia)) as Mn.
  pose proof (sext_den a w _ n A ltac:(lia)) as Xa. change (to_signed w (unsigned a)) with (signed a) in Xa.
  pose proof (sext_den b w _ n Bb ltac:(lia)) as Xb. rewrite Eb in Xb.
  set (x := signed a) in *. set (y := signed b) in *.
  assert (R : forall m z, denotes m n (z mod 2 ^ n) -> - 2 ^ (n - 1) <= z < 2 ^ (n - 1) ->
    exists c, m = Val (Ok c) /\ wf c /\ len c = n /\ signed c = z).
  { intros m z (c & -> & Hc) Hz. exists c. split; [auto|]. split; [apply Hc|split; [apply Hc|]].
    rewrite (signed_den _ _ _ Hc). apply wrap_signed_small; lia. }
  split.
  { apply R; [|lia]. eapply denotes_bind; [exact Xa|]. intros d D. eapply denotes_bind; [exact Xb|]. intros e De.
    eapply denotes_val; [eapply add_den; eauto|]. now rewrite <- Zplus_mod. }
  split.
  { apply R; [|lia]. eapply denotes_bind; [exact Xa|]. intros d D. eapply denotes_bind; [exact Xb|]. intros e De.
    eapply denotes_val; [eapply sub_den; eauto|]. now rewrite <- Zminus_mod. }
  split.
  { apply R; [|lia]. eapply denotes_bind; [exact Xa|]. intros d D. eapply denotes_bindo; [eapply neg_den; eauto|].
    intros e De. apply denotes_ok. 
    rewrite <- (Z.sub_0_l (x mod 2 ^ n)) in De. rewrite Zminus_mod_idemp_r in De. exact De. }
  split.
  { intros H2. apply R.
    - eapply denotes_bind; [exact Xa|]. intros d D. eapply denotes_bind; [exact Xb|]. intros e De.
      eapply denotes_val; [eapply mul_den; eauto|]. now rewrite <- Zmult_mod.
    - assert (M2 : 2 ^ w * 2 ^ (w - 1) <= 2 ^ (n - 1)).
      { rewrite <- Z.pow_add_r by lia. apply pow2_mono. lia. }
      apply (mul_range x y (2 ^ (w - 1))); [lia|lia|lia|]. rewrite <- D1. exact M2. }
  intros s Hs1 Hs2. apply R.
  - eapply denotes_bind; [exact Xa|]. intros d D.
    eapply denotes_val; [eapply shl_den; eauto; lia|]. apply Zmult_mod_idemp_l.
  - assert (M2 : 2 ^ (w - 1) * 2 ^ s <= 2 ^ (n - 1)).
    { rewrite <- Z.pow_add_r by lia. apply pow2_mono. lia. }
    assert (Ps : 0 < 2 ^ s) by (apply Z.pow_pos_nonneg; lia).
    pose proof (Z.mul_le_mono_pos_r (- 2 ^ (w - 1)) x (2 ^ s) Ps) as L1.
    pose proof (Z.mul_lt_mono_pos_r (2 ^ s) x (2 ^ (w - 1)) Ps) as L2. lia.
Qed.

(** Overflow tests. *)
Lemma overflow_fact a b : wf a -> wf b -> len a = len b ->
  (exists c, into_wrapping_add a b = Val (Ok c) /\
    checked_ult c a = Val (Ok (2 ^ len a <=? unsigned a + unsigned b)) /\
    checked_ult c b = Val (Ok (2 ^ len a <=? unsigned a + unsigned b))) /\
  (exists c, into_wrapping_sub a b = Val (Ok c) /\
    checked_ugt c a = Val (Ok (unsigned a - unsigned b <? 0))) /\
  (exists c ma mb mc, into_wrapping_add a b = Val (Ok c) /\
    msb a = Val ma /\ msb b = Val mb /\ msb c = Val mc /\
    (Bool.eqb ma mb && negb (Bool.eqb ma mc) = true <->
     ~ (- 2 ^ (len a - 1) <= signed a + signed b < 2 ^ (len a - 1)))) /\
  (exists c ma mb mc, into_wrapping_sub a b = Val (Ok c) /\
    msb a = Val ma /\ msb b = Val mb /\ msb c = Val mc /\
    (negb (Bool.eqb ma mb) && negb (Bool.eqb ma mc) = true <->
     ~ (- 2 ^ (len a - 1) <= signed a - signed b < 2 ^ (len a - 1)))) /\
  (exists c, into_wrapping_neg a = Val c /\
    (c = a /\ is_zero a = Val false <-> signed a = - 2 ^ (len a - 1))).
Proof.
  intros Ha Hb E. set (w := len a) in *.
  pose proof (self_den a w Ha eq_refl) as A. pose proof (self_den b w Hb (eq_sym E)) as Bb.
  pose proof (is_apint_pow_pos _ _ _ A) as (Hp & Hw & Ua).
  pose proof (is_apint_pow_pos _ _ _ Bb) as (_ & _ & Ub).
  pose proof (signed_range a Ha) as Ra. pose proof (signed_range b Hb) as Rb. rewrite <- E in Rb. fold w in Ra, Rb.
  pose proof (pow2_double w ltac:(lia)) as D1.
  assert (Sa : signed a mod 2 ^ w = unsigned a) by (apply to_signed_mod; lia).
  assert (Sb : signed b mod 2 ^ w = unsigned b) by (unfold signed; rewrite <- E; apply to_signed_mod; lia).
  set (x := unsigned a) in *. set (y := unsigned b) in *.
  destruct (add_den a b w _ _ A Bb) as (c & Ec & Hc). destruct (sub_den a b w _ _ A Bb) as (d & Ed & Hd).
  destruct (neg_den a w _ A) as (e & Ee & He).
  pose proof Hc as (Wc & Lc & Vc). pose proof Hd as (Wd & Ld & Vd).
  assert (Sc : signed c = wrap_signed w (signed a + signed b)).
  { apply signed_den. now rewrite Zplus_mod, Sa, Sb. }
  assert (Sd : signed d = wrap_signed w (signed a - signed b)).
  { apply signed_den. now rewrite Zminus_mod, Sa, Sb. }
  assert (Wr : forall z, - 2 ^ w <= z < 2 ^ w -> wrap_signed w z =
     if z <? - 2 ^ (w - 1) then z + 2 ^ w else if z <? 2 ^ (w - 1) then z else z - 2 ^ w).
  { intros z Hz. destruct (Z.ltb_spec z (- 2 ^ (w - 1))).
    - rewrite <- (wrap_signed_small w (z + 2 ^ w)) by lia. unfold wrap_signed. f_equal.
      replace (z + 2 ^ w) with (z + 1 * 2 ^ w) by lia. now rewrite Z_mod_plus_full.
    - destruct (Z.ltb_spec z (2 ^ (w - 1))); [apply wrap_signed_small; lia|].
      rewrite <- (wrap_signed_small w (z - 2 ^ w)) by lia. unfold wrap_signed. f_equal.
      replace (z - 2 ^ w) with (z + (-1) * 2 ^ w) by lia. now rewrite Z_mod_plus_full. }
  split.
  { exists c. split; [exact Ec|].
    assert (Ov : (x + y) mod 2 ^ w = if 2 ^ w <=? x + y then x + y - 2 ^ w else x + y).
    { destruct (Z.leb_spec (2 ^ w) (x + y)); [|apply Z.mod_small; lia].
      symmetry. apply Z.mod_unique with 1; lia. }
    split.
    - destruct (ucmp_fact c a Wc Ha Lc) as (-> & _). do 2 f_equal. rewrite Vc, Ov. fold x.
      destruct (Z.leb_spec (2 ^ w) (x + y)); [apply Z.ltb_lt|apply Z.ltb_ge]; lia.
    - destruct (ucmp_fact c b Wc Hb (eq_trans Lc E)) as (-> & _). do 2 f_equal. rewrite Vc, Ov. fold y.
      destruct (Z.leb_spec (2 ^ w) (x + y)); [apply Z.ltb_lt|apply Z.ltb_ge]; lia. }
  split.
  { exists d. split; [exact Ed|].
    destruct (ucmp_fact d a Wd Ha Ld) as (_ & _ & -> & _). do 2 f_equal. rewrite Vd. fold x.
    rewrite Z.gtb_ltb. destruct (Z.ltb_spec (x - y) 0).
    - replace ((x - y) mod 2 ^ w) with (x - y + 2 ^ w) by (apply Z.mod_unique with (-1); lia). apply Z.ltb_lt. lia.
    - rewrite Z.mod_small by lia. apply Z.ltb_ge. lia. }
  split.
  { exists c, (signed a <? 0), (signed b <? 0), (signed c <? 0).
    split; [exact Ec|]. split; [now apply sign_bit|split; [now apply sign_bit|split; [now apply sign_bit|]]].
    rewrite Sc, Wr by lia.
    destruct (Z.ltb_spec (signed a) 0), (Z.ltb_spec (signed b) 0),
      (Z.ltb_spec (signed a + signed b) (- 2 ^ (w - 1))); 
    try destruct (Z.ltb_spec (signed a + signed b) (2 ^ (w - 1)));
    match goal with |- context[?z <? 0] => destruct (Z.ltb_spec z 0) end; cbn;
    (split; [intros; try discriminate; lia|intros; try reflexivity; lia]). }
  split.
  { exists d, (signed a <? 0), (signed b <? 0), (signed d <? 0).
    split; [exact Ed|]. split; [now apply sign_bit|split; [now apply sign_bit|split; [now apply sign_bit|]]].
    rewrite Sd, Wr by lia.
    destruct (Z.ltb_spec (signed a) 0), (Z.ltb_spec (signed b) 0),
      (Z.ltb_spec (signed a - signed b) (- 2 ^ (w - 1))); 
    try destruct (Z.ltb_spec (signed a - signed b) (2 ^ (w - 1)));
    match goal with |- context[?z <? 0] => destruct (Z.ltb_spec z 0) end; cbn;
    (split; [intros; try discriminate; lia|intros; try reflexivity; lia]). }
  exists e. split; [exact Ee|]. rewrite is_zero_spec by now apply wf_sh. fold x.
  assert (Sx : signed a = if x <? 2 ^ (w - 1) then x else x - 2 ^ w) by reflexivity.
  split.
  - intros (-> & Z0). destruct He as (_ & _ & V). fold x in V. injection Z0 as Z0. apply Z.eqb_neq in Z0.
    replace ((- x) mod 2 ^ w) with (2 ^ w - x) in V by (apply Z.mod_unique with (-1); lia).
    rewrite Sx. destruct (Z.ltb_spec x (2 ^ (w - 1))); lia.
  - intros S. rewrite Sx in S. destruct (Z.ltb_spec x (2 ^ (w - 1))); [lia|].
    assert (x = 2 ^ (w - 1)) as X by lia. split.
    + apply (is_apint_unique e a w x); auto. replace x with ((- x) mod 2 ^ w) at 1; [exact He|].
      symmetry. apply Z.mod_unique with (-1); lia.
    + f_equal. apply Z.eqb_neq. lia.
Qed.
