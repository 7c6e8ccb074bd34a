(** Extension and comparison across the operations. *)
From Verif Require Export LHom LInt2.

Definition sdenotes (m : outcome (result apint)) (w z : Z) : Prop :=
  exists c, m = Val (Ok c) /\ wf c /\ len c = w /\ signed c = z.
Definition is_signed (c : apint) (w z : Z) : Prop := wf c /\ len c = w /\ signed c = z.

Lemma is_signed_apint c w z : is_signed c w z -> is_apint c w (z mod 2 ^ w).
Proof. intros (W & <- & <-). split; [auto|split; [auto|]]. symmetry. now apply signed_mod. Qed.
Lemma sdenotes_eq m m' w z : sdenotes m w z -> sdenotes m' w z -> m = m'.
Proof.
  intros (c & -> & Hc) (d & -> & Hd).
  now rewrite (is_apint_unique _ _ _ _ (is_signed_apint _ _ _ Hc) (is_signed_apint _ _ _ Hd)).
Qed.
Lemma sdenotes_bind m f w u w' v :
  sdenotes m w u -> (forall c, is_signed c w u -> sdenotes (f c) w' v) -> sdenotes (bindr m f) w' v.
Proof. intros (c & -> & Hc) H. cbn. auto. Qed.
Lemma sdenotes_ok c w u : is_signed c w u -> sdenotes (Val (Ok c)) w u.
Proof. intros; exists c; auto. Qed.
Lemma sdenotes_val m w u v : sdenotes m w u -> u = v -> sdenotes m w v.
Proof. now intros H <-. Qed.

Lemma sext_sden a w u t : is_signed a w u -> w <= t -> sdenotes (into_sign_extend a t) t u.
Proof.
  intros (A & <- & <-) Ht. destruct (sign_extend_fact a t A Ht) as (c & _ & H & Hc). exists c; auto.
Qed.
Lemma bits_sden c w f : wf c -> len c = w -> (forall i, 0 <= i < w -> bit c i = Z.testbit f i) ->
  (forall i, w <= i -> Z.testbit f i = Z.testbit f (w - 1)) -> is_signed c w f.
Proof. intros H1 H2 H3 H4. exact (int_bits c w f H1 H2 H3 H4). Qed.
Lemma and_sden a b w u v : is_signed a w u -> is_signed b w v -> sdenotes (into_bitand a b) w (Z.land u v).
Proof.
  intros (Wx & <- & <-) (Wy & E & <-). destruct (bitand_fact a b Wx Wy (eq_sym E)) as (c & _ & E1 & Wc & Lc & Hc).
  exists c; split; [exact E1|]. apply bits_sden; auto.
  - intros i Hi. rewrite Hc, Z.land_spec, <- !signed_bit by (auto; lia). reflexivity.
  - intros i Hi. rewrite !Z.land_spec, (signed_high _ i Wx), (signed_high _ i Wy) by lia. congruence.
Qed.
Lemma or_sden a b w u v : is_signed a w u -> is_signed b w v -> sdenotes (into_bitor a b) w (Z.lor u v).
Proof.
  intros (Wx & <- & <-) (Wy & E & <-). destruct (bitor_fact a b Wx Wy (eq_sym E)) as (c & _ & E1 & Wc & Lc & Hc).
  exists c; split; [exact E1|]. apply bits_sden; auto.
  - intros i Hi. rewrite Hc, Z.lor_spec, <- !signed_bit by (auto; lia). reflexivity.
  - intros i Hi. rewrite !Z.lor_spec, (signed_high _ i Wx), (signed_high _ i Wy) by lia. congruence.
Qed.
Lemma xor_sden a b w u v : is_signed a w u -> is_signed b w v -> sdenotes (into_bitxor a b) w (Z.lxor u v).
Proof.
  intros (Wx & <- & <-) (Wy & E & <-). destruct (bitxor_fact a b Wx Wy (eq_sym E)) as (c & _ & E1 & Wc & Lc & Hc).
  exists c; split; [exact E1|]. apply bits_sden; auto.
  - intros i Hi. rewrite Hc, Z.lxor_spec, <- !signed_bit by (auto; lia). reflexivity.
  - intros i Hi. rewrite !Z.lxor_spec, (signed_high _ i Wx), (signed_high _ i Wy) by lia. congruence.
Qed.
Lemma not_sden a w u : is_signed a w u -> sdenotes (let! c := into_bitnot a in Val (Ok c)) w (- u - 1).
Proof.
  intros (Wx & <- & <-). destruct (bitnot_fact a Wx) as (c & _ & E1 & Wc & Lc & Hc).
  exists c. rewrite E1. cbn [bind]. split; [reflexivity|]. pose proof (wf_len _ Wx).
  replace (- signed a - 1) with (Z.lnot (signed a)) by (unfold Z.lnot; lia).
  apply bits_sden; auto.
  - intros i Hi. rewrite Z.lnot_spec by lia. rewrite <- signed_bit by (auto; lia). apply Hc. lia.
  - intros i Hi. rewrite !Z.lnot_spec by lia. rewrite (signed_high _ i Wx) by lia. congruence.
Qed.
Lemma ashr_sden a w u s : is_signed a w u -> 0 <= s < w -> sdenotes (into_wrapping_ashr a s) w (u / 2 ^ s).
Proof.
  intros (A & <- & <-) Hs. destruct (ashr_fact a s A Hs) as (c & _ & H & Hc). exists c. auto.
Qed.
Lemma urem_den a b w u v : is_apint a w u -> is_apint b w v -> v <> 0 -> denotes (into_wrapping_urem a b) w (u mod v).
Proof.
  intros (A & <- & <-) (Bb & E & <-) Hv.
  destruct (udiv_all a b A Bb (eq_sym E) Hv) as (q & r & _ & _ & _ & _ & _ & H & Hq & Hr). exists r. auto.
Qed.

(** Zero extension first or last is the same. *)
Lemma zero_extension_fact a b n : wf a -> wf b -> len a = len b -> len a <= n ->
  (let? c := into_bitand a b in into_zero_extend c n) =
  (let? x := into_zero_extend a n in let? y := into_zero_extend b n in into_bitand x y) /\
  (let? c := into_bitor a b in into_zero_extend c n) =
  (let? x := into_zero_extend a n in let? y := into_zero_extend b n in into_bitor x y) /\
  (let? c := into_bitxor a b in into_zero_extend c n) =
  (let? x := into_zero_extend a n in let? y := into_zero_extend b n in into_bitxor x y) /\
  (unsigned b <> 0 ->
   (let? c := into_wrapping_udiv a b in into_zero_extend c n) =
   (let? x := into_zero_extend a n in let? y := into_zero_extend b n in into_wrapping_udiv x y) /\
   (let? c := into_wrapping_urem a b in into_zero_extend c n) =
   (let? x := into_zero_extend a n in let? y := into_zero_extend b n in into_wrapping_urem x y)) /\
  (forall s, 0 <= s < len a ->
   (let? c := into_wrapping_lshr a s in into_zero_extend c n) =
   (let? x := into_zero_extend a n in into_wrapping_lshr x s)) /\
  (forall m, len a <= m <= n ->
   (let? x := into_zero_extend a m in into_zero_extend x n) = into_zero_extend a n) /\
  (let? x := into_zero_extend a n in let? y := into_zero_extend b n in checked_ult x y) = checked_ult a b /\
  (len a < n ->
   (let? x := into_zero_extend a n in let? y := into_zero_extend b n in checked_slt x y) = checked_ult a b).
Proof.
  intros Ha Hb E Hn. set (w := len a) in *.
  pose proof (self_den a w Ha eq_refl) as A. pose proof (self_den b w Hb (eq_sym E)) as Bb.
  pose proof (is_apint_pow_pos _ _ _ A) as (Hp & Hw & Ua).
  pose proof (is_apint_pow_pos _ _ _ Bb) as (_ & _ & Ub).
  pose proof (zext_den a w _ n A Hn) as Xa. pose proof (zext_den b w _ n Bb Hn) as Xb.
  set (x := unsigned a) in *. set (y := unsigned b) in *.
  assert (T2 : forall (op : apint -> apint -> outcome (result apint)) (f : Z -> Z -> Z),
    (forall a b w, is_apint a w x -> is_apint b w y -> denotes (op a b) w (f x y)) ->
    (let? c := op a b in into_zero_extend c n) =
    (let? x := into_zero_extend a n in let? y := into_zero_extend b n in op x y)).
  { intros op f Hop. apply (denotes_eq _ _ n (f x y)).
    - eapply denotes_bind; [eapply Hop; eauto|]. intros d D. eapply zext_den; eauto.
    - eapply denotes_bind; [exact Xa|]. intros d D. eapply denotes_bind; [exact Xb|]. intros e De. now apply Hop. }
  split; [apply (T2 _ Z.land); intros; now apply and_den|].
  split; [apply (T2 _ Z.lor); intros; now apply or_den|].
  split; [apply (T2 _ Z.lxor); intros; now apply xor_den|].
  split.
  { intros Hy. split; [apply (T2 _ Z.div); intros; now apply udiv_den|apply (T2 _ Z.modulo); intros; now apply urem_den]. }
  split.
  { intros s Hs. apply (denotes_eq _ _ n (x / 2 ^ s)).
    - eapply denotes_bind; [eapply lshr_den; eauto|]. intros d D. eapply zext_den; eauto.
    - eapply denotes_bind; [exact Xa|]. intros d D. eapply lshr_den; eauto. lia. }
  split.
  { intros m Hm. apply (denotes_eq _ _ n x); [|exact Xa].
    eapply denotes_bind; [eapply (zext_den a w x m); eauto; lia|]. intros d D. eapply zext_den; eauto. lia. }
  destruct Xa as (c & -> & Hc). destruct Xb as (d & -> & Hd). cbn [bindr bind].
  pose proof Hc as (Wc & Lc & Vc). pose proof Hd as (Wd & Ld & Vd).
  destruct (ucmp_fact a b Ha Hb E) as (-> & _).
  split; [destruct (ucmp_fact c d Wc Wd ltac:(congruence)) as (-> & _); now rewrite Vc, Vd|].
  intros Hn'. destruct (scmp_fact c d Wc Wd ltac:(congruence)) as (-> & _).
  unfold signed, to_signed. rewrite Lc, Ld, Vc, Vd. fold x y. pose proof (pow2_mono w (n - 1) ltac:(lia)).
  destruct (Z.ltb_spec x (2 ^ (n - 1))), (Z.ltb_spec y (2 ^ (n - 1))); try lia. reflexivity.
Qed.

(** The same for sign extension. *)
Lemma sign_extension_fact a b n : wf a -> wf b -> len a = len b -> len a <= n ->
  (let? c := into_bitand a b in into_sign_extend c n) =
  (let? x := into_sign_extend a n in let? y := into_sign_extend b n in into_bitand x y) /\
  (let? c := into_bitor a b in into_sign_extend c n) =
  (let? x := into_sign_extend a n in let? y := into_sign_extend b n in into_bitor x y) /\
  (let? c := into_bitxor a b in into_sign_extend c n) =
  (let? x := into_sign_extend a n in let? y := into_sign_extend b n in into_bitxor x y) /\
  (let! c := into_bitnot a in into_sign_extend c n) =
  (let? x := into_sign_extend a n in let! c := into_bitnot x in Val (Ok c)) /\
  (forall s, 0 <= s < len a ->
   (let? c := into_wrapping_ashr a s in into_sign_extend c n) =
   (let? x := into_sign_extend a n in into_wrapping_ashr x s)) /\
  (forall m, len a <= m <= n ->
   (let? x := into_sign_extend a m in into_sign_extend x n) = into_sign_extend a n) /\
  (let? x := into_sign_extend a n in let? y := into_sign_extend b n in checked_slt x y) = checked_slt a b /\
  (let? x := into_sign_extend a n in let? y := into_sign_extend b n in checked_ult x y) = checked_ult a b.
Proof.
  intros Ha Hb E Hn. set (w := len a) in *.
  assert (A : is_signed a w (signed a)) by (split; [auto|split; reflexivity]).
  assert (Bb : is_signed b w (signed b)) by (split; [auto|split; [auto|reflexivity]]).
  pose proof (wf_len a Ha) as Hw. fold w in Hw.
  pose proof (sext_sden a w _ n A Hn) as Xa. pose proof (sext_sden b w _ n Bb Hn) as Xb.
  pose proof (unsigned_bound a Ha) as Ua. pose proof (unsigned_bound b Hb) as Ub. rewrite <- E in Ub. fold w in Ua, Ub.
  assert (Sa : signed a = if unsigned a <? 2 ^ (w - 1) then unsigned a else unsigned a - 2 ^ w) by reflexivity.
  assert (Sb : signed b = if unsigned b <? 2 ^ (w - 1) then unsigned b else unsigned b - 2 ^ w)
    by (unfold signed, to_signed; now rewrite <- E).
  pose proof (pow2_double w Hw) as D1. pose proof (pow2_double n ltac:(lia)) as Dn.
  pose proof (pow2_mono w n ltac:(lia)) as Mn.
  set (x := signed a) in *. set (y := signed b) in *.
  assert (T2 : forall (op : apint -> apint -> outcome (result apint)) (f : Z -> Z -> Z),
    (forall a b w, is_signed a w x -> is_signed b w y -> sdenotes (op a b) w (f x y)) ->
    (let? c := op a b in into_sign_extend c n) =
    (let? x := into_sign_extend a n in let? y := into_sign_extend b n in op x y)).
  { intros op f Hop. apply (sdenotes_eq _ _ n (f x y)).
    - eapply sdenotes_bind; [eapply Hop; eauto|]. intros d D. eapply sext_sden; eauto.
    - eapply sdenotes_bind; [exact Xa|]. intros d D. eapply sdenotes_bind; [exact Xb|]. intros e De. now apply Hop. }
  split; [apply (T2 _ Z.land); intros; now apply and_sden|].
  split; [apply (T2 _ Z.lor); intros; now apply or_sden|].
  split; [apply (T2 _ Z.lxor); intros; now apply xor_sden|].
  split.
  { apply (sdenotes_eq _ _ n (- x - 1)).
    - destruct (not_sden a w x A) as (c & Ec & Hc).
      destruct (into_bitnot a) as [c'| |]; cbn [bind] in *; try discriminate. injection Ec as ->.
      eapply sext_sden; eauto.
    - eapply sdenotes_bind; [exact Xa|]. intros d D. now apply not_sden. }
  split.
  { intros s Hs. apply (sdenotes_eq _ _ n (x / 2 ^ s)).
    - eapply sdenotes_bind; [eapply ashr_sden; eauto|]. intros d D. eapply sext_sden; eauto.
    - eapply sdenotes_bind; [exact Xa|]. intros d D. eapply ashr_sden; eauto. lia. }
  split.
  { intros m Hm. apply (sdenotes_eq _ _ n x); [|exact Xa].
    eapply sdenotes_bind; [eapply (sext_sden a w x m); eauto; lia|]. intros d D. eapply sext_sden; eauto. lia. }
  destruct Xa as (c & -> & Hc). destruct Xb as (d & -> & Hd). cbn [bindr bind].
  pose proof Hc as (Wc & Lc & Vc). pose proof Hd as (Wd & Ld & Vd).
  destruct (ucmp_fact a b Ha Hb E) as (-> & _). destruct (scmp_fact a b Ha Hb E) as (-> & _).
  split; [destruct (scmp_fact c d Wc Wd ltac:(congruence)) as (-> & _); now rewrite Vc, Vd|].
  destruct (ucmp_fact c d Wc Wd ltac:(congruence)) as (-> & _).
  destruct (is_signed_apint _ _ _ Hc) as (_ & _ & ->). destruct (is_signed_apint _ _ _ Hd) as (_ & _ & ->).
  do 2 f_equal.
  assert (Mx : forall z, - 2 ^ n <= z < 2 ^ n -> z mod 2 ^ n = if z <? 0 then z + 2 ^ n else z).
  { intros z Hz. destruct (Z.ltb_spec z 0); [symmetry; apply Z.mod_unique with (-1); lia|apply Z.mod_small; lia]. }
  rewrite (Mx x), (Mx y); [|rewrite Sb; destruct (unsigned b <? 2 ^ (w - 1)); lia|rewrite Sa; destruct (unsigned a <? 2 ^ (w - 1)); lia].
  rewrite Sa, Sb.
  destruct (Z.ltb_spec (unsigned a) (2 ^ (w - 1))), (Z.ltb_spec (unsigned b) (2 ^ (w - 1)));
  repeat match goal with |- context[?z <? 0] => destruct (Z.ltb_spec z 0); try lia end;
  destruct (Z.ltb_spec (unsigned a) (unsigned b)); (apply Z.ltb_lt || apply Z.ltb_ge); lia.
Qed.

(** Comparing by subtraction or with the sign bits flipped. *)
Lemma flip_unsigned a : wf a -> exists c, flip_msb a = Val c /\ is_apint c (len a) (signed a + 2 ^ (len a - 1)).
Proof.
  intros Ha. destruct (flip_msb_spec a Ha) as (c & E & W & L & Hb). exists c. split; [exact E|].
  split; [exact W|split; [exact L|]].
  pose proof (wf_len a Ha) as Hw. pose proof (unsigned_bound a Ha) as Ua. pose proof (pow2_double _ Hw) as D.
  assert (Hx : unsigned c = Z.lxor (unsigned a) (2 ^ (len a - 1))).
  { apply Z.bits_inj'. intros i Hi. fold (bit c i). rewrite Hb by auto. rewrite Z.lxor_spec, Z.pow2_bits_eqb by lia.
    rewrite (Z.eqb_sym (len a - 1) i). unfold bit. destruct (i =? len a - 1); [now rewrite Bool.xorb_true_r|now rewrite Bool.xorb_false_r]. }
  rewrite Hx, lxor_pow2 by lia. unfold signed, to_signed. rewrite msb_ltb by lia.
  destruct (Z.ltb_spec (unsigned a) (2 ^ (len a - 1))); cbn [negb]; lia.
Qed.
Lemma compare_fact a b n : wf a -> wf b -> len a = len b -> len a < n ->
  (let! x := flip_msb a in let! y := flip_msb b in checked_ult x y) = checked_slt a b /\
  (let? x := into_zero_extend a n in let? y := into_zero_extend b n in
   let? d := into_wrapping_sub x y in let! m := msb d in Val (Ok m)) = checked_ult a b /\
  (let? x := into_sign_extend a n in let? y := into_sign_extend b n in
   let? d := into_wrapping_sub x y in let! m := msb d in Val (Ok m)) = checked_slt a b /\
  (let? d := into_wrapping_sub a b in let! z := is_zero d in Val (Ok z)) = Val (Ok (apint_eqb a b)) /\
  (let? d := into_bitxor a b in let! z := is_zero d in Val (Ok z)) = Val (Ok (apint_eqb a b)).
Proof.
  intros Ha Hb E Hn. destruct (ucmp_fact a b Ha Hb E) as (-> & _). destruct (scmp_fact a b Ha Hb E) as (-> & _).
  pose proof (self_den a _ Ha eq_refl) as A. pose proof (self_den b (len a) Hb (eq_sym E)) as Bb.
  pose proof (is_apint_pow_pos _ _ _ A) as (Hp & Hw & Ua).
  pose proof (is_apint_pow_pos _ _ _ Bb) as (_ & _ & Ub).
  split.
  { destruct (flip_unsigned a Ha) as (x & -> & Wx & Lx & Vx). destruct (flip_unsigned b Hb) as (y & -> & Wy & Ly & Vy).
    cbn [bind]. destruct (ucmp_fact x y Wx Wy ltac:(congruence)) as (-> & _). rewrite Vx, Vy, <- E. do 2 f_equal.
    destruct (Z.ltb_spec (signed a) (signed b)); [apply Z.ltb_lt|apply Z.ltb_ge]; lia. }
  assert (Sub : forall z, (z <? 0) = true <-> z < 0) by (intros; apply Z.ltb_lt).
  split.
  { destruct (unsigned_exact_fact a b n Ha Hb E Hn) as (_ & (c & Ec & Wc & Lc & Sc) & _).
    destruct (into_zero_extend a n) as [[x|]| |]; cbn [bindr bind] in *; try discriminate.
    destruct (into_zero_extend b n) as [[y|]| |]; cbn [bindr bind] in *; try discriminate.
    rewrite Ec. cbn [bindr bind]. rewrite (sign_bit c Wc), Sc. cbn [bind]. do 2 f_equal.
    destruct (Z.ltb_spec (unsigned a) (unsigned b)); [apply Z.ltb_lt|apply Z.ltb_ge]; lia. }
  split.
  { destruct (signed_exact_fact a b n Ha Hb E Hn) as (_ & (c & Ec & Wc & Lc & Sc) & _).
    destruct (into_sign_extend a n) as [[x|]| |]; cbn [bindr bind] in *; try discriminate.
    destruct (into_sign_extend b n) as [[y|]| |]; cbn [bindr bind] in *; try discriminate.
    rewrite Ec. cbn [bindr bind]. rewrite (sign_bit c Wc), Sc. cbn [bind]. do 2 f_equal.
    destruct (Z.ltb_spec (signed a) (signed b)); [apply Z.ltb_lt|apply Z.ltb_ge]; lia. }
  assert (Eq : apint_eqb a b = (unsigned a =? unsigned b)).
  { destruct (eq_hash_fact a b Ha Hb) as (H & _). apply Bool.eq_iff_eq_true. rewrite H, Z.eqb_eq. tauto. }
  rewrite Eq.
  split.
  { destruct (sub_den a b _ _ _ A Bb) as (c & -> & Wc & Lc & Vc). cbn [bindr bind].
    rewrite is_zero_spec by now apply wf_sh. cbn [bind]. do 2 f_equal. rewrite Vc.
    apply Bool.eq_iff_eq_true. rewrite !Z.eqb_eq. split; intros H.
    - apply Z.mod_divide in H; [|lia]. destruct H as (k & Hk). assert (k = 0) by nia. lia.
    - rewrite H, Z.sub_diag. apply Z.mod_0_l. lia. }
  destruct (xor_den a b _ _ _ A Bb) as (c & -> & Wc & Lc & Vc). cbn [bindr bind].
  rewrite is_zero_spec by now apply wf_sh. cbn [bind]. do 2 f_equal. rewrite Vc.
  apply Bool.eq_iff_eq_true. rewrite !Z.eqb_eq. apply Z.lxor_eq_0_iff.
Qed.
