(** The machine over the code simulates the abstract machine: single calls. *)
From Verif Require Export LMach1.

Lemma rel_open a x : rel a x -> wf a /\ fst x = len a /\ snd x = unsigned a /\ asigned x = signed a.
Proof.
  destruct x as [w u]. intros (W & L & U). cbn [fst snd] in *. unfold asigned, signed. cbn [fst snd].
  split; [exact W|]. split; [congruence|]. split; [congruence|]. congruence.
Qed.

Ltac rel_ok c E H := exists c; split; [exact E|exact H].

Definition both (a : apint) (f : mut_result) (g : outcome (result apint)) (r : option ares) : Prop :=
  rel_mut a f r /\ rel_res g r.
Lemma both_ok a f g w u : (exists c, f = Val (c, Ok tt) /\ g = Val (Ok c) /\ is_apint c w u) -> both a f g (Some (inl (w, u))).
Proof. intros (c & E1 & E2 & H). split; exists c; auto. Qed.
Lemma both_err a f g k : f = Val (a, Err k) -> g = Val (Err k) -> both a f g (Some (inr (observe k))).
Proof. intros E1 E2. split; exists k; auto. Qed.
Lemma both_total a f g w u : (exists c, f = Val c /\ g = Val c /\ is_apint c w u) ->
  both a (total_mut f) (total g) (Some (inl (w, u))).
Proof. intros (c & -> & -> & H). split; exists c; auto. Qed.

Lemma mut_sim m a x : mutop_ok m -> rel a x -> both a (cmut m a) (cinto m a) (Some (amut m x)).
Proof.
  intros Hm Hx. destruct (rel_open a x Hx) as (Ha & L & U & S). pose proof (wf_len a Ha) as Hw.
  destruct x as [w u]. cbn [fst snd] in L, U. unfold amut. rewrite S. subst w u.
  assert (Zt : forall t (f : Z -> mut_result) g (r : ares), 0 <= t -> (0 < t -> both a (f t) (g t) (Some r)) ->
    both a (sized_mut a t f) (sized t g) (Some (if t =? 0 then inr (EBitWidth 0) else r))).
  { intros t f g r Ht Hr. unfold sized_mut, sized, bitwidth_new. destruct (Z.eqb_spec t 0).
    - split; exists (InvalidBitWidth 0); auto.
    - apply Hr. lia. }
  destruct m as [| | | |s|s|s|t|t|t|t|t]; cbn [mutop_ok cmut cinto] in *.
  - apply both_total. destruct (not_den a (len a) (unsigned a)) as (c & E & Hc); [unfold is_apint; auto|].
    exists c. split; [|auto]. unfold into_bitnot, forward_mut_impl in E. exact E.
  - apply both_total. destruct (neg_fact a Ha) as (c & E1 & E2 & H & _). eauto.
  - apply both_total. destruct (inc_fact a Ha) as (c & E1 & E2 & H & _). eauto.
  - apply both_total. destruct (dec_fact a Ha) as (c & E1 & E2 & H & _). eauto.
  - destruct (Z.ltb_spec s (len a)).
    + apply both_ok. apply shl_fact; [auto|lia].
    + destruct (shift_err_fact a s Ha ltac:(lia)) as (E1 & E2 & _). exact (both_err _ _ _ _ E1 E2).
  - destruct (Z.ltb_spec s (len a)).
    + apply both_ok. apply lshr_fact; [auto|lia].
    + destruct (shift_err_fact a s Ha ltac:(lia)) as (_ & _ & E1 & E2 & _). exact (both_err _ _ _ _ E1 E2).
  - destruct (Z.ltb_spec s (len a)).
    + apply both_ok. destruct (ashr_fact a s Ha ltac:(lia)) as (c & E1 & E2 & W & L & Sc). exists c.
      split; [exact E1|split; [exact E2|]]. now apply signed_apint.
    + destruct (shift_err_fact a s Ha ltac:(lia)) as (_ & _ & _ & _ & E1 & E2). exact (both_err _ _ _ _ E1 E2).
  - apply (Zt t (truncate a) (into_truncate a)); [exact Hm|]. intros Ht. destruct (Z.leb_spec t (len a)).
    + apply both_ok. apply truncate_fact; [auto|lia].
    + destruct (truncate_err_fact a t ltac:(lia)) as (E1 & E2). exact (both_err _ _ _ _ E1 E2).
  - apply (Zt t (zero_extend a) (into_zero_extend a)); [exact Hm|]. intros Ht. destruct (Z.leb_spec (len a) t).
    + apply both_ok. apply zero_extend_fact; auto.
    + destruct (zero_extend_err_fact a t ltac:(lia)) as (E1 & E2). exact (both_err _ _ _ _ E1 E2).
  - apply (Zt t (sign_extend a) (into_sign_extend a)); [exact Hm|]. intros Ht. destruct (Z.leb_spec (len a) t).
    + apply both_ok. destruct (sign_extend_fact a t Ha ltac:(lia)) as (c & E1 & E2 & W & L & Sc). exists c.
      split; [exact E1|split; [exact E2|]]. now apply signed_apint.
    + destruct (sign_extend_err_fact a t ltac:(lia)) as (E1 & E2). exact (both_err _ _ _ _ E1 E2).
  - apply (Zt t (fun t => total_mut (zero_resize a t)) (fun t => total (into_zero_resize a t))); [exact Hm|]. intros Ht.
    apply both_total. destruct (resize_fact a t Ha Ht) as (c & d & E1 & E2 & H & _). eauto.
  - apply (Zt t (fun t => total_mut (sign_resize a t)) (fun t => total (into_sign_resize a t))); [exact Hm|]. intros Ht.
    apply both_total. destruct (resize_fact a t Ha Ht) as (c & d & _ & _ & _ & E1 & E2 & H & _). eauto.
Qed.

Lemma put_sim m a x : setop_ok m -> rel a x -> rel_mut a (cput m a) (Some (aput m x)).
Proof.
  intros Hm Hx. destruct (rel_open a x Hx) as (Ha & L & U & S). pose proof (wf_len a Ha) as Hw.
  destruct x as [w u]. cbn [fst snd] in L, U. unfold aput. subst w u.
  destruct (whole_fact a Ha) as (W1 & W2 & W3).
  destruct (sign_bit_fact a Ha) as ((c1 & E1 & X1 & L1 & B1) & (c2 & E2 & X2 & L2 & B2) & (c3 & E3 & X3 & L3 & B3)).
  assert (OK : forall f w u, (exists c, f = Val (c, Ok tt) /\ is_apint c w u) -> rel_mut a f (Some (inl (w, u)))).
  { intros f w u (c & -> & H). exists c. auto. }
  assert (ER : forall f k, f = Val (a, Err k) -> rel_mut a f (Some (inr (observe k)))).
  { intros f k ->. exists k. auto. }
  destruct m as [| | | | | |p|p|p]; cbn [setop_ok cput] in *.
  - apply rel_total_mut, W1.
  - apply rel_total_mut, W2.
  - apply rel_total_mut, W3.
  - apply rel_total_mut. exists c1. split; [exact E1|]. split; [exact X1|split; [exact L1|]]. apply bits_unsigned; [exact X1|].
    intros i Hi. rewrite B1 by auto. destruct (Z.eqb_spec i (len a - 1)) as [->|N].
    + symmetry. apply Z.setbit_eq. lia.
    + symmetry. apply Z.setbit_neq; lia.
  - apply rel_total_mut. exists c2. split; [exact E2|]. split; [exact X2|split; [exact L2|]]. apply bits_unsigned; [exact X2|].
    intros i Hi. rewrite B2 by auto. destruct (Z.eqb_spec i (len a - 1)) as [->|N].
    + symmetry. apply Z.clearbit_eq.
    + symmetry. apply Z.clearbit_neq; lia.
  - apply rel_total_mut. exists c3. split; [exact E3|]. split; [exact X3|split; [exact L3|]]. apply bits_unsigned; [exact X3|].
    intros i Hi. rewrite B3 by auto. rewrite Z.lxor_spec, Z.pow2_bits_eqb by lia. rewrite (Z.eqb_sym (len a - 1) i).
    unfold bit. destruct (Z.eqb_spec i (len a - 1)); destruct (Z.testbit (unsigned a) i); reflexivity.
  - destruct (Z.ltb_spec p (len a)).
    + apply OK. apply set_bit_at_num; auto.
    + destruct (bit_oob_fact a p ltac:(lia)) as (_ & E & _). exact (ER _ _ E).
  - destruct (Z.ltb_spec p (len a)).
    + apply OK. apply unset_bit_at_num; auto.
    + destruct (bit_oob_fact a p ltac:(lia)) as (_ & _ & E & _). exact (ER _ _ E).
  - destruct (Z.ltb_spec p (len a)).
    + apply OK. apply flip_bit_at_num; auto.
    + destruct (bit_oob_fact a p ltac:(lia)) as (_ & _ & _ & E). exact (ER _ _ E).
Qed.

Lemma sdiv_args a b x y op z : rel a x -> rel b y -> forall f g,
  (unsigned b = 0 -> f = Val (a, Err (DivisionByZero op a)) /\ g = Val (Err (DivisionByZero op a))) ->
  (unsigned b <> 0 -> len a <> len b -> f = Panic /\ g = Panic) ->
  (unsigned b <> 0 -> len a = len b -> exists c, f = Val (c, Ok tt) /\ g = Val (Ok c) /\ is_apint c (len a) (z mod 2 ^ len a)) ->
  both a f g (signed_div op x y z).
Proof.
  intros Hx Hy f g H1 H2 H3. destruct (rel_open a x Hx) as (_ & La & Ua & _). destruct (rel_open b y Hy) as (_ & Lb & Ub & _).
  unfold signed_div. rewrite Ub, La, Lb. destruct (Z.eqb_spec (unsigned b) 0) as [Z|Z].
  - destruct (H1 Z) as (E1 & E2). destruct x as [w u]. cbn [fst snd] in *. subst w u. exact (both_err _ _ _ _ E1 E2).
  - destruct (Z.eqb_spec (len a) (len b)) as [E|E].
    + apply both_ok. auto.
    + destruct (H2 Z E) as (-> & ->). split; reflexivity.
Qed.

Lemma bin_sim o a b x y : rel a x -> rel b y -> both a (cbin o a b) (cbin_into o a b) (abin o x y).
Proof.
  intros Hx Hy. destruct (rel_open a x Hx) as (Ha & La & Ua & Sa). destruct (rel_open b y Hy) as (Hb & Lb & Ub & Sb).
  pose proof (wf_len a Ha) as Hw.
  assert (SM : forall f g (r : ares), (len a <> len b -> f = Val (a, Err (UnmatchingBitwidth (len a) (len b))) /\
      g = Val (Err (UnmatchingBitwidth (len a) (len b)))) ->
    (len a = len b -> both a f g (Some r)) ->
    both a f g (Some (if len a =? len b then r else inr (EWidths (len a) (len b))))).
  { intros f g r H1 H2. destruct (Z.eqb_spec (len a) (len b)) as [E|E]; [auto|].
    destruct (H1 E) as (E1 & E2). exact (both_err _ _ _ _ E1 E2). }
  assert (DN : forall (f : mut_result) g w u, try_forward_bin_mut_impl (fun a (_ : unit) => f) a tt = g ->
    (exists c, g = Val (Ok c) /\ is_apint c w u) -> exists c, f = Val (c, Ok tt) /\ g = Val (Ok c) /\ is_apint c w u).
  { intros f g w u E (c & Eg & H). exists c. split; [|auto]. unfold try_forward_bin_mut_impl in E. rewrite Eg in E.
    destruct f as [(d, r)| |]; [|discriminate|discriminate]. cbn [bind] in E. destruct r as [[]|]; [|discriminate].
    cbn in E. congruence. }
  destruct o; cbn [cbin cbin_into]; unfold abin; rewrite ?Ua, ?Ub, ?Sa, ?Sb, ?La, ?Lb;
    try (apply SM; [intros E; destruct (mutating_mismatch a b E) as (P1 & Q1 & P2 & Q2 & P3 & Q3 & P4 & Q4 & P5 & Q5 & P6 & Q6 & _);
      solve [auto] | intros E]).
  - apply both_ok. destruct (add_fact a b Ha Hb E) as (c & E1 & E2 & H & _). eauto.
  - apply both_ok. destruct (sub_fact a b Ha Hb E) as (c & E1 & E2 & H & _). eauto.
  - apply both_ok. destruct (mul_fact a b Ha Hb E) as (c & E1 & E2 & H & _). eauto.
  - apply SM; [intros E; destruct (udiv_mismatch a b E) as (_ & _ & E1 & E2 & _); auto|intros E].
    destruct (Z.eqb_spec (unsigned b) 0) as [Z|Z].
    + destruct (udiv_zero_fact a b Ha Hb E Z) as (_ & _ & E1 & E2 & _). destruct x as [w u]. cbn [fst snd] in *. subst w u.
      exact (both_err _ _ _ _ E1 E2).
    + apply both_ok. destruct (udiv_all a b Ha Hb E Z) as (q & r & _ & _ & E1 & E2 & _ & _ & H & _). eauto.
  - apply SM; [intros E; destruct (udiv_mismatch a b E) as (_ & _ & _ & _ & E1 & E2); auto|intros E].
    destruct (Z.eqb_spec (unsigned b) 0) as [Z|Z].
    + destruct (udiv_zero_fact a b Ha Hb E Z) as (_ & _ & _ & _ & E1 & E2). destruct x as [w u]. cbn [fst snd] in *. subst w u.
      exact (both_err _ _ _ _ E1 E2).
    + apply both_ok. destruct (udiv_all a b Ha Hb E Z) as (q & r & _ & _ & _ & _ & E1 & E2 & _ & H). eauto.
  - apply (sdiv_args a b x y); [assumption|assumption| | |].
    + intros Z. destruct (sdiv_zero_fact a b Ha Hb Z) as (_ & _ & E1 & E2 & _). auto.
    + intros Z E. destruct (sdiv_mismatch_panic a b Ha Hb E Z) as (_ & _ & E1 & E2 & _). auto.
    + intros Z E. destruct (sdiv_all a b Ha Hb E) as (q & r & _ & _ & E1 & E2 & _ & _ & H & _);
        [intros K; apply Z; now apply signed_zero|]. eauto.
  - apply (sdiv_args a b x y); [assumption|assumption| | |].
    + intros Z. destruct (sdiv_zero_fact a b Ha Hb Z) as (_ & _ & _ & _ & E1 & E2). auto.
    + intros Z E. destruct (sdiv_mismatch_panic a b Ha Hb E Z) as (_ & _ & _ & _ & E1 & E2). auto.
    + intros Z E. destruct (sdiv_all a b Ha Hb E) as (q & r & _ & _ & _ & _ & E1 & E2 & _ & _ & H & _);
        [intros K; apply Z; now apply signed_zero|]. eauto.
  - apply both_ok. destruct (bitand_fact a b Ha Hb E) as (c & E1 & E2 & W & L & H). exists c. split; [auto|split; [auto|]].
    split; [exact W|split; [exact L|]]. apply bits_unsigned; [exact W|]. intros i Hi. rewrite H, Z.land_spec. reflexivity.
  - apply both_ok. destruct (bitor_fact a b Ha Hb E) as (c & E1 & E2 & W & L & H). exists c. split; [auto|split; [auto|]].
    split; [exact W|split; [exact L|]]. apply bits_unsigned; [exact W|]. intros i Hi. rewrite H, Z.lor_spec. reflexivity.
  - apply both_ok. destruct (bitxor_fact a b Ha Hb E) as (c & E1 & E2 & W & L & H). exists c. split; [auto|split; [auto|]].
    split; [exact W|split; [exact L|]]. apply bits_unsigned; [exact W|]. intros i Hi. rewrite H, Z.lxor_spec. reflexivity.
Qed.

Lemma pair_sim o a b x y : rel a x -> rel b y ->
  match apair o x y with
  | None => cpair o a b = Panic
  | Some (inl (x', y')) => exists a' b', cpair o a b = Val (a', b', Ok tt) /\ rel a' x' /\ rel b' y'
  | Some (inr e) => exists k, cpair o a b = Val (a, b, Err k) /\ observe k = e
  end.
Proof.
  intros Hx Hy. destruct (rel_open a x Hx) as (Ha & La & Ua & Sa). destruct (rel_open b y Hy) as (Hb & Lb & Ub & Sb).
  assert (Vx : x = (len a, unsigned a)) by (destruct x; cbn in *; congruence).
  unfold apair. destruct o; cbn [cpair]; rewrite ?Ua, ?Ub, ?Sa, ?Sb, ?La, ?Lb.
  - destruct (Z.eqb_spec (len a) (len b)) as [E|E].
    + destruct (Z.eqb_spec (unsigned b) 0) as [Z|Z].
      * destruct (udiv_zero_fact a b Ha Hb E Z) as (E1 & _). rewrite E1, Vx. eauto.
      * destruct (udiv_all a b Ha Hb E Z) as (q & r & E1 & _ & _ & _ & _ & _ & H1 & H2). eauto.
    + destruct (udiv_mismatch a b E) as (E1 & _). eauto.
  - destruct (Z.eqb_spec (len a) (len b)) as [E|E].
    + destruct (Z.eqb_spec (unsigned b) 0) as [Z|Z].
      * destruct (udiv_zero_fact a b Ha Hb E Z) as (_ & E1 & _). rewrite E1, Vx. eauto.
      * destruct (udiv_all a b Ha Hb E Z) as (q & r & _ & E1 & _ & _ & _ & _ & H1 & H2). eauto.
    + destruct (udiv_mismatch a b E) as (_ & E1 & _). eauto.
  - destruct (Z.eqb_spec (unsigned b) 0) as [Z|Z].
    + destruct (sdiv_zero_fact a b Ha Hb Z) as (E1 & _). rewrite E1, Vx. eauto.
    + destruct (Z.eqb_spec (len a) (len b)) as [E|E].
      * destruct (sdiv_all a b Ha Hb E) as (q & r & E1 & _ & _ & _ & _ & _ & H1 & _ & H2 & _);
          [intros K; apply Z; now apply signed_zero|]. exists q, r. auto.
      * destruct (sdiv_mismatch_panic a b Ha Hb E Z) as (E1 & _). exact E1.
  - destruct (Z.eqb_spec (unsigned b) 0) as [Z|Z].
    + destruct (sdiv_zero_fact a b Ha Hb Z) as (_ & E1 & _). rewrite E1, Vx. eauto.
    + destruct (Z.eqb_spec (len a) (len b)) as [E|E].
      * destruct (sdiv_all a b Ha Hb E) as (q & r & _ & E1 & _ & _ & _ & _ & H1 & _ & H2 & _);
          [intros K; apply Z; now apply signed_zero|]. exists r, q. auto.
      * destruct (sdiv_mismatch_panic a b Ha Hb E Z) as (_ & E1 & _). exact E1.
Qed.

Lemma cmp_sim o a b x y : rel a x -> rel b y ->
  obs_rbool (ccmp o a b) = Val (match acmp o x y with inl r => OBool r | inr e => OFail e end).
Proof.
  intros Hx Hy. destruct (rel_open a x Hx) as (Ha & La & Ua & Sa). destruct (rel_open b y Hy) as (Hb & Lb & Ub & Sb).
  unfold acmp. rewrite Ua, Ub, Sa, Sb, La, Lb. unfold obs_rbool.
  destruct (Z.eqb_spec (len a) (len b)) as [E|E].
  - destruct (ucmp_fact a b Ha Hb E) as (U1 & U2 & U3 & U4). destruct (scmp_fact a b Ha Hb E) as (S1 & S2 & S3 & S4).
    rewrite Z.gtb_ltb in *. rewrite Z.geb_leb in *.
    destruct o; cbn [ccmp]; rewrite ?U1, ?U2, ?U3, ?U4, ?S1, ?S2, ?S3, ?S4; reflexivity.
  - destruct (comparison_mismatch a b E) as (U1 & U2 & S1 & S2 & U3 & U4 & S3 & S4).
    destruct o; cbn [ccmp]; rewrite ?U1, ?U2, ?U3, ?U4, ?S1, ?S2, ?S3, ?S4; reflexivity.
Qed.
