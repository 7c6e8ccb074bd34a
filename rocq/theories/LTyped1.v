(** The machine over the code of [UInt] and [Int] simulates the abstract one:
    calls on [UInt]. *)
From Verif Require Export LMach4 LInt4 MTyped SpecTypedRel.

Section Rel.
Context {T : Type} (P : T -> Z -> Z -> Prop) (k : kind).
Definition good (c : T) (v : tval) : Prop := tkind v = k /\ P c (twidth v) (tvalue v).
Definition trel_mut (a : T) (m : outcome (T * result unit)) (r : option tres) : Prop :=
  match r with
  | None => m = Panic
  | Some (inl v) => exists c, m = Val (c, Ok tt) /\ good c v
  | Some (inr e) => exists er, m = Val (a, Err er) /\ observe er = e
  end.
Definition trel_res (m : outcome (result T)) (r : option tres) : Prop :=
  match r with
  | None => m = Panic
  | Some (inl v) => exists c, m = Val (Ok c) /\ good c v
  | Some (inr e) => exists er, m = Val (Err er) /\ observe er = e
  end.
Definition tboth (a : T) (m : outcome (T * result unit)) (g : outcome (result T)) (r : option tres) : Prop :=
  trel_mut a m r /\ trel_res g r.

Lemma tboth_ok a m g w z : (exists c, m = Val (c, Ok tt) /\ g = Val (Ok c) /\ P c w z) ->
  tboth a m g (Some (inl (mk_tval k w z))).
Proof. intros (c & E1 & E2 & H). split; exists c; split; auto; split; auto. Qed.
Lemma tboth_err a m g er : m = Val (a, Err er) -> g = Val (Err er) -> tboth a m g (Some (inr (observe er))).
Proof. intros E1 E2. split; exists er; auto. Qed.
Lemma tboth_panic a m g : m = Panic -> g = Panic -> tboth a m g None.
Proof. intros E1 E2. split; auto. Qed.
Lemma tboth_unit a m g w z : (exists c, m = Val c /\ g = Val c /\ P c w z) ->
  tboth a (unit_mut m) (plain_val g) (Some (inl (mk_tval k w z))).
Proof. intros (c & -> & -> & H). split; exists c; split; auto; split; auto. Qed.
Lemma tmut_ok_rel a m w z : (exists c, m = Val (c, Ok tt) /\ P c w z) -> trel_mut a m (Some (inl (mk_tval k w z))).
Proof. intros (c & E & H). exists c. split; auto. split; auto. Qed.
Lemma tmut_unit_rel a m w z : (exists c, m = Val c /\ P c w z) -> trel_mut a (unit_mut m) (Some (inl (mk_tval k w z))).
Proof. intros (c & -> & H). exists c. split; auto. split; auto. Qed.

Lemma tboth_sized a t (m : Z -> outcome (T * result unit)) g r : 0 <= t ->
  (0 < t -> tboth a (m t) (g t) (Some r)) -> tboth a (sized_in a t m) (sized t g) (Some (sized_to t r)).
Proof.
  intros Ht Hr. unfold sized_in, sized, sized_to, bitwidth_new. destruct (Z.eqb_spec t 0).
  - split; exists (InvalidBitWidth 0); auto.
  - apply Hr. lia.
Qed.

(** The operators unwrap. *)
Lemma operator_mut a m r : trel_mut a m (Some r) -> trel_mut a (unit_mut (assign_unwrap m)) (by_form Operator r).
Proof.
  destruct r as [v|e]; cbn [by_form trel_mut].
  - intros (c & -> & H). exists c. auto.
  - intros (er & -> & H). reflexivity.
Qed.
Lemma operator_res m r : trel_res m (Some r) -> trel_res (plain_val (op_unwrap m)) (by_form Operator r).
Proof.
  destruct r as [v|e]; cbn [by_form trel_res].
  - intros (c & -> & H). exists c. auto.
  - intros (er & -> & H). reflexivity.
Qed.
Lemma operator_mut' a m r : trel_mut a m r -> trel_mut a (unit_mut (assign_unwrap m)) (opt_bind r (by_form Operator)).
Proof. destruct r as [r|]; [apply operator_mut|]. intros ->. reflexivity. Qed.
Lemma operator_res' m r : trel_res m r -> trel_res (plain_val (op_unwrap m)) (opt_bind r (by_form Operator)).
Proof. destruct r as [r|]; [apply operator_res|]. intros ->. reflexivity. Qed.
Lemma method_form r : by_form Method r = Some r. Proof. reflexivity. Qed.
Lemma method_form' r : opt_bind r (by_form Method) = r. Proof. destruct r; reflexivity. Qed.
End Rel.

(** * Reading values off the representation *)
Lemma is_uint_range x w z : is_uint x w z -> 0 < w /\ 0 <= z < 2 ^ w.
Proof. intros (W & <- & <-). split; [now apply wf_len|now apply unsigned_bound]. Qed.
Lemma uint_norm x w z : is_uint x w z -> norm KU w z = z.
Proof. intros H. apply is_uint_range in H. apply Z.mod_small. lia. Qed.
Lemma int_norm x w z : is_int x w z -> norm KI w z = z.
Proof. intros H. apply is_int_range in H. apply wrap_signed_small; lia. Qed.
Lemma u_norm x w z z' : is_uint x w z -> z mod 2 ^ w = z' mod 2 ^ w -> is_uint x w (norm KU w z').
Proof. intros H E. cbn [norm]. rewrite <- E. now rewrite (uint_norm x w z H : z mod 2 ^ w = z). Qed.
Lemma i_norm x w z z' : is_int x w z -> z mod 2 ^ w = z' mod 2 ^ w -> is_int x w (norm KI w z').
Proof. intros H E. cbn [norm]. rewrite <- (wrap_signed_mod w z z' E). now rewrite (int_norm x w z H : wrap_signed w z = z). Qed.
Lemma not_mod w u : 0 < w -> (2 ^ w - 1 - u) mod 2 ^ w = (-1 - u) mod 2 ^ w.
Proof. intros H. replace (2 ^ w - 1 - u) with (-1 - u + 1 * 2 ^ w) by lia. apply Z.mod_add. pose proof (Z.pow_pos_nonneg 2 w). lia. Qed.

Notation UB := (tboth is_uint KU). Notation IB := (tboth is_int KI).

(** * UInt *)
Definition pick {A B : Type} (R : A -> B -> Prop) (o : option A) (here : bool) (b : B) : Prop :=
  match o with Some a => here = true /\ R a b | None => here = false end.

Lemma umut_sim m a w z : tmut_ok m -> is_uint a w z -> m <> TAbs ->
  exists f g, umut Method m a = Some f /\ uinto Method m a = Some g /\ UB a f g (Some (tamut m (mk_tval KU w z))).
Proof.
  intros Hm Ha Nm. pose proof (is_uint_range a w z Ha) as (Hw & Hz).
  destruct m as [| | |s|s|t|t|t]; cbn [tmut_ok umut uinto tamut tkind twidth tvalue] in *.
  - do 2 eexists. split; [reflexivity|split; [reflexivity|]]. apply tboth_unit.
    destruct (uint_bitwise_fact a a w z z Ha Ha) as (_ & _ & _ & (c & E1 & E2 & H)). exists c. split; [exact E1|split; [exact E2|]].
    apply u_norm with (1 := H). now apply not_mod.
  - do 2 eexists. split; [reflexivity|split; [reflexivity|]]. apply tboth_unit.
    destruct (uint_arith_fact a a w z z Ha Ha) as (_ & _ & _ & (c & E1 & E2 & H)). exists c. auto.
  - contradiction.
  - do 2 eexists. split; [reflexivity|split; [reflexivity|]]. destruct (Z.ltb_spec s w).
    + apply tboth_ok. apply (uint_shift_fact a w z s Ha). lia.
    + destruct (uint_shift_err_fact a w z s Ha ltac:(lia)) as (E1 & E2 & _). exact (tboth_err _ _ _ _ _ _ E1 E2).
  - do 2 eexists. split; [reflexivity|split; [reflexivity|]]. destruct (Z.ltb_spec s w).
    + apply tboth_ok. apply (uint_shift_fact a w z s Ha). lia.
    + destruct (uint_shift_err_fact a w z s Ha ltac:(lia)) as (_ & _ & E1 & E2). exact (tboth_err _ _ _ _ _ _ E1 E2).
  - do 2 eexists. split; [reflexivity|split; [reflexivity|]]. apply tboth_sized; [lia|]. intros Ht.
    destruct (uint_resize_fact a w z t Ha Ht) as (R1 & R2 & _). destruct (Z.leb_spec t w) as [C|C].
    + apply tboth_ok. exact (R1 C).
    + destruct (R2 C) as (E1 & E2). exact (tboth_err _ _ _ _ _ _ E1 E2).
  - do 2 eexists. split; [reflexivity|split; [reflexivity|]]. apply tboth_sized; [lia|]. intros Ht.
    destruct (uint_resize_fact a w z t Ha Ht) as (_ & _ & R1 & R2 & _). destruct (Z.leb_spec w t) as [C|C].
    + apply tboth_ok. exact (R1 C).
    + destruct (R2 C) as (E1 & E2). exact (tboth_err _ _ _ _ _ _ E1 E2).
  - do 2 eexists. split; [reflexivity|split; [reflexivity|]].
    apply (tboth_sized is_uint KU a t (fun t => unit_mut (uint_resize a t)) (fun t => plain_val (uint_into_resize a t))); [lia|]. intros Ht.
    apply tboth_unit. exact (proj2 (proj2 (proj2 (proj2 (uint_resize_fact a w z t Ha Ht))))).
Qed.

Lemma uput_sim m a w z : tset_ok m -> is_uint a w z -> signed_only_set m = false ->
  exists f, uput m a = Some f /\ trel_mut is_uint KU a f (Some (taput m (mk_tval KU w z))).
Proof.
  intros Hm Ha Nm. pose proof (is_uint_range a w z Ha) as (Hw & Hz).
  destruct m as [| | |p|p|p| | |]; try discriminate; cbn [tset_ok uput taput tkind twidth tvalue] in *; eexists; (split; [reflexivity|]).
  - apply tmut_unit_rel. destruct (uint_bit_fact a w z 0 Ha) as (_ & _ & (c & E & H) & _). exists c. split; [exact E|].
    apply u_norm with (1 := H). replace (2 ^ w - 1) with (2 ^ w - 1 - 0) by lia. now rewrite not_mod by lia.
  - apply tmut_unit_rel. exact (proj1 (proj2 (proj2 (proj2 (uint_bit_fact a w z 0 Ha))))).
  - apply tmut_unit_rel. destruct (uint_bit_fact a w z 0 Ha) as (_ & _ & _ & _ & (c & E & H)). exists c. split; [exact E|].
    apply u_norm with (1 := H). now apply not_mod.
  - destruct (uint_bit_fact a w z p Ha) as (B1 & B2 & _). destruct (Z.ltb_spec p w) as [C|C].
    + destruct (B1 ltac:(lia)) as (_ & (c & E & H) & _). apply tmut_ok_rel. exists c. split; [exact E|]. now apply u_norm with (1 := H).
    + destruct (B2 ltac:(lia)) as (_ & E & _). eexists. split; [exact E|reflexivity].
  - destruct (uint_bit_fact a w z p Ha) as (B1 & B2 & _). destruct (Z.ltb_spec p w) as [C|C].
    + destruct (B1 ltac:(lia)) as (_ & _ & (c & E & H) & _). apply tmut_ok_rel. exists c. split; [exact E|]. now apply u_norm with (1 := H).
    + destruct (B2 ltac:(lia)) as (_ & _ & E & _). eexists. split; [exact E|reflexivity].
  - destruct (uint_bit_fact a w z p Ha) as (B1 & B2 & _). destruct (Z.ltb_spec p w) as [C|C].
    + destruct (B1 ltac:(lia)) as (_ & _ & _ & (c & E & H)). apply tmut_ok_rel. exists c. split; [exact E|]. now apply u_norm with (1 := H).
    + destruct (B2 ltac:(lia)) as (_ & _ & _ & E). eexists. split; [exact E|reflexivity].
Qed.

Lemma ubin_sim o a b w z w' z' : is_uint a w z -> is_uint b w' z' ->
  UB a (ubin Method o a b) (ubin_into Method o a b) (tabin o (mk_tval KU w z) (mk_tval KU w' z')).
Proof.
  intros Ha Hb. pose proof (is_uint_range a w z Ha) as (Hw & Hz). pose proof (is_uint_range b w' z' Hb) as (_ & Hz').
  assert (Wd : uint_width a = w /\ uint_width b = w').
  { split; [apply (uint_query_fact a w z Ha)|apply (uint_query_fact b w' z' Hb)]. } destruct Wd as (Wa & Wb).
  destruct (Z.eqb_spec w w') as [<-|N].
  - destruct (uint_arith_fact a b w z z' Ha Hb) as (A1 & A2 & A3 & _). destruct (uint_bitwise_fact a b w z z' Ha Hb) as (B1 & B2 & B3 & _).
    assert (Q : Z.quot z z' = z / z' \/ z' = 0) by (destruct (Z.eq_dec z' 0); [now right|left; apply Z.quot_div_nonneg; lia]).
    assert (R : Z.rem z z' = z mod z' \/ z' = 0) by (destruct (Z.eq_dec z' 0); [now right|left; apply Z.rem_mod_nonneg; lia]).
    destruct o; cbn [ubin ubin_into tabin tdivide tkind twidth tvalue]; rewrite Z.eqb_refl; try (now apply tboth_ok).
    + destruct (Z.eqb_spec z' 0) as [->|N0].
      * destruct (uint_div_zero_fact a b w z Ha Hb) as (E1 & E2 & _).
        replace (inr (EDivisionByZero UnsignedDiv (raw (mk_tval KU w z)))) with (@inr tval aerror (observe (DivisionByZero UnsignedDiv (uint_into_apint a)))).
        2: { unfold raw, view, uint_into_apint. cbn [observe twidth tvalue]. unfold view. destruct Ha as (_ & -> & ->). now rewrite Z.mod_small. }
        now apply tboth_err.
      * destruct Q as [Q|]; [|contradiction]. destruct (uint_div_fact a b w z z' Ha Hb N0) as ((c & E1 & E2 & H) & _). apply tboth_ok.
        exists c. split; [exact E1|split; [exact E2|]]. apply u_norm with (1 := H). now rewrite Q.
    + destruct (Z.eqb_spec z' 0) as [->|N0].
      * destruct (uint_div_zero_fact a b w z Ha Hb) as (_ & _ & E1 & E2).
        replace (inr (EDivisionByZero UnsignedRem (raw (mk_tval KU w z)))) with (@inr tval aerror (observe (DivisionByZero UnsignedRem (uint_into_apint a)))).
        2: { unfold raw, view, uint_into_apint. cbn [observe twidth tvalue]. unfold view. destruct Ha as (_ & -> & ->). now rewrite Z.mod_small. }
        now apply tboth_err.
      * destruct R as [R|]; [|contradiction]. destruct (uint_div_fact a b w z z' Ha Hb N0) as (_ & (c & E1 & E2 & H)). apply tboth_ok.
        exists c. split; [exact E1|split; [exact E2|]]. apply u_norm with (1 := H). now rewrite R.
    + destruct B1 as (c & E1 & E2 & H). apply tboth_ok. exists c. split; [exact E1|split; [exact E2|]]. now apply u_norm with (1 := H).
    + destruct B2 as (c & E1 & E2 & H). apply tboth_ok. exists c. split; [exact E1|split; [exact E2|]]. now apply u_norm with (1 := H).
    + destruct B3 as (c & E1 & E2 & H). apply tboth_ok. exists c. split; [exact E1|split; [exact E2|]]. now apply u_norm with (1 := H).
  - assert (N' : uint_width a <> uint_width b) by congruence. apply uint_mismatch_fact in N'. rewrite Wa, Wb in N'. cbv zeta in N'.
    decompose [and] N'. clear N'.
    destruct o; cbn [ubin ubin_into tabin tdivide tkind twidth tvalue]; (destruct (Z.eqb_spec w w'); [contradiction|]);
      match goal with |- UB _ _ _ (Some (inr (EWidths ?x ?y))) => change (EWidths x y) with (observe (UnmatchingBitwidth x y)) end;
      now apply tboth_err.
Qed.

Lemma ucmp_sim o a b w z w' z' : is_uint a w z -> is_uint b w' z' ->
  obs_rbool (ucheck o a b) = Val (tacheck o (mk_tval KU w z) (mk_tval KU w' z')) /\
  utest o a b = Val (tatest o (mk_tval KU w z) (mk_tval KU w' z')) /\
  uint_partial_cmp a b = Val (tacompare (mk_tval KU w z) (mk_tval KU w' z')) /\
  uint_eqb a b = (w =? w') && (z =? z').
Proof.
  intros Ha Hb. unfold tacheck, tatest, tacompare. cbn [twidth tvalue].
  assert (Wd : uint_width a = w /\ uint_width b = w').
  { split; [apply (uint_query_fact a w z Ha)|apply (uint_query_fact b w' z' Hb)]. } destruct Wd as (Wa & Wb).
  destruct (Z.eqb_spec w w') as [<-|N].
  - destruct (uint_cmp_fact a b w z z' Ha Hb) as (C1 & C2 & C3 & C4 & C5).
    destruct (uint_order_eq_fact a b w z z' Ha Hb) as (O0 & O1 & O2 & O3 & O4). rewrite O0, C5. cbn [andb].
    destruct o; cbn [ucheck utest holds_cmp]; unfold obs_rbool.
    + rewrite C1, O1. auto.
    + rewrite C2, O2. auto.
    + rewrite C3, O3. auto.
    + rewrite C4, O4. auto.
  - assert (N' : uint_width a <> uint_width b) by congruence. destruct (uint_order_mismatch_fact a b N') as (O0 & C5 & O1 & O2 & O3 & O4).
    rewrite O0, C5. cbn [andb]. unfold uint_width, width in N', Wa, Wb. destruct (comparison_mismatch _ _ N') as (U1 & U2 & S1 & S2 & U3 & U4 & S3 & S4).
    rewrite Wa, Wb in *. destruct o; cbn [ucheck utest]; unfold obs_rbool, uint_checked_lt, uint_checked_le, uint_checked_gt, uint_checked_ge.
    + rewrite U1, O1. auto.
    + rewrite U3, O2. auto.
    + rewrite U4, O3. auto.
    + rewrite U2, O4. auto.
Qed.
