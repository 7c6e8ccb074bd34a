(** The machine over the code of [UInt] and [Int] simulates the abstract one:
    calls on [Int], queries and constructors. *)
From Verif Require Export LTyped1.

Lemma imut_sim m a w z : tmut_ok m -> is_int a w z ->
  exists f g, imut Method m a = Some f /\ iinto Method m a = Some g /\ IB a f g (Some (tamut m (mk_tval KI w z))).
Proof.
  intros Hm Ha. pose proof (is_int_range a w z Ha) as (Hw & Hz).
  destruct m as [| | |s|s|t|t|t]; cbn [tmut_ok imut iinto tamut tkind twidth tvalue] in *.
  - do 2 eexists. split; [reflexivity|split; [reflexivity|]]. apply tboth_unit.
    destruct (int_bitwise_fact a a w z z Ha Ha) as (_ & _ & _ & (c & E1 & E2 & H)). exists c. split; [exact E1|split; [exact E2|]].
    apply i_norm with (1 := H). f_equal. lia.
  - do 2 eexists. split; [reflexivity|split; [reflexivity|]]. apply tboth_unit.
    destruct (int_arith_fact a a w z z Ha Ha) as (_ & _ & _ & (c & E1 & E2 & H)). exists c. auto.
  - do 2 eexists. split; [reflexivity|split; [reflexivity|]]. apply tboth_unit.
    destruct (int_abs_fact a w z Ha) as (c & E1 & E2 & H1 & H2). exists c. split; [exact E1|split; [exact E2|]].
    destruct (Z.eq_dec z (- 2 ^ (w - 1))) as [E|E].
    + apply i_norm with (1 := H2 E). pose proof (pow2_double w Hw) as D. assert (P : 0 < 2 ^ (w - 1)) by (apply Z.pow_pos_nonneg; lia).
      replace (Z.abs z) with (z + 1 * 2 ^ w) by lia. symmetry. apply Z.mod_add. lia.
    + now apply i_norm with (1 := H1 E).
  - do 2 eexists. split; [reflexivity|split; [reflexivity|]]. destruct (Z.ltb_spec s w).
    + apply tboth_ok. apply (int_shift_fact a w z s Ha). lia.
    + destruct (int_shift_err_fact a w z s Ha ltac:(lia)) as (E1 & E2 & _). exact (tboth_err _ _ _ _ _ _ E1 E2).
  - do 2 eexists. split; [reflexivity|split; [reflexivity|]]. destruct (Z.ltb_spec s w).
    + apply tboth_ok. apply (int_shift_fact a w z s Ha). lia.
    + destruct (int_shift_err_fact a w z s Ha ltac:(lia)) as (_ & _ & E1 & E2). exact (tboth_err _ _ _ _ _ _ E1 E2).
  - do 2 eexists. split; [reflexivity|split; [reflexivity|]]. apply tboth_sized; [lia|]. intros Ht.
    destruct (int_resize_fact a w z t Ha Ht) as (R1 & R2 & _). destruct (Z.leb_spec t w) as [C|C].
    + apply tboth_ok. exact (R1 C).
    + destruct (R2 C) as (E1 & E2). exact (tboth_err _ _ _ _ _ _ E1 E2).
  - do 2 eexists. split; [reflexivity|split; [reflexivity|]]. apply tboth_sized; [lia|]. intros Ht.
    destruct (int_resize_fact a w z t Ha Ht) as (_ & _ & R1 & R2 & _). destruct (Z.leb_spec w t) as [C|C].
    + apply tboth_ok. exact (R1 C).
    + destruct (R2 C) as (E1 & E2). exact (tboth_err _ _ _ _ _ _ E1 E2).
  - do 2 eexists. split; [reflexivity|split; [reflexivity|]].
    apply (tboth_sized is_int KI a t (fun t => unit_mut (int_resize a t)) (fun t => plain_val (int_into_resize a t))); [lia|]. intros Ht.
    apply tboth_unit. exact (proj2 (proj2 (proj2 (proj2 (int_resize_fact a w z t Ha Ht))))).
Qed.

Lemma iput_sim m a w z : tset_ok m -> is_int a w z -> trel_mut is_int KI a (iput m a) (Some (taput m (mk_tval KI w z))).
Proof.
  intros Hm Ha. pose proof (is_int_range a w z Ha) as (Hw & Hz). destruct (int_msb_fact a w z Ha) as (_ & M1 & M2 & M3).
  destruct m as [| | |p|p|p| | |]; cbn [tset_ok iput taput tkind twidth tvalue] in *.
  - apply tmut_unit_rel. destruct (int_bit_fact a w z 0 Ha) as (_ & _ & (c & E & H) & _). exists c. split; [exact E|].
    now apply i_norm with (1 := H).
  - apply tmut_unit_rel. exact (proj1 (proj2 (proj2 (proj2 (int_bit_fact a w z 0 Ha))))).
  - apply tmut_unit_rel. destruct (int_bit_fact a w z 0 Ha) as (_ & _ & _ & _ & (c & E & H)). exists c. split; [exact E|].
    apply i_norm with (1 := H). f_equal. lia.
  - destruct (int_bit_fact a w z p Ha) as (B1 & B2 & _). destruct (Z.ltb_spec p w) as [C|C].
    + destruct (B1 ltac:(lia)) as (_ & B & _). now apply tmut_ok_rel.
    + destruct (B2 ltac:(lia)) as (_ & E & _). eexists. split; [exact E|reflexivity].
  - destruct (int_bit_fact a w z p Ha) as (B1 & B2 & _). destruct (Z.ltb_spec p w) as [C|C].
    + destruct (B1 ltac:(lia)) as (_ & _ & B & _). now apply tmut_ok_rel.
    + destruct (B2 ltac:(lia)) as (_ & _ & E & _). eexists. split; [exact E|reflexivity].
  - destruct (int_bit_fact a w z p Ha) as (B1 & B2 & _). destruct (Z.ltb_spec p w) as [C|C].
    + destruct (B1 ltac:(lia)) as (_ & _ & _ & B). now apply tmut_ok_rel.
    + destruct (B2 ltac:(lia)) as (_ & _ & _ & E). eexists. split; [exact E|reflexivity].
  - now apply tmut_unit_rel.
  - now apply tmut_unit_rel.
  - now apply tmut_unit_rel.
Qed.

Lemma int_raw a w z : is_int a w z -> raw (mk_tval KI w z) = view (int_into_apint a).
Proof.
  intros Ha. destruct (is_int_open a w z Ha) as (_ & L & _ & _ & U). unfold raw, view, int_into_apint. cbn [twidth tvalue]. congruence.
Qed.

Lemma ibin_sim o a b w z w' z' : is_int a w z -> is_int b w' z' ->
  IB a (ibin Method o a b) (ibin_into Method o a b) (tabin o (mk_tval KI w z) (mk_tval KI w' z')).
Proof.
  intros Ha Hb. pose proof (is_int_range a w z Ha) as (Hw & Hz). pose proof (is_int_range b w' z' Hb) as (_ & Hz').
  assert (Wd : int_width a = w /\ int_width b = w').
  { split; [apply (int_query_fact a w z Ha)|apply (int_query_fact b w' z' Hb)]. } destruct Wd as (Wa & Wb).
  assert (Dv : o = TDiv \/ o = TRem -> IB a (ibin Method o a b) (ibin_into Method o a b) (tabin o (mk_tval KI w z) (mk_tval KI w' z'))).
  { intros [-> | ->]; cbn [ibin ibin_into tabin]; unfold tdivide; cbn [tkind twidth tvalue]; rewrite (int_raw a w z Ha);
      (destruct (Z.eqb_spec z' 0) as [->|N0]; [|destruct (Z.eqb_spec w w') as [<-|N]]).
    - destruct (int_div_zero_fact a b w w' z Ha Hb) as (E1 & E2 & _). exact (tboth_err _ _ _ _ _ _ E1 E2).
    - destruct (int_div_fact a b w z z' Ha Hb N0) as ((c & E1 & E2 & H & _) & _). apply tboth_ok. exists c. auto.
    - destruct (int_div_mismatch_panic a b w w' z z' Ha Hb N N0) as (E1 & E2 & _). now apply tboth_panic.
    - destruct (int_div_zero_fact a b w w' z Ha Hb) as (_ & _ & E1 & E2). exact (tboth_err _ _ _ _ _ _ E1 E2).
    - destruct (int_div_fact a b w z z' Ha Hb N0) as (_ & (c & E1 & E2 & H)). apply tboth_ok. exists c.
      split; [exact E1|split; [exact E2|]]. now apply i_norm with (1 := H).
    - destruct (int_div_mismatch_panic a b w w' z z' Ha Hb N N0) as (_ & _ & E1 & E2). now apply tboth_panic. }
  assert (Cs : (o = TDiv \/ o = TRem) \/ o = TAdd \/ o = TSub \/ o = TMul \/ o = TAnd \/ o = TOr \/ o = TXor) by (destruct o; tauto).
  destruct Cs as [Cs|Cs]; [now apply Dv|]. clear Dv.
  destruct (Z.eqb_spec w w') as [<-|N].
  - destruct (int_arith_fact a b w z z' Ha Hb) as (A1 & A2 & A3 & _). destruct (int_bitwise_fact a b w z z' Ha Hb) as (B1 & B2 & B3 & _).
    destruct Cs as [->|[->|[->|[->|[->| ->]]]]]; cbn [ibin ibin_into tabin tkind twidth tvalue]; rewrite Z.eqb_refl; try (now apply tboth_ok).
    + destruct B1 as (c & E1 & E2 & H). apply tboth_ok. exists c. split; [exact E1|split; [exact E2|]]. now apply i_norm with (1 := H).
    + destruct B2 as (c & E1 & E2 & H). apply tboth_ok. exists c. split; [exact E1|split; [exact E2|]]. now apply i_norm with (1 := H).
    + destruct B3 as (c & E1 & E2 & H). apply tboth_ok. exists c. split; [exact E1|split; [exact E2|]]. now apply i_norm with (1 := H).
  - assert (N' : int_width a <> int_width b) by congruence. apply int_mismatch_fact in N'. rewrite Wa, Wb in N'. cbv zeta in N'.
    decompose [and] N'. clear N'.
    destruct Cs as [->|[->|[->|[->|[->| ->]]]]]; cbn [ibin ibin_into tabin tkind twidth tvalue]; (destruct (Z.eqb_spec w w'); [contradiction|]);
      match goal with |- IB _ _ _ (Some (inr (EWidths ?x ?y))) => change (EWidths x y) with (observe (UnmatchingBitwidth x y)) end;
      now apply tboth_err.
Qed.

Lemma icmp_sim o a b w z w' z' : is_int a w z -> is_int b w' z' ->
  obs_rbool (icheck o a b) = Val (tacheck o (mk_tval KI w z) (mk_tval KI w' z')) /\
  itest o a b = Val (tatest o (mk_tval KI w z) (mk_tval KI w' z')) /\
  int_partial_cmp a b = Val (tacompare (mk_tval KI w z) (mk_tval KI w' z')) /\
  int_eqb a b = (w =? w') && (z =? z').
Proof.
  intros Ha Hb. unfold tacheck, tatest, tacompare. cbn [twidth tvalue].
  assert (Wd : int_width a = w /\ int_width b = w').
  { split; [apply (int_query_fact a w z Ha)|apply (int_query_fact b w' z' Hb)]. } destruct Wd as (Wa & Wb).
  destruct (Z.eqb_spec w w') as [<-|N].
  - destruct (int_cmp_fact a b w z z' Ha Hb) as (C1 & C2 & C3 & C4 & C5).
    destruct (int_order_eq_fact a b w z z' Ha Hb) as (O0 & O1 & O2 & O3 & O4). rewrite O0, C5. cbn [andb].
    destruct o; cbn [icheck itest holds_cmp]; unfold obs_rbool.
    + rewrite C1, O1. auto.
    + rewrite C2, O2. auto.
    + rewrite C3, O3. auto.
    + rewrite C4, O4. auto.
  - assert (N' : int_width a <> int_width b) by congruence. destruct (int_order_mismatch_fact a b N') as (O0 & C5 & O1 & O2 & O3 & O4).
    rewrite O0, C5. cbn [andb]. unfold int_width, width in N', Wa, Wb. destruct (comparison_mismatch _ _ N') as (U1 & U2 & S1 & S2 & U3 & U4 & S3 & S4).
    rewrite Wa, Wb in *. destruct o; cbn [icheck itest]; unfold obs_rbool, int_checked_lt, int_checked_le, int_checked_gt, int_checked_ge.
    + rewrite S1, O1. auto.
    + rewrite S3, O2. auto.
    + rewrite S4, O3. auto.
    + rewrite S2, O4. auto.
Qed.

(** * Queries *)
Lemma mod_two_odd u : (u mod 2 ^ 1 =? 1) = Z.odd u.
Proof. change (2 ^ 1) with 2. rewrite Zmod_odd. destruct (Z.odd u); reflexivity. Qed.
Lemma octal_obs b u : wf b -> u = unsigned b ->
  match (if u =? 0 then Some (OString [48]) else None) with
  | Some ob => obs_string (fmt_octal b) = Val ob
  | None => obs_string (fmt_octal b) = Panic
  end.
Proof. intros W ->. unfold obs_string. rewrite (proj1 (octal_fact b W)). destruct (unsigned b =? 0); reflexivity. Qed.

Lemma uask_sim q a w z : (match q with TBit p => 0 <= p | _ => True end) -> is_uint a w z -> signed_only_query q = false ->
  exists f, uask q a = Some f /\
    match taask q (mk_tval KU w z) with Some ob => f = Val ob | None => f = Panic end.
Proof.
  intros Hq Ha Nq. pose proof (is_uint_range a w z Ha) as (Hw & Hz). assert (R : rel (uapint a) (w, z)) by exact Ha.
  assert (M : z mod 2 ^ w = z) by (apply Z.mod_small; lia).
  assert (G : forall q' f, f = cask q' (uapint a) -> match q' with QBit p => 0 <= p | _ => True end -> f = Val (ask q' (w, z))).
  { intros q' f -> H. now apply ask_sim. }
  unfold taask, raw. cbn [tkind twidth tvalue]. rewrite M.
  destruct q as [| | | | | | | | | | | | | | |p|n| |n| | | | |]; try discriminate; try destruct n; eexists; (split; [reflexivity|]); cbn [bits_of prim_of].
  - apply (G QWidth); reflexivity || exact I.
  - apply (G QIsZero); reflexivity || exact I.
  - refine (eq_trans (G QIsOne _ eq_refl I) _). cbn [ask]. do 2 f_equal. destruct (Z.leb_spec w 64); [|reflexivity].
    replace ((w + 63) / 64) with 1; [reflexivity|]. apply Z.div_unique with (w - 1); lia.
  - apply (G QIsEven); reflexivity || exact I.
  - apply (G QIsOdd); reflexivity || exact I.
  - refine (eq_trans (G QIsAllSet _ eq_refl I) _). cbn [ask norm]. do 2 f_equal. destruct (w mod 64 =? 0); [reflexivity|]. f_equal.
    apply Z.mod_unique_pos with (-1); lia.
  - apply (G QIsAllUnset); reflexivity || exact I.
  - apply (G QCountOnes); reflexivity || exact I.
  - apply (G QCountZeros); reflexivity || exact I.
  - apply (G QLeadingZeros); reflexivity || exact I.
  - apply (G QTrailingZeros); reflexivity || exact I.
  - apply (G (QBit p)); [reflexivity|exact Hq].
  - apply (G (QResizeTo PU8)); reflexivity || exact I.
  - apply (G (QResizeTo PU16)); reflexivity || exact I.
  - apply (G (QResizeTo PU32)); reflexivity || exact I.
  - apply (G (QResizeTo PU64)); reflexivity || exact I.
  - apply (G (QResizeTo PU128)); reflexivity || exact I.
  - refine (eq_trans (G (QResizeTo PBool) _ eq_refl I) _). cbn [ask show]. unfold resized. cbn [type_signed snd type_width]. now rewrite mod_two_odd.
  - refine (eq_trans (G (QTryTo PU8) _ eq_refl I) _). cbn [ask]. unfold tried. cbn [type_signed type_width snd]. destruct (z <? 2 ^ 8); reflexivity.
  - refine (eq_trans (G (QTryTo PU16) _ eq_refl I) _). cbn [ask]. unfold tried. cbn [type_signed type_width snd]. destruct (z <? 2 ^ 16); reflexivity.
  - refine (eq_trans (G (QTryTo PU32) _ eq_refl I) _). cbn [ask]. unfold tried. cbn [type_signed type_width snd]. destruct (z <? 2 ^ 32); reflexivity.
  - refine (eq_trans (G (QTryTo PU64) _ eq_refl I) _). cbn [ask]. unfold tried. cbn [type_signed type_width snd]. destruct (z <? 2 ^ 64); reflexivity.
  - refine (eq_trans (G (QTryTo PU128) _ eq_refl I) _). cbn [ask]. unfold tried. cbn [type_signed type_width snd]. destruct (z <? 2 ^ 128); reflexivity.
  - refine (eq_trans (G (QTryTo PBool) _ eq_refl I) _). cbn [ask]. unfold tried. cbn [type_signed type_width snd]. change (2 ^ 1) with 2. destruct (z <? 2); reflexivity.
  - apply (G QBinary); reflexivity || exact I.
  - apply octal_obs; [apply Ha|]. symmetry. apply Ha.
  - apply (G QLowerHex); reflexivity || exact I.
  - apply (G QUpperHex); reflexivity || exact I.
Qed.

Lemma iask_sim q a w z : (match q with TBit p => 0 <= p | _ => True end) -> is_int a w z ->
  match taask q (mk_tval KI w z) with Some ob => iask q a = Val ob | None => iask q a = Panic end.
Proof.
  intros Hq Ha. pose proof (is_int_range a w z Ha) as (Hw & Hz). destruct (is_int_open a w z Ha) as (Wa & La & _ & Sa & Ua).
  assert (R : rel (iapint a) (w, z mod 2 ^ w)) by (split; [exact Wa|split; [exact La|exact Ua]]).
  assert (As : asigned (w, z mod 2 ^ w) = z) by (destruct (rel_open _ _ R) as (_ & _ & _ & E); congruence).
  assert (G : forall q' f, f = cask q' (iapint a) -> match q' with QBit p => 0 <= p | _ => True end -> f = Val (ask q' (w, z mod 2 ^ w))).
  { intros q' f -> H. now apply ask_sim. }
  destruct (int_query_fact a w z Ha) as (Q1 & Q2 & Q3 & Q4 & Q5 & Q6 & Q7 & Q8 & _).
  destruct (int_prim_fact a w z Ha) as (P1 & P2 & P3 & P4 & P5 & P6).
  destruct (int_predicates_partial a w z Ha) as (Z1 & Z2).
  pose proof (ones_below_signed (iapint a) Wa) as OB. rewrite La, Sa, Ua in OB.
  unfold taask, raw. cbn [tkind twidth tvalue].
  destruct q as [| | | | | | | | | | | | | | |p|n| |n| | | | |]; cbn [iask].
  - now rewrite Q1.
  - rewrite Q2. reflexivity.
  - destruct (Z.leb_spec w 64) as [C|C].
    + rewrite Z1 by lia. reflexivity.
    + unfold int_is_one. rewrite Q1. destruct (Z.eqb_spec w 1); [lia|]. apply (G QIsOne); reflexivity || exact I.
  - rewrite Q4. reflexivity.
  - rewrite Q5. reflexivity.
  - destruct (Z.eqb_spec (w mod 64) 0) as [C|C].
    + refine (eq_trans (G QIsAllSet _ eq_refl I) _). cbn [ask]. rewrite C. reflexivity.
    + rewrite Z2 by lia. replace (norm KI w (-1)) with (-1); [reflexivity|]. symmetry. apply wrap_signed_small; lia.
  - rewrite Q3. reflexivity.
  - rewrite Q6. reflexivity.
  - rewrite Q7. reflexivity.
  - rewrite Q8. reflexivity.
  - rewrite (proj1 (int_msb_fact a w z Ha)). reflexivity.
  - refine (eq_trans (G QCountOnes _ eq_refl I) _). cbn [ask]. now rewrite OB.
  - refine (eq_trans (G QCountZeros _ eq_refl I) _). cbn [ask]. now rewrite OB.
  - apply (G QLeadingZeros); reflexivity || exact I.
  - apply (G QTrailingZeros); reflexivity || exact I.
  - refine (eq_trans (G (QBit p) _ eq_refl Hq) _). cbn [ask]. f_equal. destruct (Z.ltb_spec p w); [|reflexivity]. now rewrite Z.mod_pow2_bits_low by lia.
  - destruct n; cbn [bits_of norm]; [rewrite P2|rewrite P3|rewrite P4|rewrite P5|rewrite P6]; reflexivity.
  - rewrite P1. reflexivity.
  - destruct n; cbn [bits_of prim_of].
    + refine (eq_trans (G (QTryTo PI8) _ eq_refl I) _). cbn [ask]. unfold tried. cbn [type_signed type_width snd fst]. rewrite As.
      destruct (w <=? 8); [reflexivity|]. destruct (z mod 2 ^ w <? 2 ^ 8); reflexivity.
    + refine (eq_trans (G (QTryTo PI16) _ eq_refl I) _). cbn [ask]. unfold tried. cbn [type_signed type_width snd fst]. rewrite As.
      destruct (w <=? 16); [reflexivity|]. destruct (z mod 2 ^ w <? 2 ^ 16); reflexivity.
    + refine (eq_trans (G (QTryTo PI32) _ eq_refl I) _). cbn [ask]. unfold tried. cbn [type_signed type_width snd fst]. rewrite As.
      destruct (w <=? 32); [reflexivity|]. destruct (z mod 2 ^ w <? 2 ^ 32); reflexivity.
    + refine (eq_trans (G (QTryTo PI64) _ eq_refl I) _). cbn [ask]. unfold tried. cbn [type_signed type_width snd fst]. rewrite As.
      destruct (w <=? 64); [reflexivity|]. destruct (z mod 2 ^ w <? 2 ^ 64); reflexivity.
    + refine (eq_trans (G (QTryTo PI128) _ eq_refl I) _). cbn [ask]. unfold tried. cbn [type_signed type_width snd fst]. rewrite As.
      destruct (w <=? 128); [reflexivity|]. destruct (z mod 2 ^ w <? 2 ^ 128); reflexivity.
  - refine (eq_trans (G (QTryTo PBool) _ eq_refl I) _). cbn [ask]. unfold tried. cbn [type_signed type_width snd]. change (2 ^ 1) with 2.
    destruct (z mod 2 ^ w <? 2); reflexivity.
  - apply (G QBinary); reflexivity || exact I.
  - pose proof (signed_zero _ Wa) as SZ. rewrite Sa in SZ.
    assert (EZ : (z =? 0) = (unsigned (iapint a) =? 0)) by (destruct (Z.eqb_spec z 0), (Z.eqb_spec (unsigned (iapint a)) 0); tauto).
    rewrite EZ. now apply octal_obs.
  - apply (G QLowerHex); reflexivity || exact I.
  - apply (G QUpperHex); reflexivity || exact I.
Qed.

(** * Constructors *)
Definition trel_new {T : Type} (P : T -> Z -> Z -> Prop) (k : kind) (m : outcome (result (option T))) (r : option tval + aerror) : Prop :=
  match r with
  | inl (Some v) => exists c, m = Val (Ok (Some c)) /\ good P k c v
  | inl None => m = Val (Ok None)
  | inr e => exists er, m = Val (Err er) /\ observe er = e
  end.
Lemma new_ok {T : Type} (P : T -> Z -> Z -> Prop) k (m : outcome T) w z : (exists c, m = Val c /\ P c w z) ->
  trel_new P k (let! x := m in Val (Ok (Some x))) (inl (Some (mk_tval k w z))).
Proof. intros (c & -> & H). exists c. split; [reflexivity|]. split; auto. Qed.
Lemma new_sized {T : Type} (P : T -> Z -> Z -> Prop) k (m : Z -> outcome (result (option T))) w r : 0 <= w ->
  (0 < w -> trel_new P k (m w) r) -> trel_new P k (sized w m) (sized_to w r).
Proof.
  intros Hw Hr. unfold sized, sized_to, bitwidth_new. destruct (Z.eqb_spec w 0).
  - exists (InvalidBitWidth 0). auto.
  - apply Hr. lia.
Qed.
Lemma words_id vs : Forall (fun v => has_type v PU64) vs -> map (fun v => v mod 2 ^ 64) vs = vs /\ Forall digit_ok vs.
Proof.
  induction 1 as [|v vs H Hs (IH1 & IH2)]; [auto|]. unfold has_type in H. cbn [type_range fst snd] in H. cbn [map]. split.
  - rewrite IH1, Z.mod_small by exact H. reflexivity.
  - constructor; [exact H|exact IH2].
Qed.

Lemma unew_sim n : tnew_ok KU n -> trel_new is_uint KU (unew n) (tanew KU n).
Proof.
  intros Hn. destruct uint_constructor_fact as (C1 & C2 & C3 & C4 & C5 & C6 & C7 & C8).
  destruct n as [b|n v|vs|w|w|w|w|w|w]; cbn [tnew_ok unew tanew] in *.
  - apply new_ok. destruct (C1 b) as (c & E & H). exists c. split; [exact E|]. destruct b; exact H.
  - destruct n; apply new_ok; auto.
  - destruct Hn as (Hne & Hd). destruct (words_id vs Hd) as (E & Hd'). rewrite E. apply new_ok.
    destruct (C7 vs Hne Hd') as (c & E1 & H). exists c. split; [exact E1|]. now apply u_norm with (1 := H).
  - apply (new_sized is_uint KU (fun w => let! x := uint_zero w in Val (Ok (Some x)))); [exact Hn|]. intros Hw. apply new_ok.
    destruct (C8 w Hw) as ((c & E1 & E2 & E3 & H) & _). eauto.
  - apply (new_sized is_uint KU (fun w => let! x := uint_one w in Val (Ok (Some x)))); [exact Hn|]. intros Hw.
    cbn [greatest]. assert (2 <= 2 ^ w) by (apply (pow2_mono 1); lia). destruct (Z.eqb_spec (2 ^ w - 1) 0); [lia|]. apply new_ok.
    exact (proj1 (proj2 (C8 w Hw))).
  - apply (new_sized is_uint KU (fun w => let! x := uint_all_unset w in Val (Ok (Some x)))); [exact Hn|]. intros Hw. apply new_ok.
    destruct (C8 w Hw) as ((c & E1 & E2 & E3 & H) & _). eauto.
  - apply (new_sized is_uint KU (fun w => let! x := uint_all_set w in Val (Ok (Some x)))); [exact Hn|]. intros Hw. apply new_ok.
    destruct (C8 w Hw) as (_ & _ & (c & E1 & E2 & H) & _). exists c. split; [exact E1|]. apply u_norm with (1 := H).
    replace (2 ^ w - 1) with (2 ^ w - 1 - 0) by lia. now rewrite not_mod by lia.
  - apply (new_sized is_uint KU (fun w => let! x := uint_min_value w in Val (Ok (Some x)))); [exact Hn|]. intros Hw. apply new_ok.
    destruct (C8 w Hw) as ((c & E1 & E2 & E3 & H) & _). eauto.
  - apply (new_sized is_uint KU (fun w => let! x := uint_max_value w in Val (Ok (Some x)))); [exact Hn|]. intros Hw. apply new_ok.
    destruct (C8 w Hw) as (_ & _ & (c & E1 & E2 & H) & _). eauto.
Qed.

Lemma inew_sim n : tnew_ok KI n -> trel_new is_int KI (inew n) (tanew KI n).
Proof.
  intros Hn. destruct int_constructor_fact as (C1 & C2 & C3 & C4 & C5 & C6 & C8 & C7).
  destruct n as [b|n v|vs|w|w|w|w|w|w]; cbn [tnew_ok inew tanew] in *.
  - apply new_ok. destruct (C1 b) as (c & E & H). exists c. split; [exact E|]. destruct b; exact H.
  - destruct n; apply new_ok; auto.
  - destruct Hn as (Hne & _). apply new_ok. exact (C7 vs Hne).
  - apply (new_sized is_int KI (fun w => let! x := int_zero w in Val (Ok (Some x)))); [exact Hn|]. intros Hw. apply new_ok.
    destruct (C8 w Hw) as ((c & E1 & E2 & H) & _). eauto.
  - apply (new_sized is_int KI (fun w => let! r := int_one w in Val (Ok r))); [exact Hn|]. intros Hw.
    cbn [greatest]. destruct (C8 w Hw) as (_ & O1 & O2 & _). destruct (Z.eq_dec w 1) as [->|N].
    + change (2 ^ (1 - 1) - 1 =? 0) with true. cbn [trel_new]. rewrite O1 by reflexivity. reflexivity.
    + assert (2 <= 2 ^ (w - 1)) by (apply (pow2_mono 1); lia). destruct (Z.eqb_spec (2 ^ (w - 1) - 1) 0); [lia|].
      destruct (O2 ltac:(lia)) as (c & -> & H1). exists c. split; [reflexivity|]. split; auto.
  - apply (new_sized is_int KI (fun w => let! x := int_all_unset w in Val (Ok (Some x)))); [exact Hn|]. intros Hw. apply new_ok.
    destruct (C8 w Hw) as ((c & E1 & E2 & H) & _). eauto.
  - apply (new_sized is_int KI (fun w => let! x := int_all_set w in Val (Ok (Some x)))); [exact Hn|]. intros Hw. apply new_ok.
    destruct (C8 w Hw) as (_ & _ & _ & (c & E1 & H) & _). exists c. split; [exact E1|]. now apply i_norm with (1 := H).
  - apply (new_sized is_int KI (fun w => let! x := int_min_value w in Val (Ok (Some x)))); [exact Hn|]. intros Hw. apply new_ok.
    exact (proj1 (proj2 (proj2 (proj2 (proj2 (C8 w Hw)))))).
  - apply (new_sized is_int KI (fun w => let! x := int_max_value w in Val (Ok (Some x)))); [exact Hn|]. intros Hw. apply new_ok.
    exact (proj1 (proj2 (proj2 (proj2 (proj2 (proj2 (C8 w Hw))))))).
Qed.
