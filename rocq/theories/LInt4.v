(** Order laws of [UInt] and [Int], and the operator traits. *)
From Verif Require Export LInt3 MOps.

Lemma uint_order_eq_fact x y w u v : is_uint x w u -> is_uint y w v ->
  uint_partial_cmp x y = Val (Some (u ?= v)) /\
  uint_lt x y = Val (u <? v) /\ uint_le x y = Val (u <=? v) /\ uint_gt x y = Val (v <? u) /\ uint_ge x y = Val (v <=? u).
Proof.
  intros Hx Hy. destruct (uint_cmp_fact x y w u v Hx Hy) as (H1 & H2 & H3 & H4 & H5).
  unfold uint_lt, uint_le, uint_gt, uint_ge. rewrite H1, H2, H3, H4. cbn [bind].
  split; [|do 3 (split; [reflexivity|]); reflexivity].
  unfold uint_partial_cmp. assert (W : uint_width x =? uint_width y = true).
  { apply Z.eqb_eq. unfold uint_width, width. destruct Hx as (_ & -> & _). destruct Hy as (_ & -> & _). reflexivity. }
  rewrite W, H1. cbn [negb bind unwrap]. unfold uint_eqb in H5. rewrite H5.
  destruct (Z.ltb_spec u v); [now rewrite (proj2 (Z.compare_lt_iff u v))|].
  destruct (Z.eqb_spec u v) as [->|]; [now rewrite Z.compare_refl|].
  rewrite (proj2 (Z.compare_gt_iff u v)) by lia. reflexivity.
Qed.
Lemma uint_order_mismatch_fact x y : uint_width x <> uint_width y ->
  uint_partial_cmp x y = Val None /\ uint_eqb x y = false /\
  uint_lt x y = Val false /\ uint_le x y = Val false /\ uint_gt x y = Val false /\ uint_ge x y = Val false.
Proof.
  intros H. split; [|split].
  - unfold uint_partial_cmp. destruct (Z.eqb_spec (uint_width x) (uint_width y)); [contradiction|reflexivity].
  - unfold uint_eqb, apint_eqb, len_bits. unfold uint_width, width in H. destruct (Z.eqb_spec (len (uapint x)) (len (uapint y))); [contradiction|reflexivity].
  - unfold uint_width, width in H. destruct (comparison_mismatch _ _ H) as (U1 & U2 & S1 & S2 & U3 & U4 & S3 & S4).
    unfold uint_lt, uint_le, uint_gt, uint_ge, uint_checked_lt, uint_checked_le, uint_checked_gt, uint_checked_ge.
    rewrite ?U1, ?U2, ?U3, ?U4, ?S1, ?S2, ?S3, ?S4. auto.
Qed.
Lemma uint_lt_width x y w u : is_uint x w u -> forall m, (uint_lt x y = Val true \/ uint_le x y = Val true \/ uint_eqb x y = true \/
  uint_gt x y = Val true \/ uint_ge x y = Val true \/ uint_partial_cmp x y = Val (Some m)) -> uint_width y = w.
Proof.
  intros Hx m H. destruct (Z.eq_dec (uint_width x) (uint_width y)) as [E|E].
  - rewrite <- E. apply Hx.
  - destruct (uint_order_mismatch_fact x y E) as (A1 & A2 & A3 & A4 & A5 & A6). exfalso.
    rewrite A1, A2, A3, A4, A5, A6 in H. intuition discriminate.
Qed.
Lemma uint_order_laws x y z wx wy wz u v t : is_uint x wx u -> is_uint y wy v -> is_uint z wz t ->
  (uint_partial_cmp x y = Val None <-> wx <> wy) /\
  (uint_partial_cmp x y = Val (Some Eq) <-> uint_eqb x y = true) /\
  (uint_partial_cmp x y = Val (Some Lt) <-> uint_lt x y = Val true) /\
  (uint_partial_cmp x y = Val (Some Gt) <-> uint_gt x y = Val true) /\
  (uint_le x y = Val true <-> uint_lt x y = Val true \/ uint_eqb x y = true) /\
  (uint_ge x y = Val true <-> uint_gt x y = Val true \/ uint_eqb x y = true) /\
  (uint_gt x y = uint_lt y x) /\ (uint_ge x y = uint_le y x) /\
  uint_le x x = Val true /\ uint_lt x x = Val false /\
  (uint_le x y = Val true -> uint_le y x = Val true -> x = y) /\
  (uint_lt x y = Val true -> uint_lt y z = Val true -> uint_lt x z = Val true) /\
  (uint_le x y = Val true -> uint_le y z = Val true -> uint_le x z = Val true) /\
  (wx = wy -> uint_le x y = Val true \/ uint_le y x = Val true).
Proof.
  intros Hx Hy Hz. assert (Wx : uint_width x = wx) by apply Hx. assert (Wy : uint_width y = wy) by apply Hy.
  assert (Wz : uint_width z = wz) by apply Hz.
  assert (V : forall b c : bool, (Val b = Val c) <-> b = c) by (intros; split; congruence).
  assert (VC : forall b c : comparison, (Val (Some b) = Val (Some c)) <-> b = c) by (intros; split; congruence).
  destruct (uint_order_eq_fact x x wx u u Hx Hx) as (_ & R1 & R2 & _).
  assert (E1 : uint_le x x = Val true) by (rewrite R2, Z.leb_refl; reflexivity).
  assert (E2 : uint_lt x x = Val false) by (rewrite R1, Z.ltb_irrefl; reflexivity).
  destruct (Z.eq_dec wx wy) as [E|E].
  - revert Hy Wy. destruct E. intros Hy Wy.
    destruct (uint_order_eq_fact x y wx u v Hx Hy) as (A1 & A2 & A3 & A4 & A5).
    destruct (uint_order_eq_fact y x wx v u Hy Hx) as (B1 & B2 & B3 & B4 & B5).
    destruct (uint_cmp_fact x y wx u v Hx Hy) as (_ & _ & _ & _ & A6).
    rewrite A1, A2, A3, A4, A5, A6, B2, B3. rewrite !V, !VC.
    split; [split; [discriminate|tauto]|].
    split; [rewrite Z.compare_eq_iff, Z.eqb_eq; tauto|].
    split; [rewrite Z.compare_lt_iff, Z.ltb_lt; tauto|].
    split; [rewrite Z.compare_gt_iff, Z.ltb_lt; tauto|].
    split; [rewrite Z.leb_le, Z.ltb_lt, Z.eqb_eq; lia|].
    split; [rewrite Z.leb_le, Z.ltb_lt, Z.eqb_eq; lia|].
    split; [reflexivity|]. split; [reflexivity|]. split; [exact E1|]. split; [exact E2|].
    split.
    { rewrite !Z.leb_le. intros L1 L2. assert (u = v) by lia. subst v.
      assert (T : forall a b, wf a -> wf b -> len a = len b -> unsigned a = unsigned b -> a = b).
      { intros a b Ha Hb L U. apply (is_apint_unique a b (len a) (unsigned a)); unfold is_apint; auto. }
      destruct x as [a], y as [b]. f_equal. destruct Hx as (Wa & La & Ua). destruct Hy as (Wb & Lb & Ub). cbn in *.
      apply T; [assumption|assumption|congruence|]. congruence. }
    split.
    { intros L1 L2. assert (Ez : uint_width z = uint_width y).
      { rewrite Wy. exact (uint_lt_width y z wx v Hy Eq ltac:(tauto)). }
      assert (Hz0 : wz = wx) by congruence. rewrite Hz0 in Hz.
      destruct (uint_order_eq_fact y z wx v t Hy Hz) as (_ & C2 & C3 & _). destruct (uint_order_eq_fact x z wx u t Hx Hz) as (_ & D2 & D3 & _).
      rewrite C2 in L2. rewrite D2. apply V in L2. apply V.
      apply Z.ltb_lt in L1. apply Z.ltb_lt in L2. apply Z.ltb_lt. lia. }
    split.
    { intros L1 L2. assert (Ez : uint_width z = uint_width y).
      { rewrite Wy. exact (uint_lt_width y z wx v Hy Eq ltac:(tauto)). }
      assert (Hz0 : wz = wx) by congruence. rewrite Hz0 in Hz.
      destruct (uint_order_eq_fact y z wx v t Hy Hz) as (_ & C2 & C3 & _). destruct (uint_order_eq_fact x z wx u t Hx Hz) as (_ & D2 & D3 & _).
      rewrite C3 in L2. rewrite D3. apply V in L2. apply V.
      apply Z.leb_le in L1. apply Z.leb_le in L2. apply Z.leb_le. lia. }
    intros _. rewrite !Z.leb_le. lia.
  - assert (Ex : uint_width x <> uint_width y) by congruence. assert (Ey : uint_width y <> uint_width x) by congruence.
    destruct (uint_order_mismatch_fact x y Ex) as (A1 & A2 & A3 & A4 & A5 & A6).
    destruct (uint_order_mismatch_fact y x Ey) as (_ & _ & B3 & B4 & B5 & B6).
    rewrite A1, A2, A3, A4, A5, A6, B3, B4, E1, E2. rewrite !V. intuition discriminate.
Qed.

Lemma int_order_eq_fact x y w u v : is_int x w u -> is_int y w v ->
  int_partial_cmp x y = Val (Some (u ?= v)) /\
  int_lt x y = Val (u <? v) /\ int_le x y = Val (u <=? v) /\ int_gt x y = Val (v <? u) /\ int_ge x y = Val (v <=? u).
Proof.
  intros Hx Hy. destruct (int_cmp_fact x y w u v Hx Hy) as (H1 & H2 & H3 & H4 & H5).
  unfold int_lt, int_le, int_gt, int_ge. rewrite H1, H2, H3, H4. cbn [bind].
  split; [|do 3 (split; [reflexivity|]); reflexivity].
  unfold int_partial_cmp. assert (W : int_width x =? int_width y = true).
  { apply Z.eqb_eq. unfold int_width, width. destruct Hx as (_ & -> & _). destruct Hy as (_ & -> & _). reflexivity. }
  rewrite W, H1. cbn [negb bind unwrap]. unfold int_eqb in H5. rewrite H5.
  destruct (Z.ltb_spec u v); [now rewrite (proj2 (Z.compare_lt_iff u v))|].
  destruct (Z.eqb_spec u v) as [->|]; [now rewrite Z.compare_refl|].
  rewrite (proj2 (Z.compare_gt_iff u v)) by lia. reflexivity.
Qed.
Lemma int_order_mismatch_fact x y : int_width x <> int_width y ->
  int_partial_cmp x y = Val None /\ int_eqb x y = false /\
  int_lt x y = Val false /\ int_le x y = Val false /\ int_gt x y = Val false /\ int_ge x y = Val false.
Proof.
  intros H. split; [|split].
  - unfold int_partial_cmp. destruct (Z.eqb_spec (int_width x) (int_width y)); [contradiction|reflexivity].
  - unfold int_eqb, apint_eqb, len_bits. unfold int_width, width in H. destruct (Z.eqb_spec (len (iapint x)) (len (iapint y))); [contradiction|reflexivity].
  - unfold int_width, width in H. destruct (comparison_mismatch _ _ H) as (U1 & U2 & S1 & S2 & U3 & U4 & S3 & S4).
    unfold int_lt, int_le, int_gt, int_ge, int_checked_lt, int_checked_le, int_checked_gt, int_checked_ge.
    rewrite ?U1, ?U2, ?U3, ?U4, ?S1, ?S2, ?S3, ?S4. auto.
Qed.
Lemma int_lt_width x y w u : is_int x w u -> forall m, (int_lt x y = Val true \/ int_le x y = Val true \/ int_eqb x y = true \/
  int_gt x y = Val true \/ int_ge x y = Val true \/ int_partial_cmp x y = Val (Some m)) -> int_width y = w.
Proof.
  intros Hx m H. destruct (Z.eq_dec (int_width x) (int_width y)) as [E|E].
  - rewrite <- E. apply Hx.
  - destruct (int_order_mismatch_fact x y E) as (A1 & A2 & A3 & A4 & A5 & A6). exfalso.
    rewrite A1, A2, A3, A4, A5, A6 in H. intuition discriminate.
Qed.
Lemma int_order_laws x y z wx wy wz u v t : is_int x wx u -> is_int y wy v -> is_int z wz t ->
  (int_partial_cmp x y = Val None <-> wx <> wy) /\
  (int_partial_cmp x y = Val (Some Eq) <-> int_eqb x y = true) /\
  (int_partial_cmp x y = Val (Some Lt) <-> int_lt x y = Val true) /\
  (int_partial_cmp x y = Val (Some Gt) <-> int_gt x y = Val true) /\
  (int_le x y = Val true <-> int_lt x y = Val true \/ int_eqb x y = true) /\
  (int_ge x y = Val true <-> int_gt x y = Val true \/ int_eqb x y = true) /\
  (int_gt x y = int_lt y x) /\ (int_ge x y = int_le y x) /\
  int_le x x = Val true /\ int_lt x x = Val false /\
  (int_le x y = Val true -> int_le y x = Val true -> x = y) /\
  (int_lt x y = Val true -> int_lt y z = Val true -> int_lt x z = Val true) /\
  (int_le x y = Val true -> int_le y z = Val true -> int_le x z = Val true) /\
  (wx = wy -> int_le x y = Val true \/ int_le y x = Val true).
Proof.
  intros Hx Hy Hz. assert (Wx : int_width x = wx) by apply Hx. assert (Wy : int_width y = wy) by apply Hy.
  assert (Wz : int_width z = wz) by apply Hz.
  assert (V : forall b c : bool, (Val b = Val c) <-> b = c) by (intros; split; congruence).
  assert (VC : forall b c : comparison, (Val (Some b) = Val (Some c)) <-> b = c) by (intros; split; congruence).
  destruct (int_order_eq_fact x x wx u u Hx Hx) as (_ & R1 & R2 & _).
  assert (E1 : int_le x x = Val true) by (rewrite R2, Z.leb_refl; reflexivity).
  assert (E2 : int_lt x x = Val false) by (rewrite R1, Z.ltb_irrefl; reflexivity).
  destruct (Z.eq_dec wx wy) as [E|E].
  - revert Hy Wy. destruct E. intros Hy Wy.
    destruct (int_order_eq_fact x y wx u v Hx Hy) as (A1 & A2 & A3 & A4 & A5).
    destruct (int_order_eq_fact y x wx v u Hy Hx) as (B1 & B2 & B3 & B4 & B5).
    destruct (int_cmp_fact x y wx u v Hx Hy) as (_ & _ & _ & _ & A6).
    rewrite A1, A2, A3, A4, A5, A6, B2, B3. rewrite !V, !VC.
    split; [split; [discriminate|tauto]|].
    split; [rewrite Z.compare_eq_iff, Z.eqb_eq; tauto|].
    split; [rewrite Z.compare_lt_iff, Z.ltb_lt; tauto|].
    split; [rewrite Z.compare_gt_iff, Z.ltb_lt; tauto|].
    split; [rewrite Z.leb_le, Z.ltb_lt, Z.eqb_eq; lia|].
    split; [rewrite Z.leb_le, Z.ltb_lt, Z.eqb_eq; lia|].
    split; [reflexivity|]. split; [reflexivity|]. split; [exact E1|]. split; [exact E2|].
    split.
    { rewrite !Z.leb_le. intros L1 L2. assert (u = v) by lia. subst v.
      assert (T : forall a b, wf a -> wf b -> len a = len b -> unsigned a = unsigned b -> a = b).
      { intros a b Ha Hb L U. apply (is_apint_unique a b (len a) (unsigned a)); unfold is_apint; auto. }
      destruct x as [a], y as [b]. f_equal. destruct Hx as (Wa & La & Ua). destruct Hy as (Wb & Lb & Ub). cbn in *.
      apply T; [assumption|assumption|congruence|]. rewrite <- (signed_mod _ Wa), <- (signed_mod _ Wb). congruence. }
    split.
    { intros L1 L2. assert (Ez : int_width z = int_width y).
      { rewrite Wy. exact (int_lt_width y z wx v Hy Eq ltac:(tauto)). }
      assert (Hz0 : wz = wx) by congruence. rewrite Hz0 in Hz.
      destruct (int_order_eq_fact y z wx v t Hy Hz) as (_ & C2 & C3 & _). destruct (int_order_eq_fact x z wx u t Hx Hz) as (_ & D2 & D3 & _).
      rewrite C2 in L2. rewrite D2. apply V in L2. apply V.
      apply Z.ltb_lt in L1. apply Z.ltb_lt in L2. apply Z.ltb_lt. lia. }
    split.
    { intros L1 L2. assert (Ez : int_width z = int_width y).
      { rewrite Wy. exact (int_lt_width y z wx v Hy Eq ltac:(tauto)). }
      assert (Hz0 : wz = wx) by congruence. rewrite Hz0 in Hz.
      destruct (int_order_eq_fact y z wx v t Hy Hz) as (_ & C2 & C3 & _). destruct (int_order_eq_fact x z wx u t Hx Hz) as (_ & D2 & D3 & _).
      rewrite C3 in L2. rewrite D3. apply V in L2. apply V.
      apply Z.leb_le in L1. apply Z.leb_le in L2. apply Z.leb_le. lia. }
    intros _. rewrite !Z.leb_le. lia.
  - assert (Ex : int_width x <> int_width y) by congruence. assert (Ey : int_width y <> int_width x) by congruence.
    destruct (int_order_mismatch_fact x y Ex) as (A1 & A2 & A3 & A4 & A5 & A6).
    destruct (int_order_mismatch_fact y x Ey) as (_ & _ & B3 & B4 & B5 & B6).
    rewrite A1, A2, A3, A4, A5, A6, B3, B4, E1, E2. rewrite !V. intuition discriminate.
Qed.

Lemma unwrap_ok {T : Type} (m : outcome (result T)) c : m = Val (Ok c) -> op_unwrap m = Val c.
Proof. intros ->. reflexivity. Qed.
Lemma unwrap_err {T : Type} (m : outcome (result T)) e : m = Val (Err e) -> op_unwrap m = Panic.
Proof. intros ->. reflexivity. Qed.
Lemma aunwrap_ok {T : Type} (m : outcome (T * result unit)) c : m = Val (c, Ok tt) -> assign_unwrap m = Val c.
Proof. intros ->. reflexivity. Qed.
Lemma aunwrap_err {T : Type} (m : outcome (T * result unit)) c e : m = Val (c, Err e) -> assign_unwrap m = Panic.
Proof. intros ->. reflexivity. Qed.

Lemma uint_op_fact x y w u v : is_uint x w u -> is_uint y w v ->
  (exists c, uint_op_add x y = Val c /\ uint_op_add_assign x y = Val c /\ is_uint c w ((u + v) mod 2 ^ w)) /\
  (exists c, uint_op_sub x y = Val c /\ uint_op_sub_assign x y = Val c /\ is_uint c w ((u - v) mod 2 ^ w)) /\
  (exists c, uint_op_mul x y = Val c /\ uint_op_mul_assign x y = Val c /\ is_uint c w ((u * v) mod 2 ^ w)) /\
  (exists c, uint_op_bitand x y = Val c /\ uint_op_bitand_assign x y = Val c /\ is_uint c w (Z.land u v)) /\
  (exists c, uint_op_bitor x y = Val c /\ uint_op_bitor_assign x y = Val c /\ is_uint c w (Z.lor u v)) /\
  (exists c, uint_op_bitxor x y = Val c /\ uint_op_bitxor_assign x y = Val c /\ is_uint c w (Z.lxor u v)) /\
  (exists c, uint_op_not x = Val c /\ is_uint c w (2 ^ w - 1 - u)) /\
  (exists c, uint_op_neg x = Val c /\ is_uint c w ((- u) mod 2 ^ w)) /\
  (forall s, 0 <= s < w ->
    (exists c, uint_op_shl x s = Val c /\ uint_op_shl_assign x s = Val c /\ is_uint c w ((u * 2 ^ s) mod 2 ^ w)) /\
    (exists c, uint_op_shr x s = Val c /\ uint_op_shr_assign x s = Val c /\ is_uint c w (u / 2 ^ s))) /\
  (v <> 0 ->
    (exists c, uint_op_div x y = Val c /\ uint_op_div_assign x y = Val c /\ is_uint c w (u / v)) /\
    (exists c, uint_op_rem x y = Val c /\ uint_op_rem_assign x y = Val c /\ is_uint c w (u mod v))).
Proof.
  intros Hx Hy. destruct (uint_arith_fact x y w u v Hx Hy) as (A1 & A2 & A3 & A4).
  destruct (uint_bitwise_fact x y w u v Hx Hy) as (B1 & B2 & B3 & B4).
  split; [destruct A1 as (c & E1 & E2 & H); exists c; split; [exact (unwrap_ok _ _ E2)|split; [exact (aunwrap_ok _ _ E1)|exact H]]|].
  split; [destruct A2 as (c & E1 & E2 & H); exists c; split; [exact (unwrap_ok _ _ E2)|split; [exact (aunwrap_ok _ _ E1)|exact H]]|].
  split; [destruct A3 as (c & E1 & E2 & H); exists c; split; [exact (unwrap_ok _ _ E2)|split; [exact (aunwrap_ok _ _ E1)|exact H]]|].
  split; [destruct B1 as (c & E1 & E2 & H); exists c; split; [exact (unwrap_ok _ _ E2)|split; [exact (aunwrap_ok _ _ E1)|exact H]]|].
  split; [destruct B2 as (c & E1 & E2 & H); exists c; split; [exact (unwrap_ok _ _ E2)|split; [exact (aunwrap_ok _ _ E1)|exact H]]|].
  split; [destruct B3 as (c & E1 & E2 & H); exists c; split; [exact (unwrap_ok _ _ E2)|split; [exact (aunwrap_ok _ _ E1)|exact H]]|].
  split; [destruct B4 as (c & E1 & E2 & H); exists c; auto|]. split; [destruct A4 as (c & E1 & E2 & H); exists c; auto|].
  split.
  - intros s Hs. destruct (uint_shift_fact x w u s Hx Hs) as (C1 & C2).
    split; [destruct C1 as (c & E1 & E2 & H)|destruct C2 as (c & E1 & E2 & H)];
      (exists c; split; [exact (unwrap_ok _ _ E2)|split; [exact (aunwrap_ok _ _ E1)|exact H]]).
  - intros Hv. destruct (uint_div_fact x y w u v Hx Hy Hv) as (C1 & C2).
    split; [destruct C1 as (c & E1 & E2 & H)|destruct C2 as (c & E1 & E2 & H)];
      (exists c; split; [exact (unwrap_ok _ _ E2)|split; [exact (aunwrap_ok _ _ E1)|apply H]]).
Qed.
Lemma uint_op_panic_fact x y w w' u v s : is_uint x w u -> is_uint y w' v -> 0 <= s ->
  (uint_op_add x y = Panic <-> w <> w') /\ (uint_op_add_assign x y = Panic <-> w <> w') /\
  (uint_op_sub x y = Panic <-> w <> w') /\ (uint_op_sub_assign x y = Panic <-> w <> w') /\
  (uint_op_mul x y = Panic <-> w <> w') /\ (uint_op_mul_assign x y = Panic <-> w <> w') /\
  (uint_op_bitand x y = Panic <-> w <> w') /\ (uint_op_bitand_assign x y = Panic <-> w <> w') /\
  (uint_op_bitor x y = Panic <-> w <> w') /\ (uint_op_bitor_assign x y = Panic <-> w <> w') /\
  (uint_op_bitxor x y = Panic <-> w <> w') /\ (uint_op_bitxor_assign x y = Panic <-> w <> w') /\
  (uint_op_div x y = Panic <-> w <> w' \/ v = 0) /\ (uint_op_div_assign x y = Panic <-> w <> w' \/ v = 0) /\
  (uint_op_rem x y = Panic <-> w <> w' \/ v = 0) /\ (uint_op_rem_assign x y = Panic <-> w <> w' \/ v = 0) /\
  (uint_op_shl x s = Panic <-> w <= s) /\ (uint_op_shl_assign x s = Panic <-> w <= s) /\
  (uint_op_shr x s = Panic <-> w <= s) /\ (uint_op_shr_assign x s = Panic <-> w <= s).
Proof.
  intros Hx Hy Hs.
  assert (V : forall (m : outcome uint) c (P : Prop), m = Val c -> ~ P -> (m = Panic <-> P)).
  { intros m c P -> N. split; [discriminate|tauto]. }
  assert (F : forall (m : outcome uint) (P : Prop), m = Panic -> P -> (m = Panic <-> P)) by tauto.
  assert (SH : (uint_op_shl x s = Panic <-> w <= s) /\ (uint_op_shl_assign x s = Panic <-> w <= s) /\
    (uint_op_shr x s = Panic <-> w <= s) /\ (uint_op_shr_assign x s = Panic <-> w <= s)).
  { destruct (Z.lt_ge_cases s w) as [L|L].
    - destruct (uint_shift_fact x w u s Hx ltac:(lia)) as ((c & E1 & E2 & _) & (d & E3 & E4 & _)).
      split; [apply (V _ _ _ (unwrap_ok _ _ E2)); lia|]. split; [apply (V _ _ _ (aunwrap_ok _ _ E1)); lia|].
      split; [apply (V _ _ _ (unwrap_ok _ _ E4)); lia|apply (V _ _ _ (aunwrap_ok _ _ E3)); lia].
    - destruct (uint_shift_err_fact x w u s Hx L) as (E1 & E2 & E3 & E4).
      split; [exact (F _ _ (unwrap_err _ _ E2) L)|]. split; [exact (F _ _ (aunwrap_err _ _ _ E1) L)|].
      split; [exact (F _ _ (unwrap_err _ _ E4) L)|exact (F _ _ (aunwrap_err _ _ _ E3) L)]. }
  destruct (Z.eq_dec w w') as [E|E].
  - subst w'. destruct (uint_op_fact x y w u v Hx Hy) as (A1 & A2 & A3 & A4 & A5 & A6 & _ & _ & _ & AD).
    destruct A1 as (c0 & X0 & Y0 & _). split; [apply (V _ _ _ X0); tauto|]. split; [apply (V _ _ _ Y0); tauto|].
    destruct A2 as (c1 & X1 & Y1 & _). split; [apply (V _ _ _ X1); tauto|]. split; [apply (V _ _ _ Y1); tauto|].
    destruct A3 as (c2 & X2 & Y2 & _). split; [apply (V _ _ _ X2); tauto|]. split; [apply (V _ _ _ Y2); tauto|].
    destruct A4 as (c3 & X3 & Y3 & _). split; [apply (V _ _ _ X3); tauto|]. split; [apply (V _ _ _ Y3); tauto|].
    destruct A5 as (c4 & X4 & Y4 & _). split; [apply (V _ _ _ X4); tauto|]. split; [apply (V _ _ _ Y4); tauto|].
    destruct A6 as (c5 & X5 & Y5 & _). split; [apply (V _ _ _ X5); tauto|]. split; [apply (V _ _ _ Y5); tauto|].
    destruct (Z.eq_dec v 0) as [Z|Z].
    + subst v. destruct ((uint_div_zero_fact x y w u Hx) Hy) as (E1 & E2 & E3 & E4).
      split; [exact (F _ _ (unwrap_err _ _ E2) (or_intror eq_refl))|]. split; [exact (F _ _ (aunwrap_err _ _ _ E1) (or_intror eq_refl))|].
      split; [exact (F _ _ (unwrap_err _ _ E4) (or_intror eq_refl))|]. split; [exact (F _ _ (aunwrap_err _ _ _ E3) (or_intror eq_refl))|]. tauto.
    + destruct (AD Z) as ((q & Q1 & Q2 & _) & (r & R1 & R2 & _)).
      split; [apply (V _ _ _ Q1); tauto|]. split; [apply (V _ _ _ Q2); tauto|].
      split; [apply (V _ _ _ R1); tauto|]. split; [apply (V _ _ _ R2); tauto|]. tauto.
  - assert (W : uint_width x <> uint_width y).
    { unfold uint_width, width. destruct Hx as (_ & -> & _). destruct Hy as (_ & -> & _). exact E. }
    destruct (uint_mismatch_fact x y W) as (P1 & Q1 & P2 & Q2 & P3 & Q3 & P7 & Q7 & P8 & Q8 & P4 & Q4 & P5 & Q5 & P6 & Q6 & _).
    assert (DV : uint_op_div x y = Panic /\ uint_op_div_assign x y = Panic /\ uint_op_rem x y = Panic /\ uint_op_rem_assign x y = Panic).
    { split; [exact (unwrap_err _ _ Q7)|split; [exact (aunwrap_err _ _ _ P7)|split; [exact (unwrap_err _ _ Q8)|exact (aunwrap_err _ _ _ P8)]]]. }
    split; [exact (F _ _ (unwrap_err _ _ Q1) E)|]. split; [exact (F _ _ (aunwrap_err _ _ _ P1) E)|].
    split; [exact (F _ _ (unwrap_err _ _ Q2) E)|]. split; [exact (F _ _ (aunwrap_err _ _ _ P2) E)|].
    split; [exact (F _ _ (unwrap_err _ _ Q3) E)|]. split; [exact (F _ _ (aunwrap_err _ _ _ P3) E)|].
    split; [exact (F _ _ (unwrap_err _ _ Q4) E)|]. split; [exact (F _ _ (aunwrap_err _ _ _ P4) E)|].
    split; [exact (F _ _ (unwrap_err _ _ Q5) E)|]. split; [exact (F _ _ (aunwrap_err _ _ _ P5) E)|].
    split; [exact (F _ _ (unwrap_err _ _ Q6) E)|]. split; [exact (F _ _ (aunwrap_err _ _ _ P6) E)|].
    destruct DV as (D1 & D2 & D3 & D4).
    split; [exact (F _ _ D1 (or_introl E))|]. split; [exact (F _ _ D2 (or_introl E))|].
    split; [exact (F _ _ D3 (or_introl E))|]. split; [exact (F _ _ D4 (or_introl E))|]. tauto.
Qed.

Lemma int_op_fact x y w u v : is_int x w u -> is_int y w v ->
  (exists c, int_op_add x y = Val c /\ int_op_add_assign x y = Val c /\ is_int c w (wrap_signed w (u + v))) /\
  (exists c, int_op_sub x y = Val c /\ int_op_sub_assign x y = Val c /\ is_int c w (wrap_signed w (u - v))) /\
  (exists c, int_op_mul x y = Val c /\ int_op_mul_assign x y = Val c /\ is_int c w (wrap_signed w (u * v))) /\
  (exists c, int_op_bitand x y = Val c /\ int_op_bitand_assign x y = Val c /\ is_int c w (Z.land u v)) /\
  (exists c, int_op_bitor x y = Val c /\ int_op_bitor_assign x y = Val c /\ is_int c w (Z.lor u v)) /\
  (exists c, int_op_bitxor x y = Val c /\ int_op_bitxor_assign x y = Val c /\ is_int c w (Z.lxor u v)) /\
  (exists c, int_op_not x = Val c /\ is_int c w (- u - 1)) /\
  (exists c, int_op_neg x = Val c /\ is_int c w (wrap_signed w (- u))) /\
  (forall s, 0 <= s < w ->
    (exists c, int_op_shl x s = Val c /\ int_op_shl_assign x s = Val c /\ is_int c w (wrap_signed w (u * 2 ^ s))) /\
    (exists c, int_op_shr x s = Val c /\ int_op_shr_assign x s = Val c /\ is_int c w (u / 2 ^ s))) /\
  (v <> 0 ->
    (exists c, int_op_div x y = Val c /\ int_op_div_assign x y = Val c /\ is_int c w (wrap_signed w (Z.quot u v))) /\
    (exists c, int_op_rem x y = Val c /\ int_op_rem_assign x y = Val c /\ is_int c w (Z.rem u v))).
Proof.
  intros Hx Hy. destruct (int_arith_fact x y w u v Hx Hy) as (A1 & A2 & A3 & A4).
  destruct (int_bitwise_fact x y w u v Hx Hy) as (B1 & B2 & B3 & B4).
  split; [destruct A1 as (c & E1 & E2 & H); exists c; split; [exact (unwrap_ok _ _ E2)|split; [exact (aunwrap_ok _ _ E1)|exact H]]|].
  split; [destruct A2 as (c & E1 & E2 & H); exists c; split; [exact (unwrap_ok _ _ E2)|split; [exact (aunwrap_ok _ _ E1)|exact H]]|].
  split; [destruct A3 as (c & E1 & E2 & H); exists c; split; [exact (unwrap_ok _ _ E2)|split; [exact (aunwrap_ok _ _ E1)|exact H]]|].
  split; [destruct B1 as (c & E1 & E2 & H); exists c; split; [exact (unwrap_ok _ _ E2)|split; [exact (aunwrap_ok _ _ E1)|exact H]]|].
  split; [destruct B2 as (c & E1 & E2 & H); exists c; split; [exact (unwrap_ok _ _ E2)|split; [exact (aunwrap_ok _ _ E1)|exact H]]|].
  split; [destruct B3 as (c & E1 & E2 & H); exists c; split; [exact (unwrap_ok _ _ E2)|split; [exact (aunwrap_ok _ _ E1)|exact H]]|].
  split; [destruct B4 as (c & E1 & E2 & H); exists c; auto|]. split; [destruct A4 as (c & E1 & E2 & H); exists c; auto|].
  split.
  - intros s Hs. destruct (int_shift_fact x w u s Hx Hs) as (C1 & C2).
    split; [destruct C1 as (c & E1 & E2 & H)|destruct C2 as (c & E1 & E2 & H)];
      (exists c; split; [exact (unwrap_ok _ _ E2)|split; [exact (aunwrap_ok _ _ E1)|exact H]]).
  - intros Hv. destruct (int_div_fact x y w u v Hx Hy Hv) as (C1 & C2).
    split; [destruct C1 as (c & E1 & E2 & H)|destruct C2 as (c & E1 & E2 & H)];
      (exists c; split; [exact (unwrap_ok _ _ E2)|split; [exact (aunwrap_ok _ _ E1)|apply H]]).
Qed.
Lemma int_op_panic_fact x y w w' u v s : is_int x w u -> is_int y w' v -> 0 <= s ->
  (int_op_add x y = Panic <-> w <> w') /\ (int_op_add_assign x y = Panic <-> w <> w') /\
  (int_op_sub x y = Panic <-> w <> w') /\ (int_op_sub_assign x y = Panic <-> w <> w') /\
  (int_op_mul x y = Panic <-> w <> w') /\ (int_op_mul_assign x y = Panic <-> w <> w') /\
  (int_op_bitand x y = Panic <-> w <> w') /\ (int_op_bitand_assign x y = Panic <-> w <> w') /\
  (int_op_bitor x y = Panic <-> w <> w') /\ (int_op_bitor_assign x y = Panic <-> w <> w') /\
  (int_op_bitxor x y = Panic <-> w <> w') /\ (int_op_bitxor_assign x y = Panic <-> w <> w') /\
  (int_op_div x y = Panic <-> w <> w' \/ v = 0) /\ (int_op_div_assign x y = Panic <-> w <> w' \/ v = 0) /\
  (int_op_rem x y = Panic <-> w <> w' \/ v = 0) /\ (int_op_rem_assign x y = Panic <-> w <> w' \/ v = 0) /\
  (int_op_shl x s = Panic <-> w <= s) /\ (int_op_shl_assign x s = Panic <-> w <= s) /\
  (int_op_shr x s = Panic <-> w <= s) /\ (int_op_shr_assign x s = Panic <-> w <= s).
Proof.
  intros Hx Hy Hs.
  assert (V : forall (m : outcome int) c (P : Prop), m = Val c -> ~ P -> (m = Panic <-> P)).
  { intros m c P -> N. split; [discriminate|tauto]. }
  assert (F : forall (m : outcome int) (P : Prop), m = Panic -> P -> (m = Panic <-> P)) by tauto.
  assert (SH : (int_op_shl x s = Panic <-> w <= s) /\ (int_op_shl_assign x s = Panic <-> w <= s) /\
    (int_op_shr x s = Panic <-> w <= s) /\ (int_op_shr_assign x s = Panic <-> w <= s)).
  { destruct (Z.lt_ge_cases s w) as [L|L].
    - destruct (int_shift_fact x w u s Hx ltac:(lia)) as ((c & E1 & E2 & _) & (d & E3 & E4 & _)).
      split; [apply (V _ _ _ (unwrap_ok _ _ E2)); lia|]. split; [apply (V _ _ _ (aunwrap_ok _ _ E1)); lia|].
      split; [apply (V _ _ _ (unwrap_ok _ _ E4)); lia|apply (V _ _ _ (aunwrap_ok _ _ E3)); lia].
    - destruct (int_shift_err_fact x w u s Hx L) as (E1 & E2 & E3 & E4).
      split; [exact (F _ _ (unwrap_err _ _ E2) L)|]. split; [exact (F _ _ (aunwrap_err _ _ _ E1) L)|].
      split; [exact (F _ _ (unwrap_err _ _ E4) L)|exact (F _ _ (aunwrap_err _ _ _ E3) L)]. }
  destruct (Z.eq_dec w w') as [E|E].
  - subst w'. destruct (int_op_fact x y w u v Hx Hy) as (A1 & A2 & A3 & A4 & A5 & A6 & _ & _ & _ & AD).
    destruct A1 as (c0 & X0 & Y0 & _). split; [apply (V _ _ _ X0); tauto|]. split; [apply (V _ _ _ Y0); tauto|].
    destruct A2 as (c1 & X1 & Y1 & _). split; [apply (V _ _ _ X1); tauto|]. split; [apply (V _ _ _ Y1); tauto|].
    destruct A3 as (c2 & X2 & Y2 & _). split; [apply (V _ _ _ X2); tauto|]. split; [apply (V _ _ _ Y2); tauto|].
    destruct A4 as (c3 & X3 & Y3 & _). split; [apply (V _ _ _ X3); tauto|]. split; [apply (V _ _ _ Y3); tauto|].
    destruct A5 as (c4 & X4 & Y4 & _). split; [apply (V _ _ _ X4); tauto|]. split; [apply (V _ _ _ Y4); tauto|].
    destruct A6 as (c5 & X5 & Y5 & _). split; [apply (V _ _ _ X5); tauto|]. split; [apply (V _ _ _ Y5); tauto|].
    destruct (Z.eq_dec v 0) as [Z|Z].
    + subst v. destruct ((int_div_zero_fact x y w w u Hx) Hy) as (E1 & E2 & E3 & E4).
      split; [exact (F _ _ (unwrap_err _ _ E2) (or_intror eq_refl))|]. split; [exact (F _ _ (aunwrap_err _ _ _ E1) (or_intror eq_refl))|].
      split; [exact (F _ _ (unwrap_err _ _ E4) (or_intror eq_refl))|]. split; [exact (F _ _ (aunwrap_err _ _ _ E3) (or_intror eq_refl))|]. tauto.
    + destruct (AD Z) as ((q & Q1 & Q2 & _) & (r & R1 & R2 & _)).
      split; [apply (V _ _ _ Q1); tauto|]. split; [apply (V _ _ _ Q2); tauto|].
      split; [apply (V _ _ _ R1); tauto|]. split; [apply (V _ _ _ R2); tauto|]. tauto.
  - assert (W : int_width x <> int_width y).
    { unfold int_width, width. destruct Hx as (_ & -> & _). destruct Hy as (_ & -> & _). exact E. }
    destruct (int_mismatch_fact x y W) as (P1 & Q1 & P2 & Q2 & P3 & Q3 & P4 & Q4 & P5 & Q5 & P6 & Q6 & _).
    assert (DV : int_op_div x y = Panic /\ int_op_div_assign x y = Panic /\ int_op_rem x y = Panic /\ int_op_rem_assign x y = Panic).
    { unfold int_op_div, int_op_rem, int_op_div_assign, int_op_rem_assign. destruct (Z.eq_dec v 0) as [Z|Z].
      - subst v. destruct (int_div_zero_fact x y w w' u Hx Hy) as (-> & -> & -> & ->). auto.
      - destruct (int_div_mismatch_panic x y w w' u v Hx Hy E Z) as (-> & -> & -> & ->). auto. }
    split; [exact (F _ _ (unwrap_err _ _ Q1) E)|]. split; [exact (F _ _ (aunwrap_err _ _ _ P1) E)|].
    split; [exact (F _ _ (unwrap_err _ _ Q2) E)|]. split; [exact (F _ _ (aunwrap_err _ _ _ P2) E)|].
    split; [exact (F _ _ (unwrap_err _ _ Q3) E)|]. split; [exact (F _ _ (aunwrap_err _ _ _ P3) E)|].
    split; [exact (F _ _ (unwrap_err _ _ Q4) E)|]. split; [exact (F _ _ (aunwrap_err _ _ _ P4) E)|].
    split; [exact (F _ _ (unwrap_err _ _ Q5) E)|]. split; [exact (F _ _ (aunwrap_err _ _ _ P5) E)|].
    split; [exact (F _ _ (unwrap_err _ _ Q6) E)|]. split; [exact (F _ _ (aunwrap_err _ _ _ P6) E)|].
    destruct DV as (D1 & D2 & D3 & D4).
    split; [exact (F _ _ D1 (or_introl E))|]. split; [exact (F _ _ D2 (or_introl E))|].
    split; [exact (F _ _ D3 (or_introl E))|]. split; [exact (F _ _ D4 (or_introl E))|]. tauto.
Qed.

Lemma ap_op_fact a b : wf a -> wf b -> len a = len b ->
  (exists c, ap_op_add a b = Val c /\ ap_op_add_assign a b = Val c /\ is_apint c (len a) ((unsigned a + unsigned b) mod 2 ^ len a)) /\
  (exists c, ap_op_sub a b = Val c /\ ap_op_sub_assign a b = Val c /\ is_apint c (len a) ((unsigned a - unsigned b) mod 2 ^ len a)) /\
  (exists c, ap_op_mul a b = Val c /\ ap_op_mul_assign a b = Val c /\ is_apint c (len a) ((unsigned a * unsigned b) mod 2 ^ len a)) /\
  (exists c, ap_op_bitand a b = Val c /\ ap_op_bitand_assign a b = Val c /\ wf c /\ len c = len a /\ forall i, bit c i = andb (bit a i) (bit b i)) /\
  (exists c, ap_op_bitor a b = Val c /\ ap_op_bitor_assign a b = Val c /\ wf c /\ len c = len a /\ forall i, bit c i = orb (bit a i) (bit b i)) /\
  (exists c, ap_op_bitxor a b = Val c /\ ap_op_bitxor_assign a b = Val c /\ wf c /\ len c = len a /\ forall i, bit c i = xorb (bit a i) (bit b i)) /\
  (exists c, ap_op_not a = Val c /\ is_apint c (len a) (2 ^ len a - 1 - unsigned a)) /\
  (exists c, ap_op_neg a = Val c /\ is_apint c (len a) ((- unsigned a) mod 2 ^ len a)) /\
  (forall s, 0 <= s < len a -> exists c, ap_op_shl a s = Val c /\ ap_op_shl_assign a s = Val c /\
    is_apint c (len a) ((unsigned a * 2 ^ s) mod 2 ^ len a)).
Proof.
  intros Ha Hb E.
  split; [destruct (add_fact a b Ha Hb E) as (c & E1 & E2 & H & _); exists c; split; [exact (unwrap_ok _ _ E2)|split; [exact (aunwrap_ok _ _ E1)|exact H]]|].
  split; [destruct (sub_fact a b Ha Hb E) as (c & E1 & E2 & H & _); exists c; split; [exact (unwrap_ok _ _ E2)|split; [exact (aunwrap_ok _ _ E1)|exact H]]|].
  split; [destruct (mul_fact a b Ha Hb E) as (c & E1 & E2 & H & _); exists c; split; [exact (unwrap_ok _ _ E2)|split; [exact (aunwrap_ok _ _ E1)|exact H]]|].
  split; [destruct (bitand_fact a b Ha Hb E) as (c & E1 & E2 & H); exists c; split; [exact (unwrap_ok _ _ E2)|split; [exact (aunwrap_ok _ _ E1)|exact H]]|].
  split; [destruct (bitor_fact a b Ha Hb E) as (c & E1 & E2 & H); exists c; split; [exact (unwrap_ok _ _ E2)|split; [exact (aunwrap_ok _ _ E1)|exact H]]|].
  split; [destruct (bitxor_fact a b Ha Hb E) as (c & E1 & E2 & H); exists c; split; [exact (unwrap_ok _ _ E2)|split; [exact (aunwrap_ok _ _ E1)|exact H]]|].
  split; [destruct (not_den a (len a) (unsigned a)) as (c & E1 & H); [unfold is_apint; auto|]; exists c; auto|].
  split; [destruct (neg_fact a Ha) as (c & E1 & E2 & H & _); exists c; auto|].
  intros s Hs. destruct (shl_fact a s Ha Hs) as (c & E1 & E2 & H). exists c.
  split; [exact (unwrap_ok _ _ E2)|split; [exact (aunwrap_ok _ _ E1)|exact H]].
Qed.
Lemma ap_op_panic_fact a b s : wf a -> wf b -> 0 <= s ->
  (ap_op_add a b = Panic <-> len a <> len b) /\ (ap_op_add_assign a b = Panic <-> len a <> len b) /\
  (ap_op_sub a b = Panic <-> len a <> len b) /\ (ap_op_sub_assign a b = Panic <-> len a <> len b) /\
  (ap_op_mul a b = Panic <-> len a <> len b) /\ (ap_op_mul_assign a b = Panic <-> len a <> len b) /\
  (ap_op_bitand a b = Panic <-> len a <> len b) /\ (ap_op_bitand_assign a b = Panic <-> len a <> len b) /\
  (ap_op_bitor a b = Panic <-> len a <> len b) /\ (ap_op_bitor_assign a b = Panic <-> len a <> len b) /\
  (ap_op_bitxor a b = Panic <-> len a <> len b) /\ (ap_op_bitxor_assign a b = Panic <-> len a <> len b) /\
  (ap_op_shl a s = Panic <-> len a <= s) /\ (ap_op_shl_assign a s = Panic <-> len a <= s).
Proof.
  intros Ha Hb Hs.
  assert (V : forall (m : outcome apint) c (P : Prop), m = Val c -> ~ P -> (m = Panic <-> P)).
  { intros m c P -> N. split; [discriminate|tauto]. }
  assert (F : forall (m : outcome apint) (P : Prop), m = Panic -> P -> (m = Panic <-> P)) by tauto.
  assert (SH : (ap_op_shl a s = Panic <-> len a <= s) /\ (ap_op_shl_assign a s = Panic <-> len a <= s)).
  { destruct (Z.lt_ge_cases s (len a)) as [L|L].
    - destruct (shl_fact a s Ha ltac:(lia)) as (c & E1 & E2 & _).
      split; [apply (V _ _ _ (unwrap_ok _ _ E2)); lia|apply (V _ _ _ (aunwrap_ok _ _ E1)); lia].
    - destruct (shift_err_fact a s Ha L) as (E1 & E2 & _).
      split; [exact (F _ _ (unwrap_err _ _ E2) L)|exact (F _ _ (aunwrap_err _ _ _ E1) L)]. }
  destruct (Z.eq_dec (len a) (len b)) as [E|E].
  - destruct (ap_op_fact a b Ha Hb E) as (A1 & A2 & A3 & A4 & A5 & A6 & _).
    destruct A1 as (c0 & X0 & Y0 & _). split; [apply (V _ _ _ X0); tauto|]. split; [apply (V _ _ _ Y0); tauto|].
    destruct A2 as (c1 & X1 & Y1 & _). split; [apply (V _ _ _ X1); tauto|]. split; [apply (V _ _ _ Y1); tauto|].
    destruct A3 as (c2 & X2 & Y2 & _). split; [apply (V _ _ _ X2); tauto|]. split; [apply (V _ _ _ Y2); tauto|].
    destruct A4 as (c3 & X3 & Y3 & _). split; [apply (V _ _ _ X3); tauto|]. split; [apply (V _ _ _ Y3); tauto|].
    destruct A5 as (c4 & X4 & Y4 & _). split; [apply (V _ _ _ X4); tauto|]. split; [apply (V _ _ _ Y4); tauto|].
    destruct A6 as (c5 & X5 & Y5 & _). split; [apply (V _ _ _ X5); tauto|]. split; [apply (V _ _ _ Y5); tauto|].
    tauto.
  - destruct (mutating_mismatch a b E) as (P1 & Q1 & P2 & Q2 & P3 & Q3 & P4 & Q4 & P5 & Q5 & P6 & Q6 & _).
    split; [exact (F _ _ (unwrap_err _ _ Q1) E)|]. split; [exact (F _ _ (aunwrap_err _ _ _ P1) E)|].
    split; [exact (F _ _ (unwrap_err _ _ Q2) E)|]. split; [exact (F _ _ (aunwrap_err _ _ _ P2) E)|].
    split; [exact (F _ _ (unwrap_err _ _ Q3) E)|]. split; [exact (F _ _ (aunwrap_err _ _ _ P3) E)|].
    split; [exact (F _ _ (unwrap_err _ _ Q4) E)|]. split; [exact (F _ _ (aunwrap_err _ _ _ P4) E)|].
    split; [exact (F _ _ (unwrap_err _ _ Q5) E)|]. split; [exact (F _ _ (aunwrap_err _ _ _ P5) E)|].
    split; [exact (F _ _ (unwrap_err _ _ Q6) E)|]. split; [exact (F _ _ (aunwrap_err _ _ _ P6) E)|].
    tauto.
Qed.
