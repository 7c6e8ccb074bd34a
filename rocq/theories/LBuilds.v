(** Debug and release builds do the same (property C67).  The model marks with
    [Trap] every panic that only a debug build has: overflow of an operator on a
    primitive integer, and [debug_assert!]. *)
From Verif Require Export LMach4 LTyped3 LSerde LRand LInt3 LInt4 MText.

Lemma programs_build_fact p : Forall cmd_ok p -> crun [] p <> Trap.
Proof.
  intros H E. pose proof (simulation_fact p H) as X. rewrite E in X.
  destruct (arun [] p) as [[s os]|]; [destruct X as (cs & X & _)|]; discriminate X.
Qed.

Lemma typed_build_fact p : Forall tcmd_ok p -> trun [] p <> Trap.
Proof.
  intros H E. pose proof (typed_simulation_fact p H) as X. rewrite E in X.
  destruct (tarun [] p) as [[s os]|]; [destruct X as (cs & X & _)|]; discriminate X.
Qed.

Lemma operators_build_fact a b s : wf a -> wf b -> 0 <= s ->
  ap_op_add a b <> Trap /\ ap_op_add_assign a b <> Trap /\ ap_op_sub a b <> Trap /\ ap_op_sub_assign a b <> Trap /\
  ap_op_mul a b <> Trap /\ ap_op_mul_assign a b <> Trap /\ ap_op_bitand a b <> Trap /\ ap_op_bitand_assign a b <> Trap /\
  ap_op_bitor a b <> Trap /\ ap_op_bitor_assign a b <> Trap /\ ap_op_bitxor a b <> Trap /\ ap_op_bitxor_assign a b <> Trap /\
  ap_op_shl a s <> Trap /\ ap_op_shl_assign a s <> Trap /\ ap_op_not a <> Trap /\ ap_op_neg a <> Trap.
Proof.
  intros Ha Hb Hs. pose proof (ap_op_panic_fact a b s Ha Hb Hs) as P. pose proof (ap_op_fact a a Ha Ha eq_refl) as N.
  destruct N as (_ & _ & _ & _ & _ & _ & (c1 & N1 & _) & (c2 & N2 & _) & Sh).
  destruct P as (P1 & P2 & P3 & P4 & P5 & P6 & P7 & P8 & P9 & P10 & P11 & P12 & P13 & P14).
  assert (X : ap_op_shl a s <> Trap /\ ap_op_shl_assign a s <> Trap).
  { destruct (Z.lt_ge_cases s (len a)) as [L|L].
    - destruct (Sh s (conj Hs L)) as (c & E1 & E2 & _). rewrite E1, E2. split; discriminate.
    - rewrite (proj2 P13 L), (proj2 P14 L). split; discriminate. }
  destruct X as (X1 & X2). rewrite N1, N2. destruct (Z.eq_dec (len a) (len b)) as [E|E].
  - destruct (ap_op_fact a b Ha Hb E) as ((d1 & D1 & D1' & _) & (d2 & D2 & D2' & _) & (d3 & D3 & D3' & _) & (d4 & D4 & D4' & _) &
      (d5 & D5 & D5' & _) & (d6 & D6 & D6' & _) & _).
    rewrite D1, D1', D2, D2', D3, D3', D4, D4', D5, D5', D6, D6'.
    repeat (split; [first [exact X1|discriminate]|]). repeat (split; [first [exact X2|discriminate]|]). discriminate.
  - rewrite (proj2 P1 E), (proj2 P2 E), (proj2 P3 E), (proj2 P4 E), (proj2 P5 E), (proj2 P6 E), (proj2 P7 E), (proj2 P8 E),
      (proj2 P9 E), (proj2 P10 E), (proj2 P11 E), (proj2 P12 E).
    repeat (split; [first [exact X1|discriminate]|]). repeat (split; [first [exact X2|discriminate]|]). discriminate.
Qed.

Lemma data_build_fact human d : data_ok d -> de_apint human d <> Trap.
Proof.
  intros H. destruct human.
  - destruct (human_fact d H) as [(w & ds & c & _ & E & _)|(_ & e & E)]; rewrite E; discriminate.
  - destruct (compact_fact d H) as [(w & ds & c & _ & E & _)|[(_ & _ & e & E)|(_ & E)]]; rewrite E; discriminate.
Qed.

Lemma random_build_fact : forall (S : Type) (next : S -> Z * S) s, (forall s, digit_ok (fst (next s))) ->
  (forall w, 0 < w -> random_with_width_using next w s <> Trap) /\
  (forall w, 0 < w -> uint_random_with_width_using next w s <> Trap) /\
  (forall w, 0 < w -> int_random_with_width_using next w s <> Trap) /\
  (forall a, wf a -> randomize_using next a s <> Trap) /\
  (forall x w u, is_uint x w u -> uint_randomize_using next x s <> Trap) /\
  (forall x w v, is_int x w v -> int_randomize_using next x s <> Trap).
Proof.
  intros S next s H. destruct (uint_random_fact S next s H) as (U1 & U2). destruct (int_random_fact S next s H) as (I1 & I2).
  split; [|split; [|split; [|split; [|split]]]].
  - intros w Hw. destruct (random_fact S next w s H Hw) as (c & E & _). rewrite E. discriminate.
  - intros w Hw. destruct (U1 w Hw) as (c & E & _). rewrite E. discriminate.
  - intros w Hw. destruct (I1 w Hw) as (c & E & _). rewrite E. discriminate.
  - intros a Ha. destruct (randomize_fact S next a s H Ha) as (c & E & _). rewrite E. discriminate.
  - intros x w u Hx. destruct (U2 x w u Hx) as (c & E & _). rewrite E. discriminate.
  - intros x w v Hx. destruct (I2 x w v Hx) as (c & E & _). rewrite E. discriminate.
Qed.

Lemma octal_build_fact a r : wf a -> fmt_octal a <> Trap /\ to_string_radix a r <> Trap.
Proof.
  intros H. split; [|discriminate]. unfold fmt_octal. rewrite is_zero_spec by (now apply wf_sh). cbn [bind]. destruct (_ =? _); discriminate.
Qed.
