(** Property C67: debug and release builds behave the same.  The two differ in that a
    debug build panics when an operator on primitive integers overflows or a
    debug_assert! fails, where a release build carries on.  The model marks these
    panics with [Trap] (MBase.v), apart from [Panic], which is a panic of every
    build; a run that does not end with [Trap] has met none, so both builds take
    the same steps. *)
From Verif Require Import LBuilds LEx.

(** C67: no program of calls on [ApInt] trips a debug-only check, whatever its
    history (the calls are in SpecMachine.v, [cmd_ok] says that arguments are within
    their types). *)
Theorem C67_programs p :
  Forall cmd_ok p -> crun [] p <> Trap.
Proof. exact (programs_build_fact p). Qed.
Print Assumptions C67_programs.
Example C67_programs_ex :
  let p := [New (NParse 10 [49; 56; 52; 52; 54; 55; 52; 52; 48; 55; 51; 55; 48; 57; 53; 53; 49; 54; 49; 53]); New (NU64 (2 ^ 64 - 1));
            Into (MSignExtend 192) 0; Into (MSignExtend 192) 1; Mut (MAshr 0) 2; Mut (MShl 64) 3; Pair PSDivRem 3 2; Ask QLeadingZeros 3] in
  Forall cmd_ok p /\ option_map snd (arun [] p) = Some [ODone; ODone; ODone; ODone; ODone; ODone; ODone; OInt 0] /\
  crun [] (p ++ [Mut (MTruncate 4) 2; Bin BUdiv 2 2]) <> Trap /\
  u64_shl 1 64 = Trap /\ nsub 1 2 = Trap /\ from_radix_digits [] 10 = Trap /\ i128_check (2 ^ 127) = Trap.
Proof.
  split; [repeat constructor; cbn; try lia; repeat constructor; cbn; lia|]. split; [vm_compute; reflexivity|].
  split; [|repeat split].
  apply C67_programs. repeat constructor; cbn; try lia; repeat constructor; cbn; lia.
Qed.

(** C67: nor does any program of calls on [UInt] and [Int], including the operators. *)
Theorem C67_typed_programs p :
  Forall tcmd_ok p -> trun [] p <> Trap.
Proof. exact (typed_build_fact p). Qed.
Print Assumptions C67_typed_programs.
Example C67_typed_programs_ex :
  let p := [TNew KI (TMin 64); TNew KI (TPrim W64 (-1)); TMut Method TAbs 0; TAsk TSignum 0; TIntoBin Operator TMul 0 1; TInto Operator (TShr 63) 2] in
  Forall tcmd_ok p /\ option_map snd (tarun [] p) = Some [Shows ODone; Shows ODone; Shows ODone; Shows (OInt (-1)); Shows ODone; Shows ODone] /\
  trun [] (p ++ [TInto Operator (TShr 64) 3]) = Panic.
Proof. split; [repeat constructor; cbn; lia|]. split; vm_compute; reflexivity. Qed.

(** C67: nor does any operator on [ApInt], also where it panics (in every build) for
    differing widths or an excessive shift amount. *)
Theorem C67_operators a b s :
  wf a -> wf b -> 0 <= s ->
  ap_op_add a b <> Trap /\ ap_op_add_assign a b <> Trap /\ ap_op_sub a b <> Trap /\ ap_op_sub_assign a b <> Trap /\
  ap_op_mul a b <> Trap /\ ap_op_mul_assign a b <> Trap /\ ap_op_bitand a b <> Trap /\ ap_op_bitand_assign a b <> Trap /\
  ap_op_bitor a b <> Trap /\ ap_op_bitor_assign a b <> Trap /\ ap_op_bitxor a b <> Trap /\ ap_op_bitxor_assign a b <> Trap /\
  ap_op_shl a s <> Trap /\ ap_op_shl_assign a s <> Trap /\ ap_op_not a <> Trap /\ ap_op_neg a <> Trap.
Proof. exact (operators_build_fact a b s). Qed.
Print Assumptions C67_operators.
Example C67_operators_ex : wf e100 /\ wf (mk_apint 8 [1]) /\ ap_op_add e100 (mk_apint 8 [1]) = Panic /\ ap_op_shl e100 100 = Panic.
Proof. split; [apply wf_e100|]. split; [split; [reflexivity|]; split; [reflexivity|]; split; [repeat constructor; discriminate|reflexivity]|]. vm_compute. auto. Qed.

(** C67: nor does deserialization, from any data. *)
Theorem C67_deserialization human d :
  data_ok d -> de_apint human d <> Trap.
Proof. exact (data_build_fact human d). Qed.
Print Assumptions C67_deserialization.
Example C67_deserialization_ex : data_ok (DSeq [DU64 65; doc_digits [1; 3]]) /\
  de_apint false (DSeq [DU64 65; doc_digits [1; 3]]) = Val (DOk (mk_apint 65 [1; 1])).
Proof. split; [cbn; lia|vm_compute; reflexivity]. Qed.

(** C67: nor does random generation, with any generator. *)
Theorem C67_random :
  forall (S : Type) (next : S -> Z * S) s, (forall s, digit_ok (fst (next s))) ->
  (forall w, 0 < w -> random_with_width_using next w s <> Trap) /\
  (forall w, 0 < w -> uint_random_with_width_using next w s <> Trap) /\
  (forall w, 0 < w -> int_random_with_width_using next w s <> Trap) /\
  (forall a, wf a -> randomize_using next a s <> Trap) /\
  (forall x w u, is_uint x w u -> uint_randomize_using next x s <> Trap) /\
  (forall x w v, is_int x w v -> int_randomize_using next x s <> Trap).
Proof. exact random_build_fact. Qed.
Print Assumptions C67_random.
Example C67_random_ex : (forall s, digit_ok (fst (play s))) /\ random_with_width_using play 64 [511; 7] = Val (mk_apint 64 [511], [7]).
Proof. split; [apply play_ok|vm_compute; reflexivity]. Qed.

(** C67: octal formatting and [to_string_radix] panic in every build alike. *)
Theorem C67_octal a r :
  wf a -> fmt_octal a <> Trap /\ to_string_radix a r <> Trap.
Proof. exact (octal_build_fact a r). Qed.
Print Assumptions C67_octal.
Example C67_octal_ex : wf e100 /\ fmt_octal e100 = Panic.
Proof. split; [apply wf_e100|vm_compute; reflexivity]. Qed.
