(** Properties C13 and C45.  A program is a list of calls ([cmd], SpecMachine.v);
    [crun] (MMachine.v) runs it over the model of the code, [arun] over pairs
    of a width and an integer.  [cmd_ok] says that arguments are within their
    Rust types. *)
From Verif Require Import LMach4.

(** C45: from the start, every program shows the same results and errors on both
    machines and leaves integers of the same widths and values, or panics on
    both. *)
Theorem C45_simulation p :
  Forall cmd_ok p ->
  match arun [] p with
  | None => crun [] p = Panic
  | Some (s, os) => exists cs, crun [] p = Val (cs, os) /\ Forall2 holds cs s
  end.
Proof. exact (simulation_fact p). Qed.
Print Assumptions C45_simulation.
(** Parse, divide, shift and print 128-bit integers, with two failing calls. *)
Definition C45_program : list cmd :=
  [New (NParse 16 [102; 102; 48; 48; 48; 48; 48; 48; 48; 48; 48; 48; 48; 48; 48; 48; 48; 48; 49]);
   New (NU8 7); Clone 1; Into (MZeroResize 128) 2; Bin BMul 0 3; Bin BAdd 0 1; Put SSetMsb 0; Ask QLowerHex 0;
   Clone 0; Into (MSignExtend 200) 4; Pair PUDivRem 0 3; Ask (QTryTo PU8) 3; Cmp CSlt 0 3; Mut (MShl 200) 5;
   Mut (MAshr 190) 5; Ask QCountOnes 5; Equal 0 3; Drop 1; Ask QWidth 1].
Example C45_simulation_ex : Forall cmd_ok C45_program /\
  option_map snd (arun [] C45_program) =
    Some [ODone; ODone; ODone; ODone; ODone; OFail (EWidths 128 8); ODone;
          OString [56; 48; 48; 48; 48; 48; 48; 48; 48; 48; 48; 48; 54; 102; 57; 48; 48; 48; 48; 48; 48; 48; 48; 48; 48; 48; 48; 48; 48; 48; 48; 55];
          ODone; ODone; ODone; OInt 2; OBool false; OFail (EShift 200 200); ODone; OInt 200; OBool false; ODone; ORejected].
Proof. split; [|vm_compute; reflexivity]. repeat constructor; cbn; try discriminate; repeat constructor; cbn; lia. Qed.

(** C45: the same for one more call after any history: no earlier call, failed or
    not, leaves anything behind that a later call could notice. *)
Theorem C45_step p c cs os :
  Forall cmd_ok p -> cmd_ok c -> crun [] p = Val (cs, os) ->
  exists s, Forall2 holds cs s /\
    match astep s c with
    | None => cstep cs c = Panic
    | Some (s', o) => exists cs', cstep cs c = Val (cs', o) /\ Forall2 holds cs' s'
    end.
Proof. exact (prefix_fact p c cs os). Qed.
Print Assumptions C45_step.
Example C45_step_ex : exists cs os, crun [] C45_program = Val (cs, os) /\ cmd_ok (Ask QUpperHex 0) /\
  cstep cs (Ask QUpperHex 0) = Val (cs, OString [49; 50; 52; 57; 50; 52; 57; 50; 52; 57; 50; 52; 65; 50; 51; 57; 50; 52; 57; 50; 52; 57; 50; 52; 57; 50; 52; 57; 50; 52; 57; 51]).
Proof. eexists. eexists. split; [vm_compute; reflexivity|]. split; [exact I|vm_compute; reflexivity]. Qed.

(** C45: no program panics, unless it divides signed integers or parses with a
    radix outside 2..36.  (With signed divisions, see C45_simulation: exactly
    those panic whose operands differ in width and whose divisor is not zero.) *)
Theorem C45_no_panic p :
  Forall cmd_ok p ->
  Forall (fun c => match c with
    | New (NParse r _) => 2 <= r <= 36
    | Bin (BSdiv | BSrem) _ _ | IntoBin (BSdiv | BSrem) _ _ | Pair (PSDivRem | PSRemDiv) _ _ => False
    | _ => True
    end) p ->
  exists cs os, crun [] p = Val (cs, os) /\ length os = length p.
Proof. exact (no_panic_fact p). Qed.
Print Assumptions C45_no_panic.
Example C45_no_panic_ex : exists cs os, crun [] C45_program = Val (cs, os) /\ length os = 19%nat.
Proof. eexists. eexists. split; [vm_compute; reflexivity|reflexivity]. Qed.
Example C45_no_panic_sharp : crun [] [New (NU8 7); New (NU16 7); Bin BSdiv 0 1] = Panic /\ crun [] [New (NParse 37 [49])] = Panic.
Proof. split; vm_compute; reflexivity. Qed.

(** C13: after any history every integer has exactly ceil(w/64) digits, and the
    top digit has no bit at or above the width. *)
Theorem C13_canonical p cs os :
  Forall cmd_ok p -> crun [] p = Val (cs, os) ->
  Forall (fun v => forall a, v = Some a -> 0 < len a /\ Z.of_nat (length (digits a)) = (len a + 63) / 64 /\ Forall digit_ok (digits a) /\
    forall i, len a - 64 * (Z.of_nat (length (digits a)) - 1) <= i -> Z.testbit (last (digits a) 0) i = false) cs.
Proof. exact (history_fact p cs os). Qed.
Print Assumptions C13_canonical.
Example C13_canonical_ex : exists a os, crun [] [New (NI8 (-1)); Mut (MSignResize 100) 0; Mut MNot 0; Mut (MShl 100) 0; Mut MDec 0] =
  Val ([Some a], os) /\ os = [ODone; ODone; ODone; OFail (EShift 100 100); ODone] /\ a = mk_apint 100 [18446744073709551615; 68719476735].
Proof. eexists. eexists. split; [vm_compute; reflexivity|split; reflexivity]. Qed.

(** C13: two integers of a history with the same width and value are the same in
    memory, however they came about. *)
Theorem C13_no_hidden_state p cs os a b :
  Forall cmd_ok p -> crun [] p = Val (cs, os) -> In (Some a) cs -> In (Some b) cs ->
  len a = len b -> unsigned a = unsigned b -> a = b.
Proof. exact (history_unique p cs os a b). Qed.
Print Assumptions C13_no_hidden_state.
Example C13_no_hidden_state_ex : exists a b os,
  crun [] [New (NU64 5); Mut (MZeroExtend 100) 0; Mut (MTruncate 3) 0; New (NOne 3); Mut (MShl 2) 1; Mut MInc 1] = Val ([Some a; Some b], os) /\
  len a = len b /\ unsigned a = unsigned b.
Proof. eexists. eexists. eexists. split; [vm_compute; reflexivity|split; reflexivity]. Qed.
