(** Property C68.  [exec (htrun [] p)] (MHeapTyped.v) runs the programs of SpecTyped.v, on
    [UInt] and [Int], over the heap of C46: freeing twice, freeing with a wrong
    size, and touching freed memory or memory beyond a buffer end the run with
    [MUndefined]. *)
From Verif Require Import LHeapTyped3.

(** C68: no program of calls on [UInt] and [Int] does any of that, however much
    [SmallVec] overallocates. *)
Theorem C68_never_undefined p slack :
  Forall tcmd_ok p ->
  exec (htrun [] p) (empty_memory slack) <> MUndefined /\ exec (htrun [] p) (empty_memory slack) <> MFuel.
Proof. exact (typed_never_undefined_fact p slack). Qed.
Print Assumptions C68_never_undefined.
(** Both types, operators and methods, and conversions between the types; the
    consuming calls free the operand when they fail. *)
Definition C68_program : list tcmd :=
  [TNew KI (TMin 70); TClone 0; TMut Method TAbs 0; TSwitch 1; TNew KU (TPrim W128 7); TBin Method TAdd 2 3; TInto Method (TResize 70) 3;
   TIntoBin Operator TMul 2 4; TAsk (TTry W8) 5; TThrough KI 5; TMut Operator (TShr 69) 6; TIntoBin Method TDiv 0 6; TInto Method (TTruncate 71) 7;
   TBin Method TAdd 4 6; TNew KI (TOne 1)].
Example C68_never_undefined_ex : Forall tcmd_ok C68_program /\
  exists vs m, exec (htrun [] C68_program) (empty_memory (fun n => n)) =
    MVal (vs, [Shows ODone; Shows ODone; Shows ODone; Shows ODone; Shows ODone; Shows (OFail (EWidths 70 128)); Shows ODone;
               Shows ODone; Shows (OFail (EUnrepresentable (70, 590295810358705651712) PU8)); Shows ODone; Shows ODone; Shows ODone;
               Shows (OFail (ETruncation 71 70)); rejected; Nothing]) m /\ length (filter (fun b => match b with Some _ => true | None => false end) (blocks m)) = 2%nat.
Proof.
  split; [repeat constructor; cbn; lia|]. eexists. eexists. split; [vm_compute; reflexivity|reflexivity].
Qed.

(** C68: a program ends as it does on the abstract machine with integers (C64): it
    panics on both, or shows the same results; then every variable has the type
    and the width it has there, its digits are those of the integer there, in
    place up to 64 bits and else in a buffer of exactly the needed size; and
    every allocated buffer is owned by exactly one variable. *)
Theorem C68_ownership p slack :
  Forall tcmd_ok p ->
  match tarun [] p with
  | None => exec (htrun [] p) (empty_memory slack) = MPanic
  | Some (s, os) => exists vs m, exec (htrun [] p) (empty_memory slack) = MVal (vs, os) m /\
      Forall2 (in_memory m) vs s /\ owned_once m (inside vs)
  end.
Proof. exact (typed_heap_fact p slack). Qed.
Print Assumptions C68_ownership.
Example C68_ownership_ex : exists vs m os,
  exec (htrun [] [TNew KI (TMin 70); TClone 0; TInto Operator TNeg 1; TSwitch 2; TNew KU (TPrim W8 3); TAssign 4 3]) (empty_memory (fun n => 1%nat)) = MVal (vs, os) m /\
  vs = [Some (mk_htvar KI (mk_hapint 70 (UExt 1))); None; None; Some (mk_htvar KU (mk_hapint 70 (UExt 2))); Some (mk_htvar KU (mk_hapint 70 (UExt 3)))] /\
  blocks m = [None; Some [0; 32]; Some [0; 32]; Some [0; 32]].
Proof. eexists. eexists. eexists. split; [vm_compute; reflexivity|split; reflexivity]. Qed.
(** [x /= 0] panics. *)
Example C68_ownership_panic_ex : exec (htrun [] [TNew KI (TMin 70); TNew KI (TZero 70); TBin Operator TDiv 0 1]) (empty_memory (fun n => n)) = MPanic.
Proof. vm_compute. reflexivity. Qed.

(** C68: when every variable is dropped, after any program that did not panic,
    nothing stays allocated. *)
Theorem C68_no_leak p slack s os :
  Forall tcmd_ok p -> tarun [] p = Some (s, os) ->
  exists vs os' m, exec (htrun [] (p ++ map TDrop (seq 0 (length s)))) (empty_memory slack) = MVal (vs, os') m /\ all_freed m.
Proof. exact (typed_no_leak_fact p slack s os). Qed.
Print Assumptions C68_no_leak.
Example C68_no_leak_ex : exists vs os m,
  exec (htrun [] ([TNew KU (TMax 70); TClone 0; TInto Method (TExtend 60) 1; TNew KI (TMin 500); TMut Method (TTruncate 64) 2] ++ map TDrop (seq 0 3))) (empty_memory (fun n => n)) =
    MVal (vs, os) m /\ blocks m = repeat None 5.
Proof. eexists. eexists. eexists. split; [vm_compute; reflexivity|reflexivity]. Qed.
