(** Property C46.  [exec (hrun [] p)] (MHeap.v) runs the programs of SpecMachine.v over a
    heap in which freeing twice, freeing with a wrong size, and touching freed
    memory or memory beyond a buffer end the run with [MUndefined]. *)
From Verif Require Import LHeap5.

(** C46: no program of calls does any of that, however much [SmallVec]
    overallocates. *)
Theorem C46_never_undefined p slack :
  Forall cmd_ok p ->
  exec (hrun [] p) (empty_memory slack) <> MUndefined /\ exec (hrun [] p) (empty_memory slack) <> MFuel.
Proof. exact (never_undefined_fact p slack). Qed.
Print Assumptions C46_never_undefined.
(** 100-bit, 128-bit and 8-bit integers change into each other in place. *)
Definition C46_program : list cmd :=
  [New (NU8 200); New (NOne 100); Clone 1; Assign 0 1; Bin BAdd 1 0; Mut (MSignResize 300) 0; Mut (MTruncate 40) 1;
   Assign 1 0; Into (MZeroExtend 10) 2; Mut (MZeroExtend 500) 1; IntoBin BMul 1 0; Drop 0; Ask QWidth 0].
Example C46_never_undefined_ex : Forall cmd_ok C46_program /\
  exists vs m, exec (hrun [] C46_program) (empty_memory (fun n => n)) =
    MVal (vs, [ODone; ODone; ODone; ODone; ODone; ODone; ODone; ODone; OFail (EExtension 10 100); ODone;
               OFail (EWidths 500 300); ODone; ORejected]) m /\ blocks m = repeat None 9.
Proof.
  split; [repeat constructor; cbn; lia|]. eexists. eexists. split; [vm_compute; reflexivity|reflexivity].
Qed.
(** The heap can tell: a second free, and a read after it. *)
Example C46_undefined_ex :
  exec (let* a := h_one 100 in let* _ := h_drop_digits a in h_drop_digits a) (empty_memory (fun n => n)) = MUndefined /\
  exec (let* a := h_one 100 in let* _ := h_drop_digits a in h_clone a) (empty_memory (fun n => n)) = MUndefined /\
  exec (let* a := h_one 100 in h_clone (mk_hapint 200 (hdata a))) (empty_memory (fun n => n)) = MUndefined.
Proof. split; [|split]; vm_compute; reflexivity. Qed.

(** C46: a program ends as it does over lists of digits (C45): it panics on both,
    or shows the same results; then every variable's digits are where its width
    says, in a buffer of exactly the needed size, and every allocated buffer is
    owned by exactly one variable. *)
Theorem C46_ownership p slack :
  Forall cmd_ok p ->
  (crun [] p = Panic /\ exec (hrun [] p) (empty_memory slack) = MPanic) \/
  exists cs os vs m, crun [] p = Val (cs, os) /\ exec (hrun [] p) (empty_memory slack) = MVal (vs, os) m /\
    Forall2 (stored m) vs cs /\ owned_once m vs.
Proof. exact (heap_fact p slack). Qed.
Print Assumptions C46_ownership.
Example C46_ownership_ex : exists vs m os,
  exec (hrun [] [New (NAllSet 70); Clone 0; Mut MInc 0; New (NU8 3); Assign 2 1]) (empty_memory (fun n => 1%nat)) = MVal (vs, os) m /\
  vs = [Some (mk_hapint 70 (UExt 1)); Some (mk_hapint 70 (UExt 2)); Some (mk_hapint 70 (UExt 3))] /\
  blocks m = [None; Some [0; 0]; Some [18446744073709551615; 63]; Some [18446744073709551615; 63]].
Proof. eexists. eexists. eexists. split; [vm_compute; reflexivity|split; reflexivity]. Qed.

(** C46: when every variable is dropped, after any program that did not panic,
    nothing stays allocated.  With C46_never_undefined each buffer was freed
    exactly once. *)
Theorem C46_no_leak p slack cs os :
  Forall cmd_ok p -> crun [] p = Val (cs, os) ->
  exists vs os' m, exec (hrun [] (p ++ map Drop (seq 0 (length cs)))) (empty_memory slack) = MVal (vs, os') m /\ all_freed m.
Proof. exact (no_leak_fact p slack cs os). Qed.
Print Assumptions C46_no_leak.
Example C46_no_leak_ex : exists vs os m,
  exec (hrun [] ([New (NAllSet 70); Clone 0; Into (MZeroExtend 60) 1; New (NSMax 500)] ++ map Drop (seq 0 3))) (empty_memory (fun n => n)) =
    MVal (vs, os) m /\ blocks m = [None; None; None; None; None].
Proof. eexists. eexists. eexists. split; [vm_compute; reflexivity|reflexivity]. Qed.
