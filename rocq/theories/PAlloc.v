(** Properties C52 and C53.  [exec (hrun [] p)] (MHeap.v) runs the programs of SpecMachine.v
    over a heap that counts the buffers it hands out.  The words used in the
    statements are defined in SpecAlloc.v. *)
From Verif Require Import LAlloc.

(** C52: a program that never has an integer of more than 64 bits never allocates a
    buffer for one, whatever it calls, also when calls fail. *)
Theorem C52_narrow_no_heap p slack vs os m :
  Forall cmd_ok p -> narrow_program p ->
  exec (hrun [] p) (empty_memory slack) = MVal (vs, os) m -> allocations m = 0%nat.
Proof. exact (narrow_fact p slack vs os m). Qed.
Print Assumptions C52_narrow_no_heap.
(** Failing calls, signed division and its copy, parsing, resizing up to 64 bits. *)
Definition C52_program : list cmd :=
  [New (NU8 200); New (NParse 16 [102; 102]); Clone 0; Mut (MSignResize 64) 0; Bin BSdiv 0 1; New (NZero 64); Bin BSrem 0 3;
   Assign 2 0; Ask (QTryTo PU8) 0; Into (MTruncate 100) 1; Bin BUdiv 2 3; Mut (MZeroExtend 10) 0; IntoBin BMul 2 0; Drop 0].
Example C52_narrow_no_heap_ex : Forall cmd_ok C52_program /\ narrow_program C52_program /\
  exists vs m, exec (hrun [] C52_program) (empty_memory (fun n => n)) =
    MVal (vs, [ODone; ODone; ODone; ODone; ODone; ODone; OFail (EDivisionByZero SignedRem (64, 0)); ODone; OInt 0; OFail (ETruncation 100 64);
               OFail (EDivisionByZero UnsignedDiv (64, 0)); OFail (EExtension 10 64); ODone; ODone]) m /\ allocations m = 0%nat.
Proof.
  split; [repeat constructor; cbn; try lia|]. split.
  - apply narrow_check_ok. vm_compute. reflexivity.
  - eexists. eexists. split; [vm_compute; reflexivity|reflexivity].
Qed.
(** One bit more, and memory is needed. *)
Example C52_boundary_ex : exists vs os m, exec (hrun [] [New (NU64 7); Mut (MZeroExtend 65) 0]) (empty_memory (fun n => 0%nat)) = MVal (vs, os) m /\
  allocations m = 1%nat /\ ~ narrow_program [New (NU64 7); Mut (MZeroExtend 65) 0].
Proof.
  eexists. eexists. eexists. split; [vm_compute; reflexivity|]. split; [reflexivity|]. intros N.
  specialize (N [New (NU64 7); Mut (MZeroExtend 65) 0] [] _ _ eq_refl eq_refl). inversion N as [|? ? H]. cbn in H. lia.
Qed.

(** C53: the calls documented as in place allocate no buffer, and the digits of every
    variable stay where they are, at every width.  Missing: multiplication and
    unsigned division at more than 64 bits, which use vectors that the model does not
    count, and signed division, for which the claim is false (below). *)
Theorem C53_in_place_partial p c slack vs os m vs' os' m' :
  in_place c ->
  exec (hrun [] p) (empty_memory slack) = MVal (vs, os) m ->
  exec (hrun [] (p ++ [c])) (empty_memory slack) = MVal (vs', os') m' ->
  allocations m' = allocations m /\ map address vs' = map address vs.
Proof. exact (in_place_fact p c slack vs os m vs' os' m'). Qed.
Print Assumptions C53_in_place_partial.
Example C53_in_place_ex : exists vs os m vs' os' m',
  exec (hrun [] [New (NAllSet 100); New (NOne 100)]) (empty_memory (fun n => n)) = MVal (vs, os) m /\
  exec (hrun [] ([New (NAllSet 100); New (NOne 100)] ++ [Bin BAdd 0 1])) (empty_memory (fun n => n)) = MVal (vs', os') m' /\
  in_place (Bin BAdd 0 1) /\ map address vs' = [Some 1%nat; Some 3%nat] /\ allocations m' = 4%nat /\ blocks m' <> blocks m.
Proof. do 6 eexists. split; [vm_compute; reflexivity|]. split; [vm_compute; reflexivity|]. split; [exact I|]. split; [reflexivity|]. split; [reflexivity|discriminate]. Qed.

(** C53: signed division and remainder, documented for [Int] as not allocating
    (src/int.rs 1088, 1104, 1121, 1137), allocate at every width above 64 bits
    whenever the divisor is not zero. *)
Theorem C53_signed_division_exact p o x y slack vs os m vs' os' m' s s_os w u v :
  Forall cmd_ok p -> o = BSdiv \/ o = BSrem -> x <> y ->
  exec (hrun [] p) (empty_memory slack) = MVal (vs, os) m -> arun [] p = Some (s, s_os) ->
  nth_error s x = Some (Some (w, u)) -> nth_error s y = Some (Some (w, v)) -> 64 < w -> v <> 0 ->
  exec (hrun [] (p ++ [Bin o x y])) (empty_memory slack) = MVal (vs', os') m' ->
  (allocations m < allocations m')%nat.
Proof. exact (sdiv_fact p o x y slack vs os m vs' os' m' s s_os w u v). Qed.
Print Assumptions C53_signed_division_exact.
Example C53_signed_division_ex : arun [] [New (NSMin 100); New (NOne 100)] = Some ([Some (100, 2 ^ 99); Some (100, 1)], [ODone; ODone]) /\
  exists vs os m, exec (hrun [] ([New (NSMin 100); New (NOne 100)] ++ [Bin BSrem 0 1])) (empty_memory (fun n => n)) = MVal (vs, os) m /\ allocations m = 5%nat.
Proof. split; [vm_compute; reflexivity|]. do 3 eexists. split; [vm_compute; reflexivity|reflexivity]. Qed.

(** C53: so the documentation is wrong, for instance for these. *)
Theorem C53_signed_division_refuted :
  exists p vs os m vs' os' m',
  exec (hrun [] p) (empty_memory (fun n => 0%nat)) = MVal (vs, os) m /\
  exec (hrun [] (p ++ [Bin BSdiv 0 1])) (empty_memory (fun n => 0%nat)) = MVal (vs', os') m' /\
  (allocations m < allocations m')%nat.
Proof. exact sdiv_refuted. Qed.
Print Assumptions C53_signed_division_refuted.
