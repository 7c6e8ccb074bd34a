(** Property C88: in the course of a whole execution no two threads use the same buffer unless both
    only read it.  The accesses of an execution are defined in SpecTrace.v.  Two accesses of
    different threads that conflict are thus not only never simultaneous: there are none.  So the
    program has no data race in the sense of the memory model of C++ and Rust, in which accesses of
    the same thread are ordered, and those of the main thread before the threads start and after
    they have ended are ordered with all others. *)
From Verif Require Import LThreadsTrace.

(** C88: if two threads use the same buffer, at any two moments, then both only read it, and
    it is a buffer of a variable that the main thread has lent. *)
Theorem C88_no_conflict junk setup slack give programs vs m schedule i j a b :
  forked_catching setup slack give programs vs m ->
  let log := accesses junk schedule (m, map DAt (spawn_catching 0 give vs programs)) in
  In (i, a) log -> In (j, b) log -> i <> j -> buffer a = buffer b ->
  harmless a /\ harmless b /\ exists x, borrowed give x /\ points_to vs x (buffer a).
Proof. exact (trace_fact junk setup slack give programs vs m schedule i j a b). Qed.
Print Assumptions C88_no_conflict.
(** Both threads clone the integer that is lent, thread 0 after a division that panics; both
    change integers of their own. *)
Definition C88_setup : list cmd := [New (NAllSet 100); New (NOne 100); New (NU16 7); New (NSMin 70)].
Definition C88_give : sharing := [None; Some 0%nat; Some 0%nat; Some 1%nat].
Definition C88_programs : list (list (bool * cmd)) :=
  [[(true, Bin BSdiv 1 2); (false, Clone 0); (false, Mut MInc 1)];
   [(true, IntoBin BSrem 3 0); (false, Clone 0); (false, Mut MInc 4)]].
Example C88_no_conflict_ex : exists vs m, forked_catching C88_setup (fun n => n) C88_give C88_programs vs m /\
  let log := accesses (fun p i => 5%Z) (concat (repeat [0; 1; 1] 60))%nat (m, map DAt (spawn_catching 0 C88_give vs C88_programs)) in
  In (0%nat, Reads 1 1) log /\ In (1%nat, Reads 1 1) log /\ In (0%nat, Writes 3 1) log /\ In (1%nat, Frees 5) log.
Proof.
  eexists. eexists. split; [split; [repeat constructor; cbn; lia|]|].
  - split; [eexists; vm_compute; reflexivity|]. split; [reflexivity|]. split.
    + intros [|[|[|[|x]]]] i E; cbn in E; try discriminate; [injection E as <-|injection E as <-|injection E as <-|destruct x; discriminate]; cbn; lia.
    + unfold respects, borrowed. repeat constructor; cbn; try lia; intros x I; intuition (subst; discriminate).
  - vm_compute. tauto.
Qed.
(** Threads that do race: the one reads what the other writes, though not at the same time. *)
Example C88_conflict_ex :
  accesses (fun p i => 5%Z) [0; 0; 1; 1]%nat (mk_mem (fun n => n) [Some [1; 2]], map DAt [HStore 0 [3; 4] (HRet []); HLoad 0 2 HRet]) =
    [(0, Writes 0 0); (0, Writes 0 1); (1, Reads 0 0); (1, Reads 0 1)]%nat.
Proof. reflexivity. Qed.

(** C88: the accesses tell all that a turn does to the memory: it changes no digit but the one that
    it writes, and those of the buffer that it frees. *)
Theorem C88_writes {R} junk (t : dthread R) m q k :
  (q < length (blocks m))%nat ->
  next_access t <> Some (Writes q k) -> next_access t <> Some (Frees q) -> digit_load q k (snd (dtick junk t m)) = digit_load q k m.
Proof. exact (accesses_only_fact junk t  m q k). Qed.
Print Assumptions C88_writes.
Example C88_writes_ex : let t := DStore 0 [7; 8] 1 (HRet tt) in let m := mk_mem (fun n => n) [Some [7; 2]] in
  next_access t = Some (Writes 0 1) /\ digit_load 0 0 (snd (dtick (fun p i => 5%Z) t m)) = Some 7 /\ digit_load 0 1 (snd (dtick (fun p i => 5%Z) t m)) = Some 8.
Proof. repeat split. Qed.

(** C88: and all that it learns from it: two memories with the same buffers that agree on the digit
    that the thread reads, if it reads one, make no difference to it. *)
Theorem C88_reads {R} junk (t : dthread R) m1 m2 :
  same_buffers m1 m2 ->
  (forall p k, next_access t = Some (Reads p k) -> digit_load p k m1 = digit_load p k m2) -> fst (dtick junk t m1) = fst (dtick junk t m2).
Proof. exact (accesses_reads_fact junk t  m1 m2). Qed.
Print Assumptions C88_reads.
Example C88_reads_ex : let t := DLoad 0 2 [7] (fun ds => HRet ds) in
  let m1 := mk_mem (fun n => n) [Some [7; 2]; Some [5]] in let m2 := mk_mem (fun n => n) [Some [9; 2]; Some [6]] in
  same_buffers m1 m2 /\ next_access t = Some (Reads 0 1) /\ digit_load 0 1 m1 = digit_load 0 1 m2 /\
  fst (dtick (fun p i => 5%Z) t m1) = DAt (HRet [7; 2]) /\ fst (dtick (fun p i => 5%Z) t m2) = DAt (HRet [7; 2]).
Proof. repeat split. Qed.

(** C88: the same of threads on [UInt] and [Int]. *)
Theorem C88_typed_no_conflict junk setup slack give programs vs m schedule i j a b :
  tforked setup slack give programs vs m ->
  let log := accesses junk schedule (m, map DAt (tspawn 0 give vs programs)) in
  In (i, a) log -> In (j, b) log -> i <> j -> buffer a = buffer b ->
  harmless a /\ harmless b /\ exists x, borrowed give x /\ points_to (inside vs) x (buffer a).
Proof. exact (ttrace_fact junk setup slack give programs vs m schedule i j a b). Qed.
Print Assumptions C88_typed_no_conflict.
Definition C88_typed_setup : list tcmd := [TNew KI (TMin 100); TNew KI (TMax 100); TNew KI (TPrim W8 (-5)); TNew KU (TMax 70); TNew KU (TZero 80)].
Definition C88_typed_give : sharing := [None; Some 0%nat; None; Some 1%nat; None].
Definition C88_typed_programs : list (list (bool * tcmd)) :=
  [[(true, TBin Operator TAdd 1 2); (false, TClone 0); (false, TBin Operator TDiv 1 2); (false, TClone 0)];
   [(true, TIntoBin Operator TMul 3 4); (false, TClone 0); (false, TMut Operator (TShl 5) 5)]].
Example C88_typed_no_conflict_ex : exists vs m, tforked C88_typed_setup (fun n => n) C88_typed_give C88_typed_programs vs m /\
  let log := accesses (fun p i => 5%Z) (concat (repeat [0; 1; 1] 60))%nat (m, map DAt (tspawn 0 C88_typed_give vs C88_typed_programs)) in
  In (0%nat, Reads 1 1) log /\ In (1%nat, Reads 1 1) log.
Proof.
  eexists. eexists. split; [split; [repeat constructor; cbn; lia|]|].
  - split; [eexists; vm_compute; reflexivity|]. split; [reflexivity|]. split.
    + intros [|[|[|[|[|x]]]]] i E; cbn in E; try discriminate; [injection E as <-|injection E as <-|destruct x; discriminate]; cbn; lia.
    + unfold trespects, borrowed. repeat constructor; cbn; try lia; intros x I; intuition (subst; discriminate).
  - vm_compute. tauto.
Qed.
