(** Property C51.  The main thread runs [setup], then lends variables to all threads and
    moves others to one thread each ([give]); the threads run their [programs],
    taking turns before every access to the heap as [schedule] says (MThreads.v).
    The words used in the statements are defined in SpecThreads.v and SpecHeap.v. *)
From Verif Require Import LThreads.

(** C51: whatever the schedule, at no time are two threads about to use the same buffer,
    one of them to write to it or to free it, and none does anything undefined.
    ([schedule] can end anywhere, so this is said of every moment.) *)
Theorem C51_race_free setup slack give programs vs m schedule :
  forked setup slack give programs vs m ->
  let '(m', ts) := interleave schedule (m, spawn 0 give vs programs) in ~ data_race ts /\ ~ In HUndef ts.
Proof. exact (race_free_fact setup slack give programs vs m schedule). Qed.
Print Assumptions C51_race_free.
(** A 100-bit integer is lent to two threads, who each get one of their own. *)
Definition C51_setup : list cmd := [New (NAllSet 100); New (NOne 100); New (NU8 200)].
Definition C51_give : sharing := [None; Some 0%nat; Some 1%nat].
Definition C51_programs : list (list cmd) :=
  [[Bin BAdd 1 0; Clone 0; Drop 1]; [Assign 2 0; Cmp CUlt 2 0; Mut (MZeroExtend 200) 2; Mut MInc 2]].
Example C51_race_free_ex : exists vs m, forked C51_setup (fun n => n) C51_give C51_programs vs m /\
  blocks m = [None; Some [18446744073709551615; 68719476735]; None; Some [1; 0]].
Proof.
  eexists. eexists. split; [split; [repeat constructor; cbn; lia|]|].
  - split; [eexists; vm_compute; reflexivity|]. split; [reflexivity|]. split.
    + intros [|[|[|x]]] i E; cbn in E; try discriminate; [injection E as <-|injection E as <-|destruct x; discriminate]; cbn; lia.
    + unfold respects, borrowed. repeat constructor; cbn; try lia; intros x I; intuition (subst; discriminate).
  - vm_compute. reflexivity.
Qed.
(** Races can be seen: two threads that write to what is lent to both. *)
Example C51_race_seen_ex : exists vs m os schedule,
  exec (hrun [] [New (NAllSet 100)]) (empty_memory (fun n => n)) = MVal (vs, os) m /\
  data_race (snd (interleave schedule (m, spawn 0 [None] vs [[Mut MInc 0]; [Ask QIsZero 0]]))).
Proof.
  eexists. eexists. eexists. exists [0%nat]. split; [vm_compute; reflexivity|].
  exists 0%nat, 1%nat. vm_compute. do 3 eexists. split; [discriminate|]. split; [reflexivity|]. split; [reflexivity|]. split; reflexivity.
Qed.

(** C51: whatever the schedule, a thread that panics or returns does so as it would
    alone: with the observations and the values that the abstract machine of C45
    reaches from the variables handed to it, its digits being where they should be. *)
Theorem C51_isolated setup slack give programs vs m schedule :
  forked setup slack give programs vs m ->
  exists cs s os, crun [] setup = Val (cs, os) /\ arun [] setup = Some (s, os) /\
  let '(m', ts) := interleave schedule (m, spawn 0 give vs programs) in
  forall i p, nth_error programs i = Some p ->
    (nth_error ts i = Some HPanic -> arun (hand i give s) p = None) /\
    nth_error ts i <> Some HFuel /\
    forall vs' os', nth_error ts i = Some (HRet (vs', os')) ->
      exists cs' s', crun (hand i give cs) p = Val (cs', os') /\ arun (hand i give s) p = Some (s', os') /\
        Forall2 holds cs' s' /\ Forall2 (stored m') vs' cs'.
Proof. exact (isolated_fact setup slack give programs vs m schedule). Qed.
Print Assumptions C51_isolated.
Example C51_isolated_ex : exists vs m os, exec (hrun [] C51_setup) (empty_memory (fun n => n)) = MVal (vs, os) m /\
  let '(m', ts) := interleave (concat (repeat [0; 1; 1] 20))%nat (m, spawn 0 C51_give vs C51_programs) in
  exists v0 v1, ts = [HRet (v0, [ODone; ODone; ODone]); HRet (v1, [ODone; OBool false; ODone; ODone])].
Proof. eexists. eexists. eexists. split; [vm_compute; reflexivity|]. vm_compute. eexists. eexists. reflexivity. Qed.

(** C51: at every moment the main thread's variables that are lent hold what they held. *)
Theorem C51_lent setup slack give programs vs m schedule :
  forked setup slack give programs vs m ->
  exists cs s os, crun [] setup = Val (cs, os) /\ arun [] setup = Some (s, os) /\ Forall2 holds cs s /\
  let '(m', ts) := interleave schedule (m, spawn 0 give vs programs) in
  forall x v c, borrowed give x -> nth_error vs x = Some v -> nth_error cs x = Some c -> stored m' v c.
Proof. exact (lent_fact setup slack give programs vs m schedule). Qed.
Print Assumptions C51_lent.
Example C51_lent_ex : exists vs m os, exec (hrun [] C51_setup) (empty_memory (fun n => n)) = MVal (vs, os) m /\
  nth_error vs 0 = Some (Some (mk_hapint 100 (UExt 1))) /\
  nth_error (blocks (fst (interleave (concat (repeat [0; 1; 1] 20))%nat (m, spawn 0 C51_give vs C51_programs)))) 1 =
    Some (Some [18446744073709551615; 68719476735]).
Proof. eexists. eexists. eexists. split; [vm_compute; reflexivity|]. split; vm_compute; reflexivity. Qed.

(** C51: no thread waits for another: whatever has happened, any thread ends if only it
    gets enough turns. *)
Theorem C51_progress setup slack give programs vs m schedule i :
  forked setup slack give programs vs m -> (i < length programs)%nat ->
  exists n h, nth_error (snd (interleave (schedule ++ repeat i n) (m, spawn 0 give vs programs))) i = Some h /\ ended h.
Proof. exact (progress_fact setup slack give programs vs m schedule i). Qed.
Print Assumptions C51_progress.
Example C51_progress_ex : exists vs m os, exec (hrun [] C51_setup) (empty_memory (fun n => n)) = MVal (vs, os) m /\
  match nth_error (snd (interleave [0; 1] (m, spawn 0 C51_give vs C51_programs))) 1 with Some h => ~ ended h | None => False end%nat /\
  match nth_error (snd (interleave ([0; 1] ++ repeat 1 30) (m, spawn 0 C51_give vs C51_programs))) 1 with Some h => ended h | None => False end%nat.
Proof. eexists. eexists. eexists. split; [vm_compute; reflexivity|]. vm_compute. auto. Qed.

(** C51: when all threads have returned, every allocated buffer has exactly one owner: a
    variable that the main thread had lent, or a variable of one thread. *)
Theorem C51_join setup slack give programs vs m schedule m' ts :
  forked setup slack give programs vs m ->
  interleave schedule (m, spawn 0 give vs programs) = (m', ts) -> Forall (fun h => exists r, h = HRet r) ts ->
  forall p ds, nth_error (blocks m') p = Some (Some ds) -> exists! o, owner give vs ts o p.
Proof. exact (join_fact setup slack give programs vs m schedule m' ts). Qed.
Print Assumptions C51_join.
Example C51_join_ex : exists vs m os, exec (hrun [] C51_setup) (empty_memory (fun n => n)) = MVal (vs, os) m /\
  let '(m', ts) := interleave (concat (repeat [0; 1; 1] 20))%nat (m, spawn 0 C51_give vs C51_programs) in
  (exists p, nth_error (blocks m') p <> None /\ owner C51_give vs ts (None, 0%nat) p) /\
  (exists p, nth_error (blocks m') p <> None /\ owner C51_give vs ts (Some 0%nat, 3%nat) p) /\
  (exists p, nth_error (blocks m') p <> None /\ owner C51_give vs ts (Some 1%nat, 2%nat) p).
Proof.
  eexists. eexists. eexists. split; [vm_compute; reflexivity|]. vm_compute. split; [|split].
  - exists 1%nat. split; [discriminate|]. split; [reflexivity|]. eexists. split; reflexivity.
  - eexists. split; cycle 1.
    + split; [discriminate|]. do 2 eexists. split; [reflexivity|]. eexists. split; reflexivity.
    + vm_compute. discriminate.
  - eexists. split; cycle 1.
    + split; [discriminate|]. do 2 eexists. split; [reflexivity|]. eexists. split; reflexivity.
    + vm_compute. discriminate.
Qed.
