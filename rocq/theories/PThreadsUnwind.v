(** Property C76.  As in C51 the main thread lends and moves its integers to threads that
    take turns before every access to the heap; but now calls may panic.  A thread catches
    some panics and goes on; a panic that it does not catch ends it, and drops what it owns.
    The words used in the statements are defined in SpecThreadsUnwind.v and SpecThreads.v. *)
From Verif Require Import LThreadsUnwind.

(** C76: whatever the schedule, and whichever calls panic, at no time are two threads about to
    use the same buffer, one of them to write to it or to free it, and none does anything undefined. *)
Theorem C76_race_free setup slack give programs vs m schedule :
  forked_catching setup slack give programs vs m ->
  let '(m', ts) := interleave schedule (m, spawn_catching 0 give vs programs) in
  ~ data_race ts /\ ~ In HUndef ts /\ ~ In HPanic ts /\ ~ In HFuel ts.
Proof. exact (catching_race_free_fact setup slack give programs vs m schedule). Qed.
Print Assumptions C76_race_free.
(** Thread 0 catches one panic and dies of another; thread 1 loses an integer to a panic that it catches. *)
Definition C76_setup : list cmd := [New (NAllSet 100); New (NOne 100); New (NU16 7); New (NSMin 70)].
Definition C76_give : sharing := [None; Some 0%nat; Some 0%nat; Some 1%nat].
Definition C76_programs : list (list (bool * cmd)) :=
  [[(true, Bin BSdiv 1 2); (false, Clone 0); (false, Bin BSrem 1 2); (false, Clone 0)];
   [(true, IntoBin BSrem 3 0); (false, Clone 0); (false, Mut MInc 4)]].
Example C76_race_free_ex : exists vs m, forked_catching C76_setup (fun n => n) C76_give C76_programs vs m /\ length vs = 4%nat.
Proof.
  eexists. eexists. split; [split; [repeat constructor; cbn; lia|]|].
  - split; [eexists; vm_compute; reflexivity|]. split; [reflexivity|]. split.
    + intros [|[|[|[|x]]]] i E; cbn in E; try discriminate; [injection E as <-|injection E as <-|injection E as <-|destruct x; discriminate]; cbn; lia.
    + unfold respects, borrowed. repeat constructor; cbn; try lia; intros x I; intuition (subst; discriminate).
  - reflexivity.
Qed.

(** C76: whatever the schedule, a thread that has ended saw the panics and the results that
    the abstract machine of C58 sees, run alone from the variables handed to it, and ended
    as it does; its integers are the machine's, their digits where they should be. *)
Theorem C76_isolated setup slack give programs vs m schedule m' ts i p vs' r :
  forked_catching setup slack give programs vs m ->
  interleave schedule (m, spawn_catching 0 give vs programs) = (m', ts) ->
  nth_error programs i = Some p -> nth_error ts i = Some (HRet (vs', r)) ->
  let (s', r') := athread (keeper give) (hand i give (fst (acatches [] setup))) p in
  r = r' /\ exists cs', Forall2 holds cs' s' /\ Forall2 (stored m') vs' cs'.
Proof. exact (catching_isolated_fact setup slack give programs vs m schedule m' ts i p vs' r). Qed.
Print Assumptions C76_isolated.
Example C76_isolated_ex : exists vs m os, exec (hcatches [] C76_setup) (empty_memory (fun n => n)) = MVal (vs, os) m /\
  let '(m', ts) := interleave (concat (repeat [0; 1; 1] 30))%nat (m, spawn_catching 0 C76_give vs C76_programs) in
  exists v0 v1, ts = [HRet (v0, ([None; Some ODone; None], true)); HRet (v1, ([None; Some ODone; Some ODone], false))].
Proof. eexists. eexists. eexists. split; [vm_compute; reflexivity|]. vm_compute. eexists. eexists. reflexivity. Qed.

(** C76: at every moment the main thread's variables that are lent hold what they held, though
    threads have panicked while they borrowed them. *)
Theorem C76_lent setup slack give programs vs m schedule :
  forked_catching setup slack give programs vs m ->
  exists cs, Forall2 holds cs (fst (acatches [] setup)) /\ Forall2 (stored m) vs cs /\
  let '(m', ts) := interleave schedule (m, spawn_catching 0 give vs programs) in
  forall x v c, borrowed give x -> nth_error vs x = Some v -> nth_error cs x = Some c -> stored m' v c.
Proof. exact (catching_lent_fact setup slack give programs vs m schedule). Qed.
Print Assumptions C76_lent.
Example C76_lent_ex : exists vs m os, exec (hcatches [] C76_setup) (empty_memory (fun n => n)) = MVal (vs, os) m /\
  nth_error vs 0 = Some (Some (mk_hapint 100 (UExt 1))) /\
  nth_error (blocks (fst (interleave (concat (repeat [0; 1; 1] 30))%nat (m, spawn_catching 0 C76_give vs C76_programs)))) 1 =
    Some (Some [18446744073709551615; 68719476735]).
Proof. eexists. eexists. eexists. split; [vm_compute; reflexivity|]. split; vm_compute; reflexivity. Qed.

(** C76: no thread waits for another, nor for one that died: whatever has happened, any
    thread ends if only it gets enough turns. *)
Theorem C76_progress setup slack give programs vs m schedule i :
  forked_catching setup slack give programs vs m -> (i < length programs)%nat ->
  exists n r, nth_error (snd (interleave (schedule ++ repeat i n) (m, spawn_catching 0 give vs programs))) i = Some (HRet r).
Proof. exact (catching_progress_fact setup slack give programs vs m schedule i). Qed.
Print Assumptions C76_progress.
Example C76_progress_ex : exists vs m os, exec (hcatches [] C76_setup) (empty_memory (fun n => n)) = MVal (vs, os) m /\
  match nth_error (snd (interleave (repeat 0 60 ++ [1]) (m, spawn_catching 0 C76_give vs C76_programs))) 1 with Some (HRet _) => False | _ => True end%nat /\
  match nth_error (snd (interleave (repeat 0 60 ++ [1] ++ repeat 1 60) (m, spawn_catching 0 C76_give vs C76_programs))) 1 with Some (HRet _) => True | _ => False end%nat.
Proof. eexists. eexists. eexists. split; [vm_compute; reflexivity|]. vm_compute. auto. Qed.

(** C76: when all threads have ended, by returning or by a panic, every allocated buffer has
    exactly one owner: a variable that the main thread had lent, or a variable of one thread. *)
Theorem C76_join setup slack give programs vs m schedule m' ts :
  forked_catching setup slack give programs vs m ->
  interleave schedule (m, spawn_catching 0 give vs programs) = (m', ts) -> Forall (fun h => exists r, h = HRet r) ts ->
  forall p ds, nth_error (blocks m') p = Some (Some ds) -> exists! o, owner give vs ts o p.
Proof. exact (catching_join_fact setup slack give programs vs m schedule m' ts). Qed.
Print Assumptions C76_join.
Example C76_join_ex : exists vs m os, exec (hcatches [] C76_setup) (empty_memory (fun n => n)) = MVal (vs, os) m /\
  let '(m', ts) := interleave (concat (repeat [0; 1; 1] 30))%nat (m, spawn_catching 0 C76_give vs C76_programs) in
  Forall (fun h => exists r, h = HRet r) ts /\
  (exists p, nth_error (blocks m') p <> None /\ owner C76_give vs ts (Some 1%nat, 4%nat) p).
Proof.
  eexists. eexists. eexists. split; [vm_compute; reflexivity|]. vm_compute. split; [repeat constructor; eauto|].
  eexists. split; cycle 1.
  - split; [discriminate|]. do 2 eexists. split; [reflexivity|]. eexists. split; reflexivity.
  - vm_compute. discriminate.
Qed.

(** C76: a thread that died of a panic has nothing left but what was lent to it. *)
Theorem C76_dead setup slack give programs vs m schedule m' ts i vs' os x a :
  forked_catching setup slack give programs vs m ->
  interleave schedule (m, spawn_catching 0 give vs programs) = (m', ts) ->
  nth_error ts i = Some (HRet (vs', (os, true))) -> nth_error vs' x = Some (Some a) -> borrowed give x.
Proof. exact (catching_dead_fact setup slack give programs vs m schedule m' ts i vs' os x a). Qed.
Print Assumptions C76_dead.
Example C76_dead_ex : exists vs m os, exec (hcatches [] C76_setup) (empty_memory (fun n => n)) = MVal (vs, os) m /\
  let '(m', ts) := interleave (concat (repeat [0; 1; 1] 30))%nat (m, spawn_catching 0 C76_give vs C76_programs) in
  nth_error ts 0 = Some (HRet ([Some (mk_hapint 100 (UExt 1)); None; None; None; None], ([None; Some ODone; None], true))).
Proof. eexists. eexists. eexists. split; [vm_compute; reflexivity|]. vm_compute. reflexivity. Qed.

(** C76: when all threads have died of panics, nothing is allocated but what the main thread
    had lent: what the threads owned, and what they had created, is freed. *)
Theorem C76_no_leak setup slack give programs vs m schedule m' ts :
  forked_catching setup slack give programs vs m ->
  interleave schedule (m, spawn_catching 0 give vs programs) = (m', ts) -> Forall (fun h => exists vs' os, h = HRet (vs', (os, true))) ts ->
  forall p ds, nth_error (blocks m') p = Some (Some ds) -> exists x, borrowed give x /\ points_to vs x p.
Proof. exact (catching_no_leak_fact setup slack give programs vs m schedule m' ts). Qed.
Print Assumptions C76_no_leak.
Example C76_no_leak_ex : exists vs m os, exec (hcatches [] C76_setup) (empty_memory (fun n => n)) = MVal (vs, os) m /\
  let '(m', ts) := interleave (concat (repeat [0; 1] 30))%nat (m, spawn_catching 0 C76_give vs
    [[(true, Bin BSdiv 1 2); (false, Clone 0); (false, Bin BSrem 1 2)]; [(false, Clone 0); (false, Bin BSdiv 3 0)]]) in
  Forall (fun h => exists vs' os, h = HRet (vs', (os, true))) ts /\
  (length (filter (fun b => match b with Some _ => true | None => false end) (blocks m')) = 1 /\ 8 < length (blocks m'))%nat.
Proof. eexists. eexists. eexists. split; [vm_compute; reflexivity|]. vm_compute. split; [repeat constructor; eauto|]. split; [reflexivity|lia]. Qed.
