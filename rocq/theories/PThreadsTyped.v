(** Property C77: what C76 says, for threads on [UInt] and [Int].  The main thread lends and moves
    its integers to threads that take turns before every access to the heap, and calls may
    panic.  The words used in the statements are defined in SpecThreadsTyped.v,
    SpecThreadsUnwind.v and SpecThreads.v. *)
From Verif Require Import LThreadsTyped.

(** C77: whatever the schedule, and whichever calls panic, at no time are two threads about to
    use the same buffer, one of them to write to it or to free it, and none does anything undefined. *)
Theorem C77_race_free setup slack give programs vs m schedule :
  tforked setup slack give programs vs m ->
  let '(m', ts) := interleave schedule (m, tspawn 0 give vs programs) in
  ~ data_race ts /\ ~ In HUndef ts /\ ~ In HPanic ts /\ ~ In HFuel ts.
Proof. exact (tpool_race_free_fact setup slack give programs vs m schedule). Qed.
Print Assumptions C77_race_free.
(** Thread 0 catches the panic of [+=] and dies of that of [/=]; thread 1 loses an integer to a panic that it catches. *)
Definition C77_setup : list tcmd := [TNew KI (TMin 100); TNew KI (TMax 100); TNew KI (TPrim W8 (-5)); TNew KU (TMax 70); TNew KU (TZero 80)].
Definition C77_give : sharing := [None; Some 0%nat; None; Some 1%nat; None].
Definition C77_programs : list (list (bool * tcmd)) :=
  [[(true, TBin Operator TAdd 1 2); (false, TClone 0); (false, TBin Operator TDiv 1 2); (false, TClone 0)];
   [(true, TIntoBin Operator TMul 3 4); (false, TClone 4); (false, TMut Operator (TShl 5) 5)]].
Example C77_race_free_ex : exists vs m, tforked C77_setup (fun n => n) C77_give C77_programs vs m /\ length vs = 5%nat.
Proof.
  eexists. eexists. split; [split; [repeat constructor; cbn; lia|]|].
  - split; [eexists; vm_compute; reflexivity|]. split; [reflexivity|]. split.
    + intros [|[|[|[|[|x]]]]] i E; cbn in E; try discriminate; [injection E as <-|injection E as <-|destruct x; discriminate]; cbn; lia.
    + unfold trespects, borrowed. repeat constructor; cbn; try lia; intros x I; intuition (subst; discriminate).
  - reflexivity.
Qed.

(** C77: whatever the schedule, a thread that has ended saw the panics and the results that the
    abstract machine of C69 sees, run alone from the variables handed to it, and ended as it
    does; its variables have the machine's types, widths and integers, the digits where they
    should be. *)
Theorem C77_isolated setup slack give programs vs m schedule m' ts i p vs' r :
  tforked setup slack give programs vs m ->
  interleave schedule (m, tspawn 0 give vs programs) = (m', ts) ->
  nth_error programs i = Some p -> nth_error ts i = Some (HRet (vs', r)) ->
  let (s', r') := tathread (keeper give) (hand i give (fst (tacatches [] setup))) p in
  r = r' /\ Forall2 (in_memory m') vs' s'.
Proof. exact (tpool_isolated_fact setup slack give programs vs m schedule m' ts i p vs' r). Qed.
Print Assumptions C77_isolated.
Example C77_isolated_ex : exists vs m os, exec (htcatches [] C77_setup) (empty_memory (fun n => n)) = MVal (vs, os) m /\
  let '(m', ts) := interleave (concat (repeat [0; 1; 1] 40))%nat (m, tspawn 0 C77_give vs C77_programs) in
  exists v0 v1, ts = [HRet (v0, ([None; Some (Shows ODone); None], true));
                      HRet (v1, ([None; Some (Shows ODone); Some (Shows ODone)], false))] /\ length v1 = 6%nat.
Proof. eexists. eexists. eexists. split; [vm_compute; reflexivity|]. vm_compute. eexists. eexists. split; reflexivity. Qed.

(** C77: at every moment the main thread's variables that are lent hold the integers that the
    abstract machine of C69 has in them, though threads have panicked while they borrowed them. *)
Theorem C77_lent setup slack give programs vs m schedule :
  tforked setup slack give programs vs m ->
  let '(m', ts) := interleave schedule (m, tspawn 0 give vs programs) in
  forall x v t, borrowed give x -> nth_error vs x = Some v -> nth_error (fst (tacatches [] setup)) x = Some t -> in_memory m' v t.
Proof. exact (tpool_lent_fact setup slack give programs vs m schedule). Qed.
Print Assumptions C77_lent.
Example C77_lent_ex : exists vs m os, exec (htcatches [] C77_setup) (empty_memory (fun n => n)) = MVal (vs, os) m /\
  nth_error vs 0 = Some (Some (mk_htvar KI (mk_hapint 100 (UExt 1)))) /\
  nth_error (fst (tacatches [] C77_setup)) 0 = Some (Some (mk_tval KI 100 (- 2 ^ 99))) /\
  nth_error (blocks (fst (interleave (concat (repeat [0; 1; 1] 40))%nat (m, tspawn 0 C77_give vs C77_programs)))) 1 =
    Some (Some [0; 34359738368]).
Proof. eexists. eexists. eexists. split; [vm_compute; reflexivity|]. repeat split; vm_compute; reflexivity. Qed.

(** C77: no thread waits for another, nor for one that died: whatever has happened, any
    thread ends if only it gets enough turns. *)
Theorem C77_progress setup slack give programs vs m schedule i :
  tforked setup slack give programs vs m -> (i < length programs)%nat ->
  exists n r, nth_error (snd (interleave (schedule ++ repeat i n) (m, tspawn 0 give vs programs))) i = Some (HRet r).
Proof. exact (tpool_progress_fact setup slack give programs vs m schedule i). Qed.
Print Assumptions C77_progress.
Example C77_progress_ex : exists vs m os, exec (htcatches [] C77_setup) (empty_memory (fun n => n)) = MVal (vs, os) m /\
  match nth_error (snd (interleave (repeat 0 60 ++ [1]) (m, tspawn 0 C77_give vs C77_programs))) 1 with Some (HRet _) => False | _ => True end%nat /\
  match nth_error (snd (interleave (repeat 0 60 ++ [1] ++ repeat 1 60) (m, tspawn 0 C77_give vs C77_programs))) 1 with Some (HRet _) => True | _ => False end%nat.
Proof. eexists. eexists. eexists. split; [vm_compute; reflexivity|]. vm_compute. auto. Qed.

(** C77: when all threads have ended, by returning or by a panic, every allocated buffer has
    exactly one owner: a variable that the main thread had lent, or a variable of one thread. *)
Theorem C77_join setup slack give programs vs m schedule m' ts :
  tforked setup slack give programs vs m ->
  interleave schedule (m, tspawn 0 give vs programs) = (m', ts) -> Forall (fun h => exists r, h = HRet r) ts ->
  forall p ds, nth_error (blocks m') p = Some (Some ds) -> exists! o, towner give vs ts o p.
Proof. exact (tpool_join_fact setup slack give programs vs m schedule m' ts). Qed.
Print Assumptions C77_join.
Example C77_join_ex : exists vs m os, exec (htcatches [] C77_setup) (empty_memory (fun n => n)) = MVal (vs, os) m /\
  let '(m', ts) := interleave (concat (repeat [0; 1; 1] 40))%nat (m, tspawn 0 C77_give vs C77_programs) in
  Forall (fun h => exists r, h = HRet r) ts /\
  (exists p, nth_error (blocks m') p <> None /\ towner C77_give vs ts (Some 1%nat, 5%nat) p).
Proof.
  eexists. eexists. eexists. split; [vm_compute; reflexivity|]. vm_compute. split; [repeat constructor; eauto|].
  eexists. split; cycle 1.
  - split; [discriminate|]. do 2 eexists. split; [reflexivity|]. eexists. split; reflexivity.
  - vm_compute. discriminate.
Qed.

(** C77: a thread that died of a panic has nothing left but what was lent to it. *)
Theorem C77_dead setup slack give programs vs m schedule m' ts i vs' os x a :
  tforked setup slack give programs vs m ->
  interleave schedule (m, tspawn 0 give vs programs) = (m', ts) ->
  nth_error ts i = Some (HRet (vs', (os, true))) -> nth_error vs' x = Some (Some a) -> borrowed give x.
Proof. exact (tpool_dead_fact setup slack give programs vs m schedule m' ts i vs' os x a). Qed.
Print Assumptions C77_dead.
Example C77_dead_ex : exists vs m os, exec (htcatches [] C77_setup) (empty_memory (fun n => n)) = MVal (vs, os) m /\
  let '(m', ts) := interleave (concat (repeat [0; 1; 1] 40))%nat (m, tspawn 0 C77_give vs C77_programs) in
  exists v2 v4, nth_error ts 0 = Some (HRet ([Some (mk_htvar KI (mk_hapint 100 (UExt 1))); None; Some v2; None; Some v4; None],
    ([None; Some (Shows ODone); None], true))).
Proof. eexists. eexists. eexists. split; [vm_compute; reflexivity|]. vm_compute. eauto. Qed.

(** C77: when all threads have died of panics, nothing is allocated but what the main thread
    had lent: what the threads owned, and what they had created, is freed. *)
Theorem C77_no_leak setup slack give programs vs m schedule m' ts :
  tforked setup slack give programs vs m ->
  interleave schedule (m, tspawn 0 give vs programs) = (m', ts) -> Forall (fun h => exists vs' os, h = HRet (vs', (os, true))) ts ->
  forall p ds, nth_error (blocks m') p = Some (Some ds) -> exists x, borrowed give x /\ points_to (inside vs) x p.
Proof. exact (tpool_no_leak_fact setup slack give programs vs m schedule m' ts). Qed.
Print Assumptions C77_no_leak.
Example C77_no_leak_ex : exists vs m os, exec (htcatches [] C77_setup) (empty_memory (fun n => n)) = MVal (vs, os) m /\
  let '(m', ts) := interleave (concat (repeat [0; 1] 40))%nat (m, tspawn 0 C77_give vs
    [[(true, TBin Operator TDiv 1 2); (false, TClone 0); (false, TBin Operator TRem 1 2)]; [(false, TClone 4); (false, TBin Operator TAdd 3 4)]]) in
  Forall (fun h => exists vs' os, h = HRet (vs', (os, true))) ts /\
  (length (filter (fun b => match b with Some _ => true | None => false end) (blocks m')) = 2 /\ 8 < length (blocks m'))%nat.
Proof. eexists. eexists. eexists. split; [vm_compute; reflexivity|]. vm_compute. split; [repeat constructor; eauto|]. split; [reflexivity|lia]. Qed.
