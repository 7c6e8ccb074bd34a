(** Property C95: what C87 says of schedules that go on forever, on the flat memory of C93: if every thread gets turns again
    and again, and the allocator is honest and always has memory, then from some moment on all threads have ended, with
    the results that they have when they run alone.  The words used in the statements are defined in SpecFair.v, in
    SpecFlat.v and in the files of C93. *)
From Verif Require Import LThreadsFairFlat PFlat PThreadsFlat.

(** C95: wherever an honest allocator that always has memory places the buffers, and whatever else goes on in the process, under
    every fair schedule there comes a moment from which on each thread has ended: it saw the panics and the results that
    the abstract machine of C58 sees, run alone from the variables handed to it, ended as it does, and its integers are
    the machine's, their digits in memory where they should be. *)
Theorem C95_ends w0 m0 setup give programs vs m w t f :
  forked_flat w0 m0 setup give programs vs m -> honest w -> generous w -> fair (length programs) f ->
  exists N, forall n, (N <= n)%nat -> exists m' ts,
  finterleave w t (first n f) (m, spawn_catching 0 give vs programs) = Some (m', ts) /\ length ts = length programs /\
  forall i p, nth_error programs i = Some p ->
  let (s', r') := athread (keeper give) (hand i give (fst (acatches [] setup))) p in
  exists vs' cs', nth_error ts i = Some (HRet (vs', r')) /\ Forall2 holds cs' s' /\ Forall2 (fstored m') vs' cs'.
Proof. exact (fthreads_fair_fact w0 m0 setup give programs vs m w t f). Qed.
Print Assumptions C95_ends.
(** Thread 0 gets one turn in three. *)
Definition C95_fair (n : nat) : nat := nth (n mod 3) [1; 0; 1]%nat 0%nat.
Example C95_ends_ex : fair (length C93_programs) C95_fair /\ honest C92_world /\ generous C92_world /\
  exists vs m, forked_flat C92_world C92_before C93_setup C93_give C93_programs vs m.
Proof.
  split; [|split; [exact (proj1 C92_world_ok)|split; [exact (proj2 C92_world_ok)|]]].
  - intros [|[|i]] L; [| |cbn in L; lia]; intros n.
    + exists (1 + n * 3)%nat. split; [lia|]. unfold C95_fair. rewrite Nat.mod_add by discriminate. reflexivity.
    + exists (0 + n * 3)%nat. split; [lia|]. unfold C95_fair. rewrite Nat.mod_add by discriminate. reflexivity.
  - destruct C93_race_free_ex as (vs & m & H & _). eauto.
Qed.
Example C95_results_ex :
  match C93_after C92_world (first 20 C95_fair) with Some (_, (_, [HRet _; _])) => False | Some _ => True | None => False end /\
  match C93_after C92_world (first 90 C95_fair) with
  | Some (_, (m, [HRet (v0, r0); HRet (v1, r1)])) =>
      r0 = ([None; Some ODone; None], true) /\ r1 = ([None; Some ODone; Some ODone], false) /\ words_at m 0 2 = [2 ^ 64 - 1; 2 ^ 36 - 1]
  | _ => False
  end.
Proof. vm_compute. repeat split; reflexivity. Qed.
(** Where memory runs out the process is gone instead: [generous] is needed. *)
Example C95_no_memory_ex : C93_after C92_small (first 90 C95_fair) = None.
Proof. vm_compute. reflexivity. Qed.

(** C95: the same for threads on [UInt] and [Int]: under every fair schedule there comes a moment from which on each thread has
    ended as the abstract machine of C69 does alone, and its variables have the machine's types, widths and integers. *)
Theorem C95_typed_ends w0 m0 setup give programs vs m w t f :
  tforked_flat w0 m0 setup give programs vs m -> honest w -> generous w -> fair (length programs) f ->
  exists N, forall n, (N <= n)%nat -> exists m' ts,
  finterleave w t (first n f) (m, tspawn 0 give vs programs) = Some (m', ts) /\ length ts = length programs /\
  forall i p, nth_error programs i = Some p ->
  let (s', r') := tathread (keeper give) (hand i give (fst (tacatches [] setup))) p in
  exists vs', nth_error ts i = Some (HRet (vs', r')) /\ Forall2 (fin_memory m') vs' s'.
Proof. exact (tfthreads_fair_fact w0 m0 setup give programs vs m w t f). Qed.
Print Assumptions C95_typed_ends.
Example C95_typed_ends_ex : fair (length C93_typed_programs) C95_fair /\ honest C92_world /\ generous C92_world /\
  exists vs m, tforked_flat C92_world C92_before C93_typed_setup C93_typed_give C93_typed_programs vs m.
Proof.
  destruct C95_ends_ex as (F & H & G & _). split; [exact F|]. split; [exact H|]. split; [exact G|].
  destruct C93_typed_race_free_ex as (vs & m & K & _). eauto.
Qed.
Example C95_typed_results_ex :
  match C93_typed_after C92_world (first 120 C95_fair) with
  | Some (_, (m, [HRet (v0, r0); HRet (v1, r1)])) =>
      r0 = ([None; Some (Shows ODone); None], true) /\ r1 = ([None; Some (Shows ODone); Some (Shows ODone)], false) /\ length v1 = 6%nat
  | _ => False
  end.
Proof. vm_compute. repeat split; reflexivity. Qed.
