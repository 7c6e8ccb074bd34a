(** Property C95, continued: the same for the threads of C90, which use buffers as scratch space: however much they scribble, if every
    thread goes on again and again, from some moment on all have ended, with the results that they have when they run
    alone.  The words used in the statements are defined in SpecFair.v and in the files of C90. *)
From Verif Require Import LThreadsFairScratch PThreadsScratch.

(** C95: in every history that goes on forever, in which every thread goes on again and again, there comes a moment from which on each
    thread has ended: it saw the panics and the results that the abstract machine of C58 sees, run alone from the
    variables handed to it, ended as it does, and its integers are the machine's. *)
Theorem C95_scratch_ends junk setup slack give programs vs m f :
  forked_catching setup slack give programs vs m -> (forall i, (i < length programs)%nat -> recurs f (Goes i)) ->
  exists N, forall n, (N <= n)%nat ->
  let '(m', ts) := carry_on junk (first n f) (m, map DAt (spawn_catching 0 give vs programs)) in
  length ts = length programs /\ forall i p, nth_error programs i = Some p ->
  let (s', r') := athread (keeper give) (hand i give (fst (acatches [] setup))) p in
  exists vs' cs', nth_error ts i = Some (DAt (HRet (vs', r'))) /\ Forall2 holds cs' s' /\ Forall2 (stored m') vs' cs'.
Proof. exact (scratch_fair_fact junk setup slack give programs vs m f). Qed.
Print Assumptions C95_scratch_ends.
(** Four scribbles, then thread 1, then thread 0. *)
Definition C95_history (n : nat) : deed := nth (n mod 6) [Scribbles 0 1 0 9; Scribbles 1 3 0 8; Scribbles 0 4 1 7; Scribbles 1 4 0 6; Goes 1; Goes 0] (Goes 0).
Example C95_scratch_ends_ex : forall i, (i < length C90_programs)%nat -> recurs C95_history (Goes i).
Proof.
  intros [|[|i]] L; [| |cbn in L; lia]; intros n.
  - exists (5 + n * 6)%nat. split; [lia|]. unfold C95_history. rewrite Nat.mod_add by discriminate. reflexivity.
  - exists (4 + n * 6)%nat. split; [lia|]. unfold C95_history. rewrite Nat.mod_add by discriminate. reflexivity.
Qed.
Example C95_scratch_results_ex : exists vs m os, exec (hcatches [] C90_setup) (empty_memory (fun n => n)) = MVal (vs, os) m /\
  let run n := snd (carry_on (fun p i => 5%Z) (first n C95_history) (m, map DAt (spawn_catching 0 C90_give vs C90_programs))) in
  match run 30%nat with [DAt (HRet _); _] => False | _ => True end /\
  exists v0 v1, run 360%nat = [DAt (HRet (v0, ([None; Some ODone; None], true))); DAt (HRet (v1, ([None; Some ODone; Some ODone], false)))].
Proof. eexists. eexists. eexists. split; [vm_compute; reflexivity|]. vm_compute. split; [exact I|]. eexists. eexists. reflexivity. Qed.

(** C95: the same for threads on [UInt] and [Int]. *)
Theorem C95_typed_scratch_ends junk setup slack give programs vs m f :
  tforked setup slack give programs vs m -> (forall i, (i < length programs)%nat -> recurs f (Goes i)) ->
  exists N, forall n, (N <= n)%nat ->
  let '(m', ts) := carry_on junk (first n f) (m, map DAt (tspawn 0 give vs programs)) in
  length ts = length programs /\ forall i p, nth_error programs i = Some p ->
  let (s', r') := tathread (keeper give) (hand i give (fst (tacatches [] setup))) p in
  exists vs', nth_error ts i = Some (DAt (HRet (vs', r'))) /\ Forall2 (in_memory m') vs' s'.
Proof. exact (tscratch_fair_fact junk setup slack give programs vs m f). Qed.
Print Assumptions C95_typed_scratch_ends.
Example C95_typed_scratch_ends_ex : forall i, (i < length C90_typed_programs)%nat -> recurs C95_history (Goes i).
Proof. exact C95_scratch_ends_ex. Qed.
Example C95_typed_scratch_forked_ex : exists vs m, tforked C90_typed_setup (fun n => n) C90_typed_give C90_typed_programs vs m.
Proof. destruct C90_typed_race_free_forked_ex as (vs & m & H & _). eauto. Qed.
