(** Property C87: what C79 and C86 say, for schedules that go on forever: if every thread gets turns
    again and again, then from some moment on all threads have ended, with the results that they
    have when they run alone.  The words used in the statements are defined in SpecFair.v and in
    the files of C79 and C86. *)
From Verif Require Import LThreadsFair.

(** C87: under every fair schedule there comes a moment from which on each thread has ended: it
    saw the panics and the results that the abstract machine of C58 sees, run alone from
    the variables handed to it, ended as it does, and its integers are the machine's. *)
Theorem C87_ends junk setup slack give programs vs m f :
  forked_catching setup slack give programs vs m -> fair (length programs) f ->
  exists N, forall n, (N <= n)%nat ->
  let '(m', ts) := dinterleave junk (first n f) (m, map DAt (spawn_catching 0 give vs programs)) in
  length ts = length programs /\ forall i p, nth_error programs i = Some p ->
  let (s', r') := athread (keeper give) (hand i give (fst (acatches [] setup))) p in
  exists vs' cs', nth_error ts i = Some (DAt (HRet (vs', r'))) /\ Forall2 holds cs' s' /\ Forall2 (stored m') vs' cs'.
Proof. exact (digits_fair_fact junk setup slack give programs vs m f). Qed.
Print Assumptions C87_ends.
(** Thread 0 catches one panic and dies of another; thread 1 loses an integer to a panic that it catches. *)
Definition C87_setup : list cmd := [New (NAllSet 100); New (NOne 100); New (NU16 7); New (NSMin 70)].
Definition C87_give : sharing := [None; Some 0%nat; Some 0%nat; Some 1%nat].
Definition C87_programs : list (list (bool * cmd)) :=
  [[(true, Bin BSdiv 1 2); (false, Clone 0); (false, Bin BSrem 1 2); (false, Clone 0)];
   [(true, IntoBin BSrem 3 0); (false, Clone 0); (false, Mut MInc 4)]].
(** Thread 0 gets one turn in three. *)
Definition C87_fair (n : nat) : nat := nth (n mod 3) [1; 0; 1]%nat 0%nat.
Example C87_ends_ex : exists vs m, forked_catching C87_setup (fun n => n) C87_give C87_programs vs m /\ fair (length C87_programs) C87_fair.
Proof.
  eexists. eexists. split; [split; [repeat constructor; cbn; lia|]|].
  - split; [eexists; vm_compute; reflexivity|]. split; [reflexivity|]. split.
    + intros [|[|[|[|x]]]] i E; cbn in E; try discriminate; [injection E as <-|injection E as <-|injection E as <-|destruct x; discriminate]; cbn; lia.
    + unfold respects, borrowed. repeat constructor; cbn; try lia; intros x I; intuition (subst; discriminate).
  - intros [|[|i]] L; [| |cbn in L; lia]; intros n.
    + exists (1 + n * 3)%nat. split; [lia|]. unfold C87_fair. rewrite Nat.mod_add by discriminate. reflexivity.
    + exists (0 + n * 3)%nat. split; [lia|]. unfold C87_fair. rewrite Nat.mod_add by discriminate. reflexivity.
Qed.
Example C87_results_ex : exists vs m os, exec (hcatches [] C87_setup) (empty_memory (fun n => n)) = MVal (vs, os) m /\
  let run n := snd (dinterleave (fun p i => 5%Z) (first n C87_fair) (m, map DAt (spawn_catching 0 C87_give vs C87_programs))) in
  match run 20%nat with [DAt (HRet _); _] => False | _ => True end /\
  exists v0 v1, run 200%nat = [DAt (HRet (v0, ([None; Some ODone; None], true))); DAt (HRet (v1, ([None; Some ODone; Some ODone], false)))].
Proof. eexists. eexists. eexists. split; [vm_compute; reflexivity|]. vm_compute. split; [exact I|]. eexists. eexists. reflexivity. Qed.
(** Without turns a thread stays where it is: fairness is needed. *)
Example C87_unfair_ex {R : Type} junk n (m : mem) (a b : dthread R) : nth_error (snd (dinterleave junk (first n (fun _ => 0%nat)) (m, [a; b]))) 1 = Some b.
Proof.
  assert (X : forall (s : dpool R), nth_error (snd s) 1 = Some b -> nth_error (snd (dinterleave junk (first n (fun _ => 0%nat)) s)) 1 = Some b).
  { induction n as [|n IH]; intros s E; [exact E|]. rewrite first_step. cbn [dinterleave]. apply IH. rewrite dturn_other by discriminate. exact E. }
  now apply X.
Qed.

(** C87: the same when writes are delayed: if, besides, each thread's oldest write under way reaches
    the memory again and again, there comes a moment from which on each thread has ended as it
    does alone and none of its writes are under way. *)
Theorem C87_delays_ends junk setup slack give programs vs m f :
  forked_catching setup slack give programs vs m -> fair_delays (length programs) f ->
  exists N, forall n, (N <= n)%nat ->
  let '(m', ts) := unfolds junk (first n f) (m, started (spawn_catching 0 give vs programs)) in
  length ts = length programs /\ forall i p, nth_error programs i = Some p ->
  let (s', r') := athread (keeper give) (hand i give (fst (acatches [] setup))) p in
  exists vs' cs', nth_error ts i = Some (DAt (HRet (vs', r')), []) /\ Forall2 holds cs' s' /\ Forall2 (stored m') vs' cs'.
Proof. exact (buffers_fair_fact junk setup slack give programs vs m f). Qed.
Print Assumptions C87_delays_ends.
(** Thread 1's writes often reach the memory in another order. *)
Definition C87_fair_delays (n : nat) : happening := nth (n mod 5) [Turn 0; Turn 1; Reach 1 1; Reach 0 0; Reach 1 0] (Turn 0).
Example C87_delays_ends_ex : fair_delays (length C87_programs) C87_fair_delays.
Proof.
  assert (X : forall k, (k < 5)%nat -> recurs C87_fair_delays (nth k [Turn 0; Turn 1; Reach 1 1; Reach 0 0; Reach 1 0] (Turn 0))).
  { intros k L n. exists (k + n * 5)%nat. split; [lia|]. unfold C87_fair_delays. rewrite Nat.mod_add by discriminate. now rewrite Nat.mod_small. }
  intros [|[|i]] L; [| |cbn in L; lia]; split.
  - apply (X 0%nat). lia.
  - apply (X 3%nat). lia.
  - apply (X 1%nat). lia.
  - apply (X 4%nat). lia.
Qed.
Example C87_delays_results_ex : exists vs m os, exec (hcatches [] C87_setup) (empty_memory (fun n => n)) = MVal (vs, os) m /\
  let run n := snd (unfolds (fun p i => 5%Z) (first n C87_fair_delays) (m, started (spawn_catching 0 C87_give vs C87_programs))) in
  match run 20%nat with [(DAt (HRet _), _); _] => False | _ => True end /\
  exists v0 v1, run 400%nat = [(DAt (HRet (v0, ([None; Some ODone; None], true))), []); (DAt (HRet (v1, ([None; Some ODone; Some ODone], false))), [])].
Proof. eexists. eexists. eexists. split; [vm_compute; reflexivity|]. vm_compute. split; [exact I|]. eexists. eexists. reflexivity. Qed.
(** A write that never reaches the memory keeps the thread from freeing the buffer forever:
    that writes arrive is needed. *)
Example C87_stuck_ex n : let h := HStore 0 [7] (HFree 0 1 (HRet tt)) in
  snd (unfolds (fun p i => 5%Z) (first n (fun _ => Turn 0)) (mk_mem (fun n => n) [Some [1]], started [h])) =
    match n with 0%nat => started [h] | _ => [(DAt (HFree 0 1 (HRet tt)), [mk_write 0 0 7])] end.
Proof.
  intros h. destruct n as [|n]; [reflexivity|]. rewrite first_step. unfold h. cbn -[first].
  induction n as [|n IH]; [reflexivity|]. rewrite first_step. exact IH.
Qed.

(** C87: under every fair schedule all threads on [UInt] and [Int] end, as they do alone. *)
Theorem C87_typed_ends junk setup slack give programs vs m f :
  tforked setup slack give programs vs m -> fair (length programs) f ->
  exists N, forall n, (N <= n)%nat ->
  let '(m', ts) := dinterleave junk (first n f) (m, map DAt (tspawn 0 give vs programs)) in
  length ts = length programs /\ forall i p, nth_error programs i = Some p ->
  let (s', r') := tathread (keeper give) (hand i give (fst (tacatches [] setup))) p in
  exists vs', nth_error ts i = Some (DAt (HRet (vs', r'))) /\ Forall2 (in_memory m') vs' s'.
Proof. exact (tdigits_fair_fact junk setup slack give programs vs m f). Qed.
Print Assumptions C87_typed_ends.
(** Thread 0 catches the panic of [+=] and dies of that of [/=]; thread 1 loses an integer to a panic that it catches. *)
Definition C87_typed_setup : list tcmd := [TNew KI (TMin 100); TNew KI (TMax 100); TNew KI (TPrim W8 (-5)); TNew KU (TMax 70); TNew KU (TZero 80)].
Definition C87_typed_give : sharing := [None; Some 0%nat; None; Some 1%nat; None].
Definition C87_typed_programs : list (list (bool * tcmd)) :=
  [[(true, TBin Operator TAdd 1 2); (false, TClone 0); (false, TBin Operator TDiv 1 2); (false, TClone 0)];
   [(true, TIntoBin Operator TMul 3 4); (false, TClone 4); (false, TMut Operator (TShl 5) 5)]].
Example C87_typed_ends_ex : exists vs m, tforked C87_typed_setup (fun n => n) C87_typed_give C87_typed_programs vs m /\ length vs = 5%nat /\
  fair (length C87_typed_programs) C87_fair.
Proof.
  eexists. eexists. split; [split; [repeat constructor; cbn; lia|]|].
  - split; [eexists; vm_compute; reflexivity|]. split; [reflexivity|]. split.
    + intros [|[|[|[|[|x]]]]] i E; cbn in E; try discriminate; [injection E as <-|injection E as <-|destruct x; discriminate]; cbn; lia.
    + unfold trespects, borrowed. repeat constructor; cbn; try lia; intros x I; intuition (subst; discriminate).
  - split; [reflexivity|]. destruct C87_ends_ex as (_ & _ & _ & F). exact F.
Qed.
Example C87_typed_results_ex : exists vs m os, exec (htcatches [] C87_typed_setup) (empty_memory (fun n => n)) = MVal (vs, os) m /\
  let run n := snd (dinterleave (fun p i => 5%Z) (first n C87_fair) (m, map DAt (tspawn 0 C87_typed_give vs C87_typed_programs))) in
  match run 20%nat with [DAt (HRet _); _] => False | _ => True end /\
  match run 300%nat with [DAt (HRet (_, ([None; Some (Shows ODone); None], true))); DAt (HRet (_, ([None; Some (Shows ODone); Some (Shows ODone)], false)))] => True | _ => False end.
Proof. eexists. eexists. eexists. split; [vm_compute; reflexivity|]. vm_compute. auto. Qed.

(** C87: the same of threads on [UInt] and [Int] when writes are delayed. *)
Theorem C87_typed_delays_ends junk setup slack give programs vs m f :
  tforked setup slack give programs vs m -> fair_delays (length programs) f ->
  exists N, forall n, (N <= n)%nat ->
  let '(m', ts) := unfolds junk (first n f) (m, started (tspawn 0 give vs programs)) in
  length ts = length programs /\ forall i p, nth_error programs i = Some p ->
  let (s', r') := tathread (keeper give) (hand i give (fst (tacatches [] setup))) p in
  exists vs', nth_error ts i = Some (DAt (HRet (vs', r')), []) /\ Forall2 (in_memory m') vs' s'.
Proof. exact (tbuffers_fair_fact junk setup slack give programs vs m f). Qed.
Print Assumptions C87_typed_delays_ends.
Example C87_typed_delays_ends_ex : fair_delays (length C87_typed_programs) C87_fair_delays /\
  exists vs m os, exec (htcatches [] C87_typed_setup) (empty_memory (fun n => n)) = MVal (vs, os) m /\
  let run n := snd (unfolds (fun p i => 5%Z) (first n C87_fair_delays) (m, started (tspawn 0 C87_typed_give vs C87_typed_programs))) in
  match run 600%nat with [(DAt (HRet (_, ([None; Some (Shows ODone); None], true))), []); (DAt (HRet (_, ([None; Some (Shows ODone); Some (Shows ODone)], false))), [])] => True | _ => False end.
Proof. split; [exact C87_delays_ends_ex|]. eexists. eexists. eexists. split; [vm_compute; reflexivity|]. vm_compute. exact I. Qed.
