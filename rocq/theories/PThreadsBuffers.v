(** Property C86: what C79 says, for threads on a machine that delays writes: what a thread writes
    is at first only seen by that thread, and reaches the memory later, writes to different
    digits in any order.  A [history] says at which moments which thread gets a turn and which
    write reaches the memory.  The words used in the statements are defined in
    SpecThreadsBuffers.v and in the files of C79. *)
From Verif Require Import LThreadsBuffers.

(** C86: the delays cannot be observed: whatever happens, each thread is where it is after some
    schedule of the machine of C79, on which each write is seen by all at once; and when all
    writes have reached the memory it holds what it holds there. *)
Theorem C86_same junk setup slack give programs vs m history m' ts :
  forked_catching setup slack give programs vs m ->
  unfolds junk history (m, started (spawn_catching 0 give vs programs)) = (m', ts) ->
  exists schedule m0, dinterleave junk schedule (m, map DAt (spawn_catching 0 give vs programs)) = (m0, map fst ts) /\
    (settled ts -> m' = m0).
Proof. exact (buffers_same_fact junk setup slack give programs vs m history m' ts). Qed.
Print Assumptions C86_same.
(** Thread 0 catches one panic and dies of another; thread 1 loses an integer to a panic that it catches. *)
Definition C86_setup : list cmd := [New (NAllSet 100); New (NOne 100); New (NU16 7); New (NSMin 70)].
Definition C86_give : sharing := [None; Some 0%nat; Some 0%nat; Some 1%nat].
Definition C86_programs : list (list (bool * cmd)) :=
  [[(true, Bin BSdiv 1 2); (false, Clone 0); (false, Bin BSrem 1 2); (false, Clone 0)];
   [(true, IntoBin BSrem 3 0); (false, Clone 0); (false, Mut MInc 4)]].
Example C86_same_ex : exists vs m, forked_catching C86_setup (fun n => n) C86_give C86_programs vs m /\ length vs = 4%nat.
Proof.
  eexists. eexists. split; [split; [repeat constructor; cbn; lia|]|].
  - split; [eexists; vm_compute; reflexivity|]. split; [reflexivity|]. split.
    + intros [|[|[|[|x]]]] i E; cbn in E; try discriminate; [injection E as <-|injection E as <-|injection E as <-|destruct x; discriminate]; cbn; lia.
    + unfold respects, borrowed. repeat constructor; cbn; try lia; intros x I; intuition (subst; discriminate).
  - reflexivity.
Qed.
(** Two writes are under way, the second of them reaches the memory first, and then the thread
    that made them waits until the first has. *)
Example C86_under_way_ex :
  let k := HFree 0 2 (HRet tt) in
  let s := (mk_mem (fun n => n) [Some [1; 1]], started [HStore 0 [7; 8] k]) in
  unfolds (fun p i => 5%Z) [Turn 0; Turn 0; Reach 0 1; Turn 0] s = (mk_mem (fun n => n) [Some [1; 8]], [(DAt k, [mk_write 0 0 7])]) /\
  unfolds (fun p i => 5%Z) [Turn 0; Turn 0; Reach 0 1; Turn 0; Reach 0 0; Turn 0] s = (mk_mem (fun n => n) [None], [(DAt (HRet tt), [])]).
Proof. split; reflexivity. Qed.
(** Threads that race do observe the delays: each of two threads writes 1 to a buffer and then
    reads the other's, and both read 0.  No schedule without delays has them both read 0. *)
Definition C86_racing : list (HM (list Z)) := [HStore 0 [1] (HLoad 1 1 HRet); HStore 1 [1] (HLoad 0 1 HRet)].
Definition C86_zeros : mem := mk_mem (fun n => n) [Some [0]; Some [0]].
Example C86_racing_ex : map fst (snd (unfolds (fun p i => 5%Z) [Turn 0; Turn 1; Turn 0; Turn 1] (C86_zeros, started C86_racing))) = [DAt (HRet [0]); DAt (HRet [0])].
Proof. reflexivity. Qed.
Definition C86_states : list (dpool (list Z)) :=
  let m a b := mk_mem (fun n => n) [Some [a]; Some [b]] in
  let w0 := DAt (HStore 0 [1] (HLoad 1 1 HRet)) in let w1 := DAt (HStore 1 [1] (HLoad 0 1 HRet)) in
  let r0 := DAt (HLoad 1 1 HRet) in let r1 := DAt (HLoad 0 1 HRet) in let e d := DAt (HRet [d]) in
  [(m 0 0, [w0; w1]); (m 1 0, [r0; w1]); (m 0 1, [w0; r1]); (m 1 1, [r0; r1]); (m 1 0, [e 0; w1]); (m 0 1, [w0; e 0]);
   (m 1 1, [e 0; r1]); (m 1 1, [r0; e 0]); (m 1 1, [e 1; r1]); (m 1 1, [r0; e 1]); (m 1 1, [e 0; e 1]); (m 1 1, [e 1; e 0]); (m 1 1, [e 1; e 1])].
Example C86_no_racing_ex schedule : snd (dinterleave (fun p i => 5%Z) schedule (C86_zeros, map DAt C86_racing)) <> [DAt (HRet [0]); DAt (HRet [0])].
Proof.
  assert (X : forall sch s, In s C86_states -> In (dinterleave (fun p i => 5%Z) sch s) C86_states).
  { induction sch as [|i sch IH]; intros s H; [exact H|]. cbn [dinterleave]. apply IH. clear IH.
    assert (Y : i = 0%nat \/ i = 1%nat \/ (2 <= i)%nat) by lia. unfold C86_states in H. cbv zeta in H. cbn [In] in H.
    destruct Y as [->|[->|Y]].
    - repeat (destruct H as [<-|H]; [cbn; tauto|]). destruct H.
    - repeat (destruct H as [<-|H]; [cbn; tauto|]). destruct H.
    - assert (Z : dturn (fun p i => 5%Z) i s = s).
      { unfold dturn. replace (nth_error (snd s) i) with (@None (dthread (list Z))); [reflexivity|]. symmetry. apply nth_error_None.
        replace (length (snd s)) with 2%nat; [exact Y|]. repeat (destruct H as [<-|H]; [reflexivity|]). destruct H. }
      rewrite Z. exact H. }
  assert (H : In (dinterleave (fun p i => 5%Z) schedule (C86_zeros, map DAt C86_racing)) C86_states) by (apply X; now left).
  intros E. unfold C86_states in H. cbv zeta in H. cbn [In] in H.
  repeat (destruct H as [H|H]; [rewrite <- H in E; discriminate E|]). destruct H.
Qed.

(** C86: whatever happens, at no time do two threads use the same buffer, one of them to write to it
    or to free it, nor does one use a buffer to which another has a write under way; no write
    reaches a buffer that has been freed, and no thread does anything else undefined. *)
Theorem C86_race_free junk setup slack give programs vs m history :
  forked_catching setup slack give programs vs m ->
  let '(m', ts) := unfolds junk history (m, started (spawn_catching 0 give vs programs)) in
  ~ digit_race (map fst ts) /\ ~ delayed_race ts /\ ~ In (DAt HUndef) (map fst ts) /\ ~ In (DAt HPanic) (map fst ts) /\ ~ In (DAt HFuel) (map fst ts).
Proof. exact (buffers_race_free_fact junk setup slack give programs vs m history). Qed.
Print Assumptions C86_race_free.
Example C86_race_free_ex : exists vs m os, exec (hcatches [] C86_setup) (empty_memory (fun n => n)) = MVal (vs, os) m /\
  match snd (unfolds (fun p i => 5%Z) (repeat (Turn 1) 13 ++ repeat (Turn 0) 4) (m, started (spawn_catching 0 C86_give vs C86_programs))) with [_; (_, _ :: _)] => True | _ => False end.
Proof. eexists. eexists. eexists. split; [vm_compute; reflexivity|]. vm_compute. exact I. Qed.

(** C86: a thread that has ended saw the panics and the results that the abstract machine of C58
    sees, run alone from the variables handed to it, and ended as it does; when its own
    writes have reached the memory its integers are the machine's, their digits where they
    should be, whatever is under way elsewhere. *)
Theorem C86_isolated junk setup slack give programs vs m history m' ts i p vs' r ws :
  forked_catching setup slack give programs vs m ->
  unfolds junk history (m, started (spawn_catching 0 give vs programs)) = (m', ts) ->
  nth_error programs i = Some p -> nth_error ts i = Some (DAt (HRet (vs', r)), ws) ->
  let (s', r') := athread (keeper give) (hand i give (fst (acatches [] setup))) p in
  r = r' /\ (ws = [] -> exists cs', Forall2 holds cs' s' /\ Forall2 (stored m') vs' cs').
Proof. exact (buffers_isolated_fact junk setup slack give programs vs m history m' ts i p vs' r ws). Qed.
Print Assumptions C86_isolated.
Definition C86_history : list happening := concat (repeat [Turn 0; Turn 1; Turn 1; Reach 0 0; Reach 1 1; Reach 1 0; Turn 0] 60)%nat.
Example C86_isolated_ex : exists vs m os, exec (hcatches [] C86_setup) (empty_memory (fun n => n)) = MVal (vs, os) m /\
  let '(m', ts) := unfolds (fun p i => 5%Z) C86_history (m, started (spawn_catching 0 C86_give vs C86_programs)) in
  exists v0 v1, ts = [(DAt (HRet (v0, ([None; Some ODone; None], true))), []); (DAt (HRet (v1, ([None; Some ODone; Some ODone], false))), [])].
Proof. eexists. eexists. eexists. split; [vm_compute; reflexivity|]. vm_compute. eexists. eexists. reflexivity. Qed.

(** C86: at every moment the memory has, for the main thread's variables that are lent, what they held. *)
Theorem C86_lent junk setup slack give programs vs m history :
  forked_catching setup slack give programs vs m ->
  exists cs, Forall2 holds cs (fst (acatches [] setup)) /\ Forall2 (stored m) vs cs /\
  let '(m', ts) := unfolds junk history (m, started (spawn_catching 0 give vs programs)) in
  forall x v c, borrowed give x -> nth_error vs x = Some v -> nth_error cs x = Some c -> stored m' v c.
Proof. exact (buffers_lent_fact junk setup slack give programs vs m history). Qed.
Print Assumptions C86_lent.
Example C86_lent_ex : exists vs m os, exec (hcatches [] C86_setup) (empty_memory (fun n => n)) = MVal (vs, os) m /\
  nth_error vs 0 = Some (Some (mk_hapint 100 (UExt 1))) /\
  nth_error (blocks (fst (unfolds (fun p i => 5%Z) C86_history (m, started (spawn_catching 0 C86_give vs C86_programs))))) 1 =
    Some (Some [18446744073709551615; 68719476735]).
Proof. eexists. eexists. eexists. split; [vm_compute; reflexivity|]. split; vm_compute; reflexivity. Qed.

(** C86: no thread waits for another, nor for another's writes: whatever has happened, any thread
    ends, with no writes under way, if only it gets turns and its writes reach the memory. *)
Theorem C86_progress junk setup slack give programs vs m history i :
  forked_catching setup slack give programs vs m -> (i < length programs)%nat ->
  exists later r, Forall (fun e => e = Turn i \/ e = Reach i 0) later /\
    nth_error (snd (unfolds junk (history ++ later) (m, started (spawn_catching 0 give vs programs)))) i = Some (DAt (HRet r), []).
Proof. exact (buffers_progress_fact junk setup slack give programs vs m history i). Qed.
Print Assumptions C86_progress.
Example C86_progress_ex : exists vs m os, exec (hcatches [] C86_setup) (empty_memory (fun n => n)) = MVal (vs, os) m /\
  match nth_error (snd (unfolds (fun p i => 5%Z) (repeat (Turn 1) 200) (m, started (spawn_catching 0 C86_give vs C86_programs)))) 1 with
    Some (DAt (HRet _), []) => False | _ => True end%nat /\
  match nth_error (snd (unfolds (fun p i => 5%Z) (repeat (Turn 1) 200 ++ concat (repeat [Reach 1 0; Turn 1] 100)) (m, started (spawn_catching 0 C86_give vs C86_programs)))) 1 with
    Some (DAt (HRet _), []) => True | _ => False end%nat.
Proof. eexists. eexists. eexists. split; [vm_compute; reflexivity|]. vm_compute. auto. Qed.

(** C86: when all threads have ended and all writes have reached the memory, every allocated buffer
    has exactly one owner: a variable that the main thread had lent, or a variable of one thread. *)
Theorem C86_join junk setup slack give programs vs m history m' ts :
  forked_catching setup slack give programs vs m ->
  unfolds junk history (m, started (spawn_catching 0 give vs programs)) = (m', ts) -> Forall (fun t => exists r, t = (DAt (HRet r), [])) ts ->
  forall p ds, nth_error (blocks m') p = Some (Some ds) -> exists! o, owner give vs (map pending (map fst ts)) o p.
Proof. exact (buffers_join_fact junk setup slack give programs vs m history m' ts). Qed.
Print Assumptions C86_join.
Example C86_join_ex : exists vs m os, exec (hcatches [] C86_setup) (empty_memory (fun n => n)) = MVal (vs, os) m /\
  let '(m', ts) := unfolds (fun p i => 5%Z) C86_history (m, started (spawn_catching 0 C86_give vs C86_programs)) in
  Forall (fun t => exists r, t = (DAt (HRet r), [])) ts /\
  (exists p, nth_error (blocks m') p <> None /\ owner C86_give vs (map pending (map fst ts)) (Some 1%nat, 4%nat) p).
Proof.
  eexists. eexists. eexists. split; [vm_compute; reflexivity|]. vm_compute. split; [repeat constructor; eauto|].
  eexists. split; cycle 1.
  - split; [discriminate|]. do 2 eexists. split; [reflexivity|]. eexists. split; reflexivity.
  - vm_compute. discriminate.
Qed.

(** C86: the same of threads on [UInt] and [Int]. *)
Theorem C86_typed_same junk setup slack give programs vs m history m' ts :
  tforked setup slack give programs vs m ->
  unfolds junk history (m, started (tspawn 0 give vs programs)) = (m', ts) ->
  exists schedule m0, dinterleave junk schedule (m, map DAt (tspawn 0 give vs programs)) = (m0, map fst ts) /\
    (settled ts -> m' = m0).
Proof. exact (tbuffers_same_fact junk setup slack give programs vs m history m' ts). Qed.
Print Assumptions C86_typed_same.
(** Thread 0 catches the panic of [+=] and dies of that of [/=]; thread 1 loses an integer to a panic that it catches. *)
Definition C86_typed_setup : list tcmd := [TNew KI (TMin 100); TNew KI (TMax 100); TNew KI (TPrim W8 (-5)); TNew KU (TMax 70); TNew KU (TZero 80)].
Definition C86_typed_give : sharing := [None; Some 0%nat; None; Some 1%nat; None].
Definition C86_typed_programs : list (list (bool * tcmd)) :=
  [[(true, TBin Operator TAdd 1 2); (false, TClone 0); (false, TBin Operator TDiv 1 2); (false, TClone 0)];
   [(true, TIntoBin Operator TMul 3 4); (false, TClone 4); (false, TMut Operator (TShl 5) 5)]].
Example C86_typed_same_ex : exists vs m, tforked C86_typed_setup (fun n => n) C86_typed_give C86_typed_programs vs m /\ length vs = 5%nat.
Proof.
  eexists. eexists. split; [split; [repeat constructor; cbn; lia|]|].
  - split; [eexists; vm_compute; reflexivity|]. split; [reflexivity|]. split.
    + intros [|[|[|[|[|x]]]]] i E; cbn in E; try discriminate; [injection E as <-|injection E as <-|destruct x; discriminate]; cbn; lia.
    + unfold trespects, borrowed. repeat constructor; cbn; try lia; intros x I; intuition (subst; discriminate).
  - reflexivity.
Qed.

(** C86: at no time do threads on [UInt] and [Int] race, delayed writes included, nor do anything undefined. *)
Theorem C86_typed_race_free junk setup slack give programs vs m history :
  tforked setup slack give programs vs m ->
  let '(m', ts) := unfolds junk history (m, started (tspawn 0 give vs programs)) in
  ~ digit_race (map fst ts) /\ ~ delayed_race ts /\ ~ In (DAt HUndef) (map fst ts) /\ ~ In (DAt HPanic) (map fst ts) /\ ~ In (DAt HFuel) (map fst ts).
Proof. exact (tbuffers_race_free_fact junk setup slack give programs vs m history). Qed.
Print Assumptions C86_typed_race_free.
Example C86_typed_race_free_ex : exists vs m os, exec (htcatches [] C86_typed_setup) (empty_memory (fun n => n)) = MVal (vs, os) m /\
  match snd (unfolds (fun p i => 5%Z) (repeat (Turn 1) 40 ++ repeat (Turn 0) 4) (m, started (tspawn 0 C86_typed_give vs C86_typed_programs))) with [_; (_, _ :: _)] => True | _ => False end.
Proof. eexists. eexists. eexists. split; [vm_compute; reflexivity|]. vm_compute. exact I. Qed.

(** C86: a thread on [UInt] and [Int] that has ended saw the panics and the results that the abstract
    machine of C69 sees, run alone from the variables handed to it, and ended as it does; when
    its own writes have reached the memory its variables have the machine's types, widths and
    integers. *)
Theorem C86_typed_isolated junk setup slack give programs vs m history m' ts i p vs' r ws :
  tforked setup slack give programs vs m ->
  unfolds junk history (m, started (tspawn 0 give vs programs)) = (m', ts) ->
  nth_error programs i = Some p -> nth_error ts i = Some (DAt (HRet (vs', r)), ws) ->
  let (s', r') := tathread (keeper give) (hand i give (fst (tacatches [] setup))) p in
  r = r' /\ (ws = [] -> Forall2 (in_memory m') vs' s').
Proof. exact (tbuffers_isolated_fact junk setup slack give programs vs m history m' ts i p vs' r ws). Qed.
Print Assumptions C86_typed_isolated.
Example C86_typed_isolated_ex : exists vs m os, exec (htcatches [] C86_typed_setup) (empty_memory (fun n => n)) = MVal (vs, os) m /\
  let '(m', ts) := unfolds (fun p i => 5%Z) C86_history (m, started (tspawn 0 C86_typed_give vs C86_typed_programs)) in
  exists v0 v1, ts = [(DAt (HRet (v0, ([None; Some (Shows ODone); None], true))), []);
                      (DAt (HRet (v1, ([None; Some (Shows ODone); Some (Shows ODone)], false))), [])] /\ length v1 = 6%nat.
Proof. eexists. eexists. eexists. split; [vm_compute; reflexivity|]. vm_compute. eexists. eexists. split; reflexivity. Qed.

(** C86: at every moment the memory has, for the main thread's [UInt]s and [Int]s that are lent, what they held. *)
Theorem C86_typed_lent junk setup slack give programs vs m history :
  tforked setup slack give programs vs m ->
  let '(m', ts) := unfolds junk history (m, started (tspawn 0 give vs programs)) in
  forall x v t, borrowed give x -> nth_error vs x = Some v -> nth_error (fst (tacatches [] setup)) x = Some t -> in_memory m' v t.
Proof. exact (tbuffers_lent_fact junk setup slack give programs vs m history). Qed.
Print Assumptions C86_typed_lent.
Example C86_typed_lent_ex : exists vs m os, exec (htcatches [] C86_typed_setup) (empty_memory (fun n => n)) = MVal (vs, os) m /\
  nth_error vs 0 = Some (Some (mk_htvar KI (mk_hapint 100 (UExt 1)))) /\
  nth_error (fst (tacatches [] C86_typed_setup)) 0 = Some (Some (mk_tval KI 100 (- 2 ^ 99))) /\
  nth_error (blocks (fst (unfolds (fun p i => 5%Z) C86_history (m, started (tspawn 0 C86_typed_give vs C86_typed_programs))))) 1 =
    Some (Some [0; 34359738368]).
Proof. eexists. eexists. eexists. split; [vm_compute; reflexivity|]. repeat split; vm_compute; reflexivity. Qed.

(** C86: any thread on [UInt] and [Int] ends if only it gets turns and its writes reach the memory. *)
Theorem C86_typed_progress junk setup slack give programs vs m history i :
  tforked setup slack give programs vs m -> (i < length programs)%nat ->
  exists later r, Forall (fun e => e = Turn i \/ e = Reach i 0) later /\
    nth_error (snd (unfolds junk (history ++ later) (m, started (tspawn 0 give vs programs)))) i = Some (DAt (HRet r), []).
Proof. exact (tbuffers_progress_fact junk setup slack give programs vs m history i). Qed.
Print Assumptions C86_typed_progress.
Example C86_typed_progress_ex : exists vs m os, exec (htcatches [] C86_typed_setup) (empty_memory (fun n => n)) = MVal (vs, os) m /\
  match nth_error (snd (unfolds (fun p i => 5%Z) (repeat (Turn 1) 200) (m, started (tspawn 0 C86_typed_give vs C86_typed_programs)))) 1 with
    Some (DAt (HRet _), []) => False | _ => True end%nat /\
  match nth_error (snd (unfolds (fun p i => 5%Z) (repeat (Turn 1) 200 ++ concat (repeat [Reach 1 0; Turn 1] 100)) (m, started (tspawn 0 C86_typed_give vs C86_typed_programs)))) 1 with
    Some (DAt (HRet _), []) => True | _ => False end%nat.
Proof. eexists. eexists. eexists. split; [vm_compute; reflexivity|]. vm_compute. auto. Qed.

(** C86: when all threads on [UInt] and [Int] have ended and all writes have reached the memory, every
    allocated buffer has exactly one owner. *)
Theorem C86_typed_join junk setup slack give programs vs m history m' ts :
  tforked setup slack give programs vs m ->
  unfolds junk history (m, started (tspawn 0 give vs programs)) = (m', ts) -> Forall (fun t => exists r, t = (DAt (HRet r), [])) ts ->
  forall p ds, nth_error (blocks m') p = Some (Some ds) -> exists! o, towner give vs (map pending (map fst ts)) o p.
Proof. exact (tbuffers_join_fact junk setup slack give programs vs m history m' ts). Qed.
Print Assumptions C86_typed_join.
Example C86_typed_join_ex : exists vs m os, exec (htcatches [] C86_typed_setup) (empty_memory (fun n => n)) = MVal (vs, os) m /\
  let '(m', ts) := unfolds (fun p i => 5%Z) C86_history (m, started (tspawn 0 C86_typed_give vs C86_typed_programs)) in
  Forall (fun t => exists r, t = (DAt (HRet r), [])) ts /\
  (exists p, nth_error (blocks m') p <> None /\ towner C86_typed_give vs (map pending (map fst ts)) (Some 1%nat, 5%nat) p).
Proof.
  eexists. eexists. eexists. split; [vm_compute; reflexivity|]. vm_compute. split; [repeat constructor; eauto|].
  eexists. split; cycle 1.
  - split; [discriminate|]. do 2 eexists. split; [reflexivity|]. eexists. split; reflexivity.
  - vm_compute. discriminate.
Qed.
