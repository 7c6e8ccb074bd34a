(** Property C93: threads on a flat memory, with an allocator that may use addresses again, place regions side by side
    and refuse.  A word used by two threads, one of which writes or frees it, would be a data race, even if each
    thread believed it to belong to a buffer of its own.  The words used in the statements are defined in SpecThreadsFlat.v,
    in SpecFlat.v, and in the files of C76 and C77. *)
From Verif Require Import LThreadsFlat PFlat.

(** C93: whatever the schedule, and wherever an honest allocator places the buffers, at no time are two threads about to use the
    same word, one of them to write or to free it, and none does anything undefined. *)
Theorem C93_race_free w0 m0 setup give programs vs m w t schedule m' ts :
  forked_flat w0 m0 setup give programs vs m -> honest w ->
  finterleave w t schedule (m, spawn_catching 0 give vs programs) = Some (m', ts) ->
  ~ fdata_race ts /\ ~ In HUndef ts /\ ~ In HPanic ts /\ ~ In HFuel ts.
Proof. exact (fthreads_race_free_fact w0 m0 setup give programs vs m w t schedule m' ts). Qed.
Print Assumptions C93_race_free.
(** Thread 0 catches one panic and dies of another; thread 1 loses an integer to a panic that it catches. *)
Definition C93_setup : list cmd := [New (NAllSet 100); New (NOne 100); New (NU16 7); New (NSMin 70)].
Definition C93_give : sharing := [None; Some 0%nat; Some 0%nat; Some 1%nat].
Definition C93_programs : list (list (bool * cmd)) :=
  [[(true, Bin BSdiv 1 2); (false, Clone 0); (false, Bin BSrem 1 2); (false, Clone 0)];
   [(true, IntoBin BSrem 3 0); (false, Clone 0); (false, Mut MInc 4)]].
(** What happens from memory [C92_before] on. *)
Definition C93_after (w : world) (schedule : list nat) : option (hvars * fpool (hvars * (list (option obs) * bool))) :=
  match fexec C92_world 0 (hcatches [] C93_setup) C92_before with
  | FVal (vs, _) m =>
      match finterleave w 50 schedule (m, spawn_catching 0 C93_give vs C93_programs) with Some s => Some (vs, s) | None => None end
  | _ => None
  end.
Example C93_race_free_ex : exists vs m, forked_flat C92_world C92_before C93_setup C93_give C93_programs vs m /\
  vs = [Some (mk_hapint 100 (UExt 0)); Some (mk_hapint 100 (UExt 8)); Some (mk_hapint 16 (UInl 7)); Some (mk_hapint 70 (UExt 13))].
Proof.
  assert (T : match fexec C92_world 0 (hcatches [] C93_setup) C92_before with
    | FVal (vs, _) _ => vs = [Some (mk_hapint 100 (UExt 0)); Some (mk_hapint 100 (UExt 8)); Some (mk_hapint 16 (UInl 7)); Some (mk_hapint 70 (UExt 13))]
    | _ => False end) by (vm_compute; reflexivity).
  destruct (fexec C92_world 0 (hcatches [] C93_setup) C92_before) as [[vs os] m| | | |] eqn:E; try contradiction.
  exists vs, m. split; [|exact T]. split; [exact (proj1 C92_world_ok)|]. split; [repeat constructor|]. split; [repeat constructor; cbn; lia|].
  split; [exists os; exact E|]. subst vs. split; [reflexivity|]. split.
  - clear. intros [|[|[|[|x]]]] i Ei; cbn in Ei; try discriminate; [injection Ei as <-|injection Ei as <-|injection Ei as <-|destruct x; discriminate]; cbn; lia.
  - clear. unfold respects, borrowed. repeat constructor; cbn; try lia; intros x I; intuition (subst; discriminate).
Qed.

(** C93: whatever the schedule and the allocator, a thread that has ended saw the panics and the results that the abstract machine
    of C58 sees, run alone from the variables handed to it, and ended as it does; its integers are the machine's, their
    digits in memory where they should be. *)
Theorem C93_isolated w0 m0 setup give programs vs m w t schedule m' ts i p vs' r :
  forked_flat w0 m0 setup give programs vs m -> honest w ->
  finterleave w t schedule (m, spawn_catching 0 give vs programs) = Some (m', ts) ->
  nth_error programs i = Some p -> nth_error ts i = Some (HRet (vs', r)) ->
  let (s', r') := athread (keeper give) (hand i give (fst (acatches [] setup))) p in
  r = r' /\ exists cs', Forall2 holds cs' s' /\ Forall2 (fstored m') vs' cs'.
Proof. exact (fthreads_isolated_fact w0 m0 setup give programs vs m w t schedule m' ts i p vs' r). Qed.
Print Assumptions C93_isolated.
Example C93_isolated_ex :
  match C93_after C92_world (concat (repeat [0; 1; 1] 30))%nat with
  | Some (_, (m, [HRet (v0, r0); HRet (v1, r1)])) =>
      r0 = ([None; Some ODone; None], true) /\ r1 = ([None; Some ODone; Some ODone], false) /\
      nth_error v1 4 = Some (Some (mk_hapint 100 (UExt 10))) /\ words_at m 10 2 = [0; 0] /\ words_at m 0 2 = [2 ^ 64 - 1; 2 ^ 36 - 1]
  | _ => False
  end.
Proof. vm_compute. repeat split; reflexivity. Qed.

(** C93: at every moment the main thread's variables that are lent hold what they held. *)
Theorem C93_lent w0 m0 setup give programs vs m w :
  forked_flat w0 m0 setup give programs vs m -> honest w ->
  exists cs, Forall2 holds cs (fst (acatches [] setup)) /\ Forall2 (fstored m) vs cs /\
  forall t schedule m' ts, finterleave w t schedule (m, spawn_catching 0 give vs programs) = Some (m', ts) ->
  forall x v c, borrowed give x -> nth_error vs x = Some v -> nth_error cs x = Some c -> fstored m' v c.
Proof. exact (fthreads_lent_fact w0 m0 setup give programs vs m w). Qed.
Print Assumptions C93_lent.
(** The lent variable is at address 0, and both threads have allocated and freed next to it. *)
Example C93_lent_ex :
  match C93_after C92_world (concat (repeat [0; 1] 7))%nat with
  | Some (vs, (m, _)) =>
      nth_error vs 0 = Some (Some (mk_hapint 100 (UExt 0))) /\ words_at m 0 2 = [2 ^ 64 - 1; 2 ^ 36 - 1] /\ (length (taken m) > 4)%nat
  | _ => False
  end.
Proof. vm_compute. repeat split; (reflexivity || lia). Qed.

(** C93: if there is always memory, and the process is not killed, no thread waits for another: whatever has happened, any thread ends
    if only it gets enough turns. *)
Theorem C93_progress w0 m0 setup give programs vs m w t schedule i :
  forked_flat w0 m0 setup give programs vs m -> honest w -> generous w ->
  (i < length programs)%nat ->
  exists n m' ts r, finterleave w t (schedule ++ repeat i n) (m, spawn_catching 0 give vs programs) = Some (m', ts) /\ nth_error ts i = Some (HRet r).
Proof. exact (fthreads_progress_fact w0 m0 setup give programs vs m w t schedule i). Qed.
Print Assumptions C93_progress.
Example C93_progress_ex :
  match C93_after C92_world (repeat 0 60 ++ [1])%nat with Some (_, (_, [HRet _; HRet _])) => False | Some (_, (_, [HRet _; _])) => True | _ => False end /\
  match C93_after C92_world (repeat 0 60 ++ [1] ++ repeat 1 60)%nat with Some (_, (_, [HRet _; HRet _])) => True | _ => False end.
Proof. vm_compute. auto. Qed.

(** C93: at every moment no two allocated regions share an address, and memory of others is still theirs and as it was;
    and when all threads have ended, every region that is not others' has exactly one owner: a variable that
    the main thread had lent, or a variable of one thread. *)
Theorem C93_join w0 m0 setup give programs vs m w t schedule m' ts :
  forked_flat w0 m0 setup give programs vs m -> honest w ->
  finterleave w t schedule (m, spawn_catching 0 give vs programs) = Some (m', ts) ->
  apart (taken m') /\ (forall a, occupied m0 a -> words m' a = words m0 a) /\ (forall r, In r (taken m0) -> In r (taken m')) /\
  (Forall (fun h => exists r, h = HRet r) ts ->
     forall p n, In (p, n) (taken m') -> In (p, n) (taken m0) \/ exists! o, owner give vs ts o p).
Proof. exact (fthreads_join_fact w0 m0 setup give programs vs m w t schedule m' ts). Qed.
Print Assumptions C93_join.
Example C93_join_ex :
  match C93_after C92_world (concat (repeat [0; 1; 1] 30))%nat with
  | Some (_, (m, [HRet _; HRet _])) => taken m = [(10, 2); (0, 2); (3, 2)]%nat /\ words_at m 3 2 = [3; 4]
  | _ => False
  end /\
  C93_after C92_small (concat (repeat [0; 1; 1] 30))%nat = None.
Proof. vm_compute. repeat split; reflexivity. Qed.

(** C93: threads on [UInt] and [Int]: whatever the schedule and the allocator, at no time are two threads about to use the same word,
    one of them to write or to free it, and none does anything undefined. *)
Theorem C93_typed_race_free w0 m0 setup give programs vs m w t schedule m' ts :
  tforked_flat w0 m0 setup give programs vs m -> honest w ->
  finterleave w t schedule (m, tspawn 0 give vs programs) = Some (m', ts) ->
  ~ fdata_race ts /\ ~ In HUndef ts /\ ~ In HPanic ts /\ ~ In HFuel ts.
Proof. exact (tfthreads_race_free_fact w0 m0 setup give programs vs m w t schedule m' ts). Qed.
Print Assumptions C93_typed_race_free.
(** Thread 0 catches the panic of [+=] and dies of that of [/=]; thread 1 loses an integer to a panic that it catches. *)
Definition C93_typed_setup : list tcmd := [TNew KI (TMin 100); TNew KI (TMax 100); TNew KI (TPrim W8 (-5)); TNew KU (TMax 70); TNew KU (TZero 80)].
Definition C93_typed_give : sharing := [None; Some 0%nat; None; Some 1%nat; None].
Definition C93_typed_programs : list (list (bool * tcmd)) :=
  [[(true, TBin Operator TAdd 1 2); (false, TClone 0); (false, TBin Operator TDiv 1 2); (false, TClone 0)];
   [(true, TIntoBin Operator TMul 3 4); (false, TClone 4); (false, TMut Operator (TShl 5) 5)]].
Definition C93_typed_after (w : world) (schedule : list nat) : option (htvars * fpool (htvars * (list (option tobs) * bool))) :=
  match fexec C92_world 0 (htcatches [] C93_typed_setup) C92_before with
  | FVal (vs, _) m =>
      match finterleave w 50 schedule (m, tspawn 0 C93_typed_give vs C93_typed_programs) with Some s => Some (vs, s) | None => None end
  | _ => None
  end.
Example C93_typed_race_free_ex : exists vs m, tforked_flat C92_world C92_before C93_typed_setup C93_typed_give C93_typed_programs vs m /\
  inside vs = [Some (mk_hapint 100 (UExt 0)); Some (mk_hapint 100 (UExt 5)); Some (mk_hapint 8 (UInl 251)); Some (mk_hapint 70 (UExt 7)); Some (mk_hapint 80 (UExt 12))].
Proof.
  assert (T : match fexec C92_world 0 (htcatches [] C93_typed_setup) C92_before with
    | FVal (vs, _) _ => length vs = 5%nat /\
        inside vs = [Some (mk_hapint 100 (UExt 0)); Some (mk_hapint 100 (UExt 5)); Some (mk_hapint 8 (UInl 251)); Some (mk_hapint 70 (UExt 7)); Some (mk_hapint 80 (UExt 12))]
    | _ => False end) by (vm_compute; split; reflexivity).
  destruct (fexec C92_world 0 (htcatches [] C93_typed_setup) C92_before) as [[vs os] m| | | |] eqn:E; try contradiction. destruct T as (T1 & T2).
  exists vs, m. split; [|exact T2]. split; [exact (proj1 C92_world_ok)|]. split; [repeat constructor|]. split; [repeat constructor; cbn; lia|].
  split; [exists os; exact E|]. split; [symmetry; exact T1|]. split.
  - clear. intros [|[|[|[|[|x]]]]] i Ei; cbn in Ei; try discriminate; [injection Ei as <-|injection Ei as <-|destruct x; discriminate]; cbn; lia.
  - clear. unfold trespects, borrowed. repeat constructor; cbn; try lia; intros x I; intuition (subst; discriminate).
Qed.

(** C93: threads on [UInt] and [Int]: a thread that has ended saw what the abstract machine of C69 sees, run alone, and its
    variables have the machine's types, widths and integers, the digits in memory where they should be. *)
Theorem C93_typed_isolated w0 m0 setup give programs vs m w t schedule m' ts i p vs' r :
  tforked_flat w0 m0 setup give programs vs m -> honest w ->
  finterleave w t schedule (m, tspawn 0 give vs programs) = Some (m', ts) ->
  nth_error programs i = Some p -> nth_error ts i = Some (HRet (vs', r)) ->
  let (s', r') := tathread (keeper give) (hand i give (fst (tacatches [] setup))) p in
  r = r' /\ Forall2 (fin_memory m') vs' s'.
Proof. exact (tfthreads_isolated_fact w0 m0 setup give programs vs m w t schedule m' ts i p vs' r). Qed.
Print Assumptions C93_typed_isolated.
Example C93_typed_isolated_ex :
  match C93_typed_after C92_world (concat (repeat [0; 1; 1] 40))%nat with
  | Some (_, (m, [HRet (v0, r0); HRet (v1, r1)])) =>
      r0 = ([None; Some (Shows ODone); None], true) /\ r1 = ([None; Some (Shows ODone); Some (Shows ODone)], false) /\ length v1 = 6%nat
  | _ => False
  end.
Proof. vm_compute. repeat split; reflexivity. Qed.

(** C93: threads on [UInt] and [Int]: at every moment the main thread's variables that are lent hold the integers that the abstract
    machine of C69 has in them. *)
Theorem C93_typed_lent w0 m0 setup give programs vs m w t schedule m' ts :
  tforked_flat w0 m0 setup give programs vs m -> honest w ->
  finterleave w t schedule (m, tspawn 0 give vs programs) = Some (m', ts) ->
  forall x v z, borrowed give x -> nth_error vs x = Some v -> nth_error (fst (tacatches [] setup)) x = Some z -> fin_memory m' v z.
Proof. exact (tfthreads_lent_fact w0 m0 setup give programs vs m w t schedule m' ts). Qed.
Print Assumptions C93_typed_lent.
Example C93_typed_lent_ex :
  nth_error (fst (tacatches [] C93_typed_setup)) 0 = Some (Some (mk_tval KI 100 (- 2 ^ 99))) /\
  match C93_typed_after C92_world (concat (repeat [0; 1] 7))%nat with
  | Some (vs, (m, _)) => nth_error (inside vs) 0 = Some (Some (mk_hapint 100 (UExt 0))) /\ words_at m 0 2 = [0; 2 ^ 35] /\ (length (taken m) > 5)%nat
  | _ => False
  end.
Proof. split; [vm_compute; reflexivity|]. vm_compute. repeat split; (reflexivity || lia). Qed.

(** C93: threads on [UInt] and [Int]: with an allocator that always has memory any thread ends if only it gets enough turns. *)
Theorem C93_typed_progress w0 m0 setup give programs vs m w t schedule i :
  tforked_flat w0 m0 setup give programs vs m -> honest w -> generous w ->
  (i < length programs)%nat ->
  exists n m' ts r, finterleave w t (schedule ++ repeat i n) (m, tspawn 0 give vs programs) = Some (m', ts) /\ nth_error ts i = Some (HRet r).
Proof. exact (tfthreads_progress_fact w0 m0 setup give programs vs m w t schedule i). Qed.
Print Assumptions C93_typed_progress.
Example C93_typed_progress_ex :
  match C93_typed_after C92_world (repeat 0 60 ++ [1])%nat with Some (_, (_, [HRet _; HRet _])) => False | Some (_, (_, [HRet _; _])) => True | _ => False end /\
  match C93_typed_after C92_world (repeat 0 60 ++ [1] ++ repeat 1 60)%nat with Some (_, (_, [HRet _; HRet _])) => True | _ => False end.
Proof. vm_compute. auto. Qed.

(** C93: threads on [UInt] and [Int]: at every moment no two allocated regions share an address, memory of others is as it was, and
    in the end every region that is not others' has exactly one owner. *)
Theorem C93_typed_join w0 m0 setup give programs vs m w t schedule m' ts :
  tforked_flat w0 m0 setup give programs vs m -> honest w ->
  finterleave w t schedule (m, tspawn 0 give vs programs) = Some (m', ts) ->
  apart (taken m') /\ (forall a, occupied m0 a -> words m' a = words m0 a) /\ (forall r, In r (taken m0) -> In r (taken m')) /\
  (Forall (fun h => exists r, h = HRet r) ts ->
     forall p n, In (p, n) (taken m') -> In (p, n) (taken m0) \/ exists! o, towner give vs ts o p).
Proof. exact (tfthreads_join_fact w0 m0 setup give programs vs m w t schedule m' ts). Qed.
Print Assumptions C93_typed_join.
Example C93_typed_join_ex :
  match C93_typed_after C92_world (concat (repeat [0; 1; 1] 40))%nat with
  | Some (_, (m, [HRet _; HRet _])) => map snd (taken m) = [2; 2; 2; 2]%nat /\ words_at m 3 2 = [3; 4]
  | _ => False
  end.
Proof. vm_compute. repeat split; reflexivity. Qed.
