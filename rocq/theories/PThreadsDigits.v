(** Property C79: what C76 and C77 say, for threads that take turns before every single digit
    that they read or write, so that one thread may run while another is in the middle of
    reading, writing or filling a buffer.  [junk] is what new buffers hold before they are
    filled.  The words used in the statements are defined in SpecThreadsDigits.v,
    SpecThreadsTyped.v, SpecThreadsUnwind.v and SpecThreads.v. *)
From Verif Require Import LThreadsDigits.

(** C79: whatever the schedule, and whichever calls panic, at no time do two threads use the
    same buffer, one of them to write to it or to free it, and none does anything undefined. *)
Theorem C79_race_free junk setup slack give programs vs m schedule :
  forked_catching setup slack give programs vs m ->
  let '(m', ts) := dinterleave junk schedule (m, map DAt (spawn_catching 0 give vs programs)) in
  ~ digit_race ts /\ ~ In (DAt HUndef) ts /\ ~ In (DAt HPanic) ts /\ ~ In (DAt HFuel) ts.
Proof. exact (digits_race_free_fact junk setup slack give programs vs m schedule). Qed.
Print Assumptions C79_race_free.
(** Thread 0 catches one panic and dies of another; thread 1 loses an integer to a panic that it catches. *)
Definition C79_setup : list cmd := [New (NAllSet 100); New (NOne 100); New (NU16 7); New (NSMin 70)].
Definition C79_give : sharing := [None; Some 0%nat; Some 0%nat; Some 1%nat].
Definition C79_programs : list (list (bool * cmd)) :=
  [[(true, Bin BSdiv 1 2); (false, Clone 0); (false, Bin BSrem 1 2); (false, Clone 0)];
   [(true, IntoBin BSrem 3 0); (false, Clone 0); (false, Mut MInc 4)]].
Example C79_race_free_ex : exists vs m, forked_catching C79_setup (fun n => n) C79_give C79_programs vs m /\ length vs = 4%nat.
Proof.
  eexists. eexists. split; [split; [repeat constructor; cbn; lia|]|].
  - split; [eexists; vm_compute; reflexivity|]. split; [reflexivity|]. split.
    + intros [|[|[|[|x]]]] i E; cbn in E; try discriminate; [injection E as <-|injection E as <-|injection E as <-|destruct x; discriminate]; cbn; lia.
    + unfold respects, borrowed. repeat constructor; cbn; try lia; intros x I; intuition (subst; discriminate).
  - reflexivity.
Qed.
(** After some turns a thread is in the middle of an access. *)
Example C79_amid_ex : exists vs m os, exec (hcatches [] C79_setup) (empty_memory (fun n => n)) = MVal (vs, os) m /\
  match snd (dinterleave (fun p i => 5%Z) [1; 1; 1; 0; 0; 0; 0] (m, map DAt (spawn_catching 0 C79_give vs C79_programs)))%nat with
  | [DAt _; DAt _] => False | _ => True end.
Proof. eexists. eexists. eexists. split; [vm_compute; reflexivity|]. vm_compute. exact I. Qed.
(** Threads that do race see half of what another writes. *)
Example C79_torn_ex :
  dinterleave (fun p i => 5%Z) [0; 1; 1; 0]%nat (mk_mem (fun n => n) [Some [1; 1]],
    [DAt (HLoad 0 2 (fun ds => HRet ds)); DAt (HStore 0 [7; 7] (HRet []))]) =
  (mk_mem (fun n => n) [Some [7; 7]], [DAt (HRet [1; 7]); DAt (HRet [])]) /\
  digit_race [DAt (HLoad 0 2 (fun ds => HRet ds)); DAt (HStore 0 [7; 7] (HRet []))].
Proof.
  split; [reflexivity|]. exists 1%nat, 0%nat. do 2 eexists. exists 0%nat. split; [discriminate|]. split; [reflexivity|].
  split; [reflexivity|]. split; reflexivity.
Qed.

(** C79: whatever the schedule, a thread that has ended saw the panics and the results that
    the abstract machine of C58 sees, run alone from the variables handed to it, and ended
    as it does; its integers are the machine's, their digits where they should be. *)
Theorem C79_isolated junk setup slack give programs vs m schedule m' ts i p vs' r :
  forked_catching setup slack give programs vs m ->
  dinterleave junk schedule (m, map DAt (spawn_catching 0 give vs programs)) = (m', ts) ->
  nth_error programs i = Some p -> nth_error ts i = Some (DAt (HRet (vs', r))) ->
  let (s', r') := athread (keeper give) (hand i give (fst (acatches [] setup))) p in
  r = r' /\ exists cs', Forall2 holds cs' s' /\ Forall2 (stored m') vs' cs'.
Proof. exact (digits_isolated_fact junk setup slack give programs vs m schedule m' ts i p vs' r). Qed.
Print Assumptions C79_isolated.
Example C79_isolated_ex : exists vs m os, exec (hcatches [] C79_setup) (empty_memory (fun n => n)) = MVal (vs, os) m /\
  let '(m', ts) := dinterleave (fun p i => 5%Z) (concat (repeat [0; 1; 1] 60))%nat (m, map DAt (spawn_catching 0 C79_give vs C79_programs)) in
  exists v0 v1, ts = [DAt (HRet (v0, ([None; Some ODone; None], true))); DAt (HRet (v1, ([None; Some ODone; Some ODone], false)))].
Proof. eexists. eexists. eexists. split; [vm_compute; reflexivity|]. vm_compute. eexists. eexists. reflexivity. Qed.

(** C79: at every moment the main thread's variables that are lent hold what they held. *)
Theorem C79_lent junk setup slack give programs vs m schedule :
  forked_catching setup slack give programs vs m ->
  exists cs, Forall2 holds cs (fst (acatches [] setup)) /\ Forall2 (stored m) vs cs /\
  let '(m', ts) := dinterleave junk schedule (m, map DAt (spawn_catching 0 give vs programs)) in
  forall x v c, borrowed give x -> nth_error vs x = Some v -> nth_error cs x = Some c -> stored m' v c.
Proof. exact (digits_lent_fact junk setup slack give programs vs m schedule). Qed.
Print Assumptions C79_lent.
Example C79_lent_ex : exists vs m os, exec (hcatches [] C79_setup) (empty_memory (fun n => n)) = MVal (vs, os) m /\
  nth_error vs 0 = Some (Some (mk_hapint 100 (UExt 1))) /\
  nth_error (blocks (fst (dinterleave (fun p i => 5%Z) (concat (repeat [0; 1; 1] 30))%nat (m, map DAt (spawn_catching 0 C79_give vs C79_programs))))) 1 =
    Some (Some [18446744073709551615; 68719476735]).
Proof. eexists. eexists. eexists. split; [vm_compute; reflexivity|]. split; vm_compute; reflexivity. Qed.

(** C79: no thread waits for another, nor for one that died: whatever has happened, any
    thread ends if only it gets enough turns. *)
Theorem C79_progress junk setup slack give programs vs m schedule i :
  forked_catching setup slack give programs vs m -> (i < length programs)%nat ->
  exists n r, nth_error (snd (dinterleave junk (schedule ++ repeat i n) (m, map DAt (spawn_catching 0 give vs programs)))) i = Some (DAt (HRet r)).
Proof. exact (digits_progress_fact junk setup slack give programs vs m schedule i). Qed.
Print Assumptions C79_progress.
Example C79_progress_ex : exists vs m os, exec (hcatches [] C79_setup) (empty_memory (fun n => n)) = MVal (vs, os) m /\
  match nth_error (snd (dinterleave (fun p i => 5%Z) (repeat 0 90 ++ [1]) (m, map DAt (spawn_catching 0 C79_give vs C79_programs)))) 1 with
    Some (DAt (HRet _)) => False | _ => True end%nat /\
  match nth_error (snd (dinterleave (fun p i => 5%Z) (repeat 0 90 ++ [1] ++ repeat 1 90) (m, map DAt (spawn_catching 0 C79_give vs C79_programs)))) 1 with
    Some (DAt (HRet _)) => True | _ => False end%nat.
Proof. eexists. eexists. eexists. split; [vm_compute; reflexivity|]. vm_compute. auto. Qed.

(** C79: when all threads have ended, by returning or by a panic, every allocated buffer has
    exactly one owner: a variable that the main thread had lent, or a variable of one thread. *)
Theorem C79_join junk setup slack give programs vs m schedule m' ts :
  forked_catching setup slack give programs vs m ->
  dinterleave junk schedule (m, map DAt (spawn_catching 0 give vs programs)) = (m', ts) -> Forall (fun t => exists r, t = DAt (HRet r)) ts ->
  forall p ds, nth_error (blocks m') p = Some (Some ds) -> exists! o, owner give vs (map pending ts) o p.
Proof. exact (digits_join_fact junk setup slack give programs vs m schedule m' ts). Qed.
Print Assumptions C79_join.
Example C79_join_ex : exists vs m os, exec (hcatches [] C79_setup) (empty_memory (fun n => n)) = MVal (vs, os) m /\
  let '(m', ts) := dinterleave (fun p i => 5%Z) (concat (repeat [0; 1; 1] 60))%nat (m, map DAt (spawn_catching 0 C79_give vs C79_programs)) in
  Forall (fun t => exists r, t = DAt (HRet r)) ts /\
  (exists p, nth_error (blocks m') p <> None /\ owner C79_give vs (map pending ts) (Some 1%nat, 4%nat) p).
Proof.
  eexists. eexists. eexists. split; [vm_compute; reflexivity|]. vm_compute. split; [repeat constructor; eauto|].
  eexists. split; cycle 1.
  - split; [discriminate|]. do 2 eexists. split; [reflexivity|]. eexists. split; reflexivity.
  - vm_compute. discriminate.
Qed.

(** C79: the same of threads on [UInt] and [Int]. *)
Theorem C79_typed_race_free junk setup slack give programs vs m schedule :
  tforked setup slack give programs vs m ->
  let '(m', ts) := dinterleave junk schedule (m, map DAt (tspawn 0 give vs programs)) in
  ~ digit_race ts /\ ~ In (DAt HUndef) ts /\ ~ In (DAt HPanic) ts /\ ~ In (DAt HFuel) ts.
Proof. exact (tdigits_race_free_fact junk setup slack give programs vs m schedule). Qed.
Print Assumptions C79_typed_race_free.
(** Thread 0 catches the panic of [+=] and dies of that of [/=]; thread 1 loses an integer to a panic that it catches. *)
Definition C79_typed_setup : list tcmd := [TNew KI (TMin 100); TNew KI (TMax 100); TNew KI (TPrim W8 (-5)); TNew KU (TMax 70); TNew KU (TZero 80)].
Definition C79_typed_give : sharing := [None; Some 0%nat; None; Some 1%nat; None].
Definition C79_typed_programs : list (list (bool * tcmd)) :=
  [[(true, TBin Operator TAdd 1 2); (false, TClone 0); (false, TBin Operator TDiv 1 2); (false, TClone 0)];
   [(true, TIntoBin Operator TMul 3 4); (false, TClone 4); (false, TMut Operator (TShl 5) 5)]].
Example C79_typed_race_free_ex : exists vs m, tforked C79_typed_setup (fun n => n) C79_typed_give C79_typed_programs vs m /\ length vs = 5%nat.
Proof.
  eexists. eexists. split; [split; [repeat constructor; cbn; lia|]|].
  - split; [eexists; vm_compute; reflexivity|]. split; [reflexivity|]. split.
    + intros [|[|[|[|[|x]]]]] i E; cbn in E; try discriminate; [injection E as <-|injection E as <-|destruct x; discriminate]; cbn; lia.
    + unfold trespects, borrowed. repeat constructor; cbn; try lia; intros x I; intuition (subst; discriminate).
  - reflexivity.
Qed.

(** C79: whatever the schedule, a thread on [UInt] and [Int] that has ended saw the panics and the
    results that the abstract machine of C69 sees, run alone from the variables handed to it,
    and ended as it does; its variables have the machine's types, widths and integers. *)
Theorem C79_typed_isolated junk setup slack give programs vs m schedule m' ts i p vs' r :
  tforked setup slack give programs vs m ->
  dinterleave junk schedule (m, map DAt (tspawn 0 give vs programs)) = (m', ts) ->
  nth_error programs i = Some p -> nth_error ts i = Some (DAt (HRet (vs', r))) ->
  let (s', r') := tathread (keeper give) (hand i give (fst (tacatches [] setup))) p in
  r = r' /\ Forall2 (in_memory m') vs' s'.
Proof. exact (tdigits_isolated_fact junk setup slack give programs vs m schedule m' ts i p vs' r). Qed.
Print Assumptions C79_typed_isolated.
Example C79_typed_isolated_ex : exists vs m os, exec (htcatches [] C79_typed_setup) (empty_memory (fun n => n)) = MVal (vs, os) m /\
  let '(m', ts) := dinterleave (fun p i => 5%Z) (concat (repeat [0; 1; 1] 60))%nat (m, map DAt (tspawn 0 C79_typed_give vs C79_typed_programs)) in
  exists v0 v1, ts = [DAt (HRet (v0, ([None; Some (Shows ODone); None], true)));
                      DAt (HRet (v1, ([None; Some (Shows ODone); Some (Shows ODone)], false)))] /\ length v1 = 6%nat.
Proof. eexists. eexists. eexists. split; [vm_compute; reflexivity|]. vm_compute. eexists. eexists. split; reflexivity. Qed.

(** C79: at every moment the main thread's [UInt]s and [Int]s that are lent hold what they held. *)
Theorem C79_typed_lent junk setup slack give programs vs m schedule :
  tforked setup slack give programs vs m ->
  let '(m', ts) := dinterleave junk schedule (m, map DAt (tspawn 0 give vs programs)) in
  forall x v t, borrowed give x -> nth_error vs x = Some v -> nth_error (fst (tacatches [] setup)) x = Some t -> in_memory m' v t.
Proof. exact (tdigits_lent_fact junk setup slack give programs vs m schedule). Qed.
Print Assumptions C79_typed_lent.
Example C79_typed_lent_ex : exists vs m os, exec (htcatches [] C79_typed_setup) (empty_memory (fun n => n)) = MVal (vs, os) m /\
  nth_error vs 0 = Some (Some (mk_htvar KI (mk_hapint 100 (UExt 1)))) /\
  nth_error (fst (tacatches [] C79_typed_setup)) 0 = Some (Some (mk_tval KI 100 (- 2 ^ 99))) /\
  nth_error (blocks (fst (dinterleave (fun p i => 5%Z) (concat (repeat [0; 1; 1] 40))%nat (m, map DAt (tspawn 0 C79_typed_give vs C79_typed_programs))))) 1 =
    Some (Some [0; 34359738368]).
Proof. eexists. eexists. eexists. split; [vm_compute; reflexivity|]. repeat split; vm_compute; reflexivity. Qed.

(** C79: any thread on [UInt] and [Int] ends if only it gets enough turns. *)
Theorem C79_typed_progress junk setup slack give programs vs m schedule i :
  tforked setup slack give programs vs m -> (i < length programs)%nat ->
  exists n r, nth_error (snd (dinterleave junk (schedule ++ repeat i n) (m, map DAt (tspawn 0 give vs programs)))) i = Some (DAt (HRet r)).
Proof. exact (tdigits_progress_fact junk setup slack give programs vs m schedule i). Qed.
Print Assumptions C79_typed_progress.
Example C79_typed_progress_ex : exists vs m os, exec (htcatches [] C79_typed_setup) (empty_memory (fun n => n)) = MVal (vs, os) m /\
  match nth_error (snd (dinterleave (fun p i => 5%Z) (repeat 0 90 ++ [1]) (m, map DAt (tspawn 0 C79_typed_give vs C79_typed_programs)))) 1 with
    Some (DAt (HRet _)) => False | _ => True end%nat /\
  match nth_error (snd (dinterleave (fun p i => 5%Z) (repeat 0 90 ++ [1] ++ repeat 1 90) (m, map DAt (tspawn 0 C79_typed_give vs C79_typed_programs)))) 1 with
    Some (DAt (HRet _)) => True | _ => False end%nat.
Proof. eexists. eexists. eexists. split; [vm_compute; reflexivity|]. vm_compute. auto. Qed.

(** C79: when all threads on [UInt] and [Int] have ended, every allocated buffer has exactly one
    owner: a variable that the main thread had lent, or a variable of one thread. *)
Theorem C79_typed_join junk setup slack give programs vs m schedule m' ts :
  tforked setup slack give programs vs m ->
  dinterleave junk schedule (m, map DAt (tspawn 0 give vs programs)) = (m', ts) -> Forall (fun t => exists r, t = DAt (HRet r)) ts ->
  forall p ds, nth_error (blocks m') p = Some (Some ds) -> exists! o, towner give vs (map pending ts) o p.
Proof. exact (tdigits_join_fact junk setup slack give programs vs m schedule m' ts). Qed.
Print Assumptions C79_typed_join.
Example C79_typed_join_ex : exists vs m os, exec (htcatches [] C79_typed_setup) (empty_memory (fun n => n)) = MVal (vs, os) m /\
  let '(m', ts) := dinterleave (fun p i => 5%Z) (concat (repeat [0; 1; 1] 60))%nat (m, map DAt (tspawn 0 C79_typed_give vs C79_typed_programs)) in
  Forall (fun t => exists r, t = DAt (HRet r)) ts /\
  (exists p, nth_error (blocks m') p <> None /\ towner C79_typed_give vs (map pending ts) (Some 1%nat, 5%nat) p).
Proof.
  eexists. eexists. eexists. split; [vm_compute; reflexivity|]. vm_compute. split; [repeat constructor; eauto|].
  eexists. split; cycle 1.
  - split; [discriminate|]. do 2 eexists. split; [reflexivity|]. eexists. split; reflexivity.
  - vm_compute. discriminate.
Qed.
