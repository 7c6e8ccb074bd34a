(** Property C90: what C79 and C88 say, for threads whose calls use the buffers that they are going to
    overwrite as scratch space: at any moment a thread may write anything to a digit that its
    call overwrites before it reads it.  A [history] says whose turn it is and who scribbles
    where.  The words used in the statements are defined in SpecThreadsScratch.v and in the
    files of C79 and C88. *)
From Verif Require Import LThreadsScratch.

(** C90: whatever happens, at no time do two threads use the same buffer, one of them to write to it
    or to free it, and no thread does anything undefined. *)
Theorem C90_race_free junk setup slack give programs vs m history :
  forked_catching setup slack give programs vs m ->
  let '(m', ts) := carry_on junk history (m, map DAt (spawn_catching 0 give vs programs)) in
  ~ digit_race ts /\ ~ In (DAt HUndef) ts /\ ~ In (DAt HPanic) ts /\ ~ In (DAt HFuel) ts.
Proof. exact (scratch_race_free_fact junk setup slack give programs vs m history). Qed.
Print Assumptions C90_race_free.
(** Thread 0 catches one panic and dies of another; thread 1 loses an integer to a panic that it catches. *)
Definition C90_setup : list cmd := [New (NAllSet 100); New (NOne 100); New (NU16 7); New (NSMin 70)].
Definition C90_give : sharing := [None; Some 0%nat; Some 0%nat; Some 1%nat].
Definition C90_programs : list (list (bool * cmd)) :=
  [[(true, Bin BSdiv 1 2); (false, Clone 0); (false, Bin BSrem 1 2); (false, Clone 0)];
   [(true, IntoBin BSrem 3 0); (false, Clone 0); (false, Mut MInc 4)]].
Example C90_race_free_forked_ex : exists vs m, forked_catching C90_setup (fun n => n) C90_give C90_programs vs m /\ length vs = 4%nat.
Proof.
  eexists. eexists. split; [split; [repeat constructor; cbn; lia|]|].
  - split; [eexists; vm_compute; reflexivity|]. split; [reflexivity|]. split.
    + intros [|[|[|[|x]]]] i E; cbn in E; try discriminate; [injection E as <-|injection E as <-|injection E as <-|destruct x; discriminate]; cbn; lia.
    + unfold respects, borrowed. repeat constructor; cbn; try lia; intros x I; intuition (subst; discriminate).
  - reflexivity.
Qed.
(** What is allowed: while the call reads buffer 1, which it only reads, it writes to both digits of
    buffer 0, which it has read; and the end is the same. *)
Example C90_scratch_ex :
  let h := HLoad 0 4 (fun a => HLoad 1 2 (fun b => HStore 0 (b ++ firstn 2 a) (HRet tt))) in
  let s := (mk_mem (fun n => n) [Some [1; 2; 3; 4]; Some [5; 6]], [DAt h]) in
  fst (carry_on (fun p i => 5%Z) [Goes 0; Goes 0; Goes 0; Goes 0; Scribbles 0 0 3 70; Goes 0; Scribbles 0 0 0 71] s) = mk_mem (fun n => n) [Some [71; 2; 3; 70]; Some [5; 6]] /\
  fst (carry_on (fun p i => 5%Z) [Goes 0; Goes 0; Goes 0; Goes 0; Scribbles 0 0 3 70; Goes 0; Scribbles 0 0 0 71; Goes 0; Goes 0; Scribbles 0 0 1 72; Goes 0; Goes 0; Goes 0] s) =
    mk_mem (fun n => n) [Some [5; 6; 1; 2]; Some [5; 6]].
Proof. split; reflexivity. Qed.
(** What is not: a buffer that the call still reads, one that it does not write to, a digit that it
    has written. *)
Example C90_needed_ex :
  let h := HLoad 0 4 (fun a => HLoad 1 2 (fun b => HStore 0 (b ++ firstn 2 a) (HRet tt))) in
  let s := (mk_mem (fun n => n) [Some [1; 2; 3; 4]; Some [5; 6]], [DAt h]) in
  carry_on (fun p i => 5%Z) [Scribbles 0 0 3 70] s = s /\
  carry_on (fun p i => 5%Z) [Goes 0; Goes 0; Goes 0; Scribbles 0 0 0 70] s = carry_on (fun p i => 5%Z) [Goes 0; Goes 0; Goes 0] s /\
  carry_on (fun p i => 5%Z) [Goes 0; Goes 0; Goes 0; Goes 0; Scribbles 0 1 0 70] s = carry_on (fun p i => 5%Z) [Goes 0; Goes 0; Goes 0; Goes 0] s /\
  let s := carry_on (fun p i => 5%Z) (map Goes (repeat 0%nat 8)) s in
  fst s = mk_mem (fun n => n) [Some [5; 6; 3; 4]; Some [5; 6]] /\ carry_on (fun p i => 5%Z) [Scribbles 0 0 1 70] s = s /\ carry_on (fun p i => 5%Z) [Scribbles 0 0 2 70] s <> s.
Proof. repeat split. intros E. discriminate (f_equal (fun s => blocks (fst s)) E). Qed.
Definition C90_scribbles (i : nat) : list deed := concat (map (fun p => map (fun l => Scribbles i p l 99) (seq 0 2)) (seq 0 12)).
Definition C90_history : list deed := concat (repeat (C90_scribbles 0 ++ C90_scribbles 1 ++ [Goes 0; Goes 1]) 60).
(** The two threads write to 38 digits more than they do by themselves. *)
Definition C90_writes (log : list (nat * access)) : nat := length (filter (fun e => match snd e with Writes _ _ => true | _ => false end) log).
Example C90_race_free_ex : exists vs m os, exec (hcatches [] C90_setup) (empty_memory (fun n => n)) = MVal (vs, os) m /\
  C90_writes (accesses_of (fun p i => 5%Z) C90_history (m, map DAt (spawn_catching 0 C90_give vs C90_programs))) = 58%nat /\
  C90_writes (accesses_of (fun p i => 5%Z) (map Goes (concat (repeat [0; 1]%nat 60))) (m, map DAt (spawn_catching 0 C90_give vs C90_programs))) = 20%nat.
Proof. eexists. eexists. eexists. split; [vm_compute; reflexivity|]. split; vm_compute; reflexivity. Qed.

(** C90: of everything that two threads do with one buffer, at whatever moments and as scratch space
    or not, nothing but reads is done to it, and it is that of a variable which is lent. *)
Theorem C90_accesses junk setup slack give programs vs m history i j a b :
  forked_catching setup slack give programs vs m ->
  let log := accesses_of junk history (m, map DAt (spawn_catching 0 give vs programs)) in
  In (i, a) log -> In (j, b) log -> i <> j -> buffer a = buffer b ->
  harmless a /\ harmless b /\ exists x, borrowed give x /\ points_to vs x (buffer a).
Proof. exact (scratch_trace_fact junk setup slack give programs vs m history i j a b). Qed.
Print Assumptions C90_accesses.
Example C90_accesses_ex : exists vs m os, exec (hcatches [] C90_setup) (empty_memory (fun n => n)) = MVal (vs, os) m /\
  let log := accesses_of (fun p i => 5%Z) C90_history (m, map DAt (spawn_catching 0 C90_give vs C90_programs)) in
  nth_error log 0 = Some (0, Reads 3 0)%nat /\ nth_error log 17 = Some (0, Reads 1 0)%nat /\ nth_error log 5 = Some (1, Reads 1 0)%nat /\ nth_error log 8 = Some (0, Writes 3 0)%nat.
Proof. eexists. eexists. eexists. split; [vm_compute; reflexivity|]. vm_compute. repeat split. Qed.

(** C90: a thread that has ended saw the panics and the results that the abstract machine of C58
    sees, run alone from the variables handed to it, and ended as it does, and its integers are
    the machine's. *)
Theorem C90_isolated junk setup slack give programs vs m history m' ts i p vs' r :
  forked_catching setup slack give programs vs m ->
  carry_on junk history (m, map DAt (spawn_catching 0 give vs programs)) = (m', ts) ->
  nth_error programs i = Some p -> nth_error ts i = Some (DAt (HRet (vs', r))) ->
  let (s', r') := athread (keeper give) (hand i give (fst (acatches [] setup))) p in
  r = r' /\ exists cs', Forall2 holds cs' s' /\ Forall2 (stored m') vs' cs'.
Proof. exact (scratch_isolated_fact junk setup slack give programs vs m history m' ts i p vs' r). Qed.
Print Assumptions C90_isolated.
Example C90_isolated_ex : exists vs m os, exec (hcatches [] C90_setup) (empty_memory (fun n => n)) = MVal (vs, os) m /\
  let '(m', ts) := carry_on (fun p i => 5%Z) C90_history (m, map DAt (spawn_catching 0 C90_give vs C90_programs)) in
  exists v0 v1, ts = [DAt (HRet (v0, ([None; Some ODone; None], true))); DAt (HRet (v1, ([None; Some ODone; Some ODone], false)))].
Proof. eexists. eexists. eexists. split; [vm_compute; reflexivity|]. vm_compute. eexists. eexists. reflexivity. Qed.

(** C90: at every moment the memory has, for the main thread's variables that are lent, what they held. *)
Theorem C90_lent junk setup slack give programs vs m history :
  forked_catching setup slack give programs vs m ->
  exists cs, Forall2 holds cs (fst (acatches [] setup)) /\ Forall2 (stored m) vs cs /\
  let '(m', ts) := carry_on junk history (m, map DAt (spawn_catching 0 give vs programs)) in
  forall x v c, borrowed give x -> nth_error vs x = Some v -> nth_error cs x = Some c -> stored m' v c.
Proof. exact (scratch_lent_fact junk setup slack give programs vs m history). Qed.
Print Assumptions C90_lent.
Example C90_lent_ex : exists vs m os, exec (hcatches [] C90_setup) (empty_memory (fun n => n)) = MVal (vs, os) m /\
  nth_error vs 0 = Some (Some (mk_hapint 100 (UExt 1))) /\
  nth_error (blocks ((fst (carry_on (fun p i => 5%Z) C90_history (m, map DAt (spawn_catching 0 C90_give vs C90_programs)))))) 1 = Some (Some [18446744073709551615; 68719476735]).
Proof. eexists. eexists. eexists. split; [vm_compute; reflexivity|]. split; vm_compute; reflexivity. Qed.

(** C90: no thread waits for another: whatever has happened, a thread that alone gets turns ends. *)
Theorem C90_progress junk setup slack give programs vs m history i :
  forked_catching setup slack give programs vs m -> (i < length programs)%nat ->
  exists n r, nth_error (snd (carry_on junk (history ++ map Goes (repeat i n)) (m, map DAt (spawn_catching 0 give vs programs)))) i = Some (DAt (HRet r)).
Proof. exact (scratch_progress_fact junk setup slack give programs vs m history i). Qed.
Print Assumptions C90_progress.
Example C90_progress_ex : exists vs m os, exec (hcatches [] C90_setup) (empty_memory (fun n => n)) = MVal (vs, os) m /\
  match nth_error (snd (carry_on (fun p i => 5%Z) (C90_scribbles 1 ++ [Goes 1]) (m, map DAt (spawn_catching 0 C90_give vs C90_programs)))) 1 with Some (DAt (HRet _)) => False | _ => True end /\
  match nth_error (snd (carry_on (fun p i => 5%Z) ((C90_scribbles 1 ++ [Goes 1]) ++ map Goes (repeat 1%nat 90)) (m, map DAt (spawn_catching 0 C90_give vs C90_programs)))) 1 with Some (DAt (HRet _)) => True | _ => False end.
Proof. eexists. eexists. eexists. split; [vm_compute; reflexivity|]. vm_compute. auto. Qed.

(** C90: when all threads have ended, every allocated buffer has exactly one owner: a variable that
    the main thread had lent, or a variable of one thread. *)
Theorem C90_join junk setup slack give programs vs m history m' ts :
  forked_catching setup slack give programs vs m ->
  carry_on junk history (m, map DAt (spawn_catching 0 give vs programs)) = (m', ts) -> Forall (fun t => exists r, t = DAt (HRet r)) ts ->
  forall p ds, nth_error (blocks m') p = Some (Some ds) -> exists! o, owner give vs (map pending ts) o p.
Proof. exact (scratch_join_fact junk setup slack give programs vs m history m' ts). Qed.
Print Assumptions C90_join.
Example C90_join_ex : exists vs m os, exec (hcatches [] C90_setup) (empty_memory (fun n => n)) = MVal (vs, os) m /\
  let '(m', ts) := carry_on (fun p i => 5%Z) C90_history (m, map DAt (spawn_catching 0 C90_give vs C90_programs)) in
  Forall (fun t => exists r, t = DAt (HRet r)) ts /\
  (exists p, nth_error (blocks (m')) p <> None /\ owner C90_give vs (map pending (ts)) (Some 1%nat, 4%nat) p).
Proof.
  eexists. eexists. eexists. split; [vm_compute; reflexivity|]. vm_compute. split; [repeat constructor; eauto|].
  eexists. split; cycle 1.
  - split; [discriminate|]. do 2 eexists. split; [reflexivity|]. eexists. split; reflexivity.
  - vm_compute. discriminate.
Qed.

(** C90: at no time do threads on [UInt] and [Int] race, nor do anything undefined. *)
Theorem C90_typed_race_free junk setup slack give programs vs m history :
  tforked setup slack give programs vs m ->
  let '(m', ts) := carry_on junk history (m, map DAt (tspawn 0 give vs programs)) in
  ~ digit_race ts /\ ~ In (DAt HUndef) ts /\ ~ In (DAt HPanic) ts /\ ~ In (DAt HFuel) ts.
Proof. exact (tscratch_race_free_fact junk setup slack give programs vs m history). Qed.
Print Assumptions C90_typed_race_free.
(** Thread 0 catches the panic of [+=] and dies of that of [/=]; thread 1 loses an integer to a panic that it catches. *)
Definition C90_typed_setup : list tcmd := [TNew KI (TMin 100); TNew KI (TMax 100); TNew KI (TPrim W8 (-5)); TNew KU (TMax 70); TNew KU (TZero 80)].
Definition C90_typed_give : sharing := [None; Some 0%nat; None; Some 1%nat; None].
Definition C90_typed_programs : list (list (bool * tcmd)) :=
  [[(true, TBin Operator TAdd 1 2); (false, TClone 0); (false, TBin Operator TDiv 1 2); (false, TClone 0)];
   [(true, TIntoBin Operator TMul 3 4); (false, TClone 4); (false, TMut Operator (TShl 5) 5)]].
Example C90_typed_race_free_forked_ex : exists vs m, tforked C90_typed_setup (fun n => n) C90_typed_give C90_typed_programs vs m /\ length vs = 5%nat.
Proof.
  eexists. eexists. split; [split; [repeat constructor; cbn; lia|]|].
  - split; [eexists; vm_compute; reflexivity|]. split; [reflexivity|]. split.
    + intros [|[|[|[|[|x]]]]] i E; cbn in E; try discriminate; [injection E as <-|injection E as <-|destruct x; discriminate]; cbn; lia.
    + unfold trespects, borrowed. repeat constructor; cbn; try lia; intros x I; intuition (subst; discriminate).
  - reflexivity.
Qed.
Example C90_typed_race_free_ex : exists vs m os, exec (htcatches [] C90_typed_setup) (empty_memory (fun n => n)) = MVal (vs, os) m /\
  C90_writes (accesses_of (fun p i => 5%Z) C90_history (m, map DAt (tspawn 0 C90_typed_give vs C90_typed_programs))) = 30%nat /\
  C90_writes (accesses_of (fun p i => 5%Z) (map Goes (concat (repeat [0; 1]%nat 60))) (m, map DAt (tspawn 0 C90_typed_give vs C90_typed_programs))) = 12%nat.
Proof. eexists. eexists. eexists. split; [vm_compute; reflexivity|]. split; vm_compute; reflexivity. Qed.

(** C90: to a buffer that two threads on [UInt] and [Int] use in the course of an execution nothing is
    done but reading, and it is that of a variable which is lent. *)
Theorem C90_typed_accesses junk setup slack give programs vs m history i j a b :
  tforked setup slack give programs vs m ->
  let log := accesses_of junk history (m, map DAt (tspawn 0 give vs programs)) in
  In (i, a) log -> In (j, b) log -> i <> j -> buffer a = buffer b ->
  harmless a /\ harmless b /\ exists x, borrowed give x /\ points_to (inside vs) x (buffer a).
Proof. exact (tscratch_trace_fact junk setup slack give programs vs m history i j a b). Qed.
Print Assumptions C90_typed_accesses.
Example C90_typed_accesses_ex : exists vs m os, exec (htcatches [] C90_typed_setup) (empty_memory (fun n => n)) = MVal (vs, os) m /\
  let log := accesses_of (fun p i => 5%Z) C90_history (m, map DAt (tspawn 0 C90_typed_give vs C90_typed_programs)) in
  nth_error log 0 = Some (0, Reads 3 0)%nat.
Proof. eexists. eexists. eexists. split; [vm_compute; reflexivity|]. vm_compute. repeat split. Qed.

(** C90: a thread on [UInt] and [Int] that has ended saw the panics and the results that the abstract
    machine of C69 sees, run alone from the variables handed to it, and ended as it does, and its
    variables have the machine's types, widths and integers. *)
Theorem C90_typed_isolated junk setup slack give programs vs m history m' ts i p vs' r :
  tforked setup slack give programs vs m ->
  carry_on junk history (m, map DAt (tspawn 0 give vs programs)) = (m', ts) ->
  nth_error programs i = Some p -> nth_error ts i = Some (DAt (HRet (vs', r))) ->
  let (s', r') := tathread (keeper give) (hand i give (fst (tacatches [] setup))) p in
  r = r' /\ Forall2 (in_memory m') vs' s'.
Proof. exact (tscratch_isolated_fact junk setup slack give programs vs m history m' ts i p vs' r). Qed.
Print Assumptions C90_typed_isolated.
Example C90_typed_isolated_ex : exists vs m os, exec (htcatches [] C90_typed_setup) (empty_memory (fun n => n)) = MVal (vs, os) m /\
  let '(m', ts) := carry_on (fun p i => 5%Z) C90_history (m, map DAt (tspawn 0 C90_typed_give vs C90_typed_programs)) in
  exists v0 v1, ts = [DAt (HRet (v0, ([None; Some (Shows ODone); None], true))); DAt (HRet (v1, ([None; Some (Shows ODone); Some (Shows ODone)], false)))] /\ length v1 = 6%nat.
Proof. eexists. eexists. eexists. split; [vm_compute; reflexivity|]. vm_compute. eexists. eexists. split; reflexivity. Qed.

(** C90: at every moment the memory has, for the main thread's [UInt]s and [Int]s that are lent, what they held. *)
Theorem C90_typed_lent junk setup slack give programs vs m history :
  tforked setup slack give programs vs m ->
  let '(m', ts) := carry_on junk history (m, map DAt (tspawn 0 give vs programs)) in
  forall x v t, borrowed give x -> nth_error vs x = Some v -> nth_error (fst (tacatches [] setup)) x = Some t -> in_memory m' v t.
Proof. exact (tscratch_lent_fact junk setup slack give programs vs m history). Qed.
Print Assumptions C90_typed_lent.
Example C90_typed_lent_ex : exists vs m os, exec (htcatches [] C90_typed_setup) (empty_memory (fun n => n)) = MVal (vs, os) m /\
  nth_error vs 0 = Some (Some (mk_htvar KI (mk_hapint 100 (UExt 1)))) /\
  nth_error (blocks ((fst (carry_on (fun p i => 5%Z) C90_history (m, map DAt (tspawn 0 C90_typed_give vs C90_typed_programs)))))) 1 = Some (Some [0; 34359738368]).
Proof. eexists. eexists. eexists. split; [vm_compute; reflexivity|]. split; vm_compute; reflexivity. Qed.

(** C90: any thread on [UInt] and [Int] ends if only it gets turns. *)
Theorem C90_typed_progress junk setup slack give programs vs m history i :
  tforked setup slack give programs vs m -> (i < length programs)%nat ->
  exists n r, nth_error (snd (carry_on junk (history ++ map Goes (repeat i n)) (m, map DAt (tspawn 0 give vs programs)))) i = Some (DAt (HRet r)).
Proof. exact (tscratch_progress_fact junk setup slack give programs vs m history i). Qed.
Print Assumptions C90_typed_progress.
Example C90_typed_progress_ex : exists vs m os, exec (htcatches [] C90_typed_setup) (empty_memory (fun n => n)) = MVal (vs, os) m /\
  match nth_error (snd (carry_on (fun p i => 5%Z) (C90_scribbles 1 ++ [Goes 1]) (m, map DAt (tspawn 0 C90_typed_give vs C90_typed_programs)))) 1 with Some (DAt (HRet _)) => False | _ => True end /\
  match nth_error (snd (carry_on (fun p i => 5%Z) ((C90_scribbles 1 ++ [Goes 1]) ++ map Goes (repeat 1%nat 90)) (m, map DAt (tspawn 0 C90_typed_give vs C90_typed_programs)))) 1 with Some (DAt (HRet _)) => True | _ => False end.
Proof. eexists. eexists. eexists. split; [vm_compute; reflexivity|]. vm_compute. auto. Qed.

(** C90: when all threads on [UInt] and [Int] have ended, every allocated buffer has exactly one owner. *)
Theorem C90_typed_join junk setup slack give programs vs m history m' ts :
  tforked setup slack give programs vs m ->
  carry_on junk history (m, map DAt (tspawn 0 give vs programs)) = (m', ts) -> Forall (fun t => exists r, t = DAt (HRet r)) ts ->
  forall p ds, nth_error (blocks m') p = Some (Some ds) -> exists! o, towner give vs (map pending ts) o p.
Proof. exact (tscratch_join_fact junk setup slack give programs vs m history m' ts). Qed.
Print Assumptions C90_typed_join.
Example C90_typed_join_ex : exists vs m os, exec (htcatches [] C90_typed_setup) (empty_memory (fun n => n)) = MVal (vs, os) m /\
  let '(m', ts) := carry_on (fun p i => 5%Z) C90_history (m, map DAt (tspawn 0 C90_typed_give vs C90_typed_programs)) in
  Forall (fun t => exists r, t = DAt (HRet r)) ts /\
  (exists p, nth_error (blocks (m')) p <> None /\ towner C90_typed_give vs (map pending (ts)) (Some 1%nat, 5%nat) p).
Proof.
  eexists. eexists. eexists. split; [vm_compute; reflexivity|]. vm_compute. split; [repeat constructor; eauto|].
  eexists. split; cycle 1.
  - split; [discriminate|]. do 2 eexists. split; [reflexivity|]. eexists. split; reflexivity.
  - vm_compute. discriminate.
Qed.
