(** Property C89: what C79 says, for threads on a machine whose reads may return old values: a
    thread that reads a digit gets some value that was written there and is not older than one it
    has seen before, and different threads may see writes in different orders.  A [history] says
    whose turn it is and what the machine chooses.  The words used in the statements are defined
    in SpecThreadsViews.v and in the files of C79. *)
From Verif Require Import LThreadsViews.

(** C89: old values are never seen: whatever happens, each thread is where it is after some schedule
    of the machine of C79, on which a read gets what was written last, and the latest values in
    the memory are those that the memory has there. *)
Theorem C89_same junk setup slack give programs vs m history m' ts :
  forked_catching setup slack give programs vs m ->
  evolves junk history (settled_memory m, viewing (spawn_catching 0 give vs programs)) = (m', ts) ->
  exists schedule, dinterleave junk schedule (m, map DAt (spawn_catching 0 give vs programs)) = (current m', map fst ts).
Proof. exact (views_same_fact junk setup slack give programs vs m history m' ts). Qed.
Print Assumptions C89_same.
(** Thread 0 catches one panic and dies of another; thread 1 loses an integer to a panic that it catches. *)
Definition C89_setup : list cmd := [New (NAllSet 100); New (NOne 100); New (NU16 7); New (NSMin 70)].
Definition C89_give : sharing := [None; Some 0%nat; Some 0%nat; Some 1%nat].
Definition C89_programs : list (list (bool * cmd)) :=
  [[(true, Bin BSdiv 1 2); (false, Clone 0); (false, Bin BSrem 1 2); (false, Clone 0)];
   [(true, IntoBin BSrem 3 0); (false, Clone 0); (false, Mut MInc 4)]].
Example C89_same_ex : exists vs m, forked_catching C89_setup (fun n => n) C89_give C89_programs vs m /\ length vs = 4%nat.
Proof.
  eexists. eexists. split; [split; [repeat constructor; cbn; lia|]|].
  - split; [eexists; vm_compute; reflexivity|]. split; [reflexivity|]. split.
    + intros [|[|[|[|x]]]] i E; cbn in E; try discriminate; [injection E as <-|injection E as <-|injection E as <-|destruct x; discriminate]; cbn; lia.
    + unfold respects, borrowed. repeat constructor; cbn; try lia; intros x I; intuition (subst; discriminate).
  - reflexivity.
Qed.
(** Threads that race do observe old values.  Threads 0 and 1 write 1 to different buffers;
    threads 2 and 3 read both buffers, in opposite orders, and each sees only the first of what it
    reads written: they do not agree which write came first. *)
Definition C89_racing : list (HM (list Z)) :=
  [HStore 0 [1] (HRet []); HStore 1 [1] (HRet []); HLoad 0 1 (fun a => HLoad 1 1 (fun b => HRet (a ++ b))); HLoad 1 1 (fun a => HLoad 0 1 (fun b => HRet (a ++ b)))].
Definition C89_zeros : mem := mk_mem (fun n => n) [Some [0]; Some [0]].
Example C89_racing_ex :
  map fst (snd (evolves (fun p i => 5%Z) [(0, 1); (1, 1); (2, 1); (3, 1); (2, 0); (3, 0)]%nat (settled_memory C89_zeros, viewing C89_racing))) =
    [DAt (HRet []); DAt (HRet []); DAt (HRet [1; 0]); DAt (HRet [1; 0])].
Proof. reflexivity. Qed.
(** On the machine of C79 no schedule has this end. *)
Inductive C89_at := At0 | At1 (a : bool) | At2 (a b : bool).
Definition C89_bit (b : bool) : Z := if b then 1 else 0.
Definition C89_state (x y : bool) (u v : C89_at) : dpool (list Z) :=
  (mk_mem (fun n => n) [Some [C89_bit x]; Some [C89_bit y]],
   [DAt (if x then HRet [] else HStore 0 [1] (HRet [])); DAt (if y then HRet [] else HStore 1 [1] (HRet []));
    DAt (match u with
      | At0 => HLoad 0 1 (fun a => HLoad 1 1 (fun b => HRet (a ++ b)))
      | At1 a => HLoad 1 1 (fun b => HRet ([C89_bit a] ++ b)) | At2 a b => HRet [C89_bit a; C89_bit b] end);
    DAt (match v with
      | At0 => HLoad 1 1 (fun a => HLoad 0 1 (fun b => HRet (a ++ b)))
      | At1 a => HLoad 0 1 (fun b => HRet ([C89_bit a] ++ b)) | At2 a b => HRet [C89_bit a; C89_bit b] end)]).
Definition C89_first (u : C89_at) : bool := match u with At0 => false | At1 a | At2 a _ => a end.
Definition C89_possible (x y : bool) (u v : C89_at) : Prop :=
  (C89_first u = true -> x = true) /\ (C89_first v = true -> y = true) /\ ~ (u = At2 true false /\ v = At2 true false).
Lemma C89_possible_turn i x y u v : C89_possible x y u v ->
  exists x' y' u' v', dturn (fun p i => 5%Z) i (C89_state x y u v) = C89_state x' y' u' v' /\ C89_possible x' y' u' v'.
Proof.
  unfold C89_possible. intros (H1 & H2 & H3). destruct i as [|[|[|[|i]]]].
  - exists true, y, u, v. split; [now destruct x|tauto].
  - exists x, true, u, v. split; [now destruct y|tauto].
  - exists x, y, (match u with At0 => At1 x | At1 a => At2 a y | At2 a b => At2 a b end), v. split; [destruct x, y, u; reflexivity|].
    split; [destruct u; cbn in *; auto|]. split; [exact H2|]. intros (E & ->). destruct u; try discriminate; injection E as -> ->.
    + specialize (H2 eq_refl). discriminate.
    + now apply H3.
  - exists x, y, u, (match v with At0 => At1 y | At1 a => At2 a x | At2 a b => At2 a b end). split; [destruct x, y, v; reflexivity|].
    split; [exact H1|]. split; [destruct v; cbn in *; auto|]. intros (-> & E). destruct v; try discriminate; injection E as -> ->.
    + specialize (H1 eq_refl). discriminate.
    + now apply H3.
  - exists x, y, u, v. split; [|tauto]. unfold dturn. cbn [C89_state snd]. now destruct i.
Qed.
Example C89_no_racing_ex schedule :
  snd (dinterleave (fun p i => 5%Z) schedule (C89_zeros, map DAt C89_racing)) <> [DAt (HRet []); DAt (HRet []); DAt (HRet [1; 0]); DAt (HRet [1; 0])].
Proof.
  assert (X : forall x y u v, C89_possible x y u v ->
    exists x' y' u' v', dinterleave (fun p i => 5%Z) schedule (C89_state x y u v) = C89_state x' y' u' v' /\ C89_possible x' y' u' v').
  { induction schedule as [|i schedule IH]; intros x y u v H; [exists x, y, u, v; auto|]. cbn [dinterleave].
    destruct (C89_possible_turn i x y u v H) as (x' & y' & u' & v' & -> & H'). now apply IH. }
  destruct (X false false At0 At0) as (x & y & u & v & E & H); [unfold C89_possible; cbn; repeat split; try discriminate; intros (? & _); discriminate|].
  change (C89_zeros, map DAt C89_racing) with (C89_state false false At0 At0). rewrite E. intros Q. destruct H as (_ & _ & H). apply H. cbn [C89_state snd] in Q.
  destruct u as [|a|[] []], v as [|a'|[] []]; cbn in Q; try discriminate Q. auto.
Qed.

(** C89: what threads whatever leave behind, the main thread sees without choice: once it has joined
    them, of the values written to a digit only the latest is not older than what it has seen. *)
Theorem C89_joined {R} junk history m threads m' ts :
  @evolves R junk history (settled_memory m, viewing threads) = (m', ts) ->
  forall p k xs, written p k m' = Some xs -> exists x, In x xs /\ (joined ts p k <= stamp x)%nat /\ value x = latest_value xs /\
    forall y, In y xs -> (joined ts p k <= stamp y)%nat -> y = x.
Proof. exact (joined_fact junk history m threads m' ts). Qed.
Print Assumptions C89_joined.
Example C89_joined_ex : let '(m', ts) := evolves (fun p i => 5%Z) [(0, 3); (1, 1)]%nat (settled_memory (mk_mem (fun n => n) [Some [1]]), viewing [HStore 0 [7] (HRet tt); HStore 0 [8] (HRet tt)]) in
  written 0 0 m' = Some [mk_message 0 1; mk_message 3 7; mk_message 1 8] /\ (joined ts 0 0 = 3)%nat /\ current m' = mk_mem (fun n => n) [Some [7]].
Proof. repeat split. Qed.

(** C89: whatever happens, at no time do two threads use the same buffer, one of them to write to it
    or to free it, and no thread does anything undefined. *)
Theorem C89_race_free junk setup slack give programs vs m history :
  forked_catching setup slack give programs vs m ->
  let '(m', ts) := evolves junk history (settled_memory m, viewing (spawn_catching 0 give vs programs)) in
  ~ digit_race (map fst ts) /\ ~ In (DAt HUndef) (map fst ts) /\ ~ In (DAt HPanic) (map fst ts) /\ ~ In (DAt HFuel) (map fst ts).
Proof. exact (views_race_free_fact junk setup slack give programs vs m history). Qed.
Print Assumptions C89_race_free.
Definition C89_history : list (nat * nat) := concat (repeat (map (fun c => (0, c)) (seq 0 6) ++ map (fun c => (1, c)) (seq 0 6)) 60)%nat.
Example C89_race_free_ex : exists vs m os, exec (hcatches [] C89_setup) (empty_memory (fun n => n)) = MVal (vs, os) m /\
  match map fst (snd (evolves (fun p i => 5%Z) (firstn 100 C89_history) (settled_memory m, viewing (spawn_catching 0 C89_give vs C89_programs)))) with [DAt (HRet _); _] => False | _ => True end.
Proof. eexists. eexists. eexists. split; [vm_compute; reflexivity|]. vm_compute. exact I. Qed.

(** C89: a thread that has ended saw the panics and the results that the abstract machine of C58
    sees, run alone from the variables handed to it, and ended as it does, and its integers are
    the machine's, the latest digits of their buffers being where they should. *)
Theorem C89_isolated junk setup slack give programs vs m history m' ts i p vs' r v :
  forked_catching setup slack give programs vs m ->
  evolves junk history (settled_memory m, viewing (spawn_catching 0 give vs programs)) = (m', ts) ->
  nth_error programs i = Some p -> nth_error ts i = Some (DAt (HRet (vs', r)), v) ->
  let (s', r') := athread (keeper give) (hand i give (fst (acatches [] setup))) p in
  r = r' /\ exists cs', Forall2 holds cs' s' /\ Forall2 (stored (current m')) vs' cs'.
Proof. exact (views_isolated_fact junk setup slack give programs vs m history m' ts i p vs' r v). Qed.
Print Assumptions C89_isolated.
Example C89_isolated_ex : exists vs m os, exec (hcatches [] C89_setup) (empty_memory (fun n => n)) = MVal (vs, os) m /\
  let '(m', ts) := evolves (fun p i => 5%Z) C89_history (settled_memory m, viewing (spawn_catching 0 C89_give vs C89_programs)) in
  exists v0 v1, map fst ts = [DAt (HRet (v0, ([None; Some ODone; None], true))); DAt (HRet (v1, ([None; Some ODone; Some ODone], false)))].
Proof. eexists. eexists. eexists. split; [vm_compute; reflexivity|]. vm_compute. eexists. eexists. reflexivity. Qed.

(** C89: at every moment the memory has, for the main thread's variables that are lent, what they held. *)
Theorem C89_lent junk setup slack give programs vs m history :
  forked_catching setup slack give programs vs m ->
  exists cs, Forall2 holds cs (fst (acatches [] setup)) /\ Forall2 (stored m) vs cs /\
  let '(m', ts) := evolves junk history (settled_memory m, viewing (spawn_catching 0 give vs programs)) in
  forall x v c, borrowed give x -> nth_error vs x = Some v -> nth_error cs x = Some c -> stored (current m') v c.
Proof. exact (views_lent_fact junk setup slack give programs vs m history). Qed.
Print Assumptions C89_lent.
Example C89_lent_ex : exists vs m os, exec (hcatches [] C89_setup) (empty_memory (fun n => n)) = MVal (vs, os) m /\
  nth_error vs 0 = Some (Some (mk_hapint 100 (UExt 1))) /\
  nth_error (blocks (current (fst (evolves (fun p i => 5%Z) C89_history (settled_memory m, viewing (spawn_catching 0 C89_give vs C89_programs)))))) 1 = Some (Some [18446744073709551615; 68719476735]).
Proof. eexists. eexists. eexists. split; [vm_compute; reflexivity|]. split; vm_compute; reflexivity. Qed.

(** C89: no thread waits for another: whatever has happened, the machine always has choices with
    which a thread that alone gets turns ends. *)
Theorem C89_progress junk setup slack give programs vs m history i :
  forked_catching setup slack give programs vs m -> (i < length programs)%nat ->
  exists later r v, Forall (fun e => fst e = i) later /\
    nth_error (snd (evolves junk (history ++ later) (settled_memory m, viewing (spawn_catching 0 give vs programs)))) i = Some (DAt (HRet r), v).
Proof. exact (views_progress_fact junk setup slack give programs vs m history i). Qed.
Print Assumptions C89_progress.
Example C89_progress_ex : exists vs m os, exec (hcatches [] C89_setup) (empty_memory (fun n => n)) = MVal (vs, os) m /\
  match nth_error (snd (evolves (fun p i => 5%Z) (repeat (1, 0) 200)%nat (settled_memory m, viewing (spawn_catching 0 C89_give vs C89_programs)))) 1 with Some (DAt (HRet _), _) => False | _ => True end%nat /\
  match nth_error (snd (evolves (fun p i => 5%Z) (repeat (1, 0) 200 ++ filter (fun e => Nat.eqb (fst e) 1) C89_history)%nat (settled_memory m, viewing (spawn_catching 0 C89_give vs C89_programs)))) 1 with
    Some (DAt (HRet _), _) => True | _ => False end%nat.
Proof. eexists. eexists. eexists. split; [vm_compute; reflexivity|]. vm_compute. auto. Qed.

(** C89: when all threads have ended, every allocated buffer has exactly one owner: a variable that
    the main thread had lent, or a variable of one thread. *)
Theorem C89_join junk setup slack give programs vs m history m' ts :
  forked_catching setup slack give programs vs m ->
  evolves junk history (settled_memory m, viewing (spawn_catching 0 give vs programs)) = (m', ts) -> Forall (fun t => exists r, fst t = DAt (HRet r)) ts ->
  forall p ds, nth_error (blocks (current m')) p = Some (Some ds) -> exists! o, owner give vs (map pending (map fst ts)) o p.
Proof. exact (views_join_fact junk setup slack give programs vs m history m' ts). Qed.
Print Assumptions C89_join.
Example C89_join_ex : exists vs m os, exec (hcatches [] C89_setup) (empty_memory (fun n => n)) = MVal (vs, os) m /\
  let '(m', ts) := evolves (fun p i => 5%Z) C89_history (settled_memory m, viewing (spawn_catching 0 C89_give vs C89_programs)) in
  Forall (fun t => exists r, fst t = DAt (HRet r)) ts /\
  (exists p, nth_error (blocks (current m')) p <> None /\ owner C89_give vs (map pending (map fst ts)) (Some 1%nat, 4%nat) p).
Proof.
  eexists. eexists. eexists. split; [vm_compute; reflexivity|]. vm_compute. split; [repeat constructor; eauto|].
  eexists. split; cycle 1.
  - split; [discriminate|]. do 2 eexists. split; [reflexivity|]. eexists. split; reflexivity.
  - vm_compute. discriminate.
Qed.

(** C89: the same of threads on [UInt] and [Int]. *)
Theorem C89_typed_same junk setup slack give programs vs m history m' ts :
  tforked setup slack give programs vs m ->
  evolves junk history (settled_memory m, viewing (tspawn 0 give vs programs)) = (m', ts) ->
  exists schedule, dinterleave junk schedule (m, map DAt (tspawn 0 give vs programs)) = (current m', map fst ts).
Proof. exact (tviews_same_fact junk setup slack give programs vs m history m' ts). Qed.
Print Assumptions C89_typed_same.
(** Thread 0 catches the panic of [+=] and dies of that of [/=]; thread 1 loses an integer to a panic that it catches. *)
Definition C89_typed_setup : list tcmd := [TNew KI (TMin 100); TNew KI (TMax 100); TNew KI (TPrim W8 (-5)); TNew KU (TMax 70); TNew KU (TZero 80)].
Definition C89_typed_give : sharing := [None; Some 0%nat; None; Some 1%nat; None].
Definition C89_typed_programs : list (list (bool * tcmd)) :=
  [[(true, TBin Operator TAdd 1 2); (false, TClone 0); (false, TBin Operator TDiv 1 2); (false, TClone 0)];
   [(true, TIntoBin Operator TMul 3 4); (false, TClone 4); (false, TMut Operator (TShl 5) 5)]].
Example C89_typed_same_ex : exists vs m, tforked C89_typed_setup (fun n => n) C89_typed_give C89_typed_programs vs m /\ length vs = 5%nat.
Proof.
  eexists. eexists. split; [split; [repeat constructor; cbn; lia|]|].
  - split; [eexists; vm_compute; reflexivity|]. split; [reflexivity|]. split.
    + intros [|[|[|[|[|x]]]]] i E; cbn in E; try discriminate; [injection E as <-|injection E as <-|destruct x; discriminate]; cbn; lia.
    + unfold trespects, borrowed. repeat constructor; cbn; try lia; intros x I; intuition (subst; discriminate).
  - reflexivity.
Qed.

(** C89: at no time do threads on [UInt] and [Int] race, nor do anything undefined. *)
Theorem C89_typed_race_free junk setup slack give programs vs m history :
  tforked setup slack give programs vs m ->
  let '(m', ts) := evolves junk history (settled_memory m, viewing (tspawn 0 give vs programs)) in
  ~ digit_race (map fst ts) /\ ~ In (DAt HUndef) (map fst ts) /\ ~ In (DAt HPanic) (map fst ts) /\ ~ In (DAt HFuel) (map fst ts).
Proof. exact (tviews_race_free_fact junk setup slack give programs vs m history). Qed.
Print Assumptions C89_typed_race_free.
Example C89_typed_race_free_ex : exists vs m os, exec (htcatches [] C89_typed_setup) (empty_memory (fun n => n)) = MVal (vs, os) m /\
  match map fst (snd (evolves (fun p i => 5%Z) (firstn 30 C89_history) (settled_memory m, viewing (tspawn 0 C89_typed_give vs C89_typed_programs)))) with [DAt (HRet _); _] => False | _ => True end.
Proof. eexists. eexists. eexists. split; [vm_compute; reflexivity|]. vm_compute. exact I. Qed.

(** C89: a thread on [UInt] and [Int] that has ended saw the panics and the results that the abstract
    machine of C69 sees, run alone from the variables handed to it, and ended as it does, and its
    variables have the machine's types, widths and integers. *)
Theorem C89_typed_isolated junk setup slack give programs vs m history m' ts i p vs' r v :
  tforked setup slack give programs vs m ->
  evolves junk history (settled_memory m, viewing (tspawn 0 give vs programs)) = (m', ts) ->
  nth_error programs i = Some p -> nth_error ts i = Some (DAt (HRet (vs', r)), v) ->
  let (s', r') := tathread (keeper give) (hand i give (fst (tacatches [] setup))) p in
  r = r' /\ Forall2 (in_memory (current m')) vs' s'.
Proof. exact (tviews_isolated_fact junk setup slack give programs vs m history m' ts i p vs' r v). Qed.
Print Assumptions C89_typed_isolated.
Example C89_typed_isolated_ex : exists vs m os, exec (htcatches [] C89_typed_setup) (empty_memory (fun n => n)) = MVal (vs, os) m /\
  let '(m', ts) := evolves (fun p i => 5%Z) C89_history (settled_memory m, viewing (tspawn 0 C89_typed_give vs C89_typed_programs)) in
  exists v0 v1, map fst ts = [DAt (HRet (v0, ([None; Some (Shows ODone); None], true))); DAt (HRet (v1, ([None; Some (Shows ODone); Some (Shows ODone)], false)))] /\ length v1 = 6%nat.
Proof. eexists. eexists. eexists. split; [vm_compute; reflexivity|]. vm_compute. eexists. eexists. split; reflexivity. Qed.

(** C89: at every moment the memory has, for the main thread's [UInt]s and [Int]s that are lent, what they held. *)
Theorem C89_typed_lent junk setup slack give programs vs m history :
  tforked setup slack give programs vs m ->
  let '(m', ts) := evolves junk history (settled_memory m, viewing (tspawn 0 give vs programs)) in
  forall x v t, borrowed give x -> nth_error vs x = Some v -> nth_error (fst (tacatches [] setup)) x = Some t -> in_memory (current m') v t.
Proof. exact (tviews_lent_fact junk setup slack give programs vs m history). Qed.
Print Assumptions C89_typed_lent.
Example C89_typed_lent_ex : exists vs m os, exec (htcatches [] C89_typed_setup) (empty_memory (fun n => n)) = MVal (vs, os) m /\
  nth_error vs 0 = Some (Some (mk_htvar KI (mk_hapint 100 (UExt 1)))) /\
  nth_error (blocks (current (fst (evolves (fun p i => 5%Z) C89_history (settled_memory m, viewing (tspawn 0 C89_typed_give vs C89_typed_programs)))))) 1 = Some (Some [0; 34359738368]).
Proof. eexists. eexists. eexists. split; [vm_compute; reflexivity|]. split; vm_compute; reflexivity. Qed.

(** C89: any thread on [UInt] and [Int] ends if only it gets turns and the machine lets it go on. *)
Theorem C89_typed_progress junk setup slack give programs vs m history i :
  tforked setup slack give programs vs m -> (i < length programs)%nat ->
  exists later r v, Forall (fun e => fst e = i) later /\
    nth_error (snd (evolves junk (history ++ later) (settled_memory m, viewing (tspawn 0 give vs programs)))) i = Some (DAt (HRet r), v).
Proof. exact (tviews_progress_fact junk setup slack give programs vs m history i). Qed.
Print Assumptions C89_typed_progress.
Example C89_typed_progress_ex : exists vs m os, exec (htcatches [] C89_typed_setup) (empty_memory (fun n => n)) = MVal (vs, os) m /\
  match nth_error (snd (evolves (fun p i => 5%Z) (repeat (1, 0) 200)%nat (settled_memory m, viewing (tspawn 0 C89_typed_give vs C89_typed_programs)))) 1 with Some (DAt (HRet _), _) => False | _ => True end%nat /\
  match nth_error (snd (evolves (fun p i => 5%Z) (repeat (1, 0) 200 ++ filter (fun e => Nat.eqb (fst e) 1) C89_history)%nat (settled_memory m, viewing (tspawn 0 C89_typed_give vs C89_typed_programs)))) 1 with
    Some (DAt (HRet _), _) => True | _ => False end%nat.
Proof. eexists. eexists. eexists. split; [vm_compute; reflexivity|]. vm_compute. auto. Qed.

(** C89: when all threads on [UInt] and [Int] have ended, every allocated buffer has exactly one owner. *)
Theorem C89_typed_join junk setup slack give programs vs m history m' ts :
  tforked setup slack give programs vs m ->
  evolves junk history (settled_memory m, viewing (tspawn 0 give vs programs)) = (m', ts) -> Forall (fun t => exists r, fst t = DAt (HRet r)) ts ->
  forall p ds, nth_error (blocks (current m')) p = Some (Some ds) -> exists! o, towner give vs (map pending (map fst ts)) o p.
Proof. exact (tviews_join_fact junk setup slack give programs vs m history m' ts). Qed.
Print Assumptions C89_typed_join.
Example C89_typed_join_ex : exists vs m os, exec (htcatches [] C89_typed_setup) (empty_memory (fun n => n)) = MVal (vs, os) m /\
  let '(m', ts) := evolves (fun p i => 5%Z) C89_history (settled_memory m, viewing (tspawn 0 C89_typed_give vs C89_typed_programs)) in
  Forall (fun t => exists r, fst t = DAt (HRet r)) ts /\
  (exists p, nth_error (blocks (current m')) p <> None /\ towner C89_typed_give vs (map pending (map fst ts)) (Some 1%nat, 5%nat) p).
Proof.
  eexists. eexists. eexists. split; [vm_compute; reflexivity|]. vm_compute. split; [repeat constructor; eauto|].
  eexists. split; cycle 1.
  - split; [discriminate|]. do 2 eexists. split; [reflexivity|]. eexists. split; reflexivity.
  - vm_compute. discriminate.
Qed.
