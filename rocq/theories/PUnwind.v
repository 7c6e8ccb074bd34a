(** Properties C58 and C59.  [exec (hcatches [] p)] (MUnwind.v) runs the programs of SpecMachine.v over
    the heap of MHeap.v, with every panic caught: [None] in the list of results. *)
From Verif Require Import LUnwind.

(** C58: whatever panics were caught, the run goes on as [acatches] says
    (SpecUnwind.v): nothing undefined happens, every variable holds a canonical
    integer of the right value in a buffer of its own of exactly the right
    size, and no other buffer is allocated. *)
Theorem C58_catch p slack :
  Forall cmd_ok p ->
  exists vs m cs, exec (hcatches [] p) (empty_memory slack) = MVal (vs, snd (acatches [] p)) m /\
    Forall2 holds cs (fst (acatches [] p)) /\ Forall2 (stored m) vs cs /\ owned_once m vs.
Proof. exact (catch_fact p slack). Qed.
Print Assumptions C58_catch.
Definition C58_program : list cmd :=
  [New (NI64 (-5)); New (NSMin 100); Bin BSdiv 0 1; Ask QLsb 0; Clone 1; Pair PSRemDiv 2 0; New (NParse 37 [49]);
   IntoBin BSrem 1 0; Ask QWidth 1; Bin BSdiv 2 0; Mut (MTruncate 64) 2; Bin BSrem 2 0].
Example C58_catch_ex : Forall cmd_ok C58_program /\
  acatches [] C58_program =
    ([Some (64, 5); None; Some (64, 0)],
     [Some ODone; Some ODone; None; Some (OBool true); Some ODone; None; None; None; Some ORejected; None; Some ODone; Some ODone]) /\
  exists m, exec (hcatches [] C58_program) (empty_memory (fun n => n)) =
    MVal ([Some (mk_hapint 64 (UInl 5)); None; Some (mk_hapint 64 (UInl 0))], snd (acatches [] C58_program)) m /\ blocks m = repeat None 4.
Proof.
  split; [repeat constructor; cbn; lia|]. split; [vm_compute; reflexivity|]. eexists. split; [vm_compute; reflexivity|reflexivity].
Qed.

(** C58: when every variable is dropped after that, nothing stays allocated. *)
Theorem C58_no_leak p slack :
  Forall cmd_ok p ->
  exists vs os m, exec (hcatches [] (p ++ map Drop (seq 0 (length (fst (acatches [] p)))))) (empty_memory slack) = MVal (vs, os) m /\ all_freed m.
Proof. exact (catch_no_leak_fact p slack). Qed.
Print Assumptions C58_no_leak.
Example C58_no_leak_ex : exists vs os m,
  exec (hcatches [] ([New (NSMin 100); New (NSMax 200); Bin BSdiv 0 1; IntoBin BSrem 1 0] ++ map Drop (seq 0 2))) (empty_memory (fun n => n)) =
    MVal (vs, os) m /\ os = [Some ODone; Some ODone; None; None; Some ODone; Some ORejected] /\ blocks m = repeat None 6.
Proof. eexists. eexists. eexists. split; [vm_compute; reflexivity|split; reflexivity]. Qed.

(** C58: a program that does not panic shows the same, whether panics are caught or not. *)
Theorem C58_no_panic p slack vs os m :
  Forall cmd_ok p -> exec (hrun [] p) (empty_memory slack) = MVal (vs, os) m ->
  exists vs' m', exec (hcatches [] p) (empty_memory slack) = MVal (vs', map Some os) m'.
Proof. exact (catch_same_fact p slack vs os m). Qed.
Print Assumptions C58_no_panic.
Example C58_no_panic_ex : exists vs m,
  exec (hrun [] [New (NI64 (-5)); New (NI64 3); Bin BSrem 0 1; Ask (QResizeTo PI8) 0; Pair PSDivRem 1 0; Ask (QResizeTo PI8) 1]) (empty_memory (fun n => n)) =
    MVal (vs, [ODone; ODone; ODone; OInt (-2); ODone; OInt (-1)]) m.
Proof. eexists. eexists. vm_compute. reflexivity. Qed.

(** C59: what a call that panics does to a variable: nothing to those it does not
    write to, an operand that it consumes is gone, and one behind [&mut] has its
    absolute value.  So it is unchanged unless it was negative; what is missing is in
    C59_unchanged_refuted. *)
Theorem C59_panic_effect_partial p c slack vs os m vs' m' i v x :
  Forall cmd_ok p -> cmd_ok c ->
  exec (hcatches [] p) (empty_memory slack) = MVal (vs, os) m ->
  exec (hcatches [] (p ++ [c])) (empty_memory slack) = MVal (vs', os ++ [None]) m' ->
  nth_error vs i = Some v -> stored m v (Some x) ->
  exists v', nth_error vs' i = Some v' /\
    if in_dec Nat.eq_dec i (writes c) then
      match c with
      | IntoBin _ _ _ => v' = None
      | _ => exists y, stored m' v' (Some y) /\ is_apint y (len x) (Z.abs (signed x))
      end
    else stored m' v' (Some x).
Proof. exact (panic_effect_fact p c slack vs os m vs' m' i v x). Qed.
Print Assumptions C59_panic_effect_partial.
Example C59_panic_effect_partial_ex : exists vs m vs' m',
  exec (hcatches [] [New (NSMin 100); New (NSMax 200)]) (empty_memory (fun n => n)) = MVal (vs, [Some ODone; Some ODone]) m /\
  exec (hcatches [] ([New (NSMin 100); New (NSMax 200)] ++ [Bin BSdiv 0 1])) (empty_memory (fun n => n)) =
    MVal (vs', [Some ODone; Some ODone] ++ [None]) m' /\
  nth_error vs 1 = Some (Some (mk_hapint 200 (UExt 3))) /\ nth_error vs' 1 = Some (Some (mk_hapint 200 (UExt 3))) /\
  nth_error (blocks m) 3 = nth_error (blocks m') 3.
Proof.
  do 4 eexists. split; [vm_compute; reflexivity|]. split; [vm_compute; reflexivity|]. repeat split.
Qed.

(** C59 is false: signed division of unequal widths panics after negating its first
    operand.  Here -5 has become 5. *)
Theorem C59_unchanged_refuted :
  exists p c vs os m vs' m' v v' x y,
  Forall cmd_ok p /\ cmd_ok c /\
  exec (hcatches [] p) (empty_memory (fun n => n)) = MVal (vs, os) m /\
  exec (hcatches [] (p ++ [c])) (empty_memory (fun n => n)) = MVal (vs', os ++ [None]) m' /\
  nth_error vs 0 = Some v /\ stored m v (Some x) /\ nth_error vs' 0 = Some v' /\ stored m' v' (Some y) /\
  signed x = -5 /\ signed y = 5.
Proof. exact panic_changes_fact. Qed.
Print Assumptions C59_unchanged_refuted.
Example C59_unchanged_refuted_ex : exists m, exec (hcatches [] [New (NI8 (-5)); New (NU16 7); Bin BSdiv 0 1; Ask (QTryTo PI8) 0]) (empty_memory (fun n => n)) =
  MVal ([Some (mk_hapint 8 (UInl 5)); Some (mk_hapint 16 (UInl 7))], [Some ODone; Some ODone; None; Some (OInt 5)]) m.
Proof. eexists. vm_compute. reflexivity. Qed.
