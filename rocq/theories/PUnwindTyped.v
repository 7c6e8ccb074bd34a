(** Properties C69 and C70.  [exec (htcatches [] p)] (MUnwindTyped.v) runs the programs of
    SpecTyped.v, on [UInt] and [Int], over the heap of MHeap.v, with every panic
    caught: [None] in the list of results. *)
From Verif Require Import LUnwindTyped2.

(** C69: whatever panics were caught, the run goes on as [tacatches] says
    (SpecUnwindTyped.v): nothing undefined happens, every variable has its type, its
    width and the digits of its integer in a buffer of its own of exactly the
    right size, and no other buffer is allocated. *)
Theorem C69_catch p slack :
  Forall tcmd_ok p ->
  exists vs m, exec (htcatches [] p) (empty_memory slack) = MVal (vs, snd (tacatches [] p)) m /\
    Forall2 (in_memory m) vs (fst (tacatches [] p)) /\ owned_once m (inside vs).
Proof. exact (tcatch_fact p slack). Qed.
Print Assumptions C69_catch.
Definition C69_program : list tcmd :=
  [TNew KI (TPrim W8 (-5)); TNew KI (TMin 100); TBin Operator TAdd 1 0; TAsk (TTo W64) 0; TBin Operator TDiv 0 1; TAsk (TTo W64) 0;
   TIntoBin Operator TMul 1 0; TAsk TWidth 1; TMut Operator (TShl 8) 0; TAsk TOctal 0; TSwitch 0; TNew KU (TMax 70); TClone 3;
   TInto Operator (TShr 70) 3; TNew KU (TZero 70); TBin Operator TRem 4 5; TIntoBin Method TDiv 4 2].
Example C69_catch_ex : Forall tcmd_ok C69_program /\
  tacatches [] C69_program =
    ([None; None; Some (mk_tval KU 8 5); None; None; Some (mk_tval KU 70 0)],
     [Some (Shows ODone); Some (Shows ODone); None; Some (Shows (OInt (-5))); None; Some (Shows (OInt 5));
      None; Some rejected; None; None; Some (Shows ODone); Some (Shows ODone); Some (Shows ODone);
      None; Some (Shows ODone); None; Some (Shows (OFail (EWidths 70 8)))]) /\
  exists m, exec (htcatches [] C69_program) (empty_memory (fun n => n)) =
    MVal ([None; None; Some (mk_htvar KU (mk_hapint 8 (UInl 5))); None; None; Some (mk_htvar KU (mk_hapint 70 (UExt 7)))],
      snd (tacatches [] C69_program)) m /\ blocks m = repeat None 7 ++ [Some [0; 0]; None].
Proof.
  split; [repeat constructor; cbn; lia|]. split; [vm_compute; reflexivity|]. eexists. split; vm_compute; reflexivity.
Qed.

(** C69: the integers there are those the types can hold. *)
Theorem C69_in_type p :
  Forall tcmd_ok p ->
  Forall (fun o => match o with Some v => in_type v | None => True end) (fst (tacatches [] p)).
Proof. exact (tcatch_range_fact p). Qed.
Print Assumptions C69_in_type.
Example C69_in_type_ex : fst (tacatches [] [TNew KI (TMin 8); TNew KI (TZero 9); TNew KI (TMax 16); TBin Method TRem 0 2]) =
  [Some (mk_tval KI 8 (-128)); Some (mk_tval KI 9 0); Some (mk_tval KI 16 32767)].
Proof. vm_compute. reflexivity. Qed.

(** C69: when every variable is dropped after that, nothing stays allocated. *)
Theorem C69_no_leak p slack :
  Forall tcmd_ok p ->
  exists vs os m, exec (htcatches [] (p ++ map TDrop (seq 0 (length (fst (tacatches [] p)))))) (empty_memory slack) = MVal (vs, os) m /\ all_freed m.
Proof. exact (tcatch_no_leak_fact p slack). Qed.
Print Assumptions C69_no_leak.
Example C69_no_leak_ex : exists vs os m,
  exec (htcatches [] ([TNew KI (TMin 100); TNew KI (TMax 200); TBin Operator TDiv 0 1; TIntoBin Operator TSub 1 0] ++ map TDrop (seq 0 2))) (empty_memory (fun n => n)) =
    MVal (vs, os) m /\ os = [Some (Shows ODone); Some (Shows ODone); None; None; Some (Shows ODone); Some rejected] /\ blocks m = repeat None 5.
Proof. eexists. eexists. eexists. split; [vm_compute; reflexivity|split; reflexivity]. Qed.

(** C69: a program that does not panic shows the same, whether panics are caught or not. *)
Theorem C69_no_panic p slack vs os m :
  Forall tcmd_ok p -> exec (htrun [] p) (empty_memory slack) = MVal (vs, os) m ->
  exists vs' m', exec (htcatches [] p) (empty_memory slack) = MVal (vs', map Some os) m'.
Proof. exact (tcatch_same_fact p slack vs os m). Qed.
Print Assumptions C69_no_panic.
Example C69_no_panic_ex : exists vs m,
  exec (htrun [] [TNew KI (TPrim W64 (-5)); TNew KI (TPrim W64 3); TBin Operator TRem 0 1; TAsk (TTo W8) 0; TIntoBin Operator TSub 1 0]) (empty_memory (fun n => n)) =
    MVal (vs, [Shows ODone; Shows ODone; Shows ODone; Shows (OInt (-2)); Shows ODone]) m.
Proof. eexists. eexists. vm_compute. reflexivity. Qed.

(** C70: what a call that panics does to a variable that holds [t].  It is gone if
    the call consumes it.  It has lost its sign if it is an [Int] divided in place
    by an [Int] of another width that is not zero.  Otherwise it is unchanged. *)
Theorem C70_effect_exact p c slack vs os m vs' m' i v t :
  Forall tcmd_ok p -> tcmd_ok c ->
  exec (htcatches [] p) (empty_memory slack) = MVal (vs, os) m ->
  exec (htcatches [] (p ++ [c])) (empty_memory slack) = MVal (vs', os ++ [None]) m' ->
  nth_error vs i = Some v -> in_type t -> in_memory m v (Some t) ->
  exists v', nth_error vs' i = Some v' /\
    match c with
    | TInto _ _ x | TIntoBin _ _ x _ => if Nat.eqb i x then v' = None else in_memory m' v' (Some t)
    | TBin _ (TDiv | TRem) x y =>
        if Nat.eqb i x then
          forall u, in_type u -> (exists b, nth_error vs y = Some b /\ in_memory m b (Some u)) ->
            in_memory m' v' (Some (match tkind t with
              | KU => t
              | KI => if tvalue u =? 0 then t else if twidth t =? twidth u then t else without_sign t
              end))
        else in_memory m' v' (Some t)
    | _ => in_memory m' v' (Some t)
    end.
Proof. exact (tpanic_effect_fact p c slack vs os m vs' m' i v t). Qed.
Print Assumptions C70_effect_exact.
Example C70_effect_exact_ex : exists vs m vs' m',
  exec (htcatches [] [TNew KI (TMin 100); TNew KI (TMax 200)]) (empty_memory (fun n => n)) = MVal (vs, [Some (Shows ODone); Some (Shows ODone)]) m /\
  exec (htcatches [] ([TNew KI (TMin 100); TNew KI (TMax 200)] ++ [TBin Operator TXor 0 1])) (empty_memory (fun n => n)) =
    MVal (vs', [Some (Shows ODone); Some (Shows ODone)] ++ [None]) m' /\
  nth_error vs 0 = Some (Some (mk_htvar KI (mk_hapint 100 (UExt 1)))) /\ nth_error vs' 0 = Some (Some (mk_htvar KI (mk_hapint 100 (UExt 1)))) /\
  nth_error (blocks m) 1 = nth_error (blocks m') 1.
Proof.
  do 4 eexists. split; [vm_compute; reflexivity|]. split; [vm_compute; reflexivity|]. repeat split.
Qed.

(** C70: when a binary operator in place panics, its first operand is unchanged, if it
    is a [UInt], if the operator is no division, or if the operand is not
    negative.  What is missing is in C70_unchanged_refuted. *)
Theorem C70_unchanged_partial p f o x y slack vs os m vs' m' v t :
  Forall tcmd_ok p ->
  exec (htcatches [] p) (empty_memory slack) = MVal (vs, os) m ->
  exec (htcatches [] (p ++ [TBin f o x y])) (empty_memory slack) = MVal (vs', os ++ [None]) m' ->
  nth_error vs x = Some v -> in_type t -> in_memory m v (Some t) ->
  tkind t = KU \/ o <> TDiv /\ o <> TRem \/ 0 <= tvalue t ->
  exists v', nth_error vs' x = Some v' /\ in_memory m' v' (Some t).
Proof. exact (tpanic_unchanged_fact p f o x y slack vs os m vs' m' v t). Qed.
Print Assumptions C70_unchanged_partial.
Example C70_unchanged_partial_ex : exists m,
  exec (htcatches [] [TNew KU (TPrim W8 200); TNew KU (TPrim W16 7); TBin Operator TDiv 0 1; TBin Operator TSub 0 1; TAsk (TTo W8) 0]) (empty_memory (fun n => n)) =
  MVal ([Some (mk_htvar KU (mk_hapint 8 (UInl 200))); Some (mk_htvar KU (mk_hapint 16 (UInl 7)))],
    [Some (Shows ODone); Some (Shows ODone); None; None; Some (Shows (OInt 200))]) m.
Proof. eexists. vm_compute. reflexivity. Qed.

(** C70 is false: after [x %= y] panicked because the widths differ, -5 has become 5. *)
Theorem C70_unchanged_refuted :
  exists p c vs os m vs' m' v v' t t',
  Forall tcmd_ok p /\ tcmd_ok c /\
  exec (htcatches [] p) (empty_memory (fun n => n)) = MVal (vs, os) m /\
  exec (htcatches [] (p ++ [c])) (empty_memory (fun n => n)) = MVal (vs', os ++ [None]) m' /\
  nth_error vs 0 = Some v /\ in_memory m v (Some t) /\ in_type t /\ nth_error vs' 0 = Some v' /\ in_memory m' v' (Some t') /\ in_type t' /\
  tvalue t = -5 /\ tvalue t' = 5.
Proof. exact tpanic_changes_fact. Qed.
Print Assumptions C70_unchanged_refuted.
Example C70_unchanged_refuted_ex : exists m,
  exec (htcatches [] [TNew KI (TPrim W8 (-5)); TNew KI (TPrim W16 7); TBin Operator TRem 0 1; TAsk (TTo W8) 0]) (empty_memory (fun n => n)) =
  MVal ([Some (mk_htvar KI (mk_hapint 8 (UInl 5))); Some (mk_htvar KI (mk_hapint 16 (UInl 7)))],
    [Some (Shows ODone); Some (Shows ODone); None; Some (Shows (OInt 5))]) m.
Proof. eexists. vm_compute. reflexivity. Qed.
