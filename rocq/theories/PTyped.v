(** Property C64: programs of calls on [UInt] and [Int].  The calls and the abstract
    machine [tarun] on (type, width, integer) are in SpecTyped.v, [tholds] in
    SpecTypedRel.v; [trun] runs the modelled code. *)
From Verif Require Import LEx LTyped3.

(** C64: every program shows exactly what the abstract machine says, panics exactly
    where it says, and leaves each variable with the integer it says. *)
Theorem C64_typed_programs p :
  Forall tcmd_ok p ->
  match tarun [] p with
  | None => trun [] p = Panic
  | Some (s, os) => exists cs, trun [] p = Val (cs, os) /\ Forall2 tholds cs s
  end.
Proof. exact (typed_simulation_fact p). Qed.
Print Assumptions C64_typed_programs.
Definition C64_prog : list tcmd :=
  [TNew KI (TPrim W8 (-100)); TNew KI (TPrim W8 7); TBin Method TMul 0 1; TIntoBin Operator TDiv 0 1;
   TAsk TSignum 2; TSwitch 2; TMut Method (TExtend 100) 3; TMut Method (TShl 99) 3; TTest TLt 3 1;
   TThrough KI 3; TCompare 4 1; TInto Operator (TShr 1) 4; TPut TSetSign 5; TAsk TLeadingZeros 5; TEqual 5 5; TMut Method TAbs 3].
Example C64_typed_programs_ex : Forall tcmd_ok C64_prog /\
  tarun [] C64_prog = Some ([None; Some (mk_tval KI 8 7); None; None; None; Some (mk_tval KI 100 (- 2 ^ 98))],
    [Shows ODone; Shows ODone; Shows ODone; Shows ODone; Shows (OInt 1); Shows ODone; Shows ODone; Shows ODone;
     Shows ORejected; Shows ODone; Ordering None; Shows ODone; Shows ODone; Shows (OInt 0); Shows (OBool true); Shows ORejected]) /\
  tarun [] (C64_prog ++ [TBin Method TDiv 5 1]) = None /\ trun [] (C64_prog ++ [TBin Method TDiv 5 1]) = Panic.
Proof. split; [repeat constructor; try discriminate|]. split; [vm_compute; reflexivity|]. split; vm_compute; reflexivity. Qed.

(** C64: two programs that lead to the same integers lead to the same memory, so no
    later call can tell them apart. *)
Theorem C64_memory p q cs os cs' os' s :
  Forall tcmd_ok p -> Forall tcmd_ok q ->
  trun [] p = Val (cs, os) -> trun [] q = Val (cs', os') ->
  option_map fst (tarun [] p) = Some s -> option_map fst (tarun [] q) = Some s -> cs = cs'.
Proof. exact (typed_memory_fact p q cs os cs' os' s). Qed.
Print Assumptions C64_memory.
Example C64_memory_ex :
  let p := [TNew KU (TMax 70); TMut Method (TTruncate 65) 0; TInto Operator TNot 0] in
  let q := [TNew KI (TZero 65); TSwitch 0] in
  Forall tcmd_ok p /\ Forall tcmd_ok q /\
  option_map fst (tarun [] p) = Some [None; Some (mk_tval KU 65 0)] /\
  option_map fst (tarun [] q) = Some [None; Some (mk_tval KU 65 0)] /\
  exists c os os', trun [] p = Val ([None; Some (VU c)], os) /\ trun [] q = Val ([None; Some (VU c)], os').
Proof.
  split; [repeat constructor; try discriminate|]. split; [repeat constructor; try discriminate|].
  split; [vm_compute; reflexivity|]. split; [vm_compute; reflexivity|].
  exists (mk_uint (mk_apint 65 [0; 0])). do 2 eexists. split; vm_compute; reflexivity.
Qed.

(** C64: at the end of every program every variable holds an integer of its type and width. *)
Theorem C64_ranges p s os :
  Forall tcmd_ok p -> tarun [] p = Some (s, os) ->
  Forall (fun o => match o with
    | Some v => 0 < twidth v /\ least (tkind v) (twidth v) <= tvalue v <= greatest (tkind v) (twidth v)
    | None => True end) s.
Proof. exact (typed_range_fact p s os). Qed.
Print Assumptions C64_ranges.
Example C64_ranges_ex :
  let p := [TNew KI (TMin 64); TMut Method TNeg 0; TNew KI (TMin 64); TMut Method TAbs 1; TBin Method TAdd 0 1] in
  Forall tcmd_ok p /\ option_map fst (tarun [] p) = Some [Some (mk_tval KI 64 0); Some (mk_tval KI 64 (- 2 ^ 63))].
Proof. split; [repeat constructor; try discriminate|]. vm_compute. reflexivity. Qed.

(** C64: a program without operators, signed or unsigned division and octal output never panics. *)
Theorem C64_no_panic p :
  Forall tcmd_ok p ->
  Forall (fun c => match c with
    | TMut Operator _ _ | TInto Operator _ _ | TBin Operator _ _ _ | TIntoBin Operator _ _ _ => False
    | TBin _ (TDiv | TRem) _ _ | TIntoBin _ (TDiv | TRem) _ _ => False
    | TAsk TOctal _ => False
    | _ => True
    end) p ->
  exists cs os, trun [] p = Val (cs, os) /\ length os = length p.
Proof. exact (typed_no_panic_fact p). Qed.
Print Assumptions C64_no_panic.
Example C64_no_panic_ex :
  let p := [TNew KI (TOne 1); TNew KU (TOne 0); TNew KU (TOne 1); TNew KU (TOne 2); TBin Method TAdd 0 1; TMut Method (TShl 9) 1] in
  Forall tcmd_ok p /\ option_map snd (tarun [] p) = Some [Nothing; Shows (OFail (EBitWidth 0)); Shows ODone; Shows ODone;
    Shows (OFail (EWidths 1 2)); Shows (OFail (EShift 9 2))].
Proof. split; [repeat constructor; try discriminate|]. vm_compute. reflexivity. Qed.
