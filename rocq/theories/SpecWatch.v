(** Words for C102: which executions are compared. *)
From Verif Require Export Spec MWatch.

(** Two well-formed integers of the same width, whatever their values. *)
Definition twins (a a' : apint) : Prop := wf a /\ wf a' /\ len a = len a'.
(** The arguments are ones Rust's types admit: positions and amounts are not negative, widths are positive. *)
Definition mut_ok (m : still_mut) : Prop :=
  match m with
  | SSetBit p | SUnsetBit p | SFlipBit p => 0 <= p
  | SShl s | SLshr s => 0 <= s
  | STruncate t | SZeroExtend t | SZeroResize t => 0 < t
  | _ => True
  end.
Definition call_ok (c : still_call) : Prop :=
  match c with SMut m _ => mut_ok m | _ => True end.
