(** Specification vocabulary for errors.  The types come from the model:
    [error_kind] (MBase.v), [error] and [eresult] (MText.v). *)
From Coq Require Import Ascii String.
From Verif Require Export MText SpecStr SpecText Spec.
Open Scope Z_scope.

(** The numbers an error carries are not negative and its integers canonical. *)
Definition payload_ok (k : error_kind) : Prop :=
  match k with
  | InvalidRadix r => 0 <= r
  | InvalidStringRepr _ r _ => 0 <= r
  | InvalidBitAccess p w => 0 <= p /\ 0 <= w
  | InvalidShiftAmount s w => 0 <= s /\ 0 <= w
  | ValueUnrepresentable v _ => wf v
  | UnmatchingBitwidth l r => 0 <= l /\ 0 <= r
  | InvalidBitWidth w => 0 <= w
  | TruncationBitWidthTooLarge t c => 0 <= t /\ 0 <= c
  | ExtensionBitWidthTooSmall t c => 0 <= t /\ 0 <= c
  | DivisionByZero _ v => wf v
  | ExpectedNonEmptyDigits => True
  end.

(** What a call returns when the texts of its error are left out. *)
Definition erase {A : Type} (m : outcome (eresult A)) : outcome (result A) :=
  match m with
  | Val (EOk a) => Val (Ok a)
  | Val (EErr e) => Val (Err (e_kind e))
  | Stop b => Stop b
  | OutOfFuel => OutOfFuel
  end.
(** The same for methods on [&mut self]. *)
Definition erase_mut (m : outcome (apint * eresult unit)) : mut_result :=
  match m with
  | Val (a, EOk u) => Val (a, Ok u)
  | Val (a, EErr e) => Val (a, Err (e_kind e))
  | Stop b => Stop b
  | OutOfFuel => OutOfFuel
  end.

(** The comparisons: short name as in the documentation, what it is in words,
    the formula it decides, and the call. *)
Definition comparisons : list (string * string * string * (apint -> apint -> outcome (eresult bool))) :=
  [("ult", "unsigned less-than", "`lhs < rhs`", explained_ult);
   ("ule", "unsigned less-than or equals", "`lhs <= rhs`", explained_ule);
   ("ugt", "unsigned greater-than", "`lhs > rhs`", explained_ugt);
   ("uge", "unsigned greater-than or equals", "`lhs >= rhs`", explained_uge);
   ("slt", "signed less-than", "`lhs < rhs`", explained_slt);
   ("sle", "signed less-than or equals", "`lhs <= rhs`", explained_sle);
   ("sgt", "signed greater-than", "`lhs > rhs`", explained_sgt);
   ("sge", "signed greater-than or equals", "`lhs >= rhs`", explained_sge)]%string.

(** The byte is a digit of the radix or an underscore. *)
Definition acceptable (r b : Z) : Prop := b = 95 \/ exists d, char_value b = Some d /\ d < r.

(** Alignments in the words of [std_integer_text]. *)
Definition side_of (al : alignment) : side :=
  match al with ALeft => OnTheLeft | ACenter => InTheMiddle | ARight => OnTheRight end.
