(** What the length of the texts of errors depends on. *)
From Verif Require Export SpecErr SpecTime.
Open Scope Z_scope.

(** The numbers an error carries. *)
Definition figures (k : error_kind) : list Z :=
  match k with
  | InvalidRadix r => [r]
  | InvalidStringRepr _ r _ => [r]
  | InvalidBitAccess p w => [p; w]
  | InvalidShiftAmount s w => [s; w]
  | UnmatchingBitwidth l r => [l; r]
  | InvalidBitWidth w => [w]
  | TruncationBitWidthTooLarge t c => [t; c]
  | ExtensionBitWidthTooSmall t c => [t; c]
  | ValueUnrepresentable _ _ | DivisionByZero _ _ | ExpectedNonEmptyDigits => []
  end.
(** The integers an error carries. *)
Definition integers (k : error_kind) : list apint :=
  match k with
  | ValueUnrepresentable v _ => [v]
  | DivisionByZero _ v => [v]
  | _ => []
  end.
Definition total (l : list Z) : Z := fold_right Z.add 0 l.
