(** Specification vocabulary for the texts of errors: what their messages say and
    how an error looks when it is printed. *)
From Coq Require Export Ascii String.
From Verif Require Export SpecErr.
Open Scope Z_scope.

(** The names of operations and primitive types. *)
Definition operation_name (op : div_op) : string :=
  match op with
  | UnsignedDivRem => "UnsignedDivRem" | UnsignedRemDiv => "UnsignedRemDiv"
  | SignedDivRem => "SignedDivRem" | SignedRemDiv => "SignedRemDiv"
  | UnsignedDiv => "UnsignedDiv" | UnsignedRem => "UnsignedRem"
  | SignedDiv => "SignedDiv" | SignedRem => "SignedRem"
  end.
Definition type_name (t : prim_ty) : string :=
  match t with
  | PBool => "Bool" | PI8 => "I8" | PU8 => "U8" | PI16 => "I16" | PU16 => "U16"
  | PI32 => "I32" | PU32 => "U32" | PI64 => "I64" | PU64 => "U64" | PI128 => "I128" | PU128 => "U128"
  end.

(** [t] is the "{:?}" text of the canonical integer [a]. *)
Definition debug_of (a : apint) (t : list Z) : Prop :=
  exists dw ds, decimal (len a) dw /\ Forall2 decimal (words (len a) (unsigned a)) ds /\
    t = chars "ApInt { len: BitWidth(" ++ dw ++ chars "), digits: [" ++
        comma_separated (map (fun d => chars "Digit(" ++ d ++ chars ")") ds) ++ chars "] }".

(** [t] is the message for the kind [k]. *)
Definition says (k : error_kind) (t : list Z) : Prop :=
  match k with
  | InvalidRadix r => exists d, decimal r d /\ t = chars "Encountered an invalid parsing radix of " ++ d ++ chars "."
  | InvalidStringRepr _ r _ => exists d, decimal r d /\
      t = chars "Encountered an invalid string representation for the given radix (= Radix(" ++ d ++ chars "))."
  | InvalidBitAccess p w => exists dp dw, decimal p dp /\ decimal w dw /\
      t = chars "Encountered invalid bit access at position BitPos(" ++ dp ++
          chars ") with a total bit-width of BitWidth(" ++ dw ++ chars ")."
  | InvalidShiftAmount s w => exists ds dw, decimal s ds /\ decimal w dw /\
      t = chars "Encountered invalid shift amount of ShiftAmount(" ++ ds ++
          chars ") on bit-width with BitWidth(" ++ dw ++ chars ") bits."
  | ValueUnrepresentable v ty => exists dv, debug_of v dv /\
      t = chars "Encountered a value (" ++ dv ++ chars ") that is unrepresentable by the destination type " ++
          chars (type_name ty) ++ chars "."
  | UnmatchingBitwidth l r => exists dl dr, decimal l dl /\ decimal r dr /\
      t = chars "Encountered invalid operation on entities with non-matching bit-widths of BitWidth(" ++ dl ++
          chars ") and BitWidth(" ++ dr ++ chars ")."
  | InvalidBitWidth w => exists d, decimal w d /\ t = chars "Encountered invalid bitwidth of " ++ d ++ chars "."
  | TruncationBitWidthTooLarge ta c => exists dt dc, decimal ta dt /\ decimal c dc /\
      t = chars "Tried to truncate an `ApInt` with a width of BitWidth(" ++ dc ++
          chars ") to a larger target width of BitWidth(" ++ dt ++ chars ")"
  | ExtensionBitWidthTooSmall ta c => exists dt dc, decimal ta dt /\ decimal c dc /\
      t = chars "Tried to extend an `ApInt` with a width of BitWidth(" ++ dc ++
          chars ") to a smaller target width of BitWidth(" ++ dt ++ chars ")"
  | DivisionByZero op v => exists dv, debug_of v dv /\
      t = chars "Encountered a division-by-zero for operation (= " ++ chars (operation_name op) ++
          chars ") with the left hand-side value: (= " ++ dv ++ chars ")"
  | ExpectedNonEmptyDigits =>
      t = chars "Encountered an empty iterator upon construction of an `ApInt` from a digit iterator."
  end.

(** [t] is how the kind [k] is printed. *)
Definition prints_kind (printable : Z -> bool) (k : error_kind) (t : list Z) : Prop :=
  match k with
  | InvalidRadix r => exists d, decimal r d /\ t = chars "InvalidRadix(" ++ d ++ chars ")"
  | InvalidStringRepr s r pc => exists cs q d x, Forall scalar cs /\ s = utf8 cs /\ shows_string printable cs q /\ decimal r d /\
      match pc with
      | None => x = chars "None"
      | Some (p, c) => exists dp tc, decimal p dp /\ escaped printable 39 c tc /\
          x = chars "Some((" ++ dp ++ chars ", '" ++ tc ++ chars "'))"
      end /\
      t = chars "InvalidStringRepr { input: " ++ q ++ chars ", radix: Radix(" ++ d ++ chars "), pos_char: " ++ x ++ chars " }"
  | InvalidBitAccess p w => exists dp dw, decimal p dp /\ decimal w dw /\
      t = chars "InvalidBitAccess { pos: BitPos(" ++ dp ++ chars "), width: BitWidth(" ++ dw ++ chars ") }"
  | InvalidShiftAmount s w => exists ds dw, decimal s ds /\ decimal w dw /\
      t = chars "InvalidShiftAmount { shift_amount: ShiftAmount(" ++ ds ++ chars "), width: BitWidth(" ++ dw ++ chars ") }"
  | ValueUnrepresentable v ty => exists dv, debug_of v dv /\
      t = chars "ValueUnrepresentable { value: " ++ dv ++ chars ", destination_ty: " ++ chars (type_name ty) ++ chars " }"
  | UnmatchingBitwidth l r => exists dl dr, decimal l dl /\ decimal r dr /\
      t = chars "UnmatchingBitwidth(BitWidth(" ++ dl ++ chars "), BitWidth(" ++ dr ++ chars "))"
  | InvalidBitWidth w => exists d, decimal w d /\ t = chars "InvalidBitWidth(" ++ d ++ chars ")"
  | TruncationBitWidthTooLarge ta c => exists dt dc, decimal ta dt /\ decimal c dc /\
      t = chars "TruncationBitWidthTooLarge { target: BitWidth(" ++ dt ++ chars "), current: BitWidth(" ++ dc ++ chars ") }"
  | ExtensionBitWidthTooSmall ta c => exists dt dc, decimal ta dt /\ decimal c dc /\
      t = chars "ExtensionBitWidthTooSmall { target: BitWidth(" ++ dt ++ chars "), current: BitWidth(" ++ dc ++ chars ") }"
  | DivisionByZero op v => exists dv, debug_of v dv /\
      t = chars "DivisionByZero { op: " ++ chars (operation_name op) ++ chars ", lhs: " ++ dv ++ chars " }"
  | ExpectedNonEmptyDigits => t = chars "ExpectedNonEmptyDigits"
  end.

(** A string as a program can have it. *)
Definition text (s : list Z) : Prop := Forall scalar s.
(** The numbers, integers and strings of an error are as a program can have them. *)
Definition error_ok (e : error) : Prop :=
  payload_ok (e_kind e) /\
  match e_kind e with
  | InvalidStringRepr s _ pc =>
      (exists cs, text cs /\ s = utf8 cs) /\ match pc with Some (p, c) => 0 <= p /\ scalar c | None => True end
  | _ => True
  end /\
  text (e_message e) /\ match e_annotation e with Some t => text t | None => True end.
