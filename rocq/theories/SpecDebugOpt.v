(** Specification vocabulary for [Debug] output with options.  [fmt_options] (MText.v) are the options of a format
    string other than [x?] and [X?], [hex_flag] (MDebugOpt.v) are those two. *)
From Coq Require Export Ascii String.
From Verif Require Export SpecErrText MDebugOpt.
Open Scope Z_scope.

Definition side_asked (a : option alignment) : option side :=
  match a with None => None | Some ALeft => Some OnTheLeft | Some ACenter => Some InTheMiddle | Some ARight => Some OnTheRight end.

(** [t] is what one of Rust's own unsigned integers, of value [n], shows with these options. *)
Definition shown (o : fmt_options) (h : hex_flag) (n : Z) (t : list Z) : Prop :=
  exists s,
    match h with
    | NoHex => decimal n s
    | LowerHex => canonical_numeral 16 97 s /\ string_value 16 s = n
    | UpperHex => canonical_numeral 16 65 s /\ string_value 16 s = n
    end /\
    t = std_integer_text (fo_alternate o) (fo_plus o) (fo_zero o) (fo_width o) (fo_fill o) (side_asked (fo_align o))
          (match h with NoHex => [] | _ => chars "0x" end) s.

(** An ASCII letter or digit. *)
Definition alphanumeric (c : Z) : Prop := 48 <= c <= 57 \/ 65 <= c <= 90 \/ 97 <= c <= 122.

(** No options. *)
Definition no_options (alternate : bool) : fmt_options := mk_fmt_options alternate false false None 32 None.

(** The text of an integer on one line and on several, given the texts of its width and of its words. *)
Definition one_line (dw : list Z) (ds : list (list Z)) : list Z :=
  chars "ApInt { len: BitWidth(" ++ dw ++ chars "), digits: [" ++
  comma_separated (map (fun d => chars "Digit(" ++ d ++ chars ")") ds) ++ chars "] }".
Definition many_lines (dw : list Z) (ds : list (list Z)) : list Z :=
  chars "ApInt {" ++ [10] ++
  chars "    len: BitWidth(" ++ [10] ++
  chars "        " ++ dw ++ chars "," ++ [10] ++
  chars "    )," ++ [10] ++
  chars "    digits: [" ++ [10] ++
  concat (map (fun d =>
    chars "        Digit(" ++ [10] ++
    chars "            " ++ d ++ chars "," ++ [10] ++
    chars "        )," ++ [10]) ds) ++
  chars "    ]," ++ [10] ++
  chars "}".

(** [t] is the kind [k] of an error on one line, [num n d] telling that [d] shows the number [n]. *)
Definition kind_shown (num : Z -> list Z -> Prop) (printable : Z -> bool) (k : error_kind) (t : list Z) : Prop :=
  let integer a d := exists dw ds, num (len a) dw /\ Forall2 num (words (len a) (unsigned a)) ds /\ d = one_line dw ds in
  match k with
  | InvalidRadix r => exists d, num r d /\ t = chars "InvalidRadix(" ++ d ++ chars ")"
  | InvalidStringRepr s r pc => exists cs q d x, Forall scalar cs /\ s = utf8 cs /\ shows_string printable cs q /\ num r d /\
      match pc with
      | None => x = chars "None"
      | Some (p, c) => exists dp tc, num p dp /\ escaped printable 39 c tc /\
          x = chars "Some((" ++ dp ++ chars ", '" ++ tc ++ chars "'))"
      end /\
      t = chars "InvalidStringRepr { input: " ++ q ++ chars ", radix: Radix(" ++ d ++ chars "), pos_char: " ++ x ++ chars " }"
  | InvalidBitAccess p w => exists dp dw, num p dp /\ num w dw /\
      t = chars "InvalidBitAccess { pos: BitPos(" ++ dp ++ chars "), width: BitWidth(" ++ dw ++ chars ") }"
  | InvalidShiftAmount s w => exists ds dw, num s ds /\ num w dw /\
      t = chars "InvalidShiftAmount { shift_amount: ShiftAmount(" ++ ds ++ chars "), width: BitWidth(" ++ dw ++ chars ") }"
  | ValueUnrepresentable v ty => exists dv, integer v dv /\
      t = chars "ValueUnrepresentable { value: " ++ dv ++ chars ", destination_ty: " ++ chars (type_name ty) ++ chars " }"
  | UnmatchingBitwidth l r => exists dl dr, num l dl /\ num r dr /\
      t = chars "UnmatchingBitwidth(BitWidth(" ++ dl ++ chars "), BitWidth(" ++ dr ++ chars "))"
  | InvalidBitWidth w => exists d, num w d /\ t = chars "InvalidBitWidth(" ++ d ++ chars ")"
  | TruncationBitWidthTooLarge ta c => exists dt dc, num ta dt /\ num c dc /\
      t = chars "TruncationBitWidthTooLarge { target: BitWidth(" ++ dt ++ chars "), current: BitWidth(" ++ dc ++ chars ") }"
  | ExtensionBitWidthTooSmall ta c => exists dt dc, num ta dt /\ num c dc /\
      t = chars "ExtensionBitWidthTooSmall { target: BitWidth(" ++ dt ++ chars "), current: BitWidth(" ++ dc ++ chars ") }"
  | DivisionByZero op v => exists dv, integer v dv /\
      t = chars "DivisionByZero { op: " ++ chars (operation_name op) ++ chars ", lhs: " ++ dv ++ chars " }"
  | ExpectedNonEmptyDigits => t = chars "ExpectedNonEmptyDigits"
  end.
