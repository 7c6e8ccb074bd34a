(** Model of the texts users see: [Debug] output, formatter options and the
    records behind [Error].  A text is a list of Unicode code points.  No
    proofs in this file. *)
From Coq Require Import Ascii String.
From Verif Require Export MSerial MInt MRelational MCasting.

(** A string literal of the source text.  E.g. src/errors.rs 173-380. *)
Definition lit (s : string) : list Z := map (fun c => Z.of_N (N_of_ascii c)) (list_ascii_of_string s).

(** * Debug output (Rust std) *)

(** What [derive(Debug)], [debug_struct] and the [Debug] of numbers and slices
    hand to the formatter.  E.g. src/apint/utils.rs 20-27, src/digit.rs 48,
    src/bitwidth.rs 20, src/uint.rs 25, src/int.rs 25. *)
Inductive dtree :=
| DNum (n : Z)
| DUnit (name : list Z)
| DTuple (name : list Z) (fields : list dtree)
| DStruct (name : list Z) (fields : list (list Z * dtree))
| DList (items : list dtree).

(** The [Debug] text of an unsigned integer (Rust std); the fuel is the number
    of its bits.  E.g. src/bitwidth.rs 20 (derived). *)
Definition dec_text (n : Z) : list Z :=
  map (digit_char 97) (u64_digits (S (Z.to_nat (Z.log2 n))) 10 n []).

(** Texts with a separator between them (Rust std, [DebugStruct::field],
    [DebugTuple::field], [DebugList::entry]).  E.g. src/apint/utils.rs 20-27. *)
Fixpoint join (sep : list Z) (ts : list (list Z)) : list Z :=
  match ts with
  | [] => []
  | [t] => t
  | t :: r => t ++ sep ++ join sep r
  end.

(** ["{:?}"] (Rust std).  E.g. src/apint/utils.rs 20-27. *)
Fixpoint render (t : dtree) : list Z :=
  match t with
  | DNum n => dec_text n
  | DUnit name => name
  | DTuple name fields => name ++ lit "(" ++ join (lit ", ") (map render fields) ++ lit ")"
  | DStruct name fields =>
      name ++ lit " { " ++
      join (lit ", ") (map (fun f : list Z * dtree => let (n, x) := f in n ++ lit ": " ++ render x) fields) ++ lit " }"
  | DList items => lit "[" ++ join (lit ", ") (map render items) ++ lit "]"
  end.

(** [PadAdapter::write_str] of Rust std: four spaces in front of every line.
    [nl] tells whether a line starts here.  E.g. src/apint/utils.rs 20-27. *)
Fixpoint pad_lines (nl : bool) (s : list Z) : list Z :=
  match s with
  | [] => []
  | c :: r => (if nl then lit "    " else []) ++ c :: pad_lines (c =? 10) r
  end.

(** One field or entry of the ["{:#?}"] form (Rust std).
    E.g. src/apint/utils.rs 20-27. *)
Definition pretty_line (s : list Z) : list Z := pad_lines true (s ++ lit "," ++ [10]).

(** ["{:#?}"] (Rust std).  E.g. src/apint/utils.rs 20-27. *)
Fixpoint render_pretty (t : dtree) : list Z :=
  match t with
  | DNum n => dec_text n
  | DUnit name => name
  | DTuple name fields =>
      name ++ lit "(" ++ [10] ++ concat (map (fun x => pretty_line (render_pretty x)) fields) ++ lit ")"
  | DStruct name fields =>
      name ++ lit " {" ++ [10] ++
      concat (map (fun f : list Z * dtree => let (n, x) := f in pretty_line (n ++ lit ": " ++ render_pretty x)) fields) ++ lit "}"
  | DList items => lit "[" ++ [10] ++ concat (map (fun x => pretty_line (render_pretty x)) items) ++ lit "]"
  end.

(** Derived [Debug] of [BitWidth] (a [NonZeroUsize] shows as its number).  src/bitwidth.rs 20-21. *)
Definition dbg_width (w : Z) : dtree := DTuple (lit "BitWidth") [DNum w].
(** Derived [Debug] of [Digit].  src/digit.rs 48-49. *)
Definition dbg_digit (d : Z) : dtree := DTuple (lit "Digit") [DNum d].
(** Derived [Debug] of [BitPos].  src/bitpos.rs 8-9. *)
Definition dbg_pos (p : Z) : dtree := DTuple (lit "BitPos") [DNum p].
(** Derived [Debug] of [ShiftAmount].  src/apint/shift.rs 16-17. *)
Definition dbg_shift (s : Z) : dtree := DTuple (lit "ShiftAmount") [DNum s].
(** Derived [Debug] of [Radix].  src/radix.rs 21-22. *)
Definition dbg_radix (r : Z) : dtree := DTuple (lit "Radix") [DNum r].
(** Derived [Debug] of [DivOp].  src/errors.rs 100-118. *)
Definition dbg_div_op (op : div_op) : dtree :=
  DUnit (lit match op with
             | UnsignedDivRem => "UnsignedDivRem" | UnsignedRemDiv => "UnsignedRemDiv"
             | SignedDivRem => "SignedDivRem" | SignedRemDiv => "SignedRemDiv"
             | UnsignedDiv => "UnsignedDiv" | UnsignedRem => "UnsignedRem"
             | SignedDiv => "SignedDiv" | SignedRem => "SignedRem"
             end).
(** Derived [Debug] of [PrimitiveTy].  src/apint/to_primitive.rs 7-31. *)
Definition dbg_prim_ty (t : prim_ty) : dtree :=
  DUnit (lit match t with
             | PBool => "Bool" | PI8 => "I8" | PU8 => "U8" | PI16 => "I16" | PU16 => "U16"
             | PI32 => "I32" | PU32 => "U32" | PI64 => "I64" | PU64 => "U64"
             | PI128 => "I128" | PU128 => "U128"
             end).
(** [impl fmt::Debug for ApInt].  src/apint/utils.rs 20-27. *)
Definition dbg_apint (a : apint) : dtree :=
  DStruct (lit "ApInt")
    [(lit "len", dbg_width (width a)); (lit "digits", DList (map dbg_digit (as_digit_slice a)))].
(** Derived [Debug] of [UInt].  src/uint.rs 25-30. *)
Definition dbg_uint (a : apint) : dtree := DStruct (lit "UInt") [(lit "value", dbg_apint a)].
(** Derived [Debug] of [Int].  src/int.rs 25-30. *)
Definition dbg_int (a : apint) : dtree := DStruct (lit "Int") [(lit "value", dbg_apint a)].

(** * Formatter options *)

(** The alignment asked for ([<], [^], [>]); [None] is the default (Rust std).
    Read by none of src/apint/serialization.rs 30-98. *)
Inductive alignment := ALeft | ACenter | ARight.
(** What a format string such as ["{:#010x}"] asks for (Rust std,
    [fmt::Formatter]).  Read by none of src/apint/serialization.rs 30-98. *)
Record fmt_options := mk_fmt_options {
  fo_alternate : bool; fo_plus : bool; fo_zero : bool;
  fo_width : option Z; fo_fill : Z; fo_align : option alignment }.

(** [impl fmt::Binary for ApInt] and what forwards to it: every [write!] in it
    formats with the options of its own format string, those of [f] are not
    looked at.  src/apint/serialization.rs 30-48, src/uint.rs 1080-1084, src/int.rs. *)
Definition format_binary (o : fmt_options) (a : apint) : outcome (list Z) := fmt_binary a.
(** src/apint/serialization.rs 60-78, src/uint.rs 1092-1096. *)
Definition format_lower_hex (o : fmt_options) (a : apint) : outcome (list Z) := fmt_lower_hex a.
(** src/apint/serialization.rs 80-98, src/uint.rs 1098-1102. *)
Definition format_upper_hex (o : fmt_options) (a : apint) : outcome (list Z) := fmt_upper_hex a.

(** * Errors with their texts *)

(** [Error].  src/errors.rs 125-130. *)
Record error := mk_error { e_kind : error_kind; e_message : list Z; e_annotation : option (list Z) }.

(** [Result<T, Error>].  src/errors.rs 408-409. *)
Inductive eresult (A : Type) : Type :=
| EOk (a : A)
| EErr (e : error).
Arguments EOk {A} a.
Arguments EErr {A} e.

(** The message the constructor for this kind of error writes.
    [InvalidStringRepr] has two constructors; this is the one that does not
    know of a character.  src/errors.rs 173-380. *)
Definition message_of (k : error_kind) : list Z :=
  match k with
  | InvalidRadix r => lit "Encountered an invalid parsing radix of " ++ dec_text r ++ lit "."
  | InvalidStringRepr _ r _ =>
      lit "Encountered an invalid string representation for the given radix (= " ++
      render (dbg_radix r) ++ lit ")."
  | InvalidBitAccess p w =>
      lit "Encountered invalid bit access at position " ++ render (dbg_pos p) ++
      lit " with a total bit-width of " ++ render (dbg_width w) ++ lit "."
  | InvalidShiftAmount s w =>
      lit "Encountered invalid shift amount of " ++ render (dbg_shift s) ++
      lit " on bit-width with " ++ render (dbg_width w) ++ lit " bits."
  | ValueUnrepresentable v t =>
      lit "Encountered a value (" ++ render (dbg_apint v) ++
      lit ") that is unrepresentable by the destination type " ++ render (dbg_prim_ty t) ++ lit "."
  | UnmatchingBitwidth l r =>
      lit "Encountered invalid operation on entities with non-matching bit-widths of " ++
      render (dbg_width l) ++ lit " and " ++ render (dbg_width r) ++ lit "."
  | InvalidBitWidth w => lit "Encountered invalid bitwidth of " ++ dec_text w ++ lit "."
  | TruncationBitWidthTooLarge t c =>
      lit "Tried to truncate an `ApInt` with a width of " ++ render (dbg_width c) ++
      lit " to a larger target width of " ++ render (dbg_width t)
  | ExtensionBitWidthTooSmall t c =>
      lit "Tried to extend an `ApInt` with a width of " ++ render (dbg_width c) ++
      lit " to a smaller target width of " ++ render (dbg_width t)
  | DivisionByZero op v =>
      lit "Encountered a division-by-zero for operation (= " ++ render (dbg_div_op op) ++
      lit ") with the left hand-side value: (= " ++ render (dbg_apint v) ++ lit ")"
  | ExpectedNonEmptyDigits =>
      lit "Encountered an empty iterator upon construction of an `ApInt` from a digit iterator."
  end.

(** The constructors of [Error] other than [invalid_char_in_string_repr]: a kind,
    its message, no annotation.  src/errors.rs 173-198, 229-380. *)
Definition error_of (k : error_kind) : error := mk_error k (message_of k) None.

(** [char::escape_debug] (Rust std) for the first 256 code points: escapes, the
    printable characters and the rest as hexadecimal.  [quote] is the quote that
    is escaped.  src/errors.rs 218, 125-130. *)
Definition escape_debug (quote b : Z) : list Z :=
  if b =? 0 then lit "\0" else if b =? 9 then lit "\t" else if b =? 10 then lit "\n"
  else if b =? 13 then lit "\r" else if b =? 92 then lit "\\" else if b =? quote then [92; quote]
  else if ((32 <=? b) && (b <=? 126)) || ((161 <=? b) && negb (b =? 173)) then [b]
  else lit "\u{" ++ u64_fmt 16 97 b ++ lit "}".
(** [char::from(u8)] shown with ["{:?}"] (Rust std).  src/errors.rs 218. *)
Definition dbg_char (b : Z) : list Z := lit "'" ++ escape_debug 39 b ++ lit "'".
(** [char::escape_debug] (Rust std) for any code point.  [printable] stands for
    the Unicode tables of Rust std: it tells which characters beyond the first 256
    are shown as they are.  src/errors.rs 125-130 (derived). *)
Definition escape_char (printable : Z -> bool) (quote c : Z) : list Z :=
  if c <=? 255 then escape_debug quote c
  else if printable c then [c]
  else lit "\u{" ++ u64_fmt 16 97 c ++ lit "}".
(** A string shown with ["{:?}"] (Rust std).  src/errors.rs 125-130 (derived). *)
Definition dbg_str (printable : Z -> bool) (s : list Z) : dtree :=
  DUnit ([34] ++ concat (map (escape_char printable 34) s) ++ [34]).
(** [str::chars] (Rust std): the code points of a string given by its bytes.  The
    bytes of a [str] are always valid UTF-8; for others this is arbitrary.
    src/errors.rs 29-31: [input] is the string that was parsed. *)
Fixpoint str_chars (bytes : list Z) : list Z :=
  match bytes with
  | [] => []
  | b0 :: r0 =>
      if b0 <? 128 then b0 :: str_chars r0
      else match r0 with
      | [] => []
      | b1 :: r1 =>
          if b0 <? 224 then ((b0 - 192) * 64 + (b1 - 128)) :: str_chars r1
          else match r1 with
          | [] => []
          | b2 :: r2 =>
              if b0 <? 240 then ((b0 - 224) * 4096 + (b1 - 128) * 64 + (b2 - 128)) :: str_chars r2
              else match r2 with
              | [] => []
              | b3 :: r3 =>
                  ((b0 - 240) * 262144 + (b1 - 128) * 4096 + (b2 - 128) * 64 + (b3 - 128)) :: str_chars r3
              end
          end
      end
  end.

(** src/errors.rs 204-227: the position and character go into the message only;
    [pos_char] is set to [None]. *)
Definition invalid_char_in_string_repr (input : list Z) (radix pos ch : Z) : error :=
  mk_error (InvalidStringRepr input radix None)
    (lit "Encountered an invalid character (= '" ++ dbg_char ch ++ lit "') at position " ++
     dec_text pos ++ lit " within the given string representation for the given radix (= " ++
     render (dbg_radix radix) ++ lit ").")
    None.

(** src/errors.rs 159-166. *)
Definition with_annotation (e : error) (t : list Z) : error :=
  mk_error (e_kind e) (e_message e) (Some t).

(** A call whose errors carry no annotation: what it returns, with the whole
    error.  E.g. src/apint/utils.rs 139-150. *)
Definition plain {A : Type} (m : outcome (result A)) : outcome (eresult A) :=
  let! r := m in Val (match r with Ok a => EOk a | Err e => EErr (error_of e) end).

(** [.map_err(|err| err.with_annotation(..))].  src/apint/relational.rs 71-77. *)
Definition annotated {A : Type} (t : list Z) (m : outcome (eresult A)) : outcome (eresult A) :=
  let! r := m in Val (match r with EOk a => EOk a | EErr e => EErr (with_annotation e t) end).

(** [.map(Not::not)].  src/apint/relational.rs 71. *)
Definition not_result (m : outcome (eresult bool)) : outcome (eresult bool) :=
  let! r := m in Val (match r with EOk b => EOk (negb b) | EErr e => EErr e end).

(** The part of the annotations of comparisons after [where].
    src/apint/relational.rs 40-41, 74-75, 96-97, 118-119, 159-160, 181-182, 203-204, 225-226. *)
Definition operand_lines (lhs rhs : apint) : list Z :=
  [10; 9] ++ lit "lhs = " ++ render (dbg_apint lhs) ++ [10; 9] ++ lit "rhs = " ++ render (dbg_apint rhs).

(** src/apint/relational.rs 36-60.  Simplification: the call is taken from
    [checked_ult], whose only error is the one of [zip_access_data] (37). *)
Definition explained_ult (a rhs : apint) : outcome (eresult bool) :=
  annotated (lit "Error occured on unsigned less-than (slt) comparison with `lhs < rhs` where " ++
             operand_lines a rhs)
    (plain (checked_ult a rhs)).
(** src/apint/relational.rs 70-78. *)
Definition explained_ule (a rhs : apint) : outcome (eresult bool) :=
  annotated (lit "Error occured on unsigned less-than or equals (ule) comparison with `lhs <= rhs` where " ++
             operand_lines a rhs)
    (not_result (explained_ult rhs a)).
(** src/apint/relational.rs 92-100. *)
Definition explained_ugt (a rhs : apint) : outcome (eresult bool) :=
  annotated (lit "Error occured on unsigned greater-than (ugt) comparison with `lhs > rhs` where " ++
             operand_lines a rhs)
    (explained_ult rhs a).
(** src/apint/relational.rs 114-122. *)
Definition explained_uge (a rhs : apint) : outcome (eresult bool) :=
  annotated (lit "Error occured on unsigned greater-than or equals (ule) comparison with `lhs >= rhs` where " ++
             operand_lines a rhs)
    (not_result (explained_ult a rhs)).
(** src/apint/relational.rs 135-163.  Simplification: as for [explained_ult];
    the inner call of [checked_ult] (147) has operands of equal width. *)
Definition explained_slt (a rhs : apint) : outcome (eresult bool) :=
  annotated (lit "Error occured on signed less-than (slt) comparison with `lhs < rhs` where " ++
             operand_lines a rhs)
    (plain (checked_slt a rhs)).
(** src/apint/relational.rs 177-185. *)
Definition explained_sle (a rhs : apint) : outcome (eresult bool) :=
  annotated (lit "Error occured on signed less-than or equals (ule) comparison with `lhs <= rhs` where " ++
             operand_lines a rhs)
    (not_result (explained_slt rhs a)).
(** src/apint/relational.rs 199-207. *)
Definition explained_sgt (a rhs : apint) : outcome (eresult bool) :=
  annotated (lit "Error occured on signed greater-than (ugt) comparison with `lhs > rhs` where " ++
             operand_lines a rhs)
    (explained_slt rhs a).
(** src/apint/relational.rs 221-229. *)
Definition explained_sge (a rhs : apint) : outcome (eresult bool) :=
  annotated (lit "Error occured on signed greater-than or equals (ule) comparison with `lhs >= rhs` where " ++
             operand_lines a rhs)
    (not_result (explained_slt a rhs)).

(** A method on [&mut self] with its whole error: the state of [self]
    afterwards and the result.  src/apint/casting.rs 90-102, 137-158, 240-259, 325-344. *)
Definition explained_mut (t : list Z) (m : mut_result) : outcome (apint * eresult unit) :=
  let! (a, r) := m in
  Val (a, match r with Ok u => EOk u | Err e => EErr (with_annotation (error_of e) t) end).

(** src/apint/casting.rs 90-102. *)
Definition explained_strict_assign (a rhs : apint) : outcome (apint * eresult unit) :=
  explained_mut (lit "Occured while trying to `strict_assign` " ++ render (dbg_apint a) ++
                 lit " to " ++ render (dbg_apint rhs) ++ lit ".")
    (strict_assign a rhs).
(** src/apint/casting.rs 137-206; the line break and the blanks of 151-152 are in the literal. *)
Definition explained_truncate (a : apint) (target : Z) : outcome (apint * eresult unit) :=
  explained_mut (lit "Cannot truncate `ApInt` with a width of " ++ dec_text (width a) ++ [10] ++
                 lit "                         to an `ApInt` with a width of " ++ dec_text target ++
                 lit " bits. Do you mean to extend the instance instead?")
    (truncate a target).
(** src/apint/casting.rs 240-291. *)
Definition explained_zero_extend (a : apint) (target : Z) : outcome (apint * eresult unit) :=
  explained_mut (lit "Cannot zero-extend bit-width of " ++ render (dbg_width (width a)) ++ lit " to " ++
                 render (dbg_width target) ++
                 lit " bits. Do you mean to truncate the instance instead?")
    (zero_extend a target).
(** src/apint/casting.rs 325-397. *)
Definition explained_sign_extend (a : apint) (target : Z) : outcome (apint * eresult unit) :=
  explained_mut (lit "Cannot sign-extend bit-width of " ++ render (dbg_width (width a)) ++ lit " to " ++
                 render (dbg_width target) ++
                 lit " bits. Do you mean to truncate the instance instead?")
    (sign_extend a target).

(** The first byte that is neither '_' nor a digit of the radix, and where it
    is.  src/apint/serialization.rs 170-188. *)
Fixpoint first_invalid (radix pos : Z) (s : list Z) : option (Z * Z) :=
  match s with
  | [] => None
  | b :: r =>
      match normalize_byte b with
      | None => first_invalid radix (pos + 1) r
      | Some d => if is_valid_byte radix d then first_invalid radix (pos + 1) r else Some (pos, b)
      end
  end.

(** src/apint/serialization.rs 143-202, for the inputs it rejects; what it
    accepts is taken from [from_str_radix]. *)
Definition explained_from_str_radix (radix : Z) (input : list Z) : outcome (eresult apint) :=
  let bad := error_of (InvalidStringRepr input radix None) in
  match input with
  | [] => Val (EErr (with_annotation bad (lit "Cannot parse an empty string into an ApInt.")))
  | first :: _ =>
      if first =? 95 then
        Val (EErr (with_annotation bad
          (lit "The input string starts with an underscore ('_') instead of a number. The use of underscores is explicitely for separation of digits.")))
      else if last input 0 =? 95 then
        Val (EErr (with_annotation bad
          (lit "The input string ends with an underscore ('_') instead of a number. The use of underscores is explicitely for separation of digits.")))
      else
        match first_invalid radix 0 input with
        | Some (pos, ch) => Val (EErr (invalid_char_in_string_repr input radix pos ch))
        | None => plain (from_str_radix radix input)
        end
  end.

(** * Errors shown *)

(** Derived [Debug] of [Option]; a pair is a tuple without a name (Rust std).
    E.g. src/errors.rs 29-31, 129. *)
Definition dbg_option (o : option dtree) : dtree :=
  match o with None => DUnit (lit "None") | Some t => DTuple (lit "Some") [t] end.
(** Derived [Debug] of [ErrorKind].  src/errors.rs 16-97. *)
Definition dbg_error_kind (printable : Z -> bool) (k : error_kind) : dtree :=
  match k with
  | InvalidRadix r => DTuple (lit "InvalidRadix") [DNum r]
  | InvalidStringRepr input r pc =>
      DStruct (lit "InvalidStringRepr")
        [(lit "input", dbg_str printable (str_chars input)); (lit "radix", dbg_radix r);
         (lit "pos_char", dbg_option (option_map (fun q : Z * Z =>
            DTuple [] [DNum (fst q); DUnit (lit "'" ++ escape_char printable 39 (snd q) ++ lit "'")]) pc))]
  | InvalidBitAccess p w =>
      DStruct (lit "InvalidBitAccess") [(lit "pos", dbg_pos p); (lit "width", dbg_width w)]
  | InvalidShiftAmount s w =>
      DStruct (lit "InvalidShiftAmount") [(lit "shift_amount", dbg_shift s); (lit "width", dbg_width w)]
  | ValueUnrepresentable v t =>
      DStruct (lit "ValueUnrepresentable") [(lit "value", dbg_apint v); (lit "destination_ty", dbg_prim_ty t)]
  | UnmatchingBitwidth l r => DTuple (lit "UnmatchingBitwidth") [dbg_width l; dbg_width r]
  | InvalidBitWidth w => DTuple (lit "InvalidBitWidth") [DNum w]
  | TruncationBitWidthTooLarge t c =>
      DStruct (lit "TruncationBitWidthTooLarge") [(lit "target", dbg_width t); (lit "current", dbg_width c)]
  | ExtensionBitWidthTooSmall t c =>
      DStruct (lit "ExtensionBitWidthTooSmall") [(lit "target", dbg_width t); (lit "current", dbg_width c)]
  | DivisionByZero op v => DStruct (lit "DivisionByZero") [(lit "op", dbg_div_op op); (lit "lhs", dbg_apint v)]
  | ExpectedNonEmptyDigits => DUnit (lit "ExpectedNonEmptyDigits")
  end.
(** Derived [Debug] of [Error].  src/errors.rs 125-130. *)
Definition dbg_error (printable : Z -> bool) (e : error) : dtree :=
  DStruct (lit "Error")
    [(lit "kind", dbg_error_kind printable (e_kind e)); (lit "message", dbg_str printable (e_message e));
     (lit "annotation", dbg_option (option_map (dbg_str printable) (e_annotation e)))].
(** [impl fmt::Display for Error]: ["{}"].  src/errors.rs 395-399. *)
Definition display_error (printable : Z -> bool) (e : error) : list Z := render (dbg_error printable e).
