(** Model of [Debug] output with the options of the formatter, such as ["{:08?}"], ["{:x?}"] or ["{:#X?}"].
    [debug_struct], [debug_tuple], [debug_list] and what [derive(Debug)] writes hand the formatter with all its
    options on to the fields; names, strings and characters are written as they are; numbers look at the options
    (Rust std).  No proofs in this file. *)
From Coq Require Import Ascii String.
From Verif Require Export MText.

(** The flags [x?] and [X?] (Rust std).  E.g. src/apint/utils.rs 20-27. *)
Inductive hex_flag := NoHex | LowerHex | UpperHex.

(** The hexadecimal digits of an unsigned integer (Rust std); the fuel is the number of its bits.
    E.g. src/bitwidth.rs 20 (derived). *)
Definition hex_text (alpha n : Z) : list Z :=
  map (digit_char alpha) (u64_digits (S (Z.to_nat (Z.log2 n))) 16 n []).

(** [Formatter::padding] (Rust std) with alignment to the right as default: how many fill characters come
    before and after.  E.g. src/apint/utils.rs 20-27. *)
Definition padding (align : option alignment) (n : nat) : nat * nat :=
  match align with
  | Some ALeft => (0, n)
  | Some ACenter => (Nat.div n 2, Nat.div (n + 1) 2)
  | Some ARight | None => (n, 0)
  end%nat.

(** [Formatter::pad_integral] (Rust std) of a number that is not negative.  E.g. src/apint/utils.rs 20-27. *)
Definition pad_integral (o : fmt_options) (prefix buf : list Z) : list Z :=
  let sign := if fo_plus o then [43] else [] in
  let prefix := if fo_alternate o then prefix else [] in
  let width := (List.length buf + List.length sign + List.length prefix)%nat in
  match fo_width o with
  | None => sign ++ prefix ++ buf
  | Some min =>
      if min <=? Z.of_nat width then sign ++ prefix ++ buf
      else if fo_zero o then
        sign ++ prefix ++ repeat 48 (Z.to_nat min - width) ++ buf
      else
        let (pre, post) := padding (fo_align o) (Z.to_nat min - width) in
        repeat (fo_fill o) pre ++ sign ++ prefix ++ buf ++ repeat (fo_fill o) post
  end.

(** [impl Debug] of the unsigned integer types (Rust std).  E.g. src/digit.rs 48, src/bitwidth.rs 20,
    src/radix.rs 21 (derived). *)
Definition show_number (o : fmt_options) (h : hex_flag) (n : Z) : list Z :=
  match h with
  | LowerHex => pad_integral o (lit "0x") (hex_text 97 n)
  | UpperHex => pad_integral o (lit "0x") (hex_text 65 n)
  | NoHex => pad_integral o [] (dec_text n)
  end.

(** The one-line form, with a given way to show numbers (Rust std).  E.g. src/apint/utils.rs 20-27. *)
Fixpoint render_with (number : Z -> list Z) (t : dtree) : list Z :=
  match t with
  | DNum n => number n
  | DUnit name => name
  | DTuple name fields => name ++ lit "(" ++ join (lit ", ") (map (render_with number) fields) ++ lit ")"
  | DStruct name fields =>
      name ++ lit " { " ++
      join (lit ", ") (map (fun f : list Z * dtree => let (n, x) := f in n ++ lit ": " ++ render_with number x) fields) ++ lit " }"
  | DList items => lit "[" ++ join (lit ", ") (map (render_with number) items) ++ lit "]"
  end.
(** The form with one item per line (Rust std).  E.g. src/apint/utils.rs 20-27. *)
Fixpoint pretty_with (number : Z -> list Z) (t : dtree) : list Z :=
  match t with
  | DNum n => number n
  | DUnit name => name
  | DTuple name fields =>
      name ++ lit "(" ++ [10] ++ concat (map (fun x => pretty_line (pretty_with number x)) fields) ++ lit ")"
  | DStruct name fields =>
      name ++ lit " {" ++ [10] ++
      concat (map (fun f : list Z * dtree => let (n, x) := f in pretty_line (n ++ lit ": " ++ pretty_with number x)) fields) ++ lit "}"
  | DList items => lit "[" ++ [10] ++ concat (map (fun x => pretty_line (pretty_with number x)) items) ++ lit "]"
  end.

(** [{:...?}] with any options: [#] asks for the form with one item per line and, besides, for the prefix of
    hexadecimal numbers (Rust std).  src/apint/utils.rs 20-27, src/uint.rs 25, src/int.rs 25, src/errors.rs 16, 125. *)
Definition debug_with (o : fmt_options) (h : hex_flag) (t : dtree) : list Z :=
  if fo_alternate o then pretty_with (show_number o h) t else render_with (show_number o h) t.
(** [impl fmt::Display for Error] hands its formatter to [Debug].  src/errors.rs 395-399. *)
Definition display_error_with (o : fmt_options) (printable : Z -> bool) (e : error) : list Z :=
  debug_with o NoHex (dbg_error printable e).
