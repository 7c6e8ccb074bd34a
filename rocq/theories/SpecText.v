(** Specification vocabulary for texts.  A text is a list of code points. *)
From Coq Require Import ZArith List Bool Ascii String.
From Verif Require Import SpecStr.
Import ListNotations.
Open Scope Z_scope.

(** A literal. *)
Definition chars (s : string) : list Z := map (fun c => Z.of_N (N_of_ascii c)) (list_ascii_of_string s).

(** [s] is the decimal numeral of [n]: digits '0' to '9', no leading '0'
    unless it is "0", denoting [n]. *)
Definition decimal (n : Z) (s : list Z) : Prop :=
  s <> [] /\ Forall (fun c => 48 <= c <= 57) s /\ (hd 0 s = 48 -> s = [48]) /\
  radix_value 10 (map (fun c => c - 48) s) = n.

(** Texts with ", " between them. *)
Fixpoint comma_separated (ts : list (list Z)) : list Z :=
  match ts with
  | [] => []
  | t :: r => t ++ match r with [] => [] | _ => chars ", " ++ comma_separated r end
  end.

(** The 64-bit words of [u], least significant first, as many as [w] bits need. *)
Definition words (w u : Z) : list Z :=
  map (fun i => (u / 2 ^ (64 * Z.of_nat i)) mod 2 ^ 64) (seq 0 (Z.to_nat ((w + 63) / 64))).

(** [sub] occurs in [s]. *)
Definition contains (s sub : list Z) : Prop := exists pre post, s = pre ++ sub ++ post.

(** * Formatter options of Rust *)
Inductive side := OnTheLeft | InTheMiddle | OnTheRight.
(** What Rust's own integers print for the numeral [s] (digits only) with
    prefix [prefix] (such as "0x"): ['#'] adds the prefix, ['+'] a sign, ['0']
    zeros after sign and prefix up to the width, otherwise the fill character
    goes where the alignment says; numbers are aligned to the right unless
    told otherwise. *)
Definition std_integer_text (alternate plus zero : bool) (width : option Z) (fill : Z)
    (align : option side) (prefix s : list Z) : list Z :=
  let front := (if plus then [43] else []) ++ (if alternate then prefix else []) in
  let n := match width with Some w => Z.to_nat w - (List.length front + List.length s) | None => 0 end%nat in
  if zero then front ++ repeat 48 n ++ s
  else match align with
       | Some OnTheLeft => front ++ s ++ repeat fill n
       | Some InTheMiddle => repeat fill (Nat.div n 2) ++ front ++ s ++ repeat fill (n - Nat.div n 2)
       | Some OnTheRight | None => repeat fill n ++ front ++ s
       end.

(** Unicode scalar values: what a [char] of Rust can be. *)
Definition scalar (c : Z) : Prop := 0 <= c <= 55295 \/ 57344 <= c <= 1114111.
(** The bytes of a string in UTF-8. *)
Definition utf8_char (c : Z) : list Z :=
  if c <? 128 then [c]
  else if c <? 2048 then [192 + c / 64; 128 + c mod 64]
  else if c <? 65536 then [224 + c / 4096; 128 + c / 64 mod 64; 128 + c mod 64]
  else [240 + c / 262144; 128 + c / 4096 mod 64; 128 + c / 64 mod 64; 128 + c mod 64].
Definition utf8 (s : list Z) : list Z := List.concat (map utf8_char s).

(** The characters of a string or a character literal as Rust shows them with
    "{:?}"; [quote] is the quote around them.  Which characters beyond the first 256
    code points can be printed is told by tables of Unicode, [printable] here. *)
Inductive escaped (printable : Z -> bool) (quote : Z) : Z -> list Z -> Prop :=
| escaped_plain c : 32 <= c <= 126 \/ 161 <= c <= 255 \/ 256 <= c /\ printable c = true ->
    c <> quote -> c <> 92 -> c <> 173 -> escaped printable quote c [c]
| escaped_quote : escaped printable quote quote [92; quote]
| escaped_backslash : escaped printable quote 92 (chars "\\")
| escaped_nul : escaped printable quote 0 (chars "\0")
| escaped_tab : escaped printable quote 9 (chars "\t")
| escaped_newline : escaped printable quote 10 (chars "\n")
| escaped_return : escaped printable quote 13 (chars "\r")
| escaped_other c d :
    1 <= c <= 8 \/ 11 <= c <= 12 \/ 14 <= c <= 31 \/ 127 <= c <= 160 \/ c = 173 \/ 256 <= c /\ printable c = false ->
    canonical_numeral 16 97 d -> string_value 16 d = c -> escaped printable quote c (chars "\u{" ++ d ++ chars "}").
(** [t] shows the string [s] with "{:?}". *)
Definition shows_string (printable : Z -> bool) (s t : list Z) : Prop :=
  exists ts, Forall2 (escaped printable 34) s ts /\ t = [34] ++ List.concat ts ++ [34].
