(** Model of writing into sinks that may refuse: a [fmt::Write] that returns an error
    (src/apint/serialization.rs 30-98) and a [Serializer] that does
    (src/apint/serde_impl.rs 5-48).  A sink is a type of states and a function that
    takes what it is handed to its next state and tells whether it was accepted.
    No proofs in this file. *)
From Coq Require Export String.
From Verif Require Export MSerial MSerde MInt.
Open Scope list_scope.
Open Scope Z_scope.

(** [r?; k]: go on only if the sink accepted.
    E.g. src/apint/serialization.rs 40, 44, src/apint/serde_impl.rs 21-22. *)
Definition and_then {S : Type} (m : S * bool) (k : S -> S * bool) : S * bool :=
  let '(s, ok) := m in if ok : bool then k s else (s, false).

(** Rust std hands the text of a number to the sink in pieces ([Formatter::pad_integral]
    writes padding and digits apart); [pieces] tells how.  Each [write_str] may be
    refused.  src/apint/serialization.rs 40, 44. *)
Fixpoint write_pieces {S : Type} (w : S -> list Z -> S * bool) (ps : list (list Z)) (s : S) : S * bool :=
  match ps with
  | [] => (s, true)
  | p :: r => and_then (w s p) (write_pieces w r)
  end.

(** The loop 43-45, 73-75, 93-95 of src/apint/serialization.rs: every digit padded. *)
Fixpoint write_padded {S : Type} (pieces : list Z -> list (list Z)) (w : S -> list Z -> S * bool)
    (width : nat) (base alpha : Z) (ds : list Z) (s : S) : S * bool :=
  match ds with
  | [] => (s, true)
  | d :: r =>
      and_then (write_pieces w (pieces (u64_fmt_padded width base alpha d)) s)
        (write_padded pieces w width base alpha r)
  end.
(** The loop 35-42, 65-72, 85-92 of src/apint/serialization.rs, then the one after it. *)
Fixpoint write_digits {S : Type} (pieces : list Z -> list (list Z)) (w : S -> list Z -> S * bool)
    (width : nat) (base alpha : Z) (ds : list Z) (s : S) : S * bool :=
  match ds with
  | [] => (s, true)
  | d :: r =>
      if d_is_zero d then write_digits pieces w width base alpha r s
      else and_then (write_pieces w (pieces (u64_fmt base alpha d)) s)
             (write_padded pieces w width base alpha r)
  end.
(** src/apint/serialization.rs 31-47, 61-77, 81-97: [true] is [Ok(())]. *)
Definition write_radix {S : Type} (pieces : list Z -> list (list Z)) (w : S -> list Z -> S * bool)
    (width : nat) (base alpha : Z) (a : apint) (s : S) : outcome (S * bool) :=
  let! z := is_zero a in
  if z : bool then Val (write_pieces w [[48]] s)
  else Val (write_digits pieces w width base alpha (rev (as_digit_slice a)) s).

(** src/apint/serialization.rs 30-48. *)
Definition write_binary {S : Type} (pieces : list Z -> list (list Z)) (w : S -> list Z -> S * bool) (a : apint) (s : S) :
    outcome (S * bool) := write_radix pieces w 64 2 97 a s.
(** src/apint/serialization.rs 60-78. *)
Definition write_lower_hex {S : Type} (pieces : list Z -> list (list Z)) (w : S -> list Z -> S * bool) (a : apint) (s : S) :
    outcome (S * bool) := write_radix pieces w 16 16 97 a s.
(** src/apint/serialization.rs 80-98. *)
Definition write_upper_hex {S : Type} (pieces : list Z -> list (list Z)) (w : S -> list Z -> S * bool) (a : apint) (s : S) :
    outcome (S * bool) := write_radix pieces w 16 16 65 a s.
(** src/apint/serialization.rs 50-58. *)
Definition write_octal {S : Type} (w : S -> list Z -> S * bool) (a : apint) (s : S) : outcome (S * bool) :=
  let! z := is_zero a in
  if z : bool then Val (write_pieces w [[48]] s) else Panic.
(** src/uint.rs 1081-1083. *)
Definition uint_write_binary {S : Type} (pieces : list Z -> list (list Z)) (w : S -> list Z -> S * bool) (x : uint) (s : S) :
    outcome (S * bool) := write_binary pieces w (uapint x) s.
(** src/uint.rs 1087-1089. *)
Definition uint_write_octal {S : Type} (w : S -> list Z -> S * bool) (x : uint) (s : S) :
    outcome (S * bool) := write_octal w (uapint x) s.
(** src/uint.rs 1093-1095. *)
Definition uint_write_lower_hex {S : Type} (pieces : list Z -> list (list Z)) (w : S -> list Z -> S * bool) (x : uint) (s : S) :
    outcome (S * bool) := write_lower_hex pieces w (uapint x) s.
(** src/uint.rs 1099-1101. *)
Definition uint_write_upper_hex {S : Type} (pieces : list Z -> list (list Z)) (w : S -> list Z -> S * bool) (x : uint) (s : S) :
    outcome (S * bool) := write_upper_hex pieces w (uapint x) s.
(** src/int.rs 1157-1159. *)
Definition int_write_binary {S : Type} (pieces : list Z -> list (list Z)) (w : S -> list Z -> S * bool) (x : int) (s : S) :
    outcome (S * bool) := write_binary pieces w (iapint x) s.
(** src/int.rs 1163-1165. *)
Definition int_write_octal {S : Type} (w : S -> list Z -> S * bool) (x : int) (s : S) :
    outcome (S * bool) := write_octal w (iapint x) s.
(** src/int.rs 1169-1171. *)
Definition int_write_lower_hex {S : Type} (pieces : list Z -> list (list Z)) (w : S -> list Z -> S * bool) (x : int) (s : S) :
    outcome (S * bool) := write_lower_hex pieces w (iapint x) s.
(** src/int.rs 1175-1177. *)
Definition int_write_upper_hex {S : Type} (pieces : list Z -> list (list Z)) (w : S -> list Z -> S * bool) (x : int) (s : S) :
    outcome (S * bool) := write_upper_hex pieces w (iapint x) s.

(** The calls a serializer gets, one after the other.  src/apint/serde_impl.rs 5-48. *)
Inductive call :=
| CU64 (v : Z)
| CTupleStruct (name : string) (n : Z) | CTupleStructEnd
| CTuple (n : Z) | CTupleEnd
| CSeq (n : Z) | CSeqEnd
| CStruct (name : string) (n : Z) | CField (name : string) | CStructEnd.

(** src/apint/serde_impl.rs 5-12. *)
Definition put_digit {S : Type} (w : S -> call -> S * bool) (d : Z) (s : S) : S * bool := w s (CU64 d).
(** The elements of a slice, one by one (serde).  src/apint/serde_impl.rs 39, 44. *)
Fixpoint put_elements {S : Type} (w : S -> call -> S * bool) (ds : list Z) (s : S) : S * bool :=
  match ds with
  | [] => (s, true)
  | d :: r => and_then (put_digit w d s) (put_elements w r)
  end.
(** [Serialize] of a slice (serde).  src/apint/serde_impl.rs 39, 44. *)
Definition put_slice {S : Type} (w : S -> call -> S * bool) (ds : list Z) (s : S) : S * bool :=
  and_then (w s (CSeq (Z.of_nat (List.length ds)))) (fun s =>
  and_then (put_elements w ds s) (fun s => w s CSeqEnd)).
(** src/apint/serde_impl.rs 14-27. *)
Definition put_bitwidth {S : Type} (w : S -> call -> S * bool) (human_readable : bool) (width : Z) (s : S) : S * bool :=
  if human_readable then
    and_then (w s (CTupleStruct "BitWidth" 1)) (fun s =>
    and_then (w s (CU64 (width mod B))) (fun s => w s CTupleStructEnd))
  else w s (CU64 (width mod B)).
(** src/apint/serde_impl.rs 29-48. *)
Definition put_apint {S : Type} (w : S -> call -> S * bool) (human_readable : bool) (a : apint) (s : S) : S * bool :=
  if human_readable then
    and_then (w s (CStruct "ApInt" 2)) (fun s =>
    and_then (w s (CField "width")) (fun s =>
    and_then (put_bitwidth w human_readable (len a) s) (fun s =>
    and_then (w s (CField "digits")) (fun s =>
    and_then (put_slice w (as_digit_slice a) s) (fun s => w s CStructEnd)))))
  else
    and_then (w s (CTuple 2)) (fun s =>
    and_then (put_bitwidth w human_readable (len a) s) (fun s =>
    and_then (put_slice w (as_digit_slice a) s) (fun s => w s CTupleEnd))).
