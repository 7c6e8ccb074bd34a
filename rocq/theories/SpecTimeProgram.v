(** Programs whose arguments stay small, and what their calls may cost. *)
From Verif Require Export SpecMachine SpecTime.
From Coq Require Import ZArith List.
Import ListNotations.
Open Scope Z_scope.

(** A program works with at most [n] digits (of 64 bits) at a time: the widths it
    asks for are at most 64 n bits, its arrays have at most n elements and the
    texts it reads at most n characters.  Bit positions and shift amounts are
    machine integers. *)
Definition within (n : Z) (c : cmd) : Prop :=
  match c with
  | New (NU64s vs | NI64s vs) => Z.of_nat (length vs) <= n
  | New (NZero w | NOne w | NAllSet w | NUMin w | NUMax w | NSMin w | NSMax w) => w <= 64 * n
  | New (NParse _ s) => Z.of_nat (length s) <= n
  | Mut m _ | Into m _ =>
      match m with
      | MShl s | MLshr s | MAshr s => s < 2 ^ 64
      | MTruncate t | MZeroExtend t | MSignExtend t | MZeroResize t | MSignResize t => t <= 64 * n
      | _ => True
      end
  | Put (SSetBit p | SUnsetBit p | SFlipBit p) _ => p < 2 ^ 64
  | Ask (QBit p) _ => p < 2 ^ 64
  | _ => True
  end.

(** Multiplications and divisions. *)
Definition heavy (c : cmd) : bool :=
  match c with
  | Bin (BMul | BUdiv | BUrem | BSdiv | BSrem) _ _ | IntoBin (BMul | BUdiv | BUrem | BSdiv | BSrem) _ _ | Pair _ _ _ => true
  | _ => false
  end.
(** The steps a call may take in such a program. *)
Definition call_bound (n : Z) (c : cmd) : Z := (if heavy c then 7 * n ^ 2 else 0) + 128 * n + 610.
Definition sum (l : list Z) : Z := fold_right Z.add 0 l.
