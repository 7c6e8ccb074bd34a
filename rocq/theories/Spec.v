(** The specification vocabulary.  Nothing here depends on how the code
    computes; a reader of the theorems needs only this file and the record
    [apint] (fields [len], [digits]). *)
From Coq Require Import ZArith List.
From Verif Require Import MBase.
Import ListNotations.
Open Scope Z_scope.

(** The number denoted by little-endian 64-bit digits. *)
Fixpoint uval (ds : list Z) : Z :=
  match ds with
  | [] => 0
  | d :: r => d + 2 ^ 64 * uval r
  end.

(** A [u64]. *)
Definition digit_ok (d : Z) : Prop := 0 <= d < 2 ^ 64.

(** A canonical integer: positive width [w], exactly ceil(w/64) digits, and no
    bit set at or above position [w]. *)
Definition wf (a : apint) : Prop :=
  0 < len a /\
  Z.of_nat (length (digits a)) = (len a + 63) / 64 /\
  Forall digit_ok (digits a) /\
  uval (digits a) < 2 ^ len a.

(** The unsigned reading of an integer. *)
Definition unsigned (a : apint) : Z := uval (digits a).

(** Two's complement reading of the [w]-bit pattern [u]. *)
Definition to_signed (w u : Z) : Z := if u <? 2 ^ (w - 1) then u else u - 2 ^ w.

(** The signed reading of an integer. *)
Definition signed (a : apint) : Z := to_signed (len a) (unsigned a).

(** The integer of width [w] congruent to [z] in two's complement. *)
Definition wrap_signed (w z : Z) : Z := to_signed w (z mod 2 ^ w).

(** Bit [i] of an integer. *)
Definition bit (a : apint) (i : Z) : bool := Z.testbit (unsigned a) i.

(** [a] is the canonical integer of width [w] with unsigned value [u]. *)
Definition is_apint (a : apint) (w u : Z) : Prop :=
  wf a /\ len a = w /\ unsigned a = u.

(** The number of one bits of [u] at positions below [w]. *)
Definition ones_below (u w : Z) : Z :=
  Z.of_nat (length (filter (Z.testbit u) (map Z.of_nat (seq 0 (Z.to_nat w))))).

(** The number denoted by big-endian 64-bit digits. *)
Definition be_value (vals : list Z) : Z := fold_left (fun acc d => acc * 2 ^ 64 + d) vals 0.
