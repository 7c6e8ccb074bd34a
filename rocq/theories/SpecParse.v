(** How much memory parsing may ask for.  Used in the statements of C80.  Sizes are
    in bytes. *)
From Coq Require Import ZArith List Bool.
From Verif Require Export SpecTemp.
Import ListNotations.
Open Scope Z_scope.

(** The bytes of a string that are not underscores ('_'). *)
Definition digits_in (s : list Z) : Z := Z.of_nat (length (filter (fun b => negb (b =? 95)) s)).

(** [l / 8192] is the binary logarithm of [r], rounded up to a multiple of 1 / 8192. *)
Definition rounded_logarithm (r l : Z) : Prop := 2 ^ (l - 1) < r ^ 8192 <= 2 ^ l.

(** The buffers for parsing [s] in radix [r]: one byte for each byte of [s]; then, if
    the digits of the radix do not fill words of 64 bits evenly, words of 8 bytes. *)
Definition parse_buffers (r : Z) (s : list Z) (l : list nat) : Prop :=
  if (r =? 2) || (r =? 4) || (r =? 16) then l = [length s]
  else if r =? 8 then l = [length s; 8 * digits_for (3 * digits_in s)]%nat
  else if r =? 32 then l = [length s; 8 * digits_for (5 * digits_in s)]%nat
  else exists g, rounded_logarithm r g /\
    l = [length s; 8 * Z.to_nat (g * (digits_in s + 1) / 8192 / 64 + 1)]%nat.

(** All of them together. *)
Definition bytes_of (l : list nat) : nat := fold_right Nat.add 0%nat l.
