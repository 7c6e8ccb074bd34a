(** Specification vocabulary for random generation. *)
From Coq Require Import ZArith List.
Import ListNotations.
Open Scope Z_scope.

(** The state of the generator after [n] words. *)
Fixpoint state_after {S : Type} (next : S -> Z * S) (n : nat) (s : S) : S :=
  match n with
  | O => s
  | Datatypes.S n => state_after next n (snd (next s))
  end.

(** The number made of the next [n] words, the first being the least
    significant one. *)
Fixpoint words_value {S : Type} (next : S -> Z * S) (n : nat) (s : S) : Z :=
  match n with
  | O => 0
  | Datatypes.S n => fst (next s) + 2 ^ 64 * words_value next n (snd (next s))
  end.
