(** Specification vocabulary: how often each value comes out of a random generator. *)
From Coq Require Import ZArith List.
From Verif Require Export Spec MBase SpecRand.
Import ListNotations.
Open Scope Z_scope.

(** There are [k] things with the property [P]. *)
Definition exactly {A : Type} (k : Z) (P : A -> Prop) : Prop :=
  exists l, NoDup l /\ Z.of_nat (length l) = k /\ forall x, In x l <-> P x.

(** Lists of [n] words of 64 bits: there are [2 ^ (64 * n)] of them, and an ideal generator
    gives each equally often. *)
Definition word_list (n : Z) (ws : list Z) : Prop :=
  Z.of_nat (length ws) = n /\ Forall (fun x => 0 <= x < 2 ^ 64) ws.
(** The generator that gives these words. *)
Definition give (ws : list Z) : Z * list Z :=
  match ws with [] => (0, []) | x :: r => (x, r) end.

(** The words that an integer of [w] bits takes. *)
Definition words_for (w : Z) : Z := (w + 63) / 64.
Fixpoint total (l : list Z) : Z := match l with [] => 0 | x :: r => x + total r end.

(** Integers of these widths, made one after the other by [make]. *)
Fixpoint in_turn {S A : Type} (make : Z -> S -> outcome (A * S)) (ws : list Z) (s : S) : outcome (list A * S) :=
  match ws with
  | [] => Val ([], s)
  | w :: r =>
      let! (a, s) := make w s in
      let! (l, s) := in_turn make r s in
      Val (a :: l, s)
  end.
