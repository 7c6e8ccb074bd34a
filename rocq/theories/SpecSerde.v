(** Specification vocabulary for serialized integers. *)
From Coq Require Import ZArith List String.
From Verif Require Import MSerde.
Import ListNotations.
Open Scope list_scope.
Open Scope Z_scope.

(** How a format gives back what was serialized: structs as maps keyed by the
    field names, tuples, tuple structs and sequences as sequences. *)
Fixpoint present (s : ser) : data :=
  match s with
  | SU64 v => DU64 v
  | STupleStruct _ l | STuple l | SSeq l => DSeq (map present l)
  | SStruct _ fs => DMap (map (fun f => (DStr (fst f), present (snd f))) fs)
  end.

(** Every number presented as a [u64] is one. *)
Fixpoint data_ok (d : data) : Prop :=
  match d with
  | DU64 v => 0 <= v < 2 ^ 64
  | DSeq l => (fix all (l : list data) : Prop := match l with [] => True | x :: r => data_ok x /\ all r end) l
  | DMap es => (fix all (l : list (data * data)) : Prop :=
      match l with [] => True | (k, v) :: r => data_ok k /\ data_ok v /\ all r end) es
  | _ => True
  end.

(** The sequence of the numbers [ds]. *)
Definition doc_digits (ds : list Z) : data := DSeq (map DU64 ds).

(** [d] is a complete human-readable document: exactly the two fields, each
    once, in either order, the width wrapped in a sequence (of which only the
    first element is looked at), a positive width and as many digits as it
    needs. *)
Definition human_document (d : data) (w : Z) (ds : list Z) : Prop :=
  0 < w /\ Z.of_nat (List.length ds) = (w + 63) / 64 /\
  exists more,
    d = DMap [(DStr "width", DSeq (DU64 w :: more)); (DStr "digits", doc_digits ds)] \/
    d = DMap [(DStr "digits", doc_digits ds); (DStr "width", DSeq (DU64 w :: more))].

(** [d] is a complete compact document: width, digits (later elements are not
    looked at). *)
Definition compact_document (d : data) (w : Z) (ds : list Z) : Prop :=
  0 < w /\ Z.of_nat (List.length ds) = (w + 63) / 64 /\
  exists more, d = DSeq (DU64 w :: doc_digits ds :: more).
