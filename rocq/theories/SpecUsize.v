(** Specification vocabulary: machines whose [usize] is small. *)
From Coq Require Import ZArith List String.
From Verif Require Export Spec MBase MSerde SpecSerde.
Import ListNotations.
Open Scope list_scope.
Open Scope string_scope.
Open Scope Z_scope.

(** The number of values of a [usize] of [p] bits: 16, 32 and 64 bits exist, eight is
    enough for the theorems. *)
Definition usize_bound (M : Z) : Prop := exists p, 8 <= p /\ M = 2 ^ p.

(** The number of binary digits of a number, without leading zeros. *)
Definition binary_digits (u : Z) : Z := if u =? 0 then 0 else Z.log2 u + 1.

(** How a sum or product that does not fit ends a run: in debug builds by the overflow
    check, in release builds by an assertion further on that is in every build. *)
Definition too_wide (checks : bool) : builds := if checks then DebugBuild else EveryBuild.

(** The document [d] has a width [W] and digits [ds], whether they match or not: two
    fields in either order with the width in a sequence if it is for humans, a
    sequence of both otherwise; more may follow where only the beginning is looked at. *)
Definition readable (human : bool) (d : data) (W : Z) (ds : list Z) : Prop :=
  exists more,
    if human
    then d = DMap [(DStr "width", DSeq (DU64 W :: more)); (DStr "digits", doc_digits ds)] \/
         d = DMap [(DStr "digits", doc_digits ds); (DStr "width", DSeq (DU64 W :: more))]
    else d = DSeq (DU64 W :: doc_digits ds :: more).

(** The document with every width in it replaced by its remainder by [M]. *)
Definition narrowed_width (M : Z) (d : data) : data :=
  match d with DU64 W => DU64 (W mod M) | _ => d end.
Definition narrowed (M : Z) (human : bool) (d : data) : data :=
  if human
  then match d with
       | DMap entries =>
           DMap (map (fun kv =>
             match kv with
             | (DStr "width", DSeq (e :: more)) => (DStr "width", DSeq (narrowed_width M e :: more))
             | _ => kv
             end) entries)
       | _ => d
       end
  else match d with DSeq (e :: rest) => DSeq (narrowed_width M e :: rest) | _ => d end.
