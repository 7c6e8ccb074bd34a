(** Specification vocabulary for [UInt] and [Int]. *)
From Coq Require Import ZArith.
From Verif Require Import Spec MInt.
Open Scope Z_scope.

(** [x] is the canonical unsigned integer of width [w] and value [v]. *)
Definition is_uint (x : uint) (w v : Z) : Prop := is_apint (uapint x) w v.

(** [x] is the canonical signed integer of width [w] and value [v]. *)
Definition is_int (x : int) (w v : Z) : Prop :=
  wf (iapint x) /\ len (iapint x) = w /\ signed (iapint x) = v.
