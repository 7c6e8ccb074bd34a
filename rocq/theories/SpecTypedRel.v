(** What it means that a variable of a client program holds the integer that
    the abstract machine of [SpecTyped] says. *)
From Coq Require Import ZArith List.
From Verif Require Import Spec SpecInt SpecTyped MTyped.

Definition tholds (v : option tvar) (x : option tval) : Prop :=
  match v, x with
  | None, None => True
  | Some (VU a), Some (mk_tval KU w z) => is_uint a w z
  | Some (VI a), Some (mk_tval KI w z) => is_int a w z
  | _, _ => False
  end.
