(** What it means that the memory of a program on [UInt] and [Int] is in order.
    Used in the statements of C68. *)
From Coq Require Import ZArith List.
From Verif Require Import Spec SpecTyped SpecHeap MHeapTyped.
Open Scope Z_scope.

(** The integers inside the variables. *)
Definition inside (hs : htvars) : hvars := map (option_map hval) hs.

(** Variable [v] in memory [m] holds the integer [x] of the abstract machine: it
    has its type and its width, and the digits in memory are those of the
    integer modulo 2^w. *)
Definition in_memory (m : mem) (v : option htvar) (x : option tval) : Prop :=
  match v, x with
  | None, None => True
  | Some a, Some t =>
      hkind a = tkind t /\
      exists c, is_apint c (twidth t) (tvalue t mod 2 ^ twidth t) /\ stored m (Some (hval a)) (Some c)
  | _, _ => False
  end.

(** The variables that a command changes, moves or drops. *)
Definition twrites (c : tcmd) : list nat :=
  match c with
  | TDrop x | TMut _ _ x | TInto _ _ x | TPut _ x | TBin _ _ x _ | TIntoBin _ _ x _ | TAssign x _ | TStrictAssign x _
  | TSwitch x | TThrough _ x => [x]
  | TNew _ _ | TClone _ | TCheck _ _ _ | TTest _ _ _ | TCompare _ _ | TEqual _ _ | TAsk _ _ => []
  end.
