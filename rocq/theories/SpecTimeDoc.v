(** How large a document is. *)
From Coq Require Import String.
From Verif Require Export SpecTime MSerde.
Open Scope Z_scope.

(** The values in a document: each counts one, and a string its characters besides. *)
Fixpoint size (d : data) : Z :=
  match d with
  | DU64 _ | DOther | DBad => 1
  | DStr s => 1 + Z.of_nat (String.length s)
  | DSeq l => 1 + fold_right (fun x n => size x + n) 0 l
  | DMap es => 1 + fold_right (fun (e : data * data) n => (let (k, v) := e in size k + size v) + n) 0 es
  end.
