(** What a data race is when threads take turns before every digit.  Used in the
    statements of C79. *)
From Coq Require Import List.
From Verif Require Import MThreadsDigits SpecThreads.

(** The access that a thread is about to make or in the middle of. *)
Definition pending {A : Type} (t : dthread A) : HM A :=
  match t with
  | DAt h => h
  | DLoad p n _ k => HLoad p n k
  | DStore p new _ k => HStore p new k
  end.
(** Two threads use the same buffer at the same time, each being about to use it or in the
    middle of that, and one of them writes to it or frees it. *)
Definition digit_race {A : Type} (ts : list (dthread A)) : Prop := data_race (map pending ts).
