(** What it means that threads use integers as Rust's ownership allows, and what
    a data race is.  Used in the statements of C51. *)
From Coq Require Import List.
From Verif Require Import SpecMachine MThreads SpecHeap.
Import ListNotations.

(** The variables that a command changes, moves or drops. *)
Definition writes (c : cmd) : list nat :=
  match c with
  | Drop x | Mut _ x | Into _ x | Put _ x | Bin _ x _ | IntoBin _ x _ | Assign x _ | StrictAssign x _ => [x]
  | Pair _ x y => [x; y]
  | New _ | Clone _ | Cmp _ _ _ | Equal _ _ | Ask _ _ => []
  end.

(** The main thread hands out its variables: [None] lends one to all threads at
    once, [Some i] moves it to thread [i]. *)
Definition sharing : Type := list (option nat).
Definition borrowed (give : sharing) (x : nat) : Prop := nth_error give x = Some None.
(** What a thread does not borrow is its own: what was moved to it, and what it creates. *)
Definition keeper (give : sharing) (x : nat) : bool := match nth_error give x with Some None => false | _ => true end.
(** A thread must not change, move or drop what is lent to it: the compiler sees
    to that. *)
Definition respects (give : sharing) (p : list cmd) : Prop :=
  Forall (fun c => forall x, In x (writes c) -> ~ borrowed give x) p.
(** The variables that thread [i] can name.  Those it creates come after. *)
Fixpoint hand {A : Type} (i : nat) (give : sharing) (vs : list (option A)) : list (option A) :=
  match give, vs with
  | g :: give, v :: vs =>
      match g with None => v | Some j => if Nat.eqb i j then v else None end :: hand i give vs
  | _, _ => []
  end.
(** Thread [k + i] runs the [i]-th program. *)
Fixpoint spawn (k : nat) (give : sharing) (vs : hvars) (programs : list (list cmd)) : list (HM (hvars * list obs)) :=
  match programs with
  | [] => []
  | p :: programs => hrun (hand k give vs) p :: spawn (S k) give vs programs
  end.

(** What a thread is about to do. *)
Definition touches {A : Type} (h : HM A) (p : nat) : Prop :=
  match h with HFree q _ _ | HLoad q _ _ | HStore q _ _ => q = p | _ => False end.
Definition overwrites {A : Type} (h : HM A) (p : nat) : Prop :=
  match h with HFree q _ _ | HStore q _ _ => q = p | _ => False end.
(** Two threads are about to use the same buffer, and one of them to write to it
    or to free it. *)
Definition data_race {A : Type} (ts : list (HM A)) : Prop :=
  exists i j a b p, i <> j /\ nth_error ts i = Some a /\ nth_error ts j = Some b /\ overwrites a p /\ touches b p.
Definition ended {A : Type} (h : HM A) : Prop := match h with HRet _ | HPanic => True | _ => False end.

(** What the theorems assume: the main thread has run [setup], and hands out its
    variables to threads that respect that. *)
Definition forked (setup : list cmd) (slack : nat -> nat) (give : sharing) (programs : list (list cmd)) (vs : hvars) (m : mem) : Prop :=
  Forall cmd_ok setup /\ (exists os, exec (hrun [] setup) (empty_memory slack) = MVal (vs, os) m) /\
  length give = length vs /\ (forall x i, nth_error give x = Some (Some i) -> (i < length programs)%nat) /\
  Forall (fun p => Forall cmd_ok p /\ respects give p) programs.

(** Who owns buffer [p] in the end: the main thread, as its variable [x] that it had lent,
    or thread [i], as its variable [x]. *)
Definition owner {R : Type} (give : sharing) (vs : hvars) (ts : list (HM (hvars * R))) (o : option nat * nat) (p : nat) : Prop :=
  match o with
  | (None, x) => borrowed give x /\ points_to vs x p
  | (Some i, x) => ~ borrowed give x /\ exists vs' os', nth_error ts i = Some (HRet (vs', os')) /\ points_to vs' x p
  end.
