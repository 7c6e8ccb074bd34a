(** Model of threads whose calls use the buffers that they are going to overwrite as scratch space.
    In MThreadsDigits.v a call reads its operands, then writes every digit of the result once, the
    lowest first.  The loops of the code write a digit of the result before they read the next of
    the operands, write digits several times (carries, partial products, digits moved and then
    shifted, the highest digit again to clear its unused bits) and in other orders.  Here a
    thread may, at any moment and in addition to what it does there, write anything to any digit
    of a buffer if the value the digit has is not needed any more: the call overwrites it
    before it reads it.  No proofs in this file. *)
From Verif Require Export MThreadsDigits.

(** The value of digit [l] of buffer [p] is not needed any more: from here on, with the memory as it
    is, [h] overwrites it before it reads the buffer, allocates or ends.  src/apint/arithmetic.rs
    105-131, src/apint/shift.rs 76-131, src/apint/utils.rs 256-305. *)
Fixpoint discards {A : Type} (p l : nat) (h : HM A) (m : mem) : bool :=
  match h with
  | HStore q new k =>
      if Nat.eqb q p then Nat.ltb l (length new)
      else match mem_store q new m with Some m => discards p l k m | None => false end
  | HLoad q n k =>
      negb (Nat.eqb q p) && match mem_load q n m with Some ds => discards p l (k ds) m | None => false end
  | HFree q n k =>
      negb (Nat.eqb q p) && match mem_free q n m with Some m => discards p l k m | None => false end
  | _ => false
  end.
(** The same for a thread amid an access; of the buffer that it is writing to, the digits that it has
    written are needed.  src/apint/utils.rs 279-305. *)
Definition scratch {A : Type} (p l : nat) (t : dthread A) (m : mem) : bool :=
  match t with
  | DAt h => discards p l h m
  | DLoad q n _ k => discards p l (HLoad q n k) m
  | DStore q new j k => discards p l (HStore q new k) m && (negb (Nat.eqb q p) || Nat.leb j l)
  end.

(** What happens: thread [i] gets a turn, or it writes [d] to digit [l] of buffer [p].
    src/apint/mod.rs 40-46. *)
Inductive deed := Goes (i : nat) | Scribbles (i p l : nat) (d : Z).
(** Scribbling where the value is needed does not happen.  src/apint/mod.rs 40-46. *)
Definition done {R : Type} (junk : nat -> nat -> Z) (e : deed) (s : dpool R) : dpool R :=
  match e with
  | Goes i => dturn junk i s
  | Scribbles i p l d =>
      match nth_error (snd s) i with
      | Some t =>
          if scratch p l t (fst s)
          then match digit_store p l d (fst s) with Some m => (m, snd s) | None => s end
          else s
      | None => s
      end
  end.
(** src/apint/mod.rs 40-46. *)
Fixpoint carry_on {R : Type} (junk : nat -> nat -> Z) (history : list deed) (s : dpool R) : dpool R :=
  match history with
  | [] => s
  | e :: history => carry_on junk history (done junk e s)
  end.
