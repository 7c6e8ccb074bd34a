(** Specification vocabulary for sinks. *)
From Verif Require Export SpecSerde SpecText MSink.
Open Scope list_scope.
Open Scope Z_scope.

(** Handing items to a sink one after the other until one is refused: the state of the
    sink then, and whether all were accepted. *)
Fixpoint hand {A S : Type} (w : S -> A -> S * bool) (items : list A) (s : S) : S * bool :=
  match items with
  | [] => (s, true)
  | x :: r => if snd (w s x) then hand w r (fst (w s x)) else (fst (w s x), false)
  end.

(** A sink that keeps what it accepts, and of what it refuses at most a first part:
    [room] tells, given what it holds and what it is handed, what becomes of that. *)
Definition keeps (room : list Z -> list Z -> option nat) (held piece : list Z) : list Z * bool :=
  match room held piece with
  | None => (held ++ piece, true)
  | Some n => (held ++ firstn n piece, false)
  end.

(** The sink that holds at most [capacity] bytes: it takes what fits and refuses the
    piece of which something is left over. *)
Definition holds (capacity : nat) : list Z -> list Z -> list Z * bool :=
  keeps (fun held piece =>
    if (List.length held + List.length piece <=? capacity)%nat then None else Some (capacity - List.length held)%nat).

(** The calls in which an integer of width [w] and value [u] is serialized. *)
Definition calls_of (human_readable : bool) (w u : Z) : list call :=
  let digits := CSeq (Z.of_nat (List.length (words w u))) :: map CU64 (words w u) ++ [CSeqEnd] in
  if human_readable
  then [CStruct "ApInt" 2; CField "width"; CTupleStruct "BitWidth" 1; CU64 w; CTupleStructEnd; CField "digits"]
       ++ digits ++ [CStructEnd]
  else [CTuple 2; CU64 w] ++ digits ++ [CTupleEnd].

(** The calls of a document, from the outside to the inside, from left to right. *)
Fixpoint calls (d : ser) : list call :=
  match d with
  | SU64 v => [CU64 v]
  | STupleStruct name l => CTupleStruct name (Z.of_nat (List.length l)) :: concat (map calls l) ++ [CTupleStructEnd]
  | STuple l => CTuple (Z.of_nat (List.length l)) :: concat (map calls l) ++ [CTupleEnd]
  | SSeq l => CSeq (Z.of_nat (List.length l)) :: concat (map calls l) ++ [CSeqEnd]
  | SStruct name fs =>
      CStruct name (Z.of_nat (List.length fs)) ::
      concat (map (fun f => CField (fst f) :: calls (snd f)) fs) ++ [CStructEnd]
  end.
