(** Programs that also call code of others: random number generators that may
    panic, and documents of any content.  Used in the statements of C73 and C74. *)
From Coq Require Import ZArith List String Bool.
From Verif Require Import MBase Spec SpecMachine SpecUnwind MSerde SpecSerde.
Import ListNotations.
Open Scope list_scope.
Open Scope Z_scope.

(** What a generator does when asked for a word: it gives one, or it panics.
    Either way it is in a new state. *)
Inductive drawn (S : Type) : Type := Word (d : Z) (s : S) | Unwinds (s : S).
Arguments Word {S} d s.
Arguments Unwinds {S} s.
(** The words are [u64]s. *)
Definition generator_ok {S : Type} (next : S -> drawn S) : Prop :=
  forall s d s', next s = Word d s' -> digit_ok d.

(** Asking for [n] words, until the generator panics: the number the words make,
    the first being the least significant, how many came, and the new state. *)
Fixpoint pull {S : Type} (next : S -> drawn S) (n : nat) (s : S) : Z * nat * S :=
  match n with
  | O => (0, O, s)
  | Datatypes.S n =>
      match next s with
      | Unwinds s => (0, O, s)
      | Word d s => let '(v, k, s) := pull next n s in (d + 2 ^ 64 * v, Datatypes.S k, s)
      end
  end.

(** * Documents *)
(** Word [i] of [u] for [i] below [n]. *)
Definition words (n : nat) (u : Z) : list Z := map (fun i => u / 2 ^ (64 * Z.of_nat i) mod 2 ^ 64) (seq 0 n).
Definition word_count (w : Z) : nat := Z.to_nat ((w + 63) / 64).
(** The document of the number [u] of [w] bits. *)
Definition document (human : bool) (x : aval) : ser :=
  let (w, u) := x in
  let W := SU64 (w mod 2 ^ 64) in
  let D := SSeq (map SU64 (words (word_count w) u)) in
  if human then SStruct "ApInt" [("width"%string, STupleStruct "BitWidth" [W]); ("digits"%string, D)] else STuple [W; D].

Fixpoint numbers (l : list data) : option (list Z) :=
  match l with
  | [] => Some []
  | DU64 v :: r => option_map (cons v) (numbers r)
  | _ => None
  end.
(** The integer of a document with the width [W] and the words [D].  There must be
    as many words as the width needs; bits above the width are dropped. *)
Definition width_and_digits (W : option data) (D : data) : option aval :=
  match W, D with
  | Some (DU64 w), DSeq l =>
      match numbers l with
      | Some ds => if (0 <? w) && (Z.of_nat (List.length ds) =? (w + 63) / 64) then Some (w, uval ds mod 2 ^ w) else None
      | None => None
      end
  | _, _ => None
  end.
Definition wrapped (W : data) : option data := match W with DSeq (x :: _) => Some x | _ => None end.
(** The integer of a document.  Human-readable: a map of exactly the fields width
    and digits, in any order; the width is wrapped in a sequence.  Compact: a
    sequence of width and digits. *)
Definition loaded (human : bool) (d : data) : option aval :=
  match human, d with
  | true, DMap [(DStr a, x); (DStr b, y)] =>
      if String.eqb a "width" && String.eqb b "digits" then width_and_digits (wrapped x) y
      else if String.eqb a "digits" && String.eqb b "width" then width_and_digits (wrapped y) x
      else None
  | false, DSeq (x :: y :: _) => width_and_digits (Some x) y
  | _, _ => None
  end.

(** * Programs *)
Inductive fcmd :=
| FCall (c : cmd)                        (* any call of SpecMachine.v *)
| FRandom (w : Z)                        (* let x = ApInt::random_with_width_using(w, &mut rng) *)
| FRandomize (x : nat)                   (* x.randomize_using(&mut rng) *)
| FSave (human : bool) (x : nat)         (* serialize x *)
| FLoad (human : bool) (d : data).       (* let x = deserialize d *)
(** What a call shows.  [FPanicked]: the panic was caught. *)
Inductive fobs := FShows (o : obs) | FPanicked | FWrote (s : ser) | FRefused.
Definition fcmd_ok (c : fcmd) : Prop :=
  match c with
  | FCall c => cmd_ok c
  | FRandom w => 0 <= w
  | FLoad _ d => data_ok d
  | _ => True
  end.

(** One call; every panic is caught. *)
Definition astep_foreign {S : Type} (next : S -> drawn S) (s : store) (g : S) (c : fcmd) : store * (S * fobs) :=
  match c with
  | FCall c =>
      let (s, o) := acatch s c in
      (s, (g, match o with Some o => FShows o | None => FPanicked end))
  | FRandom w =>
      if w =? 0 then (s, (g, FShows (OFail (EBitWidth 0))))
      else
        let '(v, k, g) := pull next (word_count w) g in
        if Nat.eqb k (word_count w) then (s ++ [Some (w, v mod 2 ^ w)], (g, FShows ODone)) else (s, (g, FPanicked))
  | FRandomize x =>
      match nth_error s x with
      | Some (Some (w, u)) =>
          let '(v, k, g) := pull next (word_count w) g in
          if Nat.eqb k (word_count w) then (update x (Some (w, v mod 2 ^ w)) s, (g, FShows ODone))
          else
            (* the words that came replace the low words *)
            let low := 2 ^ (64 * Z.of_nat k) in
            (update x (Some (w, v + low * (u / low))) s, (g, FPanicked))
      | _ => (s, (g, FShows ORejected))
      end
  | FSave human x =>
      match nth_error s x with
      | Some (Some v) => (s, (g, FWrote (document human v)))
      | _ => (s, (g, FShows ORejected))
      end
  | FLoad human d =>
      match loaded human d with
      | Some v => (s ++ [Some v], (g, FShows ODone))
      | None =>
          (* a defect, see C39 *)
          match human, d with false, DSeq [] => (s, (g, FPanicked)) | _, _ => (s, (g, FRefused)) end
      end
  end.
Fixpoint arun_foreign {S : Type} (next : S -> drawn S) (s : store) (g : S) (p : list fcmd) : store * (S * list fobs) :=
  match p with
  | [] => (s, (g, []))
  | c :: p =>
      let '(s, (g, o)) := astep_foreign next s g c in
      let '(s, (g, os)) := arun_foreign next s g p in (s, (g, o :: os))
  end.
