(** Programs on [UInt] and [Int] that also call code of others: random number
    generators that may panic.  Used in the statements of C91. *)
From Coq Require Import ZArith List Bool.
From Verif Require Import MBase Spec SpecMachine SpecTyped SpecUnwindTyped SpecForeign.
Import ListNotations.
Open Scope list_scope.
Open Scope Z_scope.

Inductive tfcmd :=
| TFCall (c : tcmd)                      (* any call of SpecTyped.v *)
| TFRandom (k : kind) (w : Z)            (* let x = UInt::random_with_width_using(w, &mut rng), or Int:: *)
| TFRandomize (x : nat).                 (* x.randomize_using(&mut rng) *)
(** What a call shows.  [TFPanicked]: the panic was caught. *)
Inductive tfobs := TFShows (o : tobs) | TFPanicked.
Definition tfcmd_ok (c : tfcmd) : Prop :=
  match c with
  | TFCall c => tcmd_ok c
  | TFRandom _ w => 0 <= w
  | TFRandomize _ => True
  end.

(** [z] with the words that came in place of its low words; the sign is in the words above. *)
Definition low_replaced (v : Z) (n : nat) (z : Z) : Z := v + 2 ^ (64 * Z.of_nat n) * (z / 2 ^ (64 * Z.of_nat n)).
(** One call; every panic is caught. *)
Definition tastep_foreign {S : Type} (next : S -> drawn S) (s : tstore) (g : S) (c : tfcmd) : tstore * (S * tfobs) :=
  match c with
  | TFCall c =>
      let (s, o) := tacatch s c in
      (s, (g, match o with Some o => TFShows o | None => TFPanicked end))
  | TFRandom k w =>
      if w =? 0 then (s, (g, TFShows (Shows (OFail (EBitWidth 0)))))
      else
        let '(v, n, g) := pull next (word_count w) g in
        if Nat.eqb n (word_count w) then (s ++ [Some (mk_tval k w (norm k w v))], (g, TFShows (Shows ODone))) else (s, (g, TFPanicked))
  | TFRandomize x =>
      match nth_error s x with
      | Some (Some (mk_tval k w z)) =>
          let '(v, n, g) := pull next (word_count w) g in
          if Nat.eqb n (word_count w) then (update x (Some (mk_tval k w (norm k w v))) s, (g, TFShows (Shows ODone)))
          else (update x (Some (mk_tval k w (low_replaced v n z))) s, (g, TFPanicked))
      | _ => (s, (g, TFShows rejected))
      end
  end.
Fixpoint tarun_foreign {S : Type} (next : S -> drawn S) (s : tstore) (g : S) (p : list tfcmd) : tstore * (S * list tfobs) :=
  match p with
  | [] => (s, (g, []))
  | c :: p =>
      let '(s, (g, o)) := tastep_foreign next s g c in
      let '(s, (g, os)) := tarun_foreign next s g p in (s, (g, o :: os))
  end.
