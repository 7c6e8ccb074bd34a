(** Model of the calls on [UInt] and [Int] that run code of others: random generation with a
    generator that may panic, over the heap of MHeap.v.  Every panic is caught by the client.
    The attributes that would derive serialization of [UInt] and [Int] (src/uint.rs 26-27,
    src/int.rs 26-27) name a configuration, [serde_support], that is a feature and is never set as
    a configuration, so there is none.  No proofs in this file. *)
From Coq Require Import ZArith List Bool.
From Verif Require Export MForeign MUnwindTyped SpecForeignTyped.
Import ListNotations.
Open Scope list_scope.
Open Scope Z_scope.

(** src/uint.rs 563-568, src/int.rs 621-626: [ApInt::random_with_width_using], wrapped. *)
Definition ht_random {S : Type} (next : S -> drawn S) (k : kind) (w : Z) (g : S) : HM (option htvar * S) :=
  let* (r, g) := h_random next w g in hret (option_map (mk_htvar k) r, g).
(** src/uint.rs 581-586, src/int.rs 639-644: forwards to the [ApInt] inside. *)
Definition ht_randomize {S : Type} (next : S -> drawn S) (v : htvar) (g : S) : HM (htvar * (S * bool)) :=
  let* (a, r) := h_randomize next (hval v) g in hret (mk_htvar (hkind v) a, r).

(** A client of src/lib.rs: one call, its panic caught. *)
Definition htstep_foreign {S : Type} (next : S -> drawn S) (s : htvars) (g : S) (c : tfcmd) : HM (htvars * (S * tfobs)) :=
  match c with
  | TFCall c =>
      let* (s, o) := htcatch s c in
      hret (s, (g, match o with Some o => TFShows o | None => TFPanicked end))
  | TFRandom k w =>
      match bitwidth_new w with
      | Err e => hret (s, (g, TFShows (Shows (OFail (observe e)))))
      | Ok w =>
          let* (r, g) := ht_random next k w g in
          hret (match r with Some v => (s ++ [Some v], (g, TFShows (Shows ODone))) | None => (s, (g, TFPanicked)) end)
      end
  | TFRandomize x =>
      match nth_error s x with
      | Some (Some v) =>
          let* (v, (g, ok)) := ht_randomize next v g in
          hret (update x (Some v) s, (g, if ok : bool then TFShows (Shows ODone) else TFPanicked))
      | _ => hret (s, (g, TFShows rejected))
      end
  end.
(** A client of src/lib.rs: one call after the other. *)
Fixpoint htrun_foreign {S : Type} (next : S -> drawn S) (s : htvars) (g : S) (p : list tfcmd) : HM (htvars * (S * list tfobs)) :=
  match p with
  | [] => hret (s, (g, []))
  | c :: p =>
      let* (s, (g, o)) := htstep_foreign next s g c in
      let* (s, (g, os)) := htrun_foreign next s g p in hret (s, (g, o :: os))
  end.
