(** Model of the calls that run code of others, over the heap of MHeap.v: random
    generation with a generator that may panic (src/apint/rand_impl.rs) and
    deserialization (src/apint/serde_impl.rs).  Every panic is caught by the client.
    No proofs in this file. *)
From Coq Require Import ZArith List String Bool.
From Verif Require Export MUnwind MSerde MRand SpecForeign.
Import ListNotations.
Open Scope list_scope.
Open Scope Z_scope.

(** [Standard.sample_iter(rng)] asked for [n] digits, src/apint/rand_impl.rs 4-15 and 35-36: the
    digits that came, the state of the generator, and whether all came. *)
Fixpoint f_draw {S : Type} (next : S -> drawn S) (n : nat) (s : S) : list Z * S * bool :=
  match n with
  | O => ([], s, true)
  | Datatypes.S n =>
      match next s with
      | Unwinds s => ([], s, false)
      | Word d s => let '(ds, s, ok) := f_draw next n s in (d :: ds, s, ok)
      end
  end.

(** src/apint/constructors.rs 174 when the iterator panics: the vector has reserved room for [n]
    digits, of which [ds] have come, and is dropped. *)
Definition h_abandon (n : nat) (ds : list Z) : HM unit :=
  if Nat.leb n 1 then hret tt
  else
    let* extra := ask_slack n in
    let* p := malloc (ds ++ repeat 0 (n - List.length ds + extra)) in
    free p (n + extra).

(** src/apint/rand_impl.rs 29-49; [None]: the generator panicked. *)
Definition h_random {S : Type} (next : S -> drawn S) (width : Z) (s : S) : HM (option hapint * S) :=
  let n := required_digits width in
  if Nat.leb 1 n then
    let '(random_digits, s, ok) := f_draw next n s in
    if ok : bool then
      let* a := h_unwrap (h_from_iter random_digits) in
      let* c := h_unwrap (h_forward (h_truncate a width)) in
      hret (Some c, s)
    else
      let* _ := h_abandon n random_digits in
      hret (None, s)
  else hpanic.

(** src/apint/rand_impl.rs 62-70: the digits are replaced one by one; [false]: the generator
    panicked. *)
Definition h_randomize {S : Type} (next : S -> drawn S) (a : hapint) (s : S) : HM (hapint * (S * bool)) :=
  let* ds := h_as_digit_slice a in
  let '(new, s, ok) := f_draw next (List.length ds) s in
  let* a := h_write_digits a (new ++ skipn (List.length new) ds) in
  if ok : bool then
    let* (a, _) := h_modify (with_unit clear_unused_bits) a in
    hret (a, (s, true))
  else hret (a, (s, false)).

(** src/apint/serde_impl.rs 239-249 and 279-289. *)
Definition h_build (width : Z) (digits : list Z) : HM (de_result hapint) :=
  let* a := h_unwrap (h_from_iter digits) in
  let* c := h_unwrap (h_forward (h_truncate a width)) in
  hret (DOk c).
(** src/apint/serde_impl.rs 195-250.  The vector of digits that serde makes is not counted. *)
Definition h_visit_human (d : data) : HM (de_result hapint) :=
  match d with
  | DMap entries =>
      match visit_entries entries None None with
      | DErr e => hret (DErr e)
      | DOk (width, digits) =>
          match width with
          | None => hret (DErr (EMissingField "width"))
          | Some width =>
              match digits with
              | None => hret (DErr (EMissingField "digits"))
              | Some digits =>
                  if Nat.eqb (required_digits width) (List.length digits)
                  then h_build width digits
                  else hret (DErr EInvalidValue)
              end
          end
      end
  | DBad => hret (DErr EFormat)
  | _ => hret (DErr EInvalidType)
  end.
(** src/apint/serde_impl.rs 252-290; [None]: the [unwrap] of line 265 panics, with nothing to drop. *)
Definition h_visit_compact (d : data) : HM (option (de_result hapint)) :=
  match d with
  | DSeq [] => hret None
  | DSeq (e :: rest) =>
      match de_bitwidth false e with
      | DErr e => hret (Some (DErr e))
      | DOk width =>
          match rest with
          | [] => hret (Some (DErr (EInvalidLength 1)))
          | e2 :: _ =>
              match de_vec e2 with
              | DErr e => hret (Some (DErr e))
              | DOk digits =>
                  if Nat.eqb (required_digits width) (List.length digits)
                  then let* r := h_build width digits in hret (Some r)
                  else hret (Some (DErr EInvalidValue))
              end
          end
      end
  | DBad => hret (Some (DErr EFormat))
  | _ => hret (Some (DErr EInvalidType))
  end.
(** src/apint/serde_impl.rs 150-302. *)
Definition h_de_apint (human_readable : bool) (d : data) : HM (option (de_result hapint)) :=
  if human_readable then let* r := h_visit_human d in hret (Some r) else h_visit_compact d.

(** A client of src/lib.rs: one call, its panic caught. *)
Definition hstep_foreign {S : Type} (next : S -> drawn S) (s : hvars) (g : S) (c : fcmd) : HM (hvars * (S * fobs)) :=
  match c with
  | FCall c =>
      let* (s, o) := hcatch s c in
      hret (s, (g, match o with Some o => FShows o | None => FPanicked end))
  | FRandom w =>
      match bitwidth_new w with
      | Err e => hret (s, (g, FShows (OFail (observe e))))
      | Ok w =>
          let* (r, g) := h_random next w g in
          hret (match r with Some a => (s ++ [Some a], (g, FShows ODone)) | None => (s, (g, FPanicked)) end)
      end
  | FRandomize x =>
      match nth_error s x with
      | Some (Some a) =>
          let* (a, (g, ok)) := h_randomize next a g in
          hret (update x (Some a) s, (g, if ok : bool then FShows ODone else FPanicked))
      | _ => hret (s, (g, FShows ORejected))
      end
  | FSave human x =>
      match nth_error s x with
      | Some (Some a) =>
          let* d := h_ask (fun a => Val (ser_apint human a)) a in
          hret (s, (g, FWrote d))
      | _ => hret (s, (g, FShows ORejected))
      end
  | FLoad human d =>
      let* r := h_de_apint human d in
      hret (match r with
            | Some (DOk a) => (s ++ [Some a], (g, FShows ODone))
            | Some (DErr _) => (s, (g, FRefused))
            | None => (s, (g, FPanicked))
            end)
  end.
(** A client of src/lib.rs: one call after the other. *)
Fixpoint hrun_foreign {S : Type} (next : S -> drawn S) (s : hvars) (g : S) (p : list fcmd) : HM (hvars * (S * list fobs)) :=
  match p with
  | [] => hret (s, (g, []))
  | c :: p =>
      let* (s, (g, o)) := hstep_foreign next s g c in
      let* (s, (g, os)) := hrun_foreign next s g p in hret (s, (g, o :: os))
  end.
