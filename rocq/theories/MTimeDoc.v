(** How long reading and writing documents, hashing and random integers take.

    Each definition repeats the one of MSerde.v, MUtils.v or MRand.v of the same
    name and counts its steps as MTimeLinear.v does: one for each digit that is
    read, written or passed over, one for each value a document presents or is
    handed, one for each character of a key of a document, one for each item a
    hasher is fed and one for each number drawn from a generator.  What a format, a
    hasher and a generator do themselves is not counted.  That the results are
    those of the definitions repeated is part of C100.  No proofs in this file. *)
From Verif Require Export MTimeLinear MSerde MRand.

(** * Documents *)

(** src/apint/serde_impl.rs 58-122. *)
Definition c_de_bitwidth (human_readable : bool) (d : data) : clocked (de_result Z) :=
  let~ _ := cpay 2 in cval (de_bitwidth human_readable d).
(** [Vec<Digit>]: each element is visited and pushed; the vector moves its
    elements while it grows.  src/apint/serde_impl.rs 208, 266. *)
Fixpoint c_de_elements (l : list data) : clocked (de_result (list Z)) :=
  match l with
  | [] => cval (DOk [])
  | d :: r =>
      let~ _ := cpay 4 in
      match de_digit d with
      | DErr e => cval (DErr e)
      | DOk x =>
          let~ xs := c_de_elements r in
          match xs with DErr e => cval (DErr e) | DOk xs => cval (DOk (x :: xs)) end
      end
  end.
(** src/apint/serde_impl.rs 208, 266. *)
Definition c_de_vec (d : data) : clocked (de_result (list Z)) :=
  let~ _ := cpay 1 in
  match d with
  | DSeq l => c_de_elements l
  | DBad => cval (DErr EFormat)
  | _ => cval (DErr EInvalidType)
  end.
(** The key is compared with both names and copied into the error.
    src/apint/serde_impl.rs 161-193. *)
Definition c_de_field (d : data) : clocked (de_result field) :=
  let~ _ := cpay (match d with DStr s => 1 + 3 * String.length s | _ => 1 end) in
  cval (de_field d).
(** src/apint/serde_impl.rs 209-227. *)
Fixpoint c_visit_entries (entries : list (data * data)) (width : option Z) (digits : option (list Z))
  : clocked (de_result (option Z * option (list Z))) :=
  match entries with
  | [] => cval (DOk (width, digits))
  | (key, value) :: rest =>
      let~ f := c_de_field key in
      match f with
      | DErr e => cval (DErr e)
      | DOk FWidth =>
          match width with
          | Some _ => cval (DErr (EDuplicateField "width"))
          | None =>
              let~ w := c_de_bitwidth true value in
              match w with
              | DErr e => cval (DErr e)
              | DOk w => c_visit_entries rest (Some w) digits
              end
          end
      | DOk FDigits =>
          match digits with
          | Some _ => cval (DErr (EDuplicateField "digits"))
          | None =>
              let~ ds := c_de_vec value in
              match ds with
              | DErr e => cval (DErr e)
              | DOk ds => c_visit_entries rest width (Some ds)
              end
          end
      end
  end.
(** src/apint/serde_impl.rs 239-249 and 279-289. *)
Definition c_build (width : Z) (digits : list Z) : clocked (de_result apint) :=
  let~ r := c_from_iter digits in
  let~ a := clift (unwrap r) in
  let~ r := c_into_truncate a width in
  let~ c := clift (unwrap r) in
  cval (DOk c).
(** src/apint/serde_impl.rs 195-250. *)
Definition c_visit_human (d : data) : clocked (de_result apint) :=
  match d with
  | DMap entries =>
      let~ v := c_visit_entries entries None None in
      match v with
      | DErr e => cval (DErr e)
      | DOk (None, _) => cval (DErr (EMissingField "width"))
      | DOk (Some _, None) => cval (DErr (EMissingField "digits"))
      | DOk (Some width, Some digits) =>
          if Nat.eqb (required_digits width) (List.length digits)
          then c_build width digits
          else cval (DErr EInvalidValue)
      end
  | DBad => cval (DErr EFormat)
  | _ => cval (DErr EInvalidType)
  end.
(** src/apint/serde_impl.rs 252-290. *)
Definition c_visit_compact (d : data) : clocked (de_result apint) :=
  match d with
  | DSeq [] => clift Panic
  | DSeq (e :: rest) =>
      let~ w := c_de_bitwidth false e in
      match w with
      | DErr e => cval (DErr e)
      | DOk width =>
          match rest with
          | [] => cval (DErr (EInvalidLength 1))
          | e2 :: _ =>
              let~ ds := c_de_vec e2 in
              match ds with
              | DErr e => cval (DErr e)
              | DOk digits =>
                  if Nat.eqb (required_digits width) (List.length digits)
                  then c_build width digits
                  else cval (DErr EInvalidValue)
              end
          end
      end
  | DBad => cval (DErr EFormat)
  | _ => cval (DErr EInvalidType)
  end.
(** src/apint/serde_impl.rs 150-302. *)
Definition c_de_apint (human_readable : bool) (d : data) : clocked (de_result apint) :=
  let~ _ := cpay 1 in
  if human_readable then c_visit_human d else c_visit_compact d.

(** Each digit is read and handed to the serializer.  src/apint/serde_impl.rs 5-12. *)
Fixpoint c_ser_digits (ds : list Z) : clocked (list ser) :=
  match ds with
  | [] => cval []
  | d :: r =>
      let~ _ := cpay 2 in
      let~ xs := c_ser_digits r in
      cval (ser_digit d :: xs)
  end.
(** The integer, its width and the sequence of its digits are handed to the
    serializer.  src/apint/serde_impl.rs 29-48. *)
Definition c_ser_apint (human_readable : bool) (a : apint) : clocked ser :=
  let~ _ := cpay 3 in
  let~ ds := c_ser_digits (as_digit_slice a) in
  cval (if human_readable
        then SStruct "ApInt" [("width"%string, ser_bitwidth human_readable (len a)); ("digits"%string, SSeq ds)]
        else STuple [ser_bitwidth human_readable (len a); SSeq ds]).

(** * Hashing *)

(** src/apint/utils.rs 29-34. *)
Fixpoint c_hash_digits (ds : list Z) : clocked (list hash_item) :=
  match ds with
  | [] => cval []
  | d :: r =>
      let~ _ := cpay 2 in
      let~ xs := c_hash_digits r in
      cval (HashU64 d :: xs)
  end.
(** src/apint/utils.rs 29-34. *)
Definition c_hash_feed (a : apint) : clocked (list hash_item) :=
  let~ _ := cpay 2 in
  let~ xs := c_hash_digits (as_digit_slice a) in
  cval (HashUsize (len a) :: HashUsize (Z.of_nat (List.length (as_digit_slice a))) :: xs).

(** * Random integers *)

(** src/apint/rand_impl.rs 35-36. *)
Fixpoint c_draw {S : Type} (next : S -> Z * S) (n : nat) (s : S) : clocked (list Z * S) :=
  match n with
  | O => cval ([], s)
  | Datatypes.S n =>
      let~ _ := cpay 1 in
      let '(d, s) := next s in
      let~ (ds, s) := c_draw next n s in
      cval (d :: ds, s)
  end.
(** src/apint/rand_impl.rs 29-49. *)
Definition c_random_with_width_using {S : Type} (next : S -> Z * S) (width : Z) (s : S) : clocked (apint * S) :=
  let n := required_digits width in
  if Nat.leb 1 n then
    let~ (random_digits, s) := c_draw next n s in
    let~ r := c_from_iter random_digits in
    let~ a := clift (unwrap r) in
    let~ r := c_into_truncate a width in
    let~ c := clift (unwrap r) in
    cval (c, s)
  else clift Panic.
(** src/apint/rand_impl.rs 68. *)
Fixpoint c_overwrite {S : Type} (next : S -> Z * S) (ds : list Z) (s : S) : clocked (list Z * S) :=
  match ds with
  | [] => cval ([], s)
  | _ :: rest =>
      let~ _ := cpay 2 in
      let '(r, s) := next s in
      let~ (rs, s) := c_overwrite next rest s in
      cval (r :: rs, s)
  end.
(** src/apint/rand_impl.rs 62-70. *)
Definition c_randomize_using {S : Type} (next : S -> Z * S) (a : apint) (s : S) : clocked (apint * S) :=
  let~ (ds, s) := c_overwrite next (as_digit_slice a) s in
  let~ c := c_clear_unused_bits (mk_apint (len a) ds) in
  cval (c, s).
