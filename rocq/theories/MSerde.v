(** Model of src/apint/serde_impl.rs.  No proofs in this file.

    Serde splits the work between a format and the code of the crate.  Only the
    latter is modelled: what the crate hands to a serializer ([ser]) and what
    its visitors make of what a deserializer presents to them ([data]).  *)
From Coq Require Export String.
From Verif Require Export MCasting.
Open Scope list_scope.
Open Scope Z_scope.

(** The calls made on a serializer: [serialize_u64], [serialize_tuple_struct],
    [serialize_tuple], [serialize_seq] (through serde's slice implementation)
    and [serialize_struct].  src/apint/serde_impl.rs 5-48. *)
Inductive ser : Type :=
| SU64 (v : Z)
| STupleStruct (name : string) (fields : list ser)
| STuple (elements : list ser)
| SSeq (elements : list ser)
| SStruct (name : string) (fields : list (string * ser)).

(** What a deserializer presents to a visitor: [visit_u64], [visit_str],
    [visit_seq], [visit_map], any other visitor method, or a failure of the
    format itself (malformed input) at this place.  src/apint/serde_impl.rs 58-302. *)
Inductive data : Type :=
| DU64 (v : Z)
| DStr (s : string)
| DSeq (elements : list data)
| DMap (entries : list (data * data))
| DOther
| DBad.

(** The constructors of [serde::de::Error] that the code or the defaults of
    [Visitor] call; [EFormat] is an error of the format.
    src/apint/serde_impl.rs 65-302. *)
Inductive de_error : Type :=
| EInvalidType
| EInvalidValue
| EInvalidLength (n : Z)
| EUnknownField (name : string)
| EMissingField (name : string)
| EDuplicateField (name : string)
| EFormat.

(** [Result<T, D::Error>], src/apint/serde_impl.rs 58-302. *)
Inductive de_result (A : Type) : Type :=
| DOk (x : A)
| DErr (e : de_error).
Arguments DOk {A} x.
Arguments DErr {A} e.

(** The [?] of src/apint/serde_impl.rs 209-289. *)
Definition de_bind {A B : Type} (r : de_result A) (k : A -> outcome (de_result B)) : outcome (de_result B) :=
  match r with
  | DOk x => k x
  | DErr e => Val (DErr e)
  end.

(** src/apint/serde_impl.rs 5-12. *)
Definition ser_digit (d : Z) : ser := SU64 d.
(** src/apint/serde_impl.rs 14-27; [self.to_usize() as u64]. *)
Definition ser_bitwidth (human_readable : bool) (w : Z) : ser :=
  if human_readable then STupleStruct "BitWidth" [SU64 (w mod B)] else SU64 (w mod B).
(** src/apint/serde_impl.rs 29-48. *)
Definition ser_apint (human_readable : bool) (a : apint) : ser :=
  if human_readable
  then SStruct "ApInt" [("width"%string, ser_bitwidth human_readable (len a));
                        ("digits"%string, SSeq (map ser_digit (as_digit_slice a)))]
  else STuple [ser_bitwidth human_readable (len a); SSeq (map ser_digit (as_digit_slice a))].

(** src/apint/serde_impl.rs 65-75; [width as usize] is the identity on a 64-bit target. *)
Definition try_new_bitwidth (width : Z) : de_result Z :=
  match bitwidth_new width with
  | Ok w => DOk w
  | Err _ => DErr EInvalidValue
  end.

(** [u64] elements (serde's implementation).  src/apint/serde_impl.rs 88, 138. *)
Definition de_u64 (d : data) : de_result Z :=
  match d with
  | DU64 v => DOk v
  | DBad => DErr EFormat
  | _ => DErr EInvalidType
  end.

(** src/apint/serde_impl.rs 58-122.  The visitor reads one element; whether more may follow is
    for the format to say. *)
Definition de_bitwidth (human_readable : bool) (d : data) : de_result Z :=
  if human_readable
  then match d with
       | DSeq [] => DErr (EInvalidLength 0)
       | DSeq (e :: _) =>
           match de_u64 e with
           | DOk width_repr => try_new_bitwidth width_repr
           | DErr er => DErr er
           end
       | DBad => DErr EFormat
       | _ => DErr EInvalidType
       end
  else match d with
       | DU64 v => try_new_bitwidth v
       | DBad => DErr EFormat
       | _ => DErr EInvalidType
       end.

(** src/apint/serde_impl.rs 124-148. *)
Definition de_digit (d : data) : de_result Z := de_u64 d.

(** [Vec<Digit>] (serde's implementation: the elements in order, stopping at
    the first error).  src/apint/serde_impl.rs 208, 266. *)
Fixpoint de_elements (l : list data) : de_result (list Z) :=
  match l with
  | [] => DOk []
  | d :: r =>
      match de_digit d with
      | DErr e => DErr e
      | DOk x => match de_elements r with DErr e => DErr e | DOk xs => DOk (x :: xs) end
      end
  end.
(** src/apint/serde_impl.rs 208, 266: [Vec<Digit>]. *)
Definition de_vec (d : data) : de_result (list Z) :=
  match d with
  | DSeq l => de_elements l
  | DBad => DErr EFormat
  | _ => DErr EInvalidType
  end.

(** src/apint/serde_impl.rs 155-193. *)
Inductive field : Type := FWidth | FDigits.
(** src/apint/serde_impl.rs 161-193. *)
Definition de_field (d : data) : de_result field :=
  match d with
  | DStr s =>
      if String.eqb s "width" then DOk FWidth
      else if String.eqb s "digits" then DOk FDigits
      else DErr (EUnknownField s)
  | DBad => DErr EFormat
  | _ => DErr EInvalidType
  end.

(** src/apint/serde_impl.rs 209-227: the loop of [visit_map]. *)
Fixpoint visit_entries (entries : list (data * data)) (width : option Z) (digits : option (list Z))
  : de_result (option Z * option (list Z)) :=
  match entries with
  | [] => DOk (width, digits)
  | (key, value) :: rest =>
      match de_field key with
      | DErr e => DErr e
      | DOk FWidth =>
          match width with
          | Some _ => DErr (EDuplicateField "width")
          | None =>
              match de_bitwidth true value with
              | DErr e => DErr e
              | DOk w => visit_entries rest (Some w) digits
              end
          end
      | DOk FDigits =>
          match digits with
          | Some _ => DErr (EDuplicateField "digits")
          | None =>
              match de_vec value with
              | DErr e => DErr e
              | DOk ds => visit_entries rest width (Some ds)
              end
          end
      end
  end.

(** src/apint/serde_impl.rs 239-249 and 279-289: [from_iter], [expect], [into_truncate],
    [expect]. *)
Definition build (width : Z) (digits : list Z) : outcome (de_result apint) :=
  let! r := from_iter digits in
  let! a := unwrap r in
  let! r := into_truncate a width in
  let! c := unwrap r in
  Val (DOk c).

(** src/apint/serde_impl.rs 195-250. *)
Definition visit_human (d : data) : outcome (de_result apint) :=
  match d with
  | DMap entries =>
      de_bind (visit_entries entries None None) (fun '(width, digits) =>
      match width with
      | None => Val (DErr (EMissingField "width"))
      | Some width =>
          match digits with
          | None => Val (DErr (EMissingField "digits"))
          | Some digits =>
              if Nat.eqb (required_digits width) (List.length digits)
              then build width digits
              else Val (DErr EInvalidValue)
          end
      end)
  | DBad => Val (DErr EFormat)
  | _ => Val (DErr EInvalidType)
  end.

(** src/apint/serde_impl.rs 252-290; the [unwrap] of line 265 panics when there is no first
    element. *)
Definition visit_compact (d : data) : outcome (de_result apint) :=
  match d with
  | DSeq [] => Panic
  | DSeq (e :: rest) =>
      de_bind (de_bitwidth false e) (fun width =>
      match rest with
      | [] => Val (DErr (EInvalidLength 1))
      | e2 :: _ =>
          de_bind (de_vec e2) (fun digits =>
          if Nat.eqb (required_digits width) (List.length digits)
          then build width digits
          else Val (DErr EInvalidValue))
      end)
  | DBad => Val (DErr EFormat)
  | _ => Val (DErr EInvalidType)
  end.

(** src/apint/serde_impl.rs 150-302. *)
Definition de_apint (human_readable : bool) (d : data) : outcome (de_result apint) :=
  if human_readable then visit_human d else visit_compact d.
