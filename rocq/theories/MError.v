(** Model of [Error] as a value: its getters, and the [Clone], [PartialEq],
    [Hash] and pretty [Debug] that are derived for it.  The record is in MText.v.
    No proofs in this file. *)
From Verif Require Export MText MRelational.

(** * Getters *)

(** src/errors.rs 136-140. *)
Definition get_kind (e : error) : error_kind := e_kind e.
(** src/errors.rs 142-146. *)
Definition get_message (e : error) : list Z := e_message e.
(** src/errors.rs 148-152. *)
Definition get_annotation (e : error) : option (list Z) := e_annotation e.
(** [std::error::Error::description].  src/errors.rs 401-406. *)
Definition description (e : error) : list Z := e_message e.
(** [impl From<Error> for Result<T>].  src/errors.rs 383-393. *)
Definition error_into_result {A : Type} (e : error) : eresult A := EErr e.

(** * Clone *)

(** Derived [Clone] of [ErrorKind]; the integers in it are cloned by
    [ApInt::clone].  src/errors.rs 16-97. *)
Definition clone_kind (k : error_kind) : outcome error_kind :=
  match k with
  | ValueUnrepresentable v t => let! v := clone v in Val (ValueUnrepresentable v t)
  | DivisionByZero op v => let! v := clone v in Val (DivisionByZero op v)
  | k => Val k
  end.
(** Derived [Clone] of [Error].  src/errors.rs 125-130. *)
Definition clone_error (e : error) : outcome error :=
  let! k := clone_kind (e_kind e) in Val (mk_error k (e_message e) (e_annotation e)).

(** * PartialEq *)

(** Derived [PartialEq] of [DivOp]: the discriminants.  src/errors.rs 100-118. *)
Definition div_op_index (op : div_op) : Z :=
  match op with
  | UnsignedDivRem => 0 | UnsignedRemDiv => 1 | SignedDivRem => 2 | SignedRemDiv => 3
  | UnsignedDiv => 4 | UnsignedRem => 5 | SignedDiv => 6 | SignedRem => 7
  end.
(** Derived [PartialEq] of [PrimitiveTy]: the discriminants.
    src/apint/to_primitive.rs 7-31. *)
Definition prim_ty_index (t : prim_ty) : Z :=
  match t with
  | PBool => 0 | PI8 => 1 | PU8 => 2 | PI16 => 3 | PU16 => 4 | PI32 => 5 | PU32 => 6
  | PI64 => 7 | PU64 => 8 | PI128 => 9 | PU128 => 10
  end.
(** [PartialEq] of [Option<(usize, char)>] (Rust std).  src/errors.rs 32. *)
Definition pos_char_eqb (x y : option (Z * Z)) : bool :=
  match x, y with
  | Some (p, c), Some (q, d) => (p =? q) && (c =? d)
  | None, None => true
  | _, _ => false
  end.
(** Derived [PartialEq] of [ErrorKind]: the variants, then the fields in order.
    src/errors.rs 16-97. *)
Definition kind_eqb (x y : error_kind) : bool :=
  match x, y with
  | InvalidRadix r, InvalidRadix r' => r =? r'
  | InvalidStringRepr s r p, InvalidStringRepr s' r' p' => digits_eqb s s' && (r =? r') && pos_char_eqb p p'
  | InvalidBitAccess p w, InvalidBitAccess p' w' => (p =? p') && (w =? w')
  | InvalidShiftAmount s w, InvalidShiftAmount s' w' => (s =? s') && (w =? w')
  | ValueUnrepresentable v t, ValueUnrepresentable v' t' => apint_eqb v v' && (prim_ty_index t =? prim_ty_index t')
  | UnmatchingBitwidth l r, UnmatchingBitwidth l' r' => (l =? l') && (r =? r')
  | InvalidBitWidth w, InvalidBitWidth w' => w =? w'
  | TruncationBitWidthTooLarge t c, TruncationBitWidthTooLarge t' c' => (t =? t') && (c =? c')
  | ExtensionBitWidthTooSmall t c, ExtensionBitWidthTooSmall t' c' => (t =? t') && (c =? c')
  | DivisionByZero o v, DivisionByZero o' v' => (div_op_index o =? div_op_index o') && apint_eqb v v'
  | ExpectedNonEmptyDigits, ExpectedNonEmptyDigits => true
  | _, _ => false
  end.
(** [PartialEq] of [Option<String>] (Rust std).  src/errors.rs 129. *)
Definition annotation_eqb (x y : option (list Z)) : bool :=
  match x, y with
  | Some s, Some t => digits_eqb s t
  | None, None => true
  | _, _ => false
  end.
(** Derived [PartialEq] of [Error].  Simplification: strings are compared by their
    characters; the code compares their bytes.  src/errors.rs 125-130. *)
Definition error_eqb (x y : error) : bool :=
  kind_eqb (e_kind x) (e_kind y) && digits_eqb (e_message x) (e_message y) &&
  annotation_eqb (e_annotation x) (e_annotation y).

(** * Hash *)

(** What a hasher is handed (Rust std, [Hasher]): [write_isize], [write_u8],
    [write_u32], [write] with some bytes, and what [ApInt] hands it.
    src/errors.rs 16-130, src/apint/utils.rs 29-34. *)
Inductive hash_call :=
| CallIsize (n : Z) | CallU8 (n : Z) | CallU32 (n : Z) | CallBytes (bs : list Z) | CallOther (i : hash_item).

(** The bytes of a string (Rust std, UTF-8).  src/errors.rs 127-129. *)
Fixpoint str_bytes (s : list Z) : list Z :=
  match s with
  | [] => []
  | c :: r =>
      (if c <? 128 then [c]
       else if c <? 2048 then [192 + c / 64; 128 + c mod 64]
       else if c <? 65536 then [224 + c / 4096; 128 + c / 64 mod 64; 128 + c mod 64]
       else [240 + c / 262144; 128 + c / 4096 mod 64; 128 + c / 64 mod 64; 128 + c mod 64]) ++ str_bytes r
  end.
(** [Hash] of [str] given by its bytes (Rust std).  src/errors.rs 27, 127-129. *)
Definition hash_str (bytes : list Z) : list hash_call := [CallBytes bytes; CallU8 255].
(** [Hash] of [usize] and of the types that wrap one (derived).
    src/bitwidth.rs 20, src/bitpos.rs 8, src/apint/shift.rs 16. *)
Definition hash_usize (n : Z) : list hash_call := [CallOther (HashUsize n)].
(** [Hash] of [Option] (Rust std): the discriminant, then the content.
    src/errors.rs 32, 129. *)
Definition hash_option {A : Type} (f : A -> list hash_call) (o : option A) : list hash_call :=
  match o with None => [CallIsize 0] | Some x => CallIsize 1 :: f x end.
(** Derived [Hash] of [ErrorKind]: the discriminant, then the fields in order.
    src/errors.rs 16-97. *)
Definition hash_kind (k : error_kind) : list hash_call :=
  match k with
  | InvalidRadix r => [CallIsize 0; CallU8 r]
  | InvalidStringRepr s r p =>
      CallIsize 1 :: hash_str s ++ [CallU8 r] ++
      hash_option (fun q : Z * Z => hash_usize (fst q) ++ [CallU32 (snd q)]) p
  | InvalidBitAccess p w => CallIsize 2 :: hash_usize p ++ hash_usize w
  | InvalidShiftAmount s w => CallIsize 3 :: hash_usize s ++ hash_usize w
  | ValueUnrepresentable v t => CallIsize 4 :: map CallOther (hash_feed v) ++ [CallIsize (prim_ty_index t)]
  | UnmatchingBitwidth l r => CallIsize 5 :: hash_usize l ++ hash_usize r
  | InvalidBitWidth w => CallIsize 6 :: hash_usize w
  | TruncationBitWidthTooLarge t c => CallIsize 7 :: hash_usize t ++ hash_usize c
  | ExtensionBitWidthTooSmall t c => CallIsize 8 :: hash_usize t ++ hash_usize c
  | DivisionByZero op v => CallIsize 9 :: CallIsize (div_op_index op) :: map CallOther (hash_feed v)
  | ExpectedNonEmptyDigits => [CallIsize 10]
  end.
(** Derived [Hash] of [Error].  src/errors.rs 125-130. *)
Definition hash_error (e : error) : list hash_call :=
  hash_kind (e_kind e) ++ hash_str (str_bytes (e_message e)) ++
  hash_option (fun t => hash_str (str_bytes t)) (e_annotation e).

(** * Printing over several lines *)

(** ["{:#?}"], and ["{:#}"], which hands its formatter to [Debug].
    src/errors.rs 125-130, 395-399. *)
Definition pretty_error (printable : Z -> bool) (e : error) : list Z := render_pretty (dbg_error printable e).
