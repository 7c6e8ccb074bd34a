(** Specification of the whole interface: programs of public calls, and the
    abstract machine that runs them on pairs (width, number below 2^width).
    Nothing here mentions digits or storage. *)
From Coq Require Import ZArith List Bool.
From Verif Require Import MBase Spec SpecStr.
Import ListNotations.
Open Scope Z_scope.

(** * Programs *)
(** Construction.  [NParse r s] parses the bytes [s] in radix [r]. *)
Inductive newop :=
| NBool (b : bool) | NU8 (v : Z) | NU16 (v : Z) | NU32 (v : Z) | NU64 (v : Z) | NU128 (v : Z)
| NI8 (v : Z) | NI16 (v : Z) | NI32 (v : Z) | NI64 (v : Z) | NI128 (v : Z)
| NU64s (vs : list Z) | NI64s (vs : list Z)
| NZero (w : Z) | NOne (w : Z) | NAllSet (w : Z) | NUMin (w : Z) | NUMax (w : Z) | NSMin (w : Z) | NSMax (w : Z)
| NParse (r : Z) (s : list Z).

(** Methods with one operand that change it. *)
Inductive mutop :=
| MNot | MNeg | MInc | MDec
| MShl (s : Z) | MLshr (s : Z) | MAshr (s : Z)
| MTruncate (t : Z) | MZeroExtend (t : Z) | MSignExtend (t : Z) | MZeroResize (t : Z) | MSignResize (t : Z).
(** The same, without a consuming form. *)
Inductive setop :=
| SSetAll | SUnsetAll | SFlipAll | SSetMsb | SUnsetMsb | SFlipMsb
| SSetBit (p : Z) | SUnsetBit (p : Z) | SFlipBit (p : Z).
(** Methods with two operands that change the first. *)
Inductive binop := BAdd | BSub | BMul | BUdiv | BUrem | BSdiv | BSrem | BAnd | BOr | BXor.
(** Methods that change both operands. *)
Inductive pairop := PUDivRem | PURemDiv | PSDivRem | PSRemDiv.
Inductive cmpop := CUlt | CUle | CUgt | CUge | CSlt | CSle | CSgt | CSge.
Inductive query :=
| QWidth | QIsZero | QIsOne | QIsEven | QIsOdd | QIsAllSet | QIsAllUnset | QMsb | QLsb
| QCountOnes | QCountZeros | QLeadingZeros | QTrailingZeros
| QBit (p : Z) | QResizeTo (ty : prim_ty) | QTryTo (ty : prim_ty)
| QBinary | QLowerHex | QUpperHex.

(** Variables are numbered in order of creation.  A command that mentions a
    variable that does not exist or was moved or dropped, or that borrows the
    same variable mutably and again at once, is one the compiler rejects. *)
Inductive cmd :=
| New (n : newop)                       (* let x = ... *)
| Clone (x : nat)                       (* let y = x.clone() *)
| Drop (x : nat)                        (* drop(x) *)
| Mut (m : mutop) (x : nat)             (* x.m() *)
| Into (m : mutop) (x : nat)            (* let y = x.into_m(), moves x *)
| Put (m : setop) (x : nat)             (* x.m() *)
| Bin (o : binop) (x y : nat)           (* x.o_assign(&y) *)
| IntoBin (o : binop) (x y : nat)       (* let z = x.into_o(&y), moves x *)
| Pair (o : pairop) (x y : nat)         (* o(&mut x, &mut y) *)
| Assign (x y : nat)                    (* x.assign(&y) *)
| StrictAssign (x y : nat)              (* x.strict_assign(&y) *)
| Cmp (o : cmpop) (x y : nat)           (* x.checked_o(&y) *)
| Equal (x y : nat)                     (* x == y *)
| Ask (q : query) (x : nat).

(** * Observations *)
(** Errors, with integers shown as (width, value). *)
Inductive aerror :=
| ERadix (r : Z) | EString (s : list Z) (r : Z) | EBitAccess (pos w : Z) | EShift (s w : Z)
| EUnrepresentable (x : Z * Z) (ty : prim_ty) | EWidths (l r : Z) | EBitWidth (w : Z)
| ETruncation (t w : Z) | EExtension (t w : Z) | EDivisionByZero (op : div_op) (x : Z * Z) | EOther.
(** What a call shows: it returned [()] or created a variable, failed,
    returned a Boolean, a number or a string, or was rejected. *)
Inductive obs := ODone | OFail (e : aerror) | OBool (b : bool) | OInt (z : Z) | OString (s : list Z) | ORejected.

(** * Arguments of the right types *)
Definition type_range (ty : prim_ty) : Z * Z :=
  match ty with
  | PBool => (0, 2) | PU8 => (0, 2 ^ 8) | PU16 => (0, 2 ^ 16) | PU32 => (0, 2 ^ 32) | PU64 => (0, 2 ^ 64) | PU128 => (0, 2 ^ 128)
  | PI8 => (- 2 ^ 7, 2 ^ 7) | PI16 => (- 2 ^ 15, 2 ^ 15) | PI32 => (- 2 ^ 31, 2 ^ 31) | PI64 => (- 2 ^ 63, 2 ^ 63)
  | PI128 => (- 2 ^ 127, 2 ^ 127)
  end.
Definition has_type (v : Z) (ty : prim_ty) : Prop := fst (type_range ty) <= v < snd (type_range ty).
Definition newop_ok (n : newop) : Prop :=
  match n with
  | NBool _ => True
  | NU8 v => has_type v PU8 | NU16 v => has_type v PU16 | NU32 v => has_type v PU32 | NU64 v => has_type v PU64
  | NU128 v => has_type v PU128
  | NI8 v => has_type v PI8 | NI16 v => has_type v PI16 | NI32 v => has_type v PI32 | NI64 v => has_type v PI64
  | NI128 v => has_type v PI128
  | NU64s vs => vs <> [] /\ Forall (fun v => has_type v PU64) vs
  | NI64s vs => vs <> [] /\ Forall (fun v => has_type v PI64) vs
  | NZero w | NOne w | NAllSet w | NUMin w | NUMax w | NSMin w | NSMax w => 0 <= w
  | NParse r s => has_type r PU8 /\ Forall (fun b => has_type b PU8) s
  end.
Definition mutop_ok (m : mutop) : Prop :=
  match m with
  | MShl n | MLshr n | MAshr n | MTruncate n | MZeroExtend n | MSignExtend n | MZeroResize n | MSignResize n => 0 <= n
  | _ => True
  end.
Definition setop_ok (m : setop) : Prop :=
  match m with SSetBit p | SUnsetBit p | SFlipBit p => 0 <= p | _ => True end.
Definition cmd_ok (c : cmd) : Prop :=
  match c with
  | New n => newop_ok n
  | Mut m _ | Into m _ => mutop_ok m
  | Put m _ => setop_ok m
  | Ask (QBit p) _ => 0 <= p
  | _ => True
  end.

(** * The abstract machine *)
Definition aval : Type := Z * Z.
Definition ares : Type := aval + aerror.
Definition asigned (x : aval) : Z := to_signed (fst x) (snd x).
(** The pair for an integer reduced modulo 2^w. *)
Definition reduce (w z : Z) : aval := (w, z mod 2 ^ w).

Definition with_width (w : Z) (x : aval) : ares := if w =? 0 then inr (EBitWidth 0) else inl x.

(** The numeral of [u] in base [r], most significant digit first. *)
Fixpoint digits_of (fuel : nat) (r u : Z) : list Z :=
  match fuel with
  | O => []
  | S n => if u <? r then [u] else digits_of n r (u / r) ++ [u mod r]
  end.
Definition digit_byte (alpha d : Z) : Z := if d <? 10 then 48 + d else alpha + (d - 10).
Definition numeral_of (r alpha u : Z) : list Z :=
  map (digit_byte alpha) (digits_of (S (Z.to_nat (Z.log2 u))) r u).

(** Parsing.  The integer has as many words as the digits need.  In a radix
    that is no power of two the code uses only the leading block of the digits
    (a defect, see C34): [block r] digits fit a word, and the leading block has
    what is left of the string after the full blocks behind it. *)
Definition is_numeral (r : Z) (s : list Z) : bool :=
  match s with
  | [] => false
  | b :: _ => negb (b =? 95) && negb (last s 95 =? 95) &&
      forallb (fun b => (b =? 95) || match char_value b with Some d => d <? r | None => false end) s
  end.
Definition block (r : Z) : Z :=
  Z.of_nat (length (filter (fun k => r ^ Z.of_nat k <=? 2 ^ 64) (seq 1 64))).
Definition parsed (r : Z) (ds : list Z) : aval :=
  let n := Z.of_nat (length ds) in
  if r =? 2 ^ Z.log2 r then (64 * ((Z.log2 r * n + 63) / 64), radix_value r ds)
  else
    let v := radix_value r (firstn (Z.to_nat ((n - 1) mod block r + 1)) ds) in
    ((if (n <=? block r) || (v =? 0) then 64 else 128), v).

(** [None]: the call panics. *)
Definition anew (n : newop) : option ares :=
  match n with
  | NBool b => Some (inl (1, if b then 1 else 0))
  | NU8 v => Some (inl (8, v)) | NU16 v => Some (inl (16, v)) | NU32 v => Some (inl (32, v))
  | NU64 v => Some (inl (64, v)) | NU128 v => Some (inl (128, v))
  | NI8 v => Some (inl (reduce 8 v)) | NI16 v => Some (inl (reduce 16 v)) | NI32 v => Some (inl (reduce 32 v))
  | NI64 v => Some (inl (reduce 64 v)) | NI128 v => Some (inl (reduce 128 v))
  | NU64s vs => Some (inl (64 * Z.of_nat (length vs), be_value vs))
  | NI64s vs => Some (inl (64 * Z.of_nat (length vs), be_value (map (fun v => v mod 2 ^ 64) vs)))
  | NZero w | NUMin w => Some (with_width w (w, 0))
  | NOne w => Some (with_width w (w, 1))
  | NAllSet w | NUMax w => Some (with_width w (w, 2 ^ w - 1))
  | NSMin w => Some (with_width w (w, 2 ^ (w - 1)))
  | NSMax w => Some (with_width w (w, 2 ^ (w - 1) - 1))
  | NParse r s =>
      if (2 <=? r) && (r <=? 36) then Some (if is_numeral r s then inl (parsed r (string_digits s)) else inr (EString s r))
      else None
  end.

Definition amut (m : mutop) (x : aval) : ares :=
  let (w, u) := x in
  match m with
  | MNot => inl (w, 2 ^ w - 1 - u)
  | MNeg => inl (reduce w (- u))
  | MInc => inl (reduce w (u + 1))
  | MDec => inl (reduce w (u - 1))
  | MShl s => if s <? w then inl (reduce w (u * 2 ^ s)) else inr (EShift s w)
  | MLshr s => if s <? w then inl (w, u / 2 ^ s) else inr (EShift s w)
  | MAshr s => if s <? w then inl (reduce w (asigned x / 2 ^ s)) else inr (EShift s w)
  | MTruncate t =>
      if t =? 0 then inr (EBitWidth 0) else if t <=? w then inl (reduce t u) else inr (ETruncation t w)
  | MZeroExtend t =>
      if t =? 0 then inr (EBitWidth 0) else if w <=? t then inl (t, u) else inr (EExtension t w)
  | MSignExtend t =>
      if t =? 0 then inr (EBitWidth 0) else if w <=? t then inl (reduce t (asigned x)) else inr (EExtension t w)
  | MZeroResize t => if t =? 0 then inr (EBitWidth 0) else inl (reduce t u)
  | MSignResize t => if t =? 0 then inr (EBitWidth 0) else inl (reduce t (asigned x))
  end.

Definition aput (m : setop) (x : aval) : ares :=
  let (w, u) := x in
  match m with
  | SSetAll => inl (w, 2 ^ w - 1)
  | SUnsetAll => inl (w, 0)
  | SFlipAll => inl (w, 2 ^ w - 1 - u)
  | SSetMsb => inl (w, Z.setbit u (w - 1))
  | SUnsetMsb => inl (w, Z.clearbit u (w - 1))
  | SFlipMsb => inl (w, Z.lxor u (2 ^ (w - 1)))
  | SSetBit p => if p <? w then inl (w, Z.setbit u p) else inr (EBitAccess p w)
  | SUnsetBit p => if p <? w then inl (w, Z.clearbit u p) else inr (EBitAccess p w)
  | SFlipBit p => if p <? w then inl (w, Z.lxor u (2 ^ p)) else inr (EBitAccess p w)
  end.

(** Signed division looks for a zero divisor first and then panics if the
    widths differ (a defect, see C09). *)
Definition signed_div (op : div_op) (x y : aval) (z : Z) : option ares :=
  if snd y =? 0 then Some (inr (EDivisionByZero op x))
  else if fst x =? fst y then Some (inl (reduce (fst x) z)) else None.
Definition abin (o : binop) (x y : aval) : option ares :=
  let w := fst x in
  let same (r : ares) : option ares := Some (if w =? fst y then r else inr (EWidths w (fst y))) in
  match o with
  | BAdd => same (inl (reduce w (snd x + snd y)))
  | BSub => same (inl (reduce w (snd x - snd y)))
  | BMul => same (inl (reduce w (snd x * snd y)))
  | BAnd => same (inl (w, Z.land (snd x) (snd y)))
  | BOr => same (inl (w, Z.lor (snd x) (snd y)))
  | BXor => same (inl (w, Z.lxor (snd x) (snd y)))
  | BUdiv => same (if snd y =? 0 then inr (EDivisionByZero UnsignedDiv x) else inl (w, snd x / snd y))
  | BUrem => same (if snd y =? 0 then inr (EDivisionByZero UnsignedRem x) else inl (w, snd x mod snd y))
  | BSdiv => signed_div SignedDiv x y (Z.quot (asigned x) (asigned y))
  | BSrem => signed_div SignedRem x y (Z.rem (asigned x) (asigned y))
  end.

Definition apair (o : pairop) (x y : aval) : option ((aval * aval) + aerror) :=
  let w := fst x in
  let unsigned op r :=
    Some (if w =? fst y then if snd y =? 0 then inr (EDivisionByZero op x) else inl r else inr (EWidths w (fst y))) in
  let signed op r :=
    if snd y =? 0 then Some (inr (EDivisionByZero op x)) else if w =? fst y then Some (inl r) else None in
  let uq := (w, snd x / snd y) in let ur := (w, snd x mod snd y) in
  let sq := reduce w (Z.quot (asigned x) (asigned y)) in let sr := reduce w (Z.rem (asigned x) (asigned y)) in
  match o with
  | PUDivRem => unsigned UnsignedDivRem (uq, ur)
  | PURemDiv => unsigned UnsignedRemDiv (ur, uq)
  | PSDivRem => signed SignedDivRem (sq, sr)
  | PSRemDiv => signed SignedRemDiv (sr, sq)
  end.

(** The errors of ule, ugt, sle and sgt name the widths in swapped order. *)
Definition acmp (o : cmpop) (x y : aval) : bool + aerror :=
  let straight b := if fst x =? fst y then inl b else inr (EWidths (fst x) (fst y)) in
  let swapped b := if fst x =? fst y then inl b else inr (EWidths (fst y) (fst x)) in
  match o with
  | CUlt => straight (snd x <? snd y) | CUge => straight (snd y <=? snd x)
  | CUle => swapped (snd x <=? snd y) | CUgt => swapped (snd y <? snd x)
  | CSlt => straight (asigned x <? asigned y) | CSge => straight (asigned y <=? asigned x)
  | CSle => swapped (asigned x <=? asigned y) | CSgt => swapped (asigned y <? asigned x)
  end.

(** Zero bits above the highest and below the lowest one. *)
Definition leading (w u : Z) : Z := if u =? 0 then w else w - 1 - Z.log2 u.
Definition trailing (w u : Z) : Z := if u =? 0 then w else Z.log2 (Z.land u (- u)).

Definition type_width (ty : prim_ty) : Z :=
  match ty with
  | PBool => 1 | PI8 | PU8 => 8 | PI16 | PU16 => 16 | PI32 | PU32 => 32 | PI64 | PU64 => 64 | PI128 | PU128 => 128
  end.
Definition type_signed (ty : prim_ty) : bool :=
  match ty with PI8 | PI16 | PI32 | PI64 | PI128 => true | _ => false end.
Definition resized (ty : prim_ty) (x : aval) : Z :=
  if type_signed ty then wrap_signed (type_width ty) (asigned x) else snd x mod 2 ^ type_width ty.
(** For a wider integer the conversion to a signed type looks at the unsigned
    value (a defect, see C31). *)
Definition tried (ty : prim_ty) (x : aval) : option Z :=
  let n := type_width ty in
  if type_signed ty then
    if fst x <=? n then Some (asigned x) else if snd x <? 2 ^ n then Some (wrap_signed n (snd x)) else None
  else if snd x <? 2 ^ n then Some (snd x) else None.
Definition show (ty : prim_ty) (z : Z) : obs := match ty with PBool => OBool (z =? 1) | _ => OInt z end.

Definition ask (q : query) (x : aval) : obs :=
  let (w, u) := x in
  match q with
  | QWidth => OInt w
  | QIsZero | QIsAllUnset => OBool (u =? 0)
  | QIsOne => OBool (u =? 2 ^ (64 * ((w + 63) / 64 - 1)))   (* a defect above 64 bits, see C18 *)
  | QIsAllSet => OBool (if w mod 64 =? 0 then u mod 2 ^ (w - 64) =? 2 ^ (w - 64) - 1   (* likewise *)
                        else u =? 2 ^ w - 1)
  | QIsEven => OBool (Z.even u)
  | QIsOdd | QLsb => OBool (Z.odd u)
  | QMsb => OBool (2 ^ (w - 1) <=? u)
  | QCountOnes => OInt (ones_below u w)
  | QCountZeros => OInt (w - ones_below u w)
  | QLeadingZeros => OInt (leading w u)
  | QTrailingZeros => OInt (trailing w u)
  | QBit p => if p <? w then OBool (Z.testbit u p) else OFail (EBitAccess p w)
  | QResizeTo ty => show ty (resized ty x)
  | QTryTo ty => match tried ty x with Some z => show ty z | None => OFail (EUnrepresentable x ty) end
  | QBinary => OString (numeral_of 2 97 u)
  | QLowerHex => OString (numeral_of 16 97 u)
  | QUpperHex => OString (numeral_of 16 65 u)
  end.

(** [None]: moved or dropped. *)
Definition store : Type := list (option aval).
Fixpoint update {A : Type} (i : nat) (a : A) (l : list A) : list A :=
  match l, i with
  | [], _ => []
  | _ :: t, O => a :: t
  | h :: t, S i => h :: update i a t
  end.

Definition create (s : store) (r : ares) : store * obs :=
  match r with inl v => (s ++ [Some v], ODone) | inr e => (s, OFail e) end.
Definition change (s : store) (x : nat) (r : ares) : store * obs :=
  match r with inl v => (update x (Some v) s, ODone) | inr e => (s, OFail e) end.
Definition get1 (s : store) (x : nat) (k : aval -> option (store * obs)) : option (store * obs) :=
  match nth_error s x with Some (Some a) => k a | _ => Some (s, ORejected) end.
Definition get2 (s : store) (x y : nat) (k : aval -> aval -> option (store * obs)) : option (store * obs) :=
  get1 s x (fun a => get1 s y (fun b => k a b)).

Definition astep (s : store) (c : cmd) : option (store * obs) :=
  match c with
  | New n => option_map (create s) (anew n)
  | Clone x => get1 s x (fun a => Some (create s (inl a)))
  | Mut m x => get1 s x (fun a => Some (change s x (amut m a)))
  | Drop x => get1 s x (fun a => Some (update x None s, ODone))
  | Into m x => get1 s x (fun a => Some (create (update x None s) (amut m a)))
  | Put m x => get1 s x (fun a => Some (change s x (aput m a)))
  | Bin o x y =>
      if Nat.eqb x y then Some (s, ORejected)
      else get2 s x y (fun a b => option_map (change s x) (abin o a b))
  | IntoBin o x y =>
      if Nat.eqb x y then Some (s, ORejected)
      else get2 s x y (fun a b => option_map (create (update x None s)) (abin o a b))
  | Pair o x y =>
      if Nat.eqb x y then Some (s, ORejected)
      else get2 s x y (fun a b => option_map (fun r =>
        match r with inl (a', b') => (update y (Some b') (update x (Some a') s), ODone) | inr e => (s, OFail e) end) (apair o a b))
  | Assign x y =>
      if Nat.eqb x y then Some (s, ORejected) else get2 s x y (fun a b => Some (update x (Some b) s, ODone))
  | StrictAssign x y =>
      if Nat.eqb x y then Some (s, ORejected)
      else get2 s x y (fun a b => Some (change s x (if fst a =? fst b then inl b else inr (EWidths (fst a) (fst b)))))
  | Cmp o x y => get2 s x y (fun a b => Some (s, match acmp o a b with inl r => OBool r | inr e => OFail e end))
  | Equal x y => get2 s x y (fun a b => Some (s, OBool ((fst a =? fst b) && (snd a =? snd b))))
  | Ask q x => get1 s x (fun a => Some (s, ask q a))
  end.

(** A program from a store: the final store and what each call showed, or
    [None] if some call panics. *)
Fixpoint arun (s : store) (p : list cmd) : option (store * list obs) :=
  match p with
  | [] => Some (s, [])
  | c :: p =>
      match astep s c with
      | None => None
      | Some (s, o) => match arun s p with None => None | Some (s, os) => Some (s, o :: os) end
      end
  end.

(** A variable of a client program holds what the abstract machine says. *)
Definition holds (a : option apint) (x : option aval) : Prop :=
  match a, x with
  | Some a, Some (w, u) => is_apint a w u
  | None, None => True
  | _, _ => False
  end.
