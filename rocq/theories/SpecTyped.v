(** Specification of the interface of [UInt] and [Int]: programs of public
    calls on variables of the two types, and the abstract machine that runs
    them on a type, a width and a mathematical integer.  Nothing here mentions
    digits, storage or two's complement beyond the one function [norm]. *)
From Coq Require Import ZArith List Bool.
From Verif Require Import MBase Spec SpecMachine.
Import ListNotations.
Open Scope Z_scope.

(** The two types, and the integer a type of width [w] stores for [z]: the one
    in its range that equals [z] modulo 2^w. *)
Inductive kind := KU | KI.
Definition norm (k : kind) (w z : Z) : Z := match k with KU => z mod 2 ^ w | KI => wrap_signed w z end.
Definition least (k : kind) (w : Z) : Z := match k with KU => 0 | KI => - 2 ^ (w - 1) end.
Definition greatest (k : kind) (w : Z) : Z := match k with KU => 2 ^ w - 1 | KI => 2 ^ (w - 1) - 1 end.

Record tval : Type := mk_tval { tkind : kind; twidth : Z; tvalue : Z }.

(** * Programs *)
(** The primitive integer types of the kind at hand: u8 or i8 and so on. *)
Inductive size := W8 | W16 | W32 | W64 | W128.
Definition bits_of (n : size) : Z := match n with W8 => 8 | W16 => 16 | W32 => 32 | W64 => 64 | W128 => 128 end.
Definition prim_of (k : kind) (n : size) : prim_ty :=
  match k, n with
  | KU, W8 => PU8 | KU, W16 => PU16 | KU, W32 => PU32 | KU, W64 => PU64 | KU, W128 => PU128
  | KI, W8 => PI8 | KI, W16 => PI16 | KI, W32 => PI32 | KI, W64 => PI64 | KI, W128 => PI128
  end.

Inductive tnew :=
| TBool (b : bool) | TPrim (n : size) (v : Z) | TWords (vs : list Z)
| TZero (w : Z) | TOne (w : Z) | TAllUnset (w : Z) | TAllSet (w : Z) | TMin (w : Z) | TMax (w : Z).
Inductive tmut :=
| TNot | TNeg | TAbs | TShl (s : Z) | TShr (s : Z) | TTruncate (t : Z) | TExtend (t : Z) | TResize (t : Z).
Inductive tset :=
| TSetAll | TUnsetAll | TFlipAll | TSetBit (p : Z) | TUnsetBit (p : Z) | TFlipBit (p : Z)
| TSetSign | TUnsetSign | TFlipSign.
Inductive tbin := TAdd | TSub | TMul | TDiv | TRem | TAnd | TOr | TXor.
Inductive tcmp := TLt | TLe | TGt | TGe.
Inductive tquery :=
| TWidth | TIsZero | TIsOne | TIsEven | TIsOdd | TIsAllSet | TIsAllUnset
| TIsPositive | TIsNegative | TSignum | TSign
| TCountOnes | TCountZeros | TLeadingZeros | TTrailingZeros | TBit (p : Z)
| TTo (n : size) | TToBool | TTry (n : size) | TTryBool
| TBinary | TOctal | TLowerHex | TUpperHex.
(** A method that returns a [Result], or the operator that unwraps it. *)
Inductive form := Method | Operator.

Inductive tcmd :=
| TNew (k : kind) (n : tnew)               (* let x = UInt::..  or  let x = Int::.. *)
| TClone (x : nat)                         (* let y = x.clone() *)
| TDrop (x : nat)                          (* drop(x) *)
| TMut (f : form) (m : tmut) (x : nat)     (* x.wrapping_shl_assign(s)   or  x <<= s *)
| TInto (f : form) (m : tmut) (x : nat)    (* let y = x.into_bitnot()    or  let y = !x *)
| TPut (m : tset) (x : nat)                (* x.set_all() *)
| TBin (f : form) (o : tbin) (x y : nat)   (* x.wrapping_add_assign(&y)  or  x += &y *)
| TIntoBin (f : form) (o : tbin) (x y : nat)  (* let z = x.into_wrapping_add(&y)  or  let z = x + &y *)
| TAssign (x y : nat)                      (* x.assign(&y) *)
| TStrictAssign (x y : nat)                (* x.strict_assign(&y) *)
| TCheck (o : tcmp) (x y : nat)            (* x.checked_lt(&y) *)
| TTest (o : tcmp) (x y : nat)             (* x < y *)
| TCompare (x y : nat)                     (* x.partial_cmp(&y) *)
| TEqual (x y : nat)                       (* x == y *)
| TSwitch (x : nat)                        (* let y = x.into_signed()  or  let y = x.into_unsigned() *)
| TThrough (k : kind) (x : nat)            (* let y = UInt::from(x.into_apint())  or  Int::from(..) *)
| TAsk (q : tquery) (x : nat).

(** What a call shows.  [Nothing]: it returned the [None] of an [Option]. *)
Inductive tobs := Shows (o : obs) | Ordering (c : option comparison) | Nothing.

(** * Arguments of the right types *)
Definition tnew_ok (k : kind) (n : tnew) : Prop :=
  match n with
  | TBool _ => True
  | TPrim n v => has_type v (prim_of k n)
  | TWords vs => vs <> [] /\ Forall (fun v => has_type v (prim_of k W64)) vs
  | TZero w | TOne w | TAllUnset w | TAllSet w | TMin w | TMax w => 0 <= w
  end.
Definition tmut_ok (m : tmut) : Prop :=
  match m with TShl n | TShr n | TTruncate n | TExtend n | TResize n => 0 <= n | _ => True end.
Definition tset_ok (m : tset) : Prop :=
  match m with TSetBit p | TUnsetBit p | TFlipBit p => 0 <= p | _ => True end.
Definition tcmd_ok (c : tcmd) : Prop :=
  match c with
  | TNew k n => tnew_ok k n
  | TMut _ m _ | TInto _ m _ => tmut_ok m
  | TPut m _ => tset_ok m
  | TAsk (TBit p) _ => 0 <= p
  | _ => True
  end.

(** * Which methods the types have *)
Definition signed_only_mut (m : tmut) : bool := match m with TAbs => true | _ => false end.
Definition signed_only_set (m : tset) : bool := match m with TSetSign | TUnsetSign | TFlipSign => true | _ => false end.
Definition signed_only_query (q : tquery) : bool :=
  match q with TIsPositive | TIsNegative | TSignum | TSign => true | _ => false end.
Definition for_kind (k : kind) (signed_only : bool) : bool := match k with KU => negb signed_only | KI => true end.
(** In place there are the operators <<= and >>=; consuming, also [!] and [-]. *)
Definition has_mut (f : form) (k : kind) (m : tmut) : bool :=
  match f with
  | Method => for_kind k (signed_only_mut m)
  | Operator => match m with TShl _ | TShr _ => true | _ => false end
  end.
Definition has_into (f : form) (k : kind) (m : tmut) : bool :=
  match f with
  | Method => for_kind k (signed_only_mut m)
  | Operator => match m with TNot | TNeg | TShl _ | TShr _ => true | _ => false end
  end.

(** * The abstract machine *)
Definition tres : Type := tval + aerror.
(** The value of an error or a formatter: an [ApInt], so a pair of a width and
    the number its bits stand for. *)
Definition raw (x : tval) : aval := (twidth x, tvalue x mod 2 ^ twidth x).

Definition sized_to {A : Type} (w : Z) (r : A + aerror) : A + aerror := if w =? 0 then inr (EBitWidth 0) else r.

(** [inl None]: the constructor returned [None]; 1 is no [Int] of width 1. *)
Definition tanew (k : kind) (n : tnew) : option tval + aerror :=
  let mk w z := inl (Some (mk_tval k w z)) in
  match n with
  | TBool b => mk 1 (norm k 1 (if b then 1 else 0))
  | TPrim n v => mk (bits_of n) v
  | TWords vs =>
      let w := 64 * Z.of_nat (length vs) in mk w (norm k w (be_value (map (fun v => v mod 2 ^ 64) vs)))
  | TZero w | TAllUnset w => sized_to w (mk w 0)
  | TOne w => sized_to w (if greatest k w =? 0 then inl None else mk w 1)
  | TAllSet w => sized_to w (mk w (norm k w (-1)))
  | TMin w => sized_to w (mk w (least k w))
  | TMax w => sized_to w (mk w (greatest k w))
  end.

Definition tamut (m : tmut) (x : tval) : tres :=
  let k := tkind x in let w := twidth x in let z := tvalue x in
  let ok w z := inl (mk_tval k w z) in
  match m with
  | TNot => ok w (norm k w (-1 - z))
  | TNeg => ok w (norm k w (- z))
  | TAbs => ok w (norm k w (Z.abs z))
  | TShl s => if s <? w then ok w (norm k w (z * 2 ^ s)) else inr (EShift s w)
  | TShr s => if s <? w then ok w (z / 2 ^ s) else inr (EShift s w)
  | TTruncate t => sized_to t (if t <=? w then ok t (norm k t z) else inr (ETruncation t w))
  | TExtend t => sized_to t (if w <=? t then ok t z else inr (EExtension t w))
  | TResize t => sized_to t (ok t (norm k t z))
  end.

Definition taput (m : tset) (x : tval) : tres :=
  let k := tkind x in let w := twidth x in let z := tvalue x in
  let ok z := inl (mk_tval k w z) in
  let at_bit p r := if p <? w then r else inr (EBitAccess p w) in
  match m with
  | TSetAll => ok (norm k w (-1))
  | TUnsetAll => ok 0
  | TFlipAll => ok (norm k w (-1 - z))
  | TSetBit p => at_bit p (ok (norm k w (Z.setbit z p)))
  | TUnsetBit p => at_bit p (ok (norm k w (Z.clearbit z p)))
  | TFlipBit p => at_bit p (ok (norm k w (Z.lxor z (2 ^ p))))
  | TSetSign => ok (if z <? 0 then z else z - 2 ^ (w - 1))
  | TUnsetSign => ok (if z <? 0 then z + 2 ^ (w - 1) else z)
  | TFlipSign => ok (if z <? 0 then z + 2 ^ (w - 1) else z - 2 ^ (w - 1))
  end.

(** Division of [Int] looks for a zero divisor first and then panics if the
    widths differ (a defect, see C09). *)
Definition tdivide (op : kind -> div_op) (x y : tval) (z : Z) : option tres :=
  let k := tkind x in let w := twidth x in
  let zero := inr (EDivisionByZero (op k) (raw x)) in
  let ok := inl (mk_tval k w (norm k w z)) in
  match k with
  | KU => Some (if w =? twidth y then if tvalue y =? 0 then zero else ok else inr (EWidths w (twidth y)))
  | KI => if tvalue y =? 0 then Some zero else if w =? twidth y then Some ok else None
  end.
Definition tabin (o : tbin) (x y : tval) : option tres :=
  let k := tkind x in let w := twidth x in
  let same (z : Z) : option tres :=
    Some (if w =? twidth y then inl (mk_tval k w (norm k w z)) else inr (EWidths w (twidth y))) in
  match o with
  | TAdd => same (tvalue x + tvalue y)
  | TSub => same (tvalue x - tvalue y)
  | TMul => same (tvalue x * tvalue y)
  | TAnd => same (Z.land (tvalue x) (tvalue y))
  | TOr => same (Z.lor (tvalue x) (tvalue y))
  | TXor => same (Z.lxor (tvalue x) (tvalue y))
  | TDiv => tdivide (fun k => match k with KU => UnsignedDiv | KI => SignedDiv end) x y (Z.quot (tvalue x) (tvalue y))
  | TRem => tdivide (fun k => match k with KU => UnsignedRem | KI => SignedRem end) x y (Z.rem (tvalue x) (tvalue y))
  end.

Definition holds_cmp (o : tcmp) (a b : Z) : bool :=
  match o with TLt => a <? b | TLe => a <=? b | TGt => b <? a | TGe => b <=? a end.
(** The errors of [checked_le] and [checked_gt] name the widths in swapped order. *)
Definition tacheck (o : tcmp) (x y : tval) : obs :=
  if twidth x =? twidth y then OBool (holds_cmp o (tvalue x) (tvalue y))
  else OFail (match o with TLt | TGe => EWidths (twidth x) (twidth y) | TLe | TGt => EWidths (twidth y) (twidth x) end).
Definition tatest (o : tcmp) (x y : tval) : bool :=
  (twidth x =? twidth y) && holds_cmp o (tvalue x) (tvalue y).
Definition tacompare (x y : tval) : option comparison :=
  if twidth x =? twidth y then Some (tvalue x ?= tvalue y) else None.

(** [None]: the call panics. *)
Definition taask (q : tquery) (x : tval) : option obs :=
  let k := tkind x in let w := twidth x in let z := tvalue x in
  let u := z mod 2 ^ w in
  match q with
  | TWidth => Some (OInt w)
  | TIsZero | TIsAllUnset => Some (OBool (z =? 0))
  | TIsOne =>          (* a defect above 64 bits, see C18 *)
      Some (OBool (if w <=? 64 then z =? 1 else u =? 2 ^ (64 * ((w + 63) / 64 - 1))))
  | TIsAllSet =>       (* likewise at multiples of 64 *)
      Some (OBool (if w mod 64 =? 0 then u mod 2 ^ (w - 64) =? 2 ^ (w - 64) - 1 else z =? norm k w (-1)))
  | TIsEven => Some (OBool (Z.even z))
  | TIsOdd => Some (OBool (Z.odd z))
  | TIsPositive => Some (OBool (0 <=? z))    (* zero counts as positive *)
  | TIsNegative | TSign => Some (OBool (z <? 0))
  | TSignum => Some (OInt (Z.sgn z))
  | TCountOnes => Some (OInt (ones_below z w))
  | TCountZeros => Some (OInt (w - ones_below z w))
  | TLeadingZeros => Some (OInt (leading w u))
  | TTrailingZeros => Some (OInt (trailing w u))
  | TBit p => Some (if p <? w then OBool (Z.testbit z p) else OFail (EBitAccess p w))
  | TTo n => Some (OInt (norm k (bits_of n) z))
  | TToBool => Some (OBool (Z.odd z))
  | TTry n =>          (* a defect for wider signed integers, see C31 *)
      let n' := bits_of n in
      let fail := OFail (EUnrepresentable (raw x) (prim_of k n)) in
      Some (match k with
        | KU => if z <? 2 ^ n' then OInt z else fail
        | KI => if w <=? n' then OInt z else if u <? 2 ^ n' then OInt (wrap_signed n' u) else fail
        end)
  | TTryBool => Some (if u <? 2 then OBool (u =? 1) else OFail (EUnrepresentable (raw x) PBool))
  | TBinary => Some (OString (numeral_of 2 97 u))
  | TOctal => if z =? 0 then Some (OString [48]) else None    (* a defect, see C37 *)
  | TLowerHex => Some (OString (numeral_of 16 97 u))
  | TUpperHex => Some (OString (numeral_of 16 65 u))
  end.

(** [None]: moved or dropped. *)
Definition tstore : Type := list (option tval).
Definition rejected : tobs := Shows ORejected.

(** An operator panics where the method fails. *)
Definition by_form (f : form) (r : tres) : option tres :=
  match f, r with Operator, inr _ => None | _, _ => Some r end.
Definition tcreate (s : tstore) (r : tres) : tstore * tobs :=
  match r with inl v => (s ++ [Some v], Shows ODone) | inr e => (s, Shows (OFail e)) end.
Definition tchange (s : tstore) (x : nat) (r : tres) : tstore * tobs :=
  match r with inl v => (update x (Some v) s, Shows ODone) | inr e => (s, Shows (OFail e)) end.
Definition tget1 (s : tstore) (x : nat) (f : tval -> option (tstore * tobs)) : option (tstore * tobs) :=
  match nth_error s x with Some (Some a) => f a | _ => Some (s, rejected) end.
Definition same_kind (k l : kind) : bool := match k, l with KU, KU | KI, KI => true | _, _ => false end.
(** Both operands have one type. *)
Definition tget2 (s : tstore) (x y : nat) (f : tval -> tval -> option (tstore * tobs)) : option (tstore * tobs) :=
  tget1 s x (fun a => tget1 s y (fun b => if same_kind (tkind a) (tkind b) then f a b else Some (s, rejected))).
(** The first operand is borrowed mutably or moved, so the second is another variable. *)
Definition tget2' (s : tstore) (x y : nat) (f : tval -> tval -> option (tstore * tobs)) : option (tstore * tobs) :=
  if Nat.eqb x y then Some (s, rejected) else tget2 s x y f.
Definition opt_bind {A B : Type} (o : option A) (f : A -> option B) : option B :=
  match o with Some a => f a | None => None end.

Definition tastep (s : tstore) (c : tcmd) : option (tstore * tobs) :=
  match c with
  | TNew k n =>
      Some (match tanew k n with
        | inl (Some v) => (s ++ [Some v], Shows ODone) | inl None => (s, Nothing) | inr e => (s, Shows (OFail e))
        end)
  | TClone x => tget1 s x (fun a => Some (s ++ [Some a], Shows ODone))
  | TDrop x => tget1 s x (fun a => Some (update x None s, Shows ODone))
  | TMut f m x => tget1 s x (fun a =>
      if has_mut f (tkind a) m then option_map (tchange s x) (by_form f (tamut m a)) else Some (s, rejected))
  | TInto f m x => tget1 s x (fun a =>
      if has_into f (tkind a) m then option_map (tcreate (update x None s)) (by_form f (tamut m a)) else Some (s, rejected))
  | TPut m x => tget1 s x (fun a =>
      if for_kind (tkind a) (signed_only_set m) then Some (tchange s x (taput m a)) else Some (s, rejected))
  | TBin f o x y => tget2' s x y (fun a b => option_map (tchange s x) (opt_bind (tabin o a b) (by_form f)))
  | TIntoBin f o x y => tget2' s x y (fun a b =>
      option_map (tcreate (update x None s)) (opt_bind (tabin o a b) (by_form f)))
  | TAssign x y => tget2' s x y (fun a b => Some (update x (Some b) s, Shows ODone))
  | TStrictAssign x y => tget2' s x y (fun a b => Some (tchange s x
      (if twidth a =? twidth b then inl b else inr (EWidths (twidth a) (twidth b)))))
  | TCheck o x y => tget2 s x y (fun a b => Some (s, Shows (tacheck o a b)))
  | TTest o x y => tget2 s x y (fun a b => Some (s, Shows (OBool (tatest o a b))))
  | TCompare x y => tget2 s x y (fun a b => Some (s, Ordering (tacompare a b)))
  | TEqual x y => tget2 s x y (fun a b =>
      Some (s, Shows (OBool ((twidth a =? twidth b) && (tvalue a =? tvalue b)))))
  | TSwitch x => tget1 s x (fun a =>
      let k := match tkind a with KU => KI | KI => KU end in
      Some (tcreate (update x None s) (inl (mk_tval k (twidth a) (norm k (twidth a) (tvalue a))))))
  | TThrough k x => tget1 s x (fun a =>
      Some (tcreate (update x None s) (inl (mk_tval k (twidth a) (norm k (twidth a) (tvalue a))))))
  | TAsk q x => tget1 s x (fun a =>
      if for_kind (tkind a) (signed_only_query q) then option_map (fun o => (s, Shows o)) (taask q a) else Some (s, rejected))
  end.

Fixpoint tarun (s : tstore) (p : list tcmd) : option (tstore * list tobs) :=
  match p with
  | [] => Some (s, [])
  | c :: p => opt_bind (tastep s c) (fun '(s, o) => option_map (fun '(s, os) => (s, o :: os)) (tarun s p))
  end.
