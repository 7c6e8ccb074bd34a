(** Programs on [UInt] and [Int] over the heap.  No proofs in this file.  Both
    types are structs around one [ApInt] and every method forwards to a method of
    [ApInt]; which one, is said here again apart from MInt.v, and what that
    method does to the heap is in MHeap.v. *)
From Verif Require Export MHeap MTyped.

(** A variable in memory: its type and the [ApInt] inside.  src/uint.rs 28-30, src/int.rs 28-30. *)
Record htvar := mk_htvar { hkind : kind; hval : hapint }.

(** The constructor of [ApInt] that a constructor calls.
    src/uint.rs 60-187, src/int.rs 62-198. *)
Definition ap_new (k : kind) (n : tnew) : newop :=
  match n with
  | TBool b => NBool b
  | TPrim W8 v => match k with KU => NU8 v | KI => NI8 v end
  | TPrim W16 v => match k with KU => NU16 v | KI => NI16 v end
  | TPrim W32 v => match k with KU => NU32 v | KI => NI32 v end
  | TPrim W64 v => match k with KU => NU64 v | KI => NI64 v end
  | TPrim W128 v => match k with KU => NU128 v | KI => NI128 v end
  | TWords vs => match k with KU => NU64s vs | KI => NI64s vs end
  | TZero w | TAllUnset w => NZero w
  | TOne w => NOne w
  | TAllSet w => NAllSet w
  | TMin w => match k with KU => NUMin w | KI => NSMin w end
  | TMax w => match k with KU => NUMax w | KI => NSMax w end
  end.
(** [Int::one] returns [None] for width 1 before it makes anything (src/int.rs 103-109).
    The other constructors, src/uint.rs 60-187, src/int.rs 62-198. *)
Definition ht_new (k : kind) (n : tnew) : HM (result (option hapint)) :=
  match k, n with
  | KI, TOne 1 => hret (Ok None)
  | _, _ => let* r := hnew (ap_new k n) in hret (map_result Some r)
  end.

(** The method of [ApInt] that a method in place calls; [None] for [wrapping_abs].
    src/uint.rs 496-736, src/int.rs 554-794. *)
Definition ap_mut (k : kind) (m : tmut) : option mutop :=
  match m with
  | TNot => Some MNot
  | TNeg => Some MNeg
  | TAbs => None
  | TShl s => Some (MShl s)
  | TShr s => Some (match k with KU => MLshr s | KI => MAshr s end)
  | TTruncate t => Some (MTruncate t)
  | TExtend t => Some (match k with KU => MZeroExtend t | KI => MSignExtend t end)
  | TResize t => Some (match k with KU => MZeroResize t | KI => MSignResize t end)
  end.
(** src/int.rs 273-277. *)
Definition h_wrapping_abs (a : hapint) : HM (hapint * result unit) :=
  let* m := h_ask msb a in if m : bool then hmut MNeg a else hret (a, Ok tt).
(** src/uint.rs 496-736, src/int.rs 273-277, 554-794. *)
Definition h_tmut (k : kind) (m : tmut) (a : hapint) : HM (hapint * result unit) :=
  match ap_mut k m with Some o => hmut o a | None => h_wrapping_abs a end.
(** The operators in place: [.unwrap()].  src/std_ops.rs 122-160, 203-217. *)
Definition h_unwrap_assign (h : HM (hapint * result unit)) : HM (hapint * result unit) :=
  let* (a, r) := h in let* _ := lift (unwrap r) in hret (a, Ok tt).
(** The consuming operators: [.unwrap()].  src/std_ops.rs 61-113, 178-196. *)
Definition h_unwrap_into (h : HM (result hapint)) : HM (result hapint) :=
  let* a := h_unwrap h in hret (Ok a).
(** Methods and operators in place, src/uint.rs 496-736, src/int.rs 273-277,
    554-794, src/std_ops.rs 122-124, 203-217.  [None]: there is none. *)
Definition ht_mut (k : kind) (f : form) (m : tmut) (a : hapint) : option (HM (hapint * result unit)) :=
  match f, k, m with
  | Method, KU, TAbs => None
  | Method, _, _ => Some (h_tmut k m a)
  | Operator, _, (TShl _ | TShr _) => Some (h_unwrap_assign (h_tmut k m a))
  | Operator, _, _ => None
  end.
(** The consuming ones, src/uint.rs 512-731, src/int.rs 266-268, 570-789, with
    src/utils.rs 6-37; src/std_ops.rs 40-63, 178-196. *)
Definition ht_into (k : kind) (f : form) (m : tmut) (a : hapint) : option (HM (result hapint)) :=
  match f, k, m with
  | Method, KU, TAbs => None
  | Method, _, _ => Some (h_forward (h_tmut k m a))
  | Operator, _, (TNot | TNeg | TShl _ | TShr _) => Some (h_unwrap_into (h_forward (h_tmut k m a)))
  | Operator, _, _ => None
  end.

(** src/uint.rs 821-880, src/int.rs 879-958. *)
Definition ap_set (m : tset) : setop :=
  match m with
  | TSetAll => SSetAll | TUnsetAll => SUnsetAll | TFlipAll => SFlipAll
  | TSetBit p => SSetBit p | TUnsetBit p => SUnsetBit p | TFlipBit p => SFlipBit p
  | TSetSign => SSetMsb | TUnsetSign => SUnsetMsb | TFlipSign => SFlipMsb
  end.
(** src/uint.rs 821-880 (which has no methods for the sign), src/int.rs 879-958. *)
Definition ht_put (k : kind) (m : tset) (a : hapint) : option (HM (hapint * result unit)) :=
  match k, m with
  | KU, (TSetSign | TUnsetSign | TFlipSign) => None
  | _, _ => Some (h_modify (cput (ap_set m)) a)
  end.

(** src/uint.rs 755-799, 944-1071, src/int.rs 813-857, 1020-1147. *)
Definition ap_bin (k : kind) (o : tbin) : binop :=
  match o with
  | TAdd => BAdd | TSub => BSub | TMul => BMul | TAnd => BAnd | TOr => BOr | TXor => BXor
  | TDiv => match k with KU => BUdiv | KI => BSdiv end
  | TRem => match k with KU => BUrem | KI => BSrem end
  end.
(** src/uint.rs 755-799, 944-1071, src/int.rs 813-857, 1020-1147; src/std_ops.rs 122-160. *)
Definition ht_bin (k : kind) (f : form) (o : tbin) (a b : hapint) : HM (hapint * result unit) :=
  match f with Method => h_bin (ap_bin k o) a b | Operator => h_unwrap_assign (h_bin (ap_bin k o) a b) end.
(** src/uint.rs 744-788, 933-1055, src/int.rs 802-846, 1009-1131, with src/utils.rs
    6-37; src/std_ops.rs 61-113. *)
Definition ht_bin_into (k : kind) (f : form) (o : tbin) (a b : hapint) : HM (result hapint) :=
  match f with
  | Method => h_forward (h_bin (ap_bin k o) a b)
  | Operator => h_unwrap_into (h_forward (h_bin (ap_bin k o) a b))
  end.

(** Calls on [&self]: the digits are read, and a copy may go into an error.
    src/uint.rs 198-483, 809-814, 863-905, 1080-1103. *)
Definition hu_ask (q : tquery) (a : hapint) : option (HM obs) :=
  match q with
  | TIsPositive | TIsNegative | TSignum | TSign => None
  | _ => Some (let* o := h_ask (fun x => match uask q (mk_uint x) with Some o => o | None => Panic end) a in
               let* _ := h_error_copy a o in hret o)
  end.
(** src/int.rs 205-541, 867-872, 921-983, 1156-1179. *)
Definition hi_ask (q : tquery) (a : hapint) : HM obs :=
  let* o := h_ask (fun x => iask q (mk_int x)) a in
  let* _ := h_error_copy a o in hret o.

(** A client of src/lib.rs: its variables, [None] for those moved or dropped. *)
Definition htvars : Type := list (option htvar).
(** A client of src/lib.rs: what one call makes of its variables and shows. *)
Definition htstep_result : Type := HM (htvars * tobs).
(** A client of src/lib.rs: the compiler rejects the program. *)
Definition ht_reject (s : htvars) : htstep_result := hret (s, rejected).
(** A client of src/lib.rs: [let x = ..], if the call succeeds. *)
Definition ht_create (k : kind) (s : htvars) (h : HM (result hapint)) : htstep_result :=
  let* r := h in
  hret (match r with Ok a => (s ++ [Some (mk_htvar k a)], Shows ODone) | Err e => (s, Shows (OFail (observe e))) end).
(** A client of src/lib.rs: the same for a constructor that may return [None] (src/int.rs 103-109). *)
Definition ht_create_opt (k : kind) (s : htvars) (h : HM (result (option hapint))) : htstep_result :=
  let* r := h in
  hret (match r with
    | Ok (Some a) => (s ++ [Some (mk_htvar k a)], Shows ODone) | Ok None => (s, Nothing) | Err e => (s, Shows (OFail (observe e)))
    end).
(** A client of src/lib.rs: [x.op(..)]. *)
Definition ht_change (k : kind) (s : htvars) (x : nat) (h : HM (hapint * result unit)) : htstep_result :=
  let* (a, r) := h in hret (update x (Some (mk_htvar k a)) s, Shows (done r)).
(** A client of src/lib.rs: a call on [&self]. *)
Definition ht_show {R : Type} (show : R -> tobs) (s : htvars) (h : HM R) : htstep_result := let* r := h in hret (s, show r).
(** A client of src/lib.rs: the compiler rejects a method that does not exist. *)
Definition ht_if_any {T : Type} (s : htvars) (o : option T) (f : T -> htstep_result) : htstep_result :=
  match o with Some m => f m | None => ht_reject s end.
(** A client of src/lib.rs: the compiler rejects a moved variable. *)
Definition ht_get1 (s : htvars) (x : nat) (f : kind -> hapint -> htstep_result) : htstep_result :=
  match nth_error s x with Some (Some v) => f (hkind v) (hval v) | _ => ht_reject s end.
(** A client of src/lib.rs: two operands have one type. *)
Definition if_same_kind {A : Type} (k k' : kind) (yes no : A) : A :=
  match k, k' with KU, KU | KI, KI => yes | _, _ => no end.
(** A client of src/lib.rs: the same for two operands. *)
Definition ht_get2 (s : htvars) (x y : nat) (f : kind -> hapint -> hapint -> htstep_result) : htstep_result :=
  ht_get1 s x (fun k a => ht_get1 s y (fun k' b => if_same_kind k k' (f k a b) (ht_reject s))).
(** A client of src/lib.rs: the compiler rejects a second borrow of a variable borrowed mutably or moved. *)
Definition ht_get2' (s : htvars) (x y : nat) (f : kind -> hapint -> hapint -> htstep_result) : htstep_result :=
  if Nat.eqb x y then ht_reject s else ht_get2 s x y f.

(** A client of src/lib.rs: one call. *)
Definition htstep (s : htvars) (c : tcmd) : htstep_result :=
  match c with
  | TNew k n => ht_create_opt k s (ht_new k n)
  | TClone x => ht_get1 s x (fun k a => ht_create k s (h_total (h_clone a)))
  | TDrop x => ht_get1 s x (fun _ a => let* _ := h_drop_digits a in hret (update x None s, Shows ODone))
  | TMut f m x => ht_get1 s x (fun k a => ht_if_any s (ht_mut k f m a) (ht_change k s x))
  | TInto f m x => ht_get1 s x (fun k a => ht_if_any s (ht_into k f m a) (ht_create k (update x None s)))
  | TPut m x => ht_get1 s x (fun k a => ht_if_any s (ht_put k m a) (ht_change k s x))
  | TBin f o x y => ht_get2' s x y (fun k a b => ht_change k s x (ht_bin k f o a b))
  | TIntoBin f o x y => ht_get2' s x y (fun k a b => ht_create k (update x None s) (ht_bin_into k f o a b))
  | TAssign x y => ht_get2' s x y (fun k a b => ht_change k s x (h_total_mut (h_assign a b)))
  | TStrictAssign x y => ht_get2' s x y (fun k a b => ht_change k s x (h_modify_by strict_assign a b))
  | TCheck o x y => ht_get2 s x y (fun k a b => ht_show Shows s
      (h_ask2 (fun a b => obs_rbool (match k with KU => ucheck o (mk_uint a) (mk_uint b) | KI => icheck o (mk_int a) (mk_int b) end)) a b))
  | TTest o x y => ht_get2 s x y (fun k a b => ht_show Shows s
      (h_ask2 (fun a b => obs_bool (match k with KU => utest o (mk_uint a) (mk_uint b) | KI => itest o (mk_int a) (mk_int b) end)) a b))
  | TCompare x y => ht_get2 s x y (fun k a b => ht_show Ordering s
      (h_ask2 (fun a b => match k with KU => uint_partial_cmp (mk_uint a) (mk_uint b) | KI => int_partial_cmp (mk_int a) (mk_int b) end) a b))
  | TEqual x y => ht_get2 s x y (fun k a b => ht_show Shows s
      (h_ask2 (fun a b => Val (OBool (match k with KU => uint_eqb (mk_uint a) (mk_uint b) | KI => int_eqb (mk_int a) (mk_int b) end))) a b))
  | TSwitch x => ht_get1 s x (fun k a => ht_create (match k with KU => KI | KI => KU end) (update x None s) (hret (Ok a)))
  | TThrough k x => ht_get1 s x (fun _ a => ht_create k (update x None s) (hret (Ok a)))
  | TAsk q x => ht_get1 s x (fun k a =>
      match k with KU => ht_if_any s (hu_ask q a) (ht_show Shows s) | KI => ht_show Shows s (hi_ask q a) end)
  end.

(** A client of src/lib.rs: one call after the other. *)
Fixpoint htrun (s : htvars) (p : list tcmd) : HM (htvars * list tobs) :=
  match p with
  | [] => hret (s, [])
  | c :: p => let* (s, o) := htstep s c in let* (s, os) := htrun s p in hret (s, o :: os)
  end.
