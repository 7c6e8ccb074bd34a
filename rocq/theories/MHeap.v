(** Model of the storage of [ApInt]: the union of an inline digit and a
    pointer, the heap buffers, their allocation and release.  No proofs in this
    file.  What the functions compute with the digits is taken from the other
    model files; here the digits live in memory. *)
From Verif Require Export MMachine.

(** * Memory *)
(** A heap buffer is [Some] list of its digits while allocated and [None] once
    freed; buffers are numbered in order of allocation and numbers are never
    reused.  [slack n] is how much more than asked [SmallVec] allocates when it
    collects [n] digits; the theorems hold for every such function.
    src/apint/constructors.rs 28-33, 170-200. *)
Record mem := mk_mem { slack : nat -> nat; blocks : list (option (list Z)) }.

(** What a call does with the heap, one access after the other.  [HUndef] is
    undefined behaviour inside the call: reading the field of the union that was
    not written.  [HSlack n] asks [SmallVec] how much more than [n] it reserves.
    src/apint/mod.rs 33-38. *)
Inductive HM (A : Type) : Type :=
| HRet (a : A)
| HPanic
| HFuel
| HUndef
| HMalloc (ds : list Z) (k : nat -> HM A)
| HFree (p n : nat) (k : HM A)
| HLoad (p n : nat) (k : list Z -> HM A)
| HStore (p : nat) (new : list Z) (k : HM A)
| HSlack (n : nat) (k : nat -> HM A).
Arguments HRet {A} a.
Arguments HPanic {A}.
Arguments HFuel {A}.
Arguments HUndef {A}.
Arguments HMalloc {A} ds k.
Arguments HFree {A} p n k.
Arguments HLoad {A} p n k.
Arguments HStore {A} p new k.
Arguments HSlack {A} n k.

(** The global allocator (Rust std).
    src/apint/constructors.rs 174, src/apint/casting.rs 21. *)
Definition mem_malloc (ds : list Z) (m : mem) : nat * mem :=
  (length (blocks m), mk_mem (slack m) (blocks m ++ [Some ds])).
(** Freeing needs the size the buffer was allocated with.  [None] is undefined
    behaviour: freeing twice, or with a wrong size.  src/apint/constructors.rs 28-33. *)
Definition mem_free (p n : nat) (m : mem) : option mem :=
  match nth_error (blocks m) p with
  | Some (Some ds) => if Nat.eqb (length ds) n then Some (mk_mem (slack m) (update p None (blocks m))) else None
  | _ => None
  end.
(** [slice::from_raw_parts(p, n)] and reading the slice; [None] if the memory is
    not allocated, or less than [n] digits.  src/apint/utils.rs 279-287. *)
Definition mem_load (p n : nat) (m : mem) : option (list Z) :=
  match nth_error (blocks m) p with
  | Some (Some ds) => if Nat.leb n (length ds) then Some (firstn n ds) else None
  | _ => None
  end.
(** Writing all of [slice::from_raw_parts_mut(p, n)].  src/apint/utils.rs 292-305. *)
Definition mem_store (p : nat) (new : list Z) (m : mem) : option mem :=
  match nth_error (blocks m) p with
  | Some (Some ds) =>
      if Nat.leb (length new) (length ds)
      then Some (mk_mem (slack m) (update p (Some (new ++ skipn (length new) ds)) (blocks m)))
      else None
  | _ => None
  end.

(** How a call ends when it runs alone.  [MUndefined] is undefined behaviour.
    src/apint/mod.rs 26-38. *)
Inductive mres (A : Type) : Type :=
| MVal (a : A) (m : mem)
| MPanic
| MFuel
| MUndefined.
Arguments MVal {A} a m.
Arguments MPanic {A}.
Arguments MFuel {A}.
Arguments MUndefined {A}.
(** The heap as src/apint/utils.rs and src/apint/constructors.rs use it: running a call. *)
Fixpoint exec {A : Type} (h : HM A) (m : mem) : mres A :=
  match h with
  | HRet a => MVal a m
  | HPanic => MPanic
  | HFuel => MFuel
  | HUndef => MUndefined
  | HMalloc ds k => let (p, m) := mem_malloc ds m in exec (k p) m
  | HFree p n k => match mem_free p n m with Some m => exec k m | None => MUndefined end
  | HLoad p n k => match mem_load p n m with Some ds => exec (k ds) m | None => MUndefined end
  | HStore p new k => match mem_store p new m with Some m => exec k m | None => MUndefined end
  | HSlack n k => exec (k (slack m n)) m
  end.

(** The heap as src/apint/utils.rs and src/apint/constructors.rs use it: returning. *)
Definition hret {A : Type} (a : A) : HM A := HRet a.
(** The heap as src/apint/utils.rs and src/apint/constructors.rs use it: one thing after the other. *)
Fixpoint hbind {A B : Type} (h : HM A) (k : A -> HM B) : HM B :=
  match h with
  | HRet a => k a
  | HPanic => HPanic
  | HFuel => HFuel
  | HUndef => HUndef
  | HMalloc ds k' => HMalloc ds (fun p => hbind (k' p) k)
  | HFree p n k' => HFree p n (hbind k' k)
  | HLoad p n k' => HLoad p n (fun ds => hbind (k' ds) k)
  | HStore p new k' => HStore p new (hbind k' k)
  | HSlack n k' => HSlack n (fun e => hbind (k' e) k)
  end.
Notation "'let*' x ':=' m 'in' k" :=
  (hbind m (fun x => k))
  (at level 200, x pattern, m at level 100, k at level 200, right associativity).
(** The heap as src/apint/utils.rs and src/apint/constructors.rs use it: a panic. *)
Definition hpanic {A : Type} : HM A := HPanic.
(** The heap as src/apint/utils.rs and src/apint/constructors.rs use it: undefined behaviour. *)
Definition undefined {A : Type} : HM A := HUndef.
(** A computation that does not touch the heap.  E.g. src/apint/arithmetic.rs 294-578. *)
Definition lift {A : Type} (o : outcome A) : HM A :=
  match o with Val a => HRet a | Stop _ => HPanic | OutOfFuel => HFuel end.

(** The heap as src/apint/utils.rs and src/apint/constructors.rs use it: allocating (src/apint/casting.rs 21, src/apint/constructors.rs 174). *)
Definition malloc (ds : list Z) : HM nat := HMalloc ds (fun p => HRet p).
(** The heap as src/apint/utils.rs and src/apint/constructors.rs use it: freeing (src/apint/constructors.rs 31). *)
Definition free (p n : nat) : HM unit := HFree p n (HRet tt).
(** The heap as src/apint/utils.rs and src/apint/constructors.rs use it: reading (src/apint/utils.rs 284). *)
Definition load (p n : nat) : HM (list Z) := HLoad p n (fun ds => HRet ds).
(** The heap as src/apint/utils.rs and src/apint/constructors.rs use it: writing (src/apint/utils.rs 299-302). *)
Definition hstore (p : nat) (new : list Z) : HM unit := HStore p new (HRet tt).
(** The heap as src/apint/utils.rs and src/apint/constructors.rs use it: src/apint/constructors.rs 174. *)
Definition ask_slack (n : nat) : HM nat := HSlack n (fun e => HRet e).

(** * src/apint/mod.rs 26-38 *)
(** src/apint/mod.rs 33-38. *)
Inductive apint_data := UInl (d : Z) | UExt (p : nat).
(** src/apint/mod.rs 26-31. *)
Record hapint := mk_hapint { hlen : Z; hdata : apint_data }.

(** src/apint/utils.rs 119, 282: [self.data.inl]. *)
Definition h_read_inl (a : hapint) : HM Z := match hdata a with UInl d => hret d | UExt _ => undefined end.
(** src/apint/utils.rs 284, 300: [self.data.ext]. *)
Definition h_read_ext (a : hapint) : HM nat := match hdata a with UExt p => hret p | UInl _ => undefined end.
(** src/apint/utils.rs 102-104. *)
Definition h_len_digits (a : hapint) : nat := required_digits (hlen a).
(** src/apint/utils.rs 279-287. *)
Definition h_as_digit_slice (a : hapint) : HM (list Z) :=
  match storage (hlen a) with
  | SInl => let* d := h_read_inl a in hret [d]
  | SExt => let* p := h_read_ext a in load p (h_len_digits a)
  end.
(** Writing all digits through src/apint/utils.rs 292-305.  A slice does not
    change its length: other lengths would be a defect of this model. *)
Definition h_write_digits (a : hapint) (ds : list Z) : HM hapint :=
  match storage (hlen a) with
  | SInl =>
      let* _ := h_read_inl a in
      match ds with [d] => hret (mk_hapint (hlen a) (UInl d)) | _ => undefined end
  | SExt =>
      let* p := h_read_ext a in
      if Nat.eqb (length ds) (h_len_digits a) then let* _ := hstore p ds in hret a else undefined
  end.

(** Methods that reach the digits only through [as_digit_slice] and
    [as_digit_slice_mut] or [access_data], [access_data_mut] and the zipped
    variants (src/apint/utils.rs 117-223), and never write [len].  What they do
    with the digits is the function of the other model files.  Vectors that they
    use while they compute are not counted. *)
Definition h_ask {R : Type} (f : apint -> outcome R) (a : hapint) : HM R :=
  let* ds := h_as_digit_slice a in lift (f (mk_apint (hlen a) ds)).
(** src/apint/utils.rs 141-163: methods on [&self] with another operand. *)
Definition h_ask2 {R : Type} (f : apint -> apint -> outcome R) (a b : hapint) : HM R :=
  let* ds := h_as_digit_slice a in
  let* es := h_as_digit_slice b in
  lift (f (mk_apint (hlen a) ds) (mk_apint (hlen b) es)).
(** src/apint/utils.rs 124-136: methods on [&mut self]. *)
Definition h_modify {R : Type} (f : apint -> outcome (apint * R)) (a : hapint) : HM (hapint * R) :=
  let* ds := h_as_digit_slice a in
  let* (x, r) := lift (f (mk_apint (hlen a) ds)) in
  let* a := h_write_digits a (digits x) in hret (a, r).
(** src/apint/utils.rs 171-195: methods on [&mut self] with another operand. *)
Definition h_modify_by (f : apint -> apint -> mut_result) (a b : hapint) : HM (hapint * result unit) :=
  let* es := h_as_digit_slice b in
  h_modify (fun x => f x (mk_apint (hlen b) es)) a.
(** src/apint/utils.rs 202-223: functions on two [&mut ApInt]. *)
Definition h_modify_both (f : apint -> apint -> outcome (apint * apint * result unit)) (a b : hapint) :
    HM (hapint * hapint * result unit) :=
  let* ds := h_as_digit_slice a in
  let* es := h_as_digit_slice b in
  let* (x, y, r) := lift (f (mk_apint (hlen a) ds) (mk_apint (hlen b) es)) in
  let* a := h_write_digits a (digits x) in
  let* b := h_write_digits b (digits y) in
  hret (a, b, r).
(** A method without result, e.g. src/apint/bitwise.rs 211-242. *)
Definition with_unit (f : apint -> outcome apint) (x : apint) : outcome (apint * unit) := let! y := f x in Val (y, tt).

(** * src/apint/constructors.rs *)
(** src/apint/constructors.rs 28-33, and [Drop] 36-40. *)
Definition h_drop_digits (a : hapint) : HM unit :=
  match storage (hlen a) with
  | SInl => hret tt
  | SExt => let* p := h_read_ext a in free p (h_len_digits a)
  end.
(** src/apint/constructors.rs 52-58. *)
Definition h_new_inl (w d : Z) : HM hapint :=
  match storage w with SInl => hret (mk_hapint w (UInl d)) | SExt => hpanic end.
(** src/apint/constructors.rs 71-82. *)
Definition h_new_ext (w : Z) (p : nat) : HM hapint :=
  match storage w with SInl => hpanic | SExt => hret (mk_hapint w (UExt p)) end.

(** [SmallVec<[Digit; 1]>] (crate smallvec): up to one digit inline, more on the
    heap, with spare room filled here with zeros.  src/apint/constructors.rs 174. *)
Inductive smallvec := SmallInl (ds : list Z) | SmallHeap (p : nat) (capacity : nat) (ds : list Z).
(** src/apint/constructors.rs 174: [digits.into_iter().collect::<SmallVec<_>>()]. *)
Definition sv_collect (ds : list Z) : HM smallvec :=
  if Nat.leb (length ds) 1 then hret (SmallInl ds)
  else
    let* extra := ask_slack (length ds) in
    let* p := malloc (ds ++ repeat 0 extra) in
    hret (SmallHeap p (length ds + extra) ds).
(** [shrink_to_fit]: moves to a buffer of the right size.
    src/apint/constructors.rs 192. *)
Definition sv_shrink_to_fit (v : smallvec) : HM smallvec :=
  match v with
  | SmallInl ds => hret (SmallInl ds)
  | SmallHeap p cap ds =>
      if Nat.ltb (length ds) cap then
        let* q := malloc ds in
        let* _ := free p cap in
        hret (SmallHeap q (length ds) ds)
      else hret (SmallHeap p cap ds)
  end.
(** Dropping a vector, which [mem::forget] skips.  src/apint/constructors.rs 174-183. *)
Definition sv_drop (v : smallvec) : HM unit :=
  match v with SmallInl _ => hret tt | SmallHeap p cap _ => free p cap end.

(** src/apint/constructors.rs 170-200.  Where the function returns without [mem::forget], the vector is
    dropped. *)
Definition h_from_iter (ds : list Z) : HM (result hapint) :=
  let* buffer := sv_collect ds in
  match length ds with
  | O => let* _ := sv_drop buffer in hret (Err ExpectedNonEmptyDigits)
  | S O =>
      let* d := lift (idx ds 0) in
      let* a := h_new_inl 64 d in
      let* _ := sv_drop buffer in hret (Ok a)
  | n =>
      let* bitwidth := lift (unwrap (bitwidth_new (Z.of_nat n * 64))) in
      let req_digits := required_digits bitwidth in
      let* buffer := sv_shrink_to_fit buffer in
      match buffer with
      | SmallInl _ => undefined          (* the pointer would be to the stack *)
      | SmallHeap p cap ds =>
          if Nat.eqb cap req_digits && Nat.eqb (length ds) req_digits
          then let* a := h_new_ext bitwidth p in hret (Ok a)
          else hpanic
      end
  end.

(** * src/utils.rs 6-37 and [*self = new] *)
(** src/utils.rs 6-37: what is consumed is dropped on an error. *)
Definition h_forward (h : HM (hapint * result unit)) : HM (result hapint) :=
  let* (this, r) := h in
  match r with
  | Ok _ => hret (Ok this)
  | Err e => let* _ := h_drop_digits this in hret (Err e)
  end.
(** src/apint/casting.rs 203, 288, 396: [*self = new] drops the old value. *)
Definition h_replace (a new : hapint) : HM (hapint * result unit) :=
  let* _ := h_drop_digits a in hret (new, Ok tt).

(** * src/apint/casting.rs *)
(** src/apint/casting.rs 13-29.  [to_vec] and [into_boxed_slice] allocate exactly. *)
Definition h_clone (a : hapint) : HM hapint :=
  match storage (hlen a) with
  | SInl => let* d := h_read_inl a in h_new_inl (hlen a) d
  | SExt =>
      let* ds := h_as_digit_slice a in
      let* p := malloc ds in
      if Nat.eqb (length ds) (h_len_digits a) then h_new_ext (hlen a) p else hpanic
  end.

(** The copy that an error value carries (src/apint/arithmetic.rs 1556, 1586,
    1610, 1645, 1674, 1719, 1758, 1805, src/apint/to_primitive.rs 316, 520, 565);
    here the caller drops the error at once. *)
Definition h_error_copy (a : hapint) (o : obs) : HM unit :=
  match o with
  | OFail (EDivisionByZero _ _) | OFail (EUnrepresentable _ _) => let* c := h_clone a in h_drop_digits c
  | _ => hret tt
  end.
(** The two-operand methods.  Signed division and remainder work on a copy of
    the divisor unless it is zero, src/apint/arithmetic.rs 1756-1786 and
    1803-1833. *)
Definition h_bin (o : binop) (a b : hapint) : HM (hapint * result unit) :=
  let* z := match o with BSdiv | BSrem => h_ask is_zero b | _ => hret true end in
  let* (a, r) :=
    if z then h_modify_by (cbin o) a b
    else
      let* rhs_clone := h_clone b in
      let* (a, r) := h_modify_by (cbin o) a rhs_clone in
      let* _ := h_drop_digits rhs_clone in
      hret (a, r) in
  let* _ := h_error_copy a (done r) in
  hret (a, r).

(** src/apint/casting.rs 39-77. *)
Definition h_assign (a rhs : hapint) : HM hapint :=
  if Nat.eqb (h_len_digits a) (h_len_digits rhs) then
    let* ds := h_as_digit_slice a in
    let* es := h_as_digit_slice rhs in
    let* ds := lift (copy_from_slice ds es) in
    let* a := h_write_digits a ds in
    hret (mk_hapint (hlen rhs) (hdata a))
  else
    let* _ := h_drop_digits a in
    match storage (hlen rhs) with
    | SInl => let* d := h_read_inl rhs in hret (mk_hapint (hlen rhs) (UInl d))
    | SExt =>
        let* cloned := h_clone rhs in
        let* p := h_read_ext cloned in
        hret (mk_hapint (hlen rhs) (UExt p))
    end.

(** src/apint/casting.rs 137-206. *)
Fixpoint h_truncate_fuel (fuel : nat) (a : hapint) (target_width : Z) : HM (hapint * result unit) :=
  match fuel with
  | O => HFuel
  | S fuel' =>
      let actual_width := hlen a in
      if target_width =? actual_width then hret (a, Ok tt)
      else if hlen a <? target_width then
        hret (a, Err (TruncationBitWidthTooLarge target_width actual_width))
      else
        let actual_req_digits := required_digits actual_width in
        let target_req_digits := required_digits target_width in
        if Nat.eqb actual_req_digits target_req_digits then
          let* excess_width := lift (unwrap_opt (excess_bits target_width)) in
          let* (a, _) := h_modify (with_unit (modify_most_significant_digit
                           (fun d => let! r := d_truncate_to d excess_width in unwrap r))) a in
          hret (mk_hapint target_width (hdata a), Ok tt)
        else
          let* ds := h_as_digit_slice a in
          let* r := h_from_iter (firstn target_req_digits ds) in
          let* truncated_copy := lift (unwrap r) in
          if negb (hlen truncated_copy =? target_width) then
            let* (truncated_copy, r) := h_truncate_fuel fuel' truncated_copy target_width in
            match r with
            | Err e => let* _ := h_drop_digits truncated_copy in hret (a, Err e)
            | Ok _ => h_replace a truncated_copy
            end
          else h_replace a truncated_copy
  end.
(** src/apint/casting.rs 137-206: one nested call at most. *)
Definition h_truncate (a : hapint) (target_width : Z) : HM (hapint * result unit) :=
  h_truncate_fuel 2 a target_width.

(** [ApInt::from_iter(..).and_then(|apint| apint.into_truncate(target_width))?]
    and [*self = ..], src/apint/casting.rs 284-289 and
    389-396. *)
Definition h_rebuild (a : hapint) (ds : list Z) (target_width : Z) : HM (result hapint) :=
  let* r := h_from_iter ds in
  match r with
  | Err e => hret (Err e)
  | Ok b => h_forward (h_truncate b target_width)
  end.

(** src/apint/casting.rs 240-291. *)
Definition h_zero_extend (a : hapint) (target_width : Z) : HM (hapint * result unit) :=
  let actual_width := hlen a in
  if target_width =? actual_width then hret (a, Ok tt)
  else if target_width <? actual_width then
    hret (a, Err (ExtensionBitWidthTooSmall target_width actual_width))
  else
    let actual_req_digits := required_digits actual_width in
    let target_req_digits := required_digits target_width in
    if Nat.eqb actual_req_digits target_req_digits then
      hret (mk_hapint target_width (hdata a), Ok tt)
    else if negb (Nat.ltb actual_req_digits target_req_digits) then hpanic
    else
      let additional_digits := (target_req_digits - actual_req_digits)%nat in
      let* ds := h_as_digit_slice a in
      let* r := h_rebuild a (ds ++ repeat ZERO additional_digits) target_width in
      match r with
      | Err e => hret (a, Err e)
      | Ok extended_clone => h_replace a extended_clone
      end.

(** src/apint/casting.rs 325-400. *)
Definition h_sign_extend (a : hapint) (target_width : Z) : HM (hapint * result unit) :=
  let actual_width := hlen a in
  if target_width =? actual_width then hret (a, Ok tt)
  else if target_width <? actual_width then
    hret (a, Err (ExtensionBitWidthTooSmall target_width actual_width))
  else
    let* m := h_ask msb a in
    if negb m then h_zero_extend a target_width
    else
      let actual_req_digits := required_digits actual_width in
      let target_req_digits := required_digits target_width in
      if Nat.eqb actual_req_digits target_req_digits then
        let a := mk_hapint target_width (hdata a) in
        let* (a, r) := h_modify (fun x => fill_most_significant_digit x actual_width) a in
        match r with
        | Err e => hret (a, Err e)
        | Ok _ => let* (a, _) := h_modify (with_unit clear_unused_bits) a in hret (a, Ok tt)
        end
      else if negb (Nat.ltb actual_req_digits target_req_digits) then hpanic
      else
        let additional_digits := (target_req_digits - actual_req_digits)%nat in
        let* (a, r) := h_modify (fun x => fill_most_significant_digit x actual_width) a in
        match r with
        | Err e => hret (a, Err e)
        | Ok _ =>
            let* ds := h_as_digit_slice a in
            let* r := h_rebuild a (ds ++ repeat ONES additional_digits) target_width in
            match r with
            | Err e => hret (a, Err e)
            | Ok extended_copy =>
                let* (a, _) := h_modify (with_unit clear_unused_bits) a in
                h_replace a extended_copy
            end
        end.

(** src/apint/casting.rs 443-461 and 472-490. *)
Definition h_expect (h : HM (hapint * result unit)) : HM hapint :=
  let* (a, r) := h in let* _ := lift (unwrap r) in hret a.
(** src/apint/casting.rs 443-461. *)
Definition h_zero_resize (a : hapint) (target_width : Z) : HM hapint :=
  if target_width <=? hlen a then h_expect (h_truncate a target_width) else h_expect (h_zero_extend a target_width).
(** src/apint/casting.rs 472-490. *)
Definition h_sign_resize (a : hapint) (target_width : Z) : HM hapint :=
  if target_width <=? hlen a then h_expect (h_truncate a target_width) else h_expect (h_sign_extend a target_width).

(** * src/apint/constructors.rs 220-293, 385-394 *)
(** [.unwrap()], src/apint/constructors.rs 220-232. *)
Definition h_unwrap (h : HM (result hapint)) : HM hapint := let* r := h in lift (unwrap r).
(** src/apint/constructors.rs 220-232. *)
Definition h_repeat_digit (target_width digit : Z) : HM hapint :=
  let req_digits := required_digits target_width in
  let* a := h_unwrap (h_from_iter (repeat digit req_digits)) in
  h_unwrap (h_forward (h_truncate a target_width)).
(** src/apint/constructors.rs 251-253. *)
Definition h_one (w : Z) : HM hapint := let* a := h_new_inl 64 1 in h_zero_resize a w.
(** src/apint/constructors.rs 281-285. *)
Definition h_signed_min_value (w : Z) : HM hapint :=
  let* a := h_repeat_digit w ZERO in let* (a, _) := h_modify (with_unit set_msb) a in hret a.
(** src/apint/constructors.rs 289-293. *)
Definition h_signed_max_value (w : Z) : HM hapint :=
  let* a := h_repeat_digit w ONES in let* (a, _) := h_modify (with_unit unset_msb) a in hret a.
(** src/apint/constructors.rs 385-395. *)
Definition h_from_u64_array (vals : list Z) : HM hapint :=
  let buffer := rev vals in
  if Nat.eqb (length buffer) (length vals) then h_unwrap (h_from_iter buffer) else hpanic.
(** src/apint/constructors.rs 149-153. *)
Definition h_from_u128 (v : Z) : HM hapint :=
  h_from_u64_array [Z.shiftr v 64 mod B; Z.land v (Z.shiftl 1 64 - 1) mod B].
(** src/apint/serialization.rs 143-202.  Every path ends in
    [ApInt::from_iter(data).unwrap()] (228, 270, 332) with the digits of the
    result. *)
Definition h_from_str_radix (r : Z) (s : list Z) : HM (result hapint) :=
  let* x := lift (from_str_radix_u8 r s) in
  match x with
  | Err e => hret (Err e)
  | Ok x => let* a := h_unwrap (h_from_iter (digits x)) in hret (Ok a)
  end.

(** * Programs, as in MMachine.v
    A client of src/lib.rs: a constructor that cannot fail. *)
Definition h_total (h : HM hapint) : HM (result hapint) := let* a := h in hret (Ok a).
(** A client of src/lib.rs: a method in place that cannot fail. *)
Definition h_total_mut (h : HM hapint) : HM (hapint * result unit) := let* a := h in hret (a, Ok tt).
(** A client of src/lib.rs: [BitWidth::new(w)?] (src/bitwidth.rs 73-78). *)
Definition h_sized (w : Z) (k : Z -> HM hapint) : HM (result hapint) :=
  match bitwidth_new w with Ok w => h_total (k w) | Err e => hret (Err e) end.
(** A client of src/lib.rs: the same for a method in place. *)
Definition h_sized_mut (a : hapint) (w : Z) (k : Z -> HM (hapint * result unit)) : HM (hapint * result unit) :=
  match bitwidth_new w with Ok w => k w | Err e => hret (a, Err e) end.

(** src/apint/constructors.rs 86-293, src/apint/serialization.rs 143-202, as in MMachine.v. *)
Definition hnew (n : newop) : HM (result hapint) :=
  match n with
  | NBool b => h_total (h_new_inl 1 (if b then 1 else 0))
  | NU8 v => h_total (h_new_inl 8 v) | NU16 v => h_total (h_new_inl 16 v) | NU32 v => h_total (h_new_inl 32 v)
  | NU64 v => h_total (h_new_inl 64 v) | NU128 v => h_total (h_from_u128 v)
  | NI8 v => h_total (h_new_inl 8 (v mod 256)) | NI16 v => h_total (h_new_inl 16 (v mod 65536))
  | NI32 v => h_total (h_new_inl 32 (v mod 4294967296)) | NI64 v => h_total (h_new_inl 64 (v mod B))
  | NI128 v => h_total (h_from_u128 (v mod BB))
  | NU64s vs => h_total (h_from_u64_array vs) | NI64s vs => h_total (h_from_u64_array (map i64_as_u64 vs))
  | NZero w | NUMin w => h_sized w (fun w => h_repeat_digit w ZERO)
  | NOne w => h_sized w h_one
  | NAllSet w | NUMax w => h_sized w (fun w => h_repeat_digit w ONES)
  | NSMin w => h_sized w h_signed_min_value
  | NSMax w => h_sized w h_signed_max_value
  | NParse r s => h_from_str_radix r s
  end.

(** src/apint/{arithmetic,shift,casting}.rs, as in MMachine.v. *)
Definition hmut (m : mutop) (a : hapint) : HM (hapint * result unit) :=
  match m with
  | MNot | MNeg | MInc | MDec | MShl _ | MLshr _ | MAshr _ => h_modify (cmut m) a
  | MTruncate t => h_sized_mut a t (h_truncate a)
  | MZeroExtend t => h_sized_mut a t (h_zero_extend a)
  | MSignExtend t => h_sized_mut a t (h_sign_extend a)
  | MZeroResize t => h_sized_mut a t (fun t => h_total_mut (h_zero_resize a t))
  | MSignResize t => h_sized_mut a t (fun t => h_total_mut (h_sign_resize a t))
  end.

(** A client of src/lib.rs: its variables, [None] for those moved or dropped. *)
Definition hvars : Type := list (option hapint).
(** A client of src/lib.rs: [let x = ..], if the call succeeds. *)
Definition hcreate (s : hvars) (h : HM (result hapint)) : HM (hvars * obs) :=
  let* r := h in hret (match r with Ok a => (s ++ [Some a], ODone) | Err e => (s, OFail (observe e)) end).
(** A client of src/lib.rs: [x.op(..)]. *)
Definition hchange (s : hvars) (x : nat) (h : HM (hapint * result unit)) : HM (hvars * obs) :=
  let* (a, r) := h in hret (update x (Some a) s, done r).
(** A client of src/lib.rs: the compiler rejects a moved variable. *)
Definition hget1 (s : hvars) (x : nat) (k : hapint -> HM (hvars * obs)) : HM (hvars * obs) :=
  match nth_error s x with Some (Some a) => k a | _ => hret (s, ORejected) end.
(** A client of src/lib.rs: the same for two operands. *)
Definition hget2 (s : hvars) (x y : nat) (k : hapint -> hapint -> HM (hvars * obs)) : HM (hvars * obs) :=
  hget1 s x (fun a => hget1 s y (fun b => k a b)).

(** A client of src/lib.rs: one call. *)
Definition hstep (s : hvars) (c : cmd) : HM (hvars * obs) :=
  match c with
  | New n => hcreate s (hnew n)
  | Clone x => hget1 s x (fun a => hcreate s (h_total (h_clone a)))
  | Drop x => hget1 s x (fun a => let* _ := h_drop_digits a in hret (update x None s, ODone))
  | Mut m x => hget1 s x (fun a => hchange s x (hmut m a))
  | Into m x => hget1 s x (fun a => hcreate (update x None s) (h_forward (hmut m a)))
  | Put m x => hget1 s x (fun a => hchange s x (h_modify (cput m) a))
  | Bin o x y =>
      if Nat.eqb x y then hret (s, ORejected) else hget2 s x y (fun a b => hchange s x (h_bin o a b))
  | IntoBin o x y =>
      if Nat.eqb x y then hret (s, ORejected)
      else hget2 s x y (fun a b => hcreate (update x None s) (h_forward (h_bin o a b)))
  | Pair o x y =>
      if Nat.eqb x y then hret (s, ORejected)
      else hget2 s x y (fun a b =>
        let* (a', b', r) := h_modify_both (cpair o) a b in
        let* _ := h_error_copy a' (done r) in
        hret (update y (Some b') (update x (Some a') s), done r))
  | Assign x y =>
      if Nat.eqb x y then hret (s, ORejected)
      else hget2 s x y (fun a b => let* c := h_assign a b in hret (update x (Some c) s, ODone))
  | StrictAssign x y =>
      if Nat.eqb x y then hret (s, ORejected)
      else hget2 s x y (fun a b => hchange s x (h_modify_by strict_assign a b))
  | Cmp o x y => hget2 s x y (fun a b => let* o := h_ask2 (fun a b => obs_rbool (ccmp o a b)) a b in hret (s, o))
  | Equal x y => hget2 s x y (fun a b => let* o := h_ask2 (fun a b => Val (OBool (apint_eqb a b))) a b in hret (s, o))
  | Ask q x => hget1 s x (fun a => let* o := h_ask (cask q) a in let* _ := h_error_copy a o in hret (s, o))
  end.

(** A client of src/lib.rs: one call after the other. *)
Fixpoint hrun (s : hvars) (p : list cmd) : HM (hvars * list obs) :=
  match p with
  | [] => hret (s, [])
  | c :: p => let* (s, o) := hstep s c in let* (s, os) := hrun s p in hret (s, o :: os)
  end.
