(** Unwinding: calls that panic, with a client that catches the panic
    ([std::panic::catch_unwind]) and goes on using its integers.  Over the heap of MHeap.v.
    The calls that can panic (C45) are modelled here with what unwinding does:
    [None] stands for a call that unwinds, whose locals have been dropped and
    whose [&mut] operands are as the panic found them. *)
From Coq Require Import ZArith List Bool.
From Verif Require Export MHeap.
Import ListNotations.
Open Scope Z_scope.

(** [if negate { x.wrapping_neg() }], src/apint/arithmetic.rs 1680-1689, 1692-1697. *)
Definition h_neg_if (flag : bool) (a : hapint) : HM hapint :=
  if flag then let* (a, _) := h_modify (with_unit wrapping_neg) a in hret a else hret a.

(** The common body of src/apint/arithmetic.rs 1756-1783 and 1803-1830:
    [udivrem] is the call that is unwrapped, [negate] says for which signs of
    the operands the result is negated. *)
Definition h_signed_assign (op : div_op) (udivrem : apint -> apint -> mut2_result) (negate : bool -> bool -> bool)
    (a rhs : hapint) : HM (hapint * option (result unit)) :=
  let* z := h_ask is_zero rhs in
  if z : bool then
    let* e := h_ask (division_by_zero op) a in
    let* _ := h_error_copy a (OFail (observe e)) in
    hret (a, Some (Err e))
  else
    let* rhs_clone := h_clone rhs in
    let* ml := h_ask msb a in
    let* mr := h_ask msb rhs_clone in
    let* a := h_neg_if ml a in
    let* rhs_clone := h_neg_if mr rhs_clone in
    let* (a, rhs_clone, r) := h_modify_both udivrem a rhs_clone in
    match r with
    | Err e =>                               (* [.unwrap()] panics *)
        let* _ := h_error_copy a (OFail (observe e)) in
        let* _ := h_drop_digits rhs_clone in
        hret (a, None)
    | Ok _ =>
        let* a := h_neg_if (negate ml mr) a in
        let* _ := h_drop_digits rhs_clone in
        hret (a, Some (Ok tt))
    end.
(** src/apint/arithmetic.rs 1756-1783. *)
Definition h_sdiv_assign : hapint -> hapint -> HM (hapint * option (result unit)) :=
  h_signed_assign SignedDiv wrapping_udivrem_assign (fun ml mr =>
    match ml, mr with
    | false, false => false
    | true, false => true
    | false, true => true
    | true, true => false
    end).
(** src/apint/arithmetic.rs 1803-1830. *)
Definition h_srem_assign : hapint -> hapint -> HM (hapint * option (result unit)) :=
  h_signed_assign SignedRem wrapping_uremdiv_assign (fun ml mr =>
    match ml, mr with
    | false, false => false
    | true, false => true
    | false, true => false
    | true, true => true
    end).

(** The common body of src/apint/arithmetic.rs 1667-1702 and 1712-1747. *)
Definition h_signed_pair (op : div_op) (udivrem : apint -> apint -> mut2_result) (negate : bool -> bool -> bool * bool)
    (lhs rhs : hapint) : HM (hapint * hapint * option (result unit)) :=
  let* z := h_ask is_zero rhs in
  if z : bool then
    let* e := h_ask (division_by_zero op) lhs in
    let* _ := h_error_copy lhs (OFail (observe e)) in
    hret (lhs, rhs, Some (Err e))
  else
    let* ml := h_ask msb lhs in
    let* mr := h_ask msb rhs in
    let '(negate_lhs, negate_rhs) := negate ml mr in
    let* lhs := h_neg_if ml lhs in
    let* rhs := h_neg_if mr rhs in
    let* (lhs, rhs, r) := h_modify_both udivrem lhs rhs in
    match r with
    | Err e =>                               (* [.unwrap()] panics *)
        let* _ := h_error_copy lhs (OFail (observe e)) in
        hret (lhs, rhs, None)
    | Ok _ =>
        let* lhs := h_neg_if negate_lhs lhs in
        let* rhs := h_neg_if negate_rhs rhs in
        hret (lhs, rhs, Some (Ok tt))
    end.
(** src/apint/arithmetic.rs 1667-1702. *)
Definition h_sdivrem_assign : hapint -> hapint -> HM (hapint * hapint * option (result unit)) :=
  h_signed_pair SignedDivRem wrapping_udivrem_assign (fun ml mr =>
    match ml, mr with
    | false, false => (false, false)
    | true, false => (true, true)
    | false, true => (true, false)
    | true, true => (false, true)
    end).
(** src/apint/arithmetic.rs 1712-1747. *)
Definition h_sremdiv_assign : hapint -> hapint -> HM (hapint * hapint * option (result unit)) :=
  h_signed_pair SignedRemDiv wrapping_uremdiv_assign (fun ml mr =>
    match ml, mr with
    | false, false => (false, false)
    | true, false => (true, true)
    | false, true => (false, true)
    | true, true => (true, false)
    end).

(** src/utils.rs 29-37: what is consumed is dropped on an error and when the
    call unwinds. *)
Definition h_forward_catch (h : HM (hapint * option (result unit))) : HM (option (result hapint)) :=
  let* (this, r) := h in
  match r with
  | Some (Ok _) => hret (Some (Ok this))
  | Some (Err e) => let* _ := h_drop_digits this in hret (Some (Err e))
  | None => let* _ := h_drop_digits this in hret None
  end.

(** A client of src/lib.rs: [catch_unwind(|| x.op(..))]. *)
Definition hcatch_change (s : hvars) (x : nat) (h : HM (hapint * option (result unit))) : HM (hvars * option obs) :=
  let* (a, r) := h in hret (update x (Some a) s, option_map done r).
(** A client of src/lib.rs: [let z = catch_unwind(|| x.into_op(..))]. *)
Definition hcatch_create (s : hvars) (h : HM (option (result hapint))) : HM (hvars * option obs) :=
  let* r := h in
  hret (match r with
        | Some (Ok a) => (s ++ [Some a], Some ODone)
        | Some (Err e) => (s, Some (OFail (observe e)))
        | None => (s, None)
        end).
(** A client of src/lib.rs: the operands of a call. *)
Definition hcatch_get2 (s : hvars) (x y : nat) (k : hapint -> hapint -> HM (hvars * option obs)) : HM (hvars * option obs) :=
  if Nat.eqb x y then hret (s, Some ORejected)
  else
    match nth_error s x, nth_error s y with
    | Some (Some a), Some (Some b) => k a b
    | _, _ => hret (s, Some ORejected)
    end.

(** A client of src/lib.rs: one call whose panic is caught.  The radix is checked
    before anything is allocated, src/radix.rs 38-43 and 177-179. *)
Definition hcatch (s : hvars) (c : cmd) : HM (hvars * option obs) :=
  let usual := let* (s, o) := hstep s c in hret (s, Some o) in
  match c with
  | New (NParse r _) => match radix_from r with Val _ => usual | _ => hret (s, None) end
  | Bin BSdiv x y => hcatch_get2 s x y (fun a b => hcatch_change s x (h_sdiv_assign a b))
  | Bin BSrem x y => hcatch_get2 s x y (fun a b => hcatch_change s x (h_srem_assign a b))
  | IntoBin BSdiv x y => hcatch_get2 s x y (fun a b => hcatch_create (update x None s) (h_forward_catch (h_sdiv_assign a b)))
  | IntoBin BSrem x y => hcatch_get2 s x y (fun a b => hcatch_create (update x None s) (h_forward_catch (h_srem_assign a b)))
  | Pair PSDivRem x y => hcatch_get2 s x y (fun a b =>
      let* (a, b, r) := h_sdivrem_assign a b in hret (update y (Some b) (update x (Some a) s), option_map done r))
  | Pair PSRemDiv x y => hcatch_get2 s x y (fun a b =>
      let* (a, b, r) := h_sremdiv_assign a b in hret (update y (Some b) (update x (Some a) s), option_map done r))
  | _ => usual
  end.

(** A client of src/lib.rs: one call after the other, each panic caught. *)
Fixpoint hcatches (s : hvars) (p : list cmd) : HM (hvars * list (option obs)) :=
  match p with
  | [] => hret (s, [])
  | c :: p => let* (s, o) := hcatch s c in let* (s, os) := hcatches s p in hret (s, o :: os)
  end.
