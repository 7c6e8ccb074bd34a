(** Programs on [UInt] and [Int] that catch panics ([std::panic::catch_unwind]) and go
    on using their integers.  Over the heap of MHeap.v.  No proofs in this file.
    [None] stands for a call that unwinds, as in MUnwind.v. *)
From Coq Require Import ZArith List Bool.
From Verif Require Export MUnwind MHeapTyped.
Import ListNotations.
Open Scope Z_scope.

(** A call that cannot unwind on its own. *)
Definition h_never (h : HM (hapint * result unit)) : HM (hapint * option (result unit)) :=
  let* (a, r) := h in hret (a, Some r).
(** The methods in place: those of src/uint.rs 755-799, 944-1071 and src/int.rs
    813-857, 1020-1147.  Only the signed divisions (src/int.rs 1087-1108,
    1126-1147) unwind on their own. *)
Definition hc_bin (k : kind) (o : tbin) (a b : hapint) : HM (hapint * option (result unit)) :=
  match k, o with
  | KI, TDiv => h_sdiv_assign a b
  | KI, TRem => h_srem_assign a b
  | _, _ => h_never (h_bin (ap_bin k o) a b)
  end.
(** The operators unwrap: [Err] becomes a panic, and the operand behind [&mut]
    is as the method left it.  src/std_ops.rs 122-160, 203-217. *)
Definition hc_by_form (f : form) (h : HM (hapint * option (result unit))) : HM (hapint * option (result unit)) :=
  let* (a, r) := h in hret (a, match f, r with Operator, Some (Err _) => None | _, _ => r end).
(** The same for what is consumed, with src/utils.rs 6-37: it has been dropped
    when [unwrap] panics.  src/std_ops.rs 61-113, 178-196. *)
Definition hc_into (f : form) (h : HM (hapint * option (result unit))) : HM (option (result hapint)) :=
  let* r := h_forward_catch h in hret (match f, r with Operator, Some (Err _) => None | _, _ => r end).

(** A client of src/lib.rs: what one call whose panic is caught makes of the
    variables and shows. *)
Definition htcatch_result : Type := HM (htvars * option tobs).
(** A client of src/lib.rs: [catch_unwind(|| x.op(..))]. *)
Definition hc_change (k : kind) (s : htvars) (x : nat) (h : HM (hapint * option (result unit))) : htcatch_result :=
  let* (a, r) := h in hret (update x (Some (mk_htvar k a)) s, option_map (fun r => Shows (done r)) r).
(** A client of src/lib.rs: [let z = catch_unwind(|| x.into_op(..))]. *)
Definition hc_create (k : kind) (s : htvars) (h : HM (option (result hapint))) : htcatch_result :=
  let* r := h in
  hret (match r with
        | Some (Ok a) => (s ++ [Some (mk_htvar k a)], Some (Shows ODone))
        | Some (Err e) => (s, Some (Shows (OFail (observe e))))
        | None => (s, None)
        end).
(** A client of src/lib.rs: the compiler rejects a moved variable. *)
Definition hc_get1 (s : htvars) (x : nat) (f : kind -> hapint -> htcatch_result) : htcatch_result :=
  match nth_error s x with Some (Some v) => f (hkind v) (hval v) | _ => hret (s, Some rejected) end.
(** A client of src/lib.rs: two operands are two variables of one type. *)
Definition hc_get2 (s : htvars) (x y : nat) (f : kind -> hapint -> hapint -> htcatch_result) : htcatch_result :=
  if Nat.eqb x y then hret (s, Some rejected)
  else hc_get1 s x (fun k a => hc_get1 s y (fun k' b => if_same_kind k k' (f k a b) (hret (s, Some rejected)))).

(** A client of src/lib.rs: one call whose panic is caught.  The calls that can
    panic are the operators, the signed divisions, and [{:o}] of anything but
    zero (src/apint/serialization.rs 50-58). *)
Definition htcatch (s : htvars) (c : tcmd) : htcatch_result :=
  let usual := let* (s, o) := htstep s c in hret (s, Some o) in
  match c with
  | TMut Operator ((TShl _ | TShr _) as m) x => hc_get1 s x (fun k a => hc_change k s x (hc_by_form Operator (h_never (h_tmut k m a))))
  | TInto Operator ((TShl _ | TShr _) as m) x => hc_get1 s x (fun k a => hc_create k (update x None s) (hc_into Operator (h_never (h_tmut k m a))))
  | TBin f o x y => hc_get2 s x y (fun k a b => hc_change k s x (hc_by_form f (hc_bin k o a b)))
  | TIntoBin f o x y => hc_get2 s x y (fun k a b => hc_create k (update x None s) (hc_into f (hc_bin k o a b)))
  | TAsk TOctal x => hc_get1 s x (fun k a =>
      let* z := h_ask is_zero a in hret (s, if z : bool then Some (Shows (OString [48])) else None))
  | _ => usual
  end.

(** A client of src/lib.rs: one call after the other, each panic caught. *)
Fixpoint htcatches (s : htvars) (p : list tcmd) : HM (htvars * list (option tobs)) :=
  match p with
  | [] => hret (s, [])
  | c :: p => let* (s, o) := htcatch s c in let* (s, os) := htcatches s p in hret (s, o :: os)
  end.
