(** What an allocator promises, and what it means that flat memory is in order.
    Used in the statements of C92. *)
From Coq Require Import ZArith List Permutation.
From Verif Require Import Spec SpecTyped SpecHeapTyped MHeapTyped MFlat.
Import ListNotations.
Open Scope Z_scope.

(** Address [a] is in region [r]. *)
Definition within (a : nat) (r : nat * nat) : Prop := (fst r <= a < fst r + snd r)%nat.
(** Address [a] is allocated. *)
Definition occupied (m : flat) (a : nat) : Prop := exists r, In r (taken m) /\ within a r.
(** No address is in two of the regions. *)
Definition apart (l : list (nat * nat)) : Prop := ForallOrdPairs (fun r s => forall a, within a r -> ~ within a s) l.

(** The allocator never gives memory that is in use. *)
Definition honest (w : world) : Prop :=
  forall t m n p, place w t m n = Some p -> forall a, within a (p, n) -> ~ occupied m a.
(** There is always memory, and the process is never killed. *)
Definition generous (w : world) : Prop :=
  (forall t m n, place w t m n <> None) /\ (forall t, killed w t = false).

(** Variable [v] in memory [m] holds the integer [c]: inline up to 64 bits, and
    above that in an allocated region with exactly its ceil(w/64) digits. *)
Definition fstored (m : flat) (v : option hapint) (c : option apint) : Prop :=
  match v, c with
  | None, None => True
  | Some a, Some x =>
      hlen a = len x /\ Z.of_nat (length (digits x)) = (len x + 63) / 64 /\
      (len x <= 64 -> exists d, hdata a = UInl d /\ digits x = [d]) /\
      (64 < len x -> exists p, hdata a = UExt p /\ In (p, length (digits x)) (taken m) /\
         forall i, (i < length (digits x))%nat -> words m (p + i)%nat = nth i (digits x) 0)
  | _, _ => False
  end.
(** The same for a [UInt] or an [Int]: it has its type and its width, and the
    digits are those of the integer modulo 2^w. *)
Definition fin_memory (m : flat) (v : option htvar) (x : option tval) : Prop :=
  match v, x with
  | None, None => True
  | Some a, Some t =>
      hkind a = tkind t /\
      exists c, is_apint c (twidth t) (tvalue t mod 2 ^ twidth t) /\ fstored m (Some (hval a)) (Some c)
  | _, _ => False
  end.

(** The regions that the variables need: ceil(w/64) words for each integer of
    more than 64 bits, at its address. *)
Definition region_of (v : option hapint) : list (nat * nat) :=
  match v with
  | Some a => match hdata a with UExt p => [(p, Z.to_nat ((hlen a + 63) / 64))] | UInl _ => [] end
  | None => []
  end.
Definition regions (vs : hvars) : list (nat * nat) := concat (map region_of vs).

(** From [m0] to [m]: allocated are the regions of the variables and what was
    allocated before, no two of them share an address, and what was allocated
    before has not been written to. *)
Definition tidy (m0 m : flat) (vs : hvars) : Prop :=
  Permutation (taken m) (regions vs ++ taken m0) /\ apart (taken m) /\
  forall a, occupied m0 a -> words m a = words m0 a.
