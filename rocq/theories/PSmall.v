(** Property C75: the small value types (MSmall.v). *)
From Verif Require Import LSmall.

(** C75: a width can be made from every number but zero, and is that number. *)
Theorem C75_widths n :
  0 <= n ->
  (n = 0 -> bw_new n = Val (Err (InvalidBitWidth 0)) /\ bw_from n = Panic) /\
  (0 < n -> exists w, bw_new n = Val (Ok w) /\ bw_from n = Val w /\ bw_to_usize w = n) /\
  bitwidth_new n = match bw_new n with Val (Ok w) => Ok (bw_to_usize w) | _ => Err (InvalidBitWidth 0) end /\
  bitwidth_from_usize n = match bw_from n with Val w => Val (bw_to_usize w) | _ => Panic end.
Proof. exact (widths_fact n). Qed.
Print Assumptions C75_widths.
Example C75_widths_ex : exists w, bw_new 100 = Val (Ok w) /\ bw_to_usize w = 100.
Proof. eexists. split; reflexivity. Qed.

(** C75: the constants are the widths they are named after. *)
Theorem C75_width_constants :
  map (fun m => match m with Val w => bw_to_usize w | _ => 0 end) (bw_w1 :: bw_w8 :: bw_w16 :: bw_w32 :: bw_w64 :: bw_w128 :: nil) =
    1 :: 8 :: 16 :: 32 :: 64 :: 128 :: nil.
Proof. exact width_constants_fact. Qed.
Print Assumptions C75_width_constants.
Example C75_width_constants_ex : exists w, bw_w64 = Val w /\ bw_from 64 = Val w.
Proof. eexists. split; reflexivity. Qed.

(** C75: widths are ordered and equal as their numbers are. *)
Theorem C75_width_order m n v w :
  bw_new m = Val (Ok v) -> bw_new n = Val (Ok w) ->
  bw_cmp v w = (m ?= n) /\ (bw_eq v w = true <-> m = n) /\ (v = w <-> m = n).
Proof. exact (width_order_fact m n v w). Qed.
Print Assumptions C75_width_order.
Example C75_width_order_ex : exists v w, bw_new 64 = Val (Ok v) /\ bw_new 65 = Val (Ok w) /\ bw_cmp v w = Lt.
Proof. do 2 eexists. split; [reflexivity|]. split; reflexivity. Qed.

(** C75: bit positions and shift amounts can be made from every number, are that number,
    and are ordered and equal as their numbers are. *)
Theorem C75_positions m n :
  exists p q,
  bp_new m = Ok p /\ bp_from m = p /\ bp_to_usize p = m /\ bp_new n = Ok q /\
  bp_cmp p q = (m ?= n) /\ (bp_eq p q = true <-> m = n) /\ (p = q <-> m = n) /\
  sa_to_usize (sa_from m) = m /\ sa_cmp (sa_from m) (sa_from n) = (m ?= n) /\
  (sa_eq (sa_from m) (sa_from n) = true <-> m = n) /\ (sa_from m = sa_from n <-> m = n).
Proof. exact (positions_fact m n). Qed.
Print Assumptions C75_positions.
Example C75_positions_ex : bp_cmp (bp_from 3) (bp_from 64) = Lt /\ sa_to_usize (sa_from 1000) = 1000.
Proof. split; reflexivity. Qed.

(** C75: a radix can be made from the numbers 2 to 36 and no others, is that number, and is
    equal to another as their numbers are. *)
Theorem C75_radices r :
  0 <= r < 256 ->
  (2 <= r <= 36 -> exists x, r_new r = Ok x /\ r_from r = Val x /\ r_to_u8 x = r) /\
  (~ 2 <= r <= 36 -> r_new r = Err (InvalidRadix r) /\ r_from r = Panic) /\
  radix_new r = match r_new r with Ok x => Ok (r_to_u8 x) | Err e => Err e end /\
  (forall s x y, r_new r = Ok x -> r_new s = Ok y -> (r_eq x y = true <-> r = s) /\ (x = y <-> r = s)).
Proof. exact (radices_fact r). Qed.
Print Assumptions C75_radices.
Example C75_radices_ex : exists x, r_new 36 = Ok x /\ r_to_u8 x = 36 /\ r_new 37 = Err (InvalidRadix 37).
Proof. eexists. split; [reflexivity|]. split; reflexivity. Qed.
