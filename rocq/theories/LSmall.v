(** Lemmas on the small value types. *)
From Coq Require Import ZArith List Lia Bool.
From Verif Require Export MSmall MUtils.
Open Scope Z_scope.

Lemma widths_fact n : 0 <= n ->
  (n = 0 -> bw_new n = Val (Err (InvalidBitWidth 0)) /\ bw_from n = Panic) /\
  (0 < n -> exists w, bw_new n = Val (Ok w) /\ bw_from n = Val w /\ bw_to_usize w = n) /\
  bitwidth_new n = match bw_new n with Val (Ok w) => Ok (bw_to_usize w) | _ => Err (InvalidBitWidth 0) end /\
  bitwidth_from_usize n = match bw_from n with Val w => Val (bw_to_usize w) | _ => Panic end.
Proof.
  intros Hn. unfold bitwidth_from_usize, bw_from, bw_new, bitwidth_new, nonzero_new. destruct (Z.eqb_spec n 0) as [->|N].
  - split; [auto|]. split; [lia|split; reflexivity].
  - split; [lia|]. split; [|split; reflexivity]. intros _. eexists. split; [reflexivity|]. split; reflexivity.
Qed.
Lemma width_constants_fact :
  map (fun m => match m with Val w => bw_to_usize w | _ => 0 end) (bw_w1 :: bw_w8 :: bw_w16 :: bw_w32 :: bw_w64 :: bw_w128 :: nil) =
    1 :: 8 :: 16 :: 32 :: 64 :: 128 :: nil.
Proof. reflexivity. Qed.
Lemma width_order_fact m n v w : bw_new m = Val (Ok v) -> bw_new n = Val (Ok w) ->
  bw_cmp v w = (m ?= n) /\ (bw_eq v w = true <-> m = n) /\ (v = w <-> m = n).
Proof.
  unfold bw_new, nonzero_new. destruct (m =? 0); [discriminate|]. destruct (n =? 0); [discriminate|].
  cbn [unwrap_opt bind]. intros E1 E2. injection E1 as <-. injection E2 as <-. unfold bw_cmp, bw_eq. cbn [bw_field nz_get].
  split; [reflexivity|]. split; [apply Z.eqb_eq|]. split; congruence.
Qed.
Lemma positions_fact m n : exists p q,
  bp_new m = Ok p /\ bp_from m = p /\ bp_to_usize p = m /\ bp_new n = Ok q /\
  bp_cmp p q = (m ?= n) /\ (bp_eq p q = true <-> m = n) /\ (p = q <-> m = n) /\
  sa_to_usize (sa_from m) = m /\ sa_cmp (sa_from m) (sa_from n) = (m ?= n) /\
  (sa_eq (sa_from m) (sa_from n) = true <-> m = n) /\ (sa_from m = sa_from n <-> m = n).
Proof.
  exists (mk_bit_pos m), (mk_bit_pos n). do 5 (split; [reflexivity|]). split; [apply Z.eqb_eq|]. split; [split; congruence|].
  do 2 (split; [reflexivity|]). split; [apply Z.eqb_eq|]. unfold sa_from. split; congruence.
Qed.
Lemma radices_fact r : 0 <= r < 256 ->
  (2 <= r <= 36 -> exists x, r_new r = Ok x /\ r_from r = Val x /\ r_to_u8 x = r) /\
  (~ 2 <= r <= 36 -> r_new r = Err (InvalidRadix r) /\ r_from r = Panic) /\
  radix_new r = match r_new r with Ok x => Ok (r_to_u8 x) | Err e => Err e end /\
  (forall s x y, r_new r = Ok x -> r_new s = Ok y -> (r_eq x y = true <-> r = s) /\ (x = y <-> r = s)).
Proof.
  intros Hr. unfold r_from, r_new, radix_new. destruct ((2 <=? r) && (r <=? 36)) eqn:E; cbn [negb].
  - split; [intros _; eexists; repeat split|]. split; [lia|]. split; [reflexivity|]. intros s x y Ex Ey. injection Ex as <-.
    destruct ((2 <=? s) && (s <=? 36)); cbn [negb] in Ey; [|discriminate]. injection Ey as <-. unfold r_eq. cbn [r_field].
    split; [apply Z.eqb_eq|]. split; congruence.
  - split; [lia|]. split; [auto|]. split; [reflexivity|]. discriminate.
Qed.
