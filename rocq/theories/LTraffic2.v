(** How many digits divisions access and allocate: the bounds. *)
From Verif Require Export LTraffic.
From Verif Require Import SpecTime LTimeFacts.

Lemma paid_bound {A} k n (w : watched A) c r v : paid k w c -> takes c r n -> snd w = Val v -> digits_read (fst w) + digits_written (fst w) <= 2 * n + k.
Proof. intros (_ & L) (_ & T) Hv. specialize (L v Hv). unfold accesses in L. lia. Qed.

(** [al k m]: [m] allocates at most [k] digits. *)
Definition al {A : Type} (k : Z) (w : watched A) : Prop := digits_allocated (fst w) <= k.
Lemma allocated_app xs ys : digits_allocated (xs ++ ys) = digits_allocated xs + digits_allocated ys.
Proof. induction xs as [|x xs IH]; [reflexivity|]. destruct x; cbn [app digits_allocated]; lia. Qed.
Lemma a_bind {A B} k j (m : watched A) (f : A -> watched B) : al j m -> j <= k -> (forall x, snd m = Val x -> al (k - j) (f x)) -> al k (wbind m f).
Proof. unfold al. intros H Hk F. unfold wbind. destruct (snd m) as [x| |]; cbn [fst]; [|lia..]. rewrite allocated_app. specialize (F x eq_refl). lia. Qed.
Lemma a_call {A B} k (m : watched A) (f : A -> watched B) : al 0 m -> 0 <= k -> (forall x, al k (f x)) -> al k (wbind m f).
Proof. intros H Hk F. apply (a_bind k 0); [exact H|lia|]. intros x _. rewrite Z.sub_0_r. apply F. Qed.
Lemma a_none {A} k p (o : outcome A) : digits_allocated p = 0 -> 0 <= k -> al k (p, o).
Proof. unfold al. cbn [fst]. lia. Qed.
Lemma a_see {A} k es (f : unit -> watched A) : al (k - digits_allocated es) (f tt) -> al k (wbind (see es) f).
Proof. unfold al, wbind, see. cbn [fst snd]. rewrite allocated_app. lia. Qed.
Lemma a_weak {A} k j (w : watched A) : al j w -> j <= k -> al k w.
Proof. unfold al. lia. Qed.
Lemma a_for {S} n lo (b : nat -> S -> watched S) s : (forall i s, al 0 (b i s)) -> al 0 (w_for_range n lo b s).
Proof. intros H. revert lo s. induction n as [|n IH]; intros lo s; cbn [w_for_range]; [apply a_none; [reflexivity|lia]|]. apply a_call; [apply H|lia|intros x; apply IH]. Qed.
Lemma a_for_rev {S} n lo (b : nat -> S -> watched S) s : (forall i s, al 0 (b i s)) -> al 0 (w_for_range_rev n lo b s).
Proof. intros H. revert s. induction n as [|n IH]; intros s; cbn [w_for_range_rev]; [apply a_none; [reflexivity|lia]|]. apply a_call; [apply H|lia|intros x; apply IH]. Qed.
Lemma a_elsewhere {A} k f (w : watched A) : al k w -> al k (elsewhere f w).
Proof.
  unfold al, elsewhere. cbn [fst]. replace (digits_allocated (map _ (fst w))) with (digits_allocated (fst w)); [auto|].
  clear. induction (fst w) as [|e es IH]; [reflexivity|]. cbn [map]. destruct e; cbn [digits_allocated]; lia.
Qed.
Lemma al_flat f n : (forall i, digits_allocated (f i) = 0) -> forall lo, digits_allocated (flat_map f (seq lo n)) = 0.
Proof. intros H. induction n as [|n IH]; intros lo; [reflexivity|]. cbn [seq flat_map]. rewrite allocated_app, H, IH. reflexivity. Qed.
Lemma al_writes p lo n : digits_allocated (writes p lo n) = 0.
Proof. unfold writes. revert lo. induction n as [|n IH]; intros lo; [reflexivity|]. cbn [seq map digits_allocated]. apply IH. Qed.
Lemma al_copies p q n : digits_allocated (copies p q n) = 0.
Proof. unfold copies. apply al_flat. reflexivity. Qed.
Lemma al_copies_from p q lo n : digits_allocated (copies_from p q lo n) = 0.
Proof. unfold copies_from. apply al_flat. reflexivity. Qed.

Create HintDb al discriminated.
#[export] Hint Constants Opaque : al.
Ltac an := cbn [digits_allocated]; rewrite ?al_writes, ?al_copies, ?al_copies_from; try (rewrite al_flat by reflexivity); lia.
Ltac as1 := cbn beta iota zeta; lazymatch goal with
  | |- al _ (wbind (see _) _) => apply a_see
  | |- al _ (wbind (w_for_range _ _ _ _) _) => apply a_call; [apply a_for; intros ? ?; try solve [eauto with al]|an|intros ?]
  | |- al _ (wbind (w_for_range_rev _ _ _ _) _) => apply a_call; [apply a_for_rev; intros ? ?; try solve [eauto with al]|an|intros ?]
  | |- al _ (wbind _ _) => apply a_call; [try solve [apply a_none; [reflexivity|lia]|eauto with al]|an|intros ?]
  | |- al _ (w_idx _ _ _) => apply a_none; [reflexivity|an]
  | |- al _ (w_upd _ _ _ _) => apply a_none; [reflexivity|an]
  | |- al _ (wval _) => apply a_none; [reflexivity|an]
  | |- al _ (wlift _) => apply a_none; [reflexivity|an]
  | |- al _ (match ?x with _ => _ end) => destruct x
  | |- al _ _ => eapply a_weak; [solve [eauto with al]|an]
  end.
Ltac ass := repeat as1.
Lemma a_small_step d i st : al 0 (w_small_step d i st).
Proof. unfold w_small_step. ass. Qed.
#[export] Hint Resolve a_small_step : al.
Lemma a_large_div_by_small q duo sd div : al 0 (w_large_div_by_small q duo sd div).
Proof. unfold w_large_div_by_small. ass. Qed.
#[export] Hint Resolve a_large_div_by_small : al.
Lemma a_u32_step d i st : al 0 (w_u32_step d i st).
Proof. unfold w_u32_step. ass. Qed.
#[export] Hint Resolve a_u32_step : al.
Lemma a_large_div_by_u32 q duo sd div : al 0 (w_large_div_by_u32 q duo sd div).
Proof. unfold w_large_div_by_u32. ass. Qed.
#[export] Hint Resolve a_large_div_by_u32 : al.
Lemma a_twos_from p n : forall i0 ds, al 0 (w_twos_complement_from p n i0 ds).
Proof. induction n as [|n IH]; intros; cbn [w_twos_complement_from]; ass; eapply a_weak; [apply a_for; intros; ass|an]. Qed.
Lemma a_twos p n ds : al 0 (w_twos_complement p n ds).
Proof. apply a_twos_from. Qed.
#[export] Hint Resolve a_twos : al.
Lemma a_any_nonzero_rev p n lo ds : al 0 (w_any_nonzero_rev p n lo ds).
Proof. induction n as [|n IH]; cbn [w_any_nonzero_rev]; ass. Qed.
#[export] Hint Resolve a_any_nonzero_rev : al.
Lemma a_uge_b1 p q n xs ys : al 0 (w_uge_b1 p q n xs ys).
Proof. induction n as [|n IH]; cbn [w_uge_b1]; ass. Qed.
#[export] Hint Resolve a_uge_b1 : al.
Lemma a_ugt_b1 p q n xs ys : al 0 (w_ugt_b1 p q n xs ys).
Proof. induction n as [|n IH]; cbn [w_ugt_b1]; ass. Qed.
#[export] Hint Resolve a_ugt_b1 : al.
Lemma a_find_sd n duo : al 0 (w_find_sd n duo).
Proof. induction n as [|n IH]; cbn [w_find_sd]; ass. Qed.
#[export] Hint Resolve a_find_sd : al.
Lemma a_uge p q n xs m ys : al 0 (w_uge p q n xs m ys).
Proof. unfold w_uge. ass. Qed.
#[export] Hint Resolve a_uge : al.
Lemma a_ugt p q n xs m ys : al 0 (w_ugt p q n xs m ys).
Proof. unfold w_ugt. ass. Qed.
#[export] Hint Resolve a_ugt : al.
Lemma a_special0_step q sub i st : al 0 (w_special0_step q sub i st).
Proof. unfold w_special0_step. ass. Qed.
#[export] Hint Resolve a_special0_step : al.
Lemma a_special0 q n sum sub target val : al 0 (w_special0 q n sum sub target val).
Proof. unfold w_special0. ass. Qed.
#[export] Hint Resolve a_special0 : al.
Lemma a_special0_same_step q i st : al 0 (w_special0_same_step q i st).
Proof. unfold w_special0_same_step. ass. Qed.
#[export] Hint Resolve a_special0_same_step : al.
Lemma a_special0_same q n sum target val : al 0 (w_special0_same q n sum target val).
Proof. unfold w_special0_same. ass. Qed.
#[export] Hint Resolve a_special0_same : al.
Lemma a_special1_step1 q sum sub i st : al 0 (w_special1_step1 q sum sub i st).
Proof. unfold w_special1_step1. ass. Qed.
#[export] Hint Resolve a_special1_step1 : al.
Lemma a_special1_step2 add i st : al 0 (w_special1_step2 add i st).
Proof. unfold w_special1_step2. ass. Qed.
#[export] Hint Resolve a_special1_step2 : al.
Lemma a_special1 q n sum sub targ val add : al 0 (w_special1 q n sum sub targ val add).
Proof. unfold w_special1. ass. Qed.
#[export] Hint Resolve a_special1 : al.
Lemma a_add_macro_step p r add i st : al 0 (w_add_macro_step p r add i st).
Proof. unfold w_add_macro_step. ass. Qed.
#[export] Hint Resolve a_add_macro_step : al.
Lemma a_add_macro p r n sum add : al 0 (w_add_macro p r n sum add).
Proof. unfold w_add_macro. ass. Qed.
#[export] Hint Resolve a_add_macro : al.
Lemma a_copy_range p r lo hi dst src : al 0 (w_copy_range p r lo hi dst src).
Proof. unfold w_copy_range. ass. Qed.
#[export] Hint Resolve a_copy_range : al.
Lemma a_move_step q i st : al 0 (w_move_step q i st).
Proof. unfold w_move_step. ass. Qed.
#[export] Hint Resolve a_move_step : al.
Lemma a_move q sd dsd duo div : al 0 (w_move q sd dsd duo div).
Proof. unfold w_move. ass. Qed.
#[export] Hint Resolve a_move : al.
Lemma a_sig_dd p xs sd lz : al 0 (w_sig_dd p xs sd lz).
Proof. unfold w_sig_dd. ass. Qed.
#[export] Hint Resolve a_sig_dd : al.
Lemma a_finish_mul_sub1 q n duo div sub mul : al 0 (w_finish_mul_sub1 q n duo div sub mul).
Proof. unfold w_finish_mul_sub1. ass. Qed.
#[export] Hint Resolve a_finish_mul_sub1 : al.
Lemma a_finish_mul q n duo div sub mul : al 0 (w_finish_mul q n duo div sub mul).
Proof. unfold w_finish_mul. ass. Qed.
#[export] Hint Resolve a_finish_mul : al.
Lemma a_sub_row q m xs : forall i c, al 0 (w_sub_row q i m xs c).
Proof. induction xs as [|x xs IH]; intros; cbn [w_sub_row]; ass. Qed.
#[export] Hint Resolve a_sub_row : al.
Lemma a_carry_into ds : forall i c, al 0 (w_carry_into i ds c).
Proof. induction ds as [|x xs IH]; intros; cbn [w_carry_into]; ass. Qed.
#[export] Hint Resolve a_carry_into : al.
Lemma a_mul_or_mul_sub1 q n duo sd lz div dsd : al (Z.of_nat n) (w_mul_or_mul_sub1 q n duo sd lz div dsd).
Proof. unfold w_mul_or_mul_sub1. ass. Qed.
#[export] Hint Resolve a_mul_or_mul_sub1 : al.
Lemma a_add_to_quo quo k b m : al 0 (w_add_to_quo quo k b m).
Proof. unfold w_add_to_quo. ass. Qed.
#[export] Hint Resolve a_add_to_quo : al.
Lemma a_sub_lo_step q div k b m i st : al 0 (w_sub_lo_step q div k b m i st).
Proof. unfold w_sub_lo_step. ass. Qed.
#[export] Hint Resolve a_sub_lo_step : al.
Lemma a_sub_lo q duo div sd k b m : al 0 (w_sub_lo q duo div sd k b m).
Proof. unfold w_sub_lo. ass. Qed.
#[export] Hint Resolve a_sub_lo : al.
Lemma a_sub_hi_step q div k b m i st : al 0 (w_sub_hi_step q div k b m i st).
Proof. unfold w_sub_hi_step. ass. Qed.
#[export] Hint Resolve a_sub_hi_step : al.
Lemma a_sub_hi q duo div sd k b m : al 0 (w_sub_hi q duo div sd k b m).
Proof. unfold w_sub_hi. ass. Qed.
#[export] Hint Resolve a_sub_hi : al.
Lemma a_mul_or_mul_sub1_quo q n duo sd lz sig div dsd quo : al (Z.of_nat n) (w_mul_or_mul_sub1_quo q n duo sd lz sig div dsd quo).
Proof. unfold w_mul_or_mul_sub1_quo. ass. Qed.
#[export] Hint Resolve a_mul_or_mul_sub1_quo : al.
Lemma a_add1 n : forall i0 len duo quo, al 0 (w_quo_add1_from n i0 len duo quo).
Proof. induction n as [|n IH]; intros; cbn [w_quo_add1_from]; ass. Qed.
#[export] Hint Resolve a_add1 : al.
Lemma a_add_carry n : forall i0 len duo quo c, al 0 (w_quo_add_carry_from n i0 len duo quo c).
Proof. induction n as [|n IH]; intros; cbn [w_quo_add_carry_from]; ass. Qed.
#[export] Hint Resolve a_add_carry : al.
Lemma a_small_tail q n duo div quo : al 0 (w_small_tail q n duo div quo).
Proof. unfold w_small_tail. ass. Qed.
#[export] Hint Resolve a_small_tail : al.
Lemma a_div_loop q fuel : forall n duo div quo sd lz dsd sb lb add1, al (Z.of_nat n) (w_div_loop q fuel n duo div quo sd lz dsd sb lb add1).
Proof. induction fuel as [|fuel IH]; intros; cbn [w_div_loop]; ass. Qed.
#[export] Hint Resolve a_div_loop : al.
Lemma a_large_div_by_large q n duo sd div dsd : al (2 * Z.of_nat n) (w_large_div_by_large q n duo sd div dsd).
Proof. unfold w_large_div_by_large. ass. Qed.
#[export] Hint Resolve a_large_div_by_large : al.
Lemma a_divrem_cases q duo div sd dsd : al (2 * Z.of_nat (length duo)) (w_divrem_cases q duo div sd dsd).
Proof. unfold w_divrem_cases. ass. Qed.
#[export] Hint Resolve a_divrem_cases : al.
