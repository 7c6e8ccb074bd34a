(** Bounds on the steps of arithmetic. *)
From Verif Require Export LTime.
From Coq Require Import Lia ZArith.

(** At most [n] steps. *)
Definition costs {A} (m : clocked A) (n : Z) : Prop := fst m <= n.
Lemma costs_le {A} (m : clocked A) a b : costs m a -> a <= b -> costs m b.
Proof. unfold costs. lia. Qed.
Lemma costs_val {A} (a : A) n : 0 <= n -> costs (cval a) n.
Proof. unfold costs. cbn. lia. Qed.
Lemma costs_lift {A} (o : outcome A) n : 0 <= n -> costs (clift o) n.
Proof. unfold costs. cbn. lia. Qed.
Lemma costs_bind {A C} (m : clocked A) (f : A -> clocked C) a n :
  costs m a -> (forall x, snd m = Val x -> costs (f x) (n - a)) -> a <= n -> costs (cbind m f) n.
Proof.
  unfold costs, cbind. intros H K L. destruct (snd m) as [x| |] eqn:E; cbn [fst]; [|lia|lia]. specialize (K x eq_refl). lia.
Qed.
Lemma costs_assoc {A C D} (m : clocked A) (f : A -> clocked C) (g : C -> clocked D) n :
  costs (cbind m (fun x => cbind (f x) g)) n -> costs (cbind (cbind m f) g) n.
Proof.
  unfold costs, cbind. destruct (snd m) as [x| |]; cbn [fst snd]; auto. destruct (snd (f x)); cbn [fst snd]; lia.
Qed.
Lemma costs_pay n : costs (cpay n) (Z.of_nat n).
Proof. unfold costs. cbn. lia. Qed.
Lemma costs_idx {A} (ds : list A) i : costs (c_idx ds i) 1.
Proof. unfold costs. cbn. lia. Qed.
Lemma costs_upd {A} (ds : list A) i v : costs (c_upd ds i v) 1.
Proof. unfold costs. cbn. lia. Qed.
Lemma costs_lift0 {A} (o : outcome A) : costs (clift o) 0.
Proof. now apply costs_lift. Qed.
Lemma costs_val0 {A} (a : A) : costs (cval a) 0.
Proof. now apply costs_val. Qed.
Lemma costs_copy lo hi d s : costs (c_copy_range lo hi d s) (Z.of_nat (hi - lo)).
Proof. unfold costs. cbn. lia. Qed.
Lemma costs_clear a : costs (c_clear_unused_bits a) 2.
Proof. unfold costs. cbn. lia. Qed.
Lemma costs_msb a : costs (c_msb a) 1.
Proof. unfold costs. cbn. lia. Qed.
Lemma costs_is_zero a : costs (c_is_zero a) (Z.of_nat (length (digits a))).
Proof. unfold costs. cbn. lia. Qed.
Lemma costs_bitnot a : costs (c_bitnot a) (Z.of_nat (length (digits a)) + 2).
Proof. unfold costs. cbn. lia. Qed.
Lemma costs_clone a : costs (c_clone a) (Z.of_nat (length (digits a))).
Proof. unfold costs. cbn. lia. Qed.
Lemma costs_for_range {S} n c : 0 <= c -> forall lo (f : nat -> S -> clocked S) s, (forall i s, costs (f i s) c) ->
  costs (c_for_range n lo f s) (Z.of_nat n * c).
Proof.
  intros Hc. induction n as [|n IH]; intros lo f s H; cbn [c_for_range]; [apply costs_val; lia|].
  apply costs_bind with c; [apply H| |nia]. intros x _. apply costs_le with (Z.of_nat n * c); [now apply IH|nia].
Qed.
Lemma costs_for_range_rev {S} n c : 0 <= c -> forall lo (f : nat -> S -> clocked S) s, (forall i s, costs (f i s) c) ->
  costs (c_for_range_rev n lo f s) (Z.of_nat n * c).
Proof.
  intros Hc. induction n as [|n IH]; intros lo f s H; cbn [c_for_range_rev]; [apply costs_val; lia|].
  apply costs_bind with c; [apply H| |nia]. intros x _. apply costs_le with (Z.of_nat n * c); [now apply IH|nia].
Qed.
Create HintDb costs.
#[export] Hint Resolve costs_pay costs_idx costs_upd costs_lift0 costs_val0 costs_copy costs_clear costs_msb costs_is_zero costs_bitnot costs_clone : costs.

Lemma nsub_inv a b c : snd (clift (nsub a b)) = Val c -> c = (a - b)%nat /\ (b <= a)%nat.
Proof. cbn. unfold nsub. destruct (Nat.leb_spec b a); [|discriminate]. intros [= <-]. lia. Qed.
Lemma upd_length {A} (ds ds' : list A) i v : snd (c_upd ds i v) = Val ds' -> length ds' = length ds.
Proof.
  unfold c_upd. cbn [snd]. unfold upd. destruct (Nat.ltb_spec i (length ds)); [|discriminate].
  assert (L : length (firstn i ds ++ v :: skipn (S i) ds) = length ds).
  { rewrite app_length, firstn_length. change (length (v :: skipn (S i) ds)) with (Datatypes.S (length (skipn (S i) ds))). rewrite List.skipn_length. lia. }
  generalize dependent (firstn i ds ++ v :: skipn (S i) ds). intros l L E. injection E as E. now subst l.
Qed.
Lemma acc_inv a ds : access_data a = Val (DExt ds) -> ds = digits a.
Proof. unfold access_data. destruct (storage (len a)); [destruct (read_inl a); discriminate|]. intros [= <-]. reflexivity. Qed.
Lemma zip_inv a b ls rs : zip_access_data a b = Val (Ok (ZExt ls rs)) -> ls = digits a /\ rs = digits b /\ len a = len b.
Proof.
  unfold zip_access_data, width. destruct (Z.eqb_spec (len a) (len b)); cbn [negb]; [|discriminate].
  destruct (storage (len a)); [destruct (read_inl a); try discriminate; cbn; destruct (read_inl b); discriminate|].
  intros E. injection E as <- <-. auto.
Qed.
Lemma shl_digits_length st ds ds1 : shl_digits st ds = Val ds1 -> length ds1 = length ds.
Proof.
  unfold shl_digits. destruct (Nat.eqb st 0); [now intros [= <-]|]. destruct (Nat.leb_spec st (length ds)); [|discriminate].
  intros E. injection E as <-. rewrite app_length, repeat_length, firstn_length_le; lia.
Qed.
Lemma lshr_digits_length st ds ds1 : lshr_digits st ds = Val ds1 -> length ds1 = length ds.
Proof.
  unfold lshr_digits. destruct (Nat.eqb st 0); [now intros [= <-]|]. destruct (Nat.leb_spec st (length ds)); [|discriminate].
  intros E. injection E as <-. rewrite app_length, repeat_length, firstn_length, app_length, skipn_length, firstn_length. lia.
Qed.
Lemma rposition_length l i : rposition_nonzero l = Some i -> (i < length l)%nat.
Proof.
  revert i. induction l as [|d r IH]; intros i; cbn [rposition_nonzero]; [discriminate|]. destruct (rposition_nonzero r) as [j|].
  - intros [= <-]. cbn [length]. specialize (IH j eq_refl). lia.
  - destruct (d_is_zero d); [discriminate|]. intros [= <-]. cbn [length]. lia.
Qed.
Lemma steps_length a s u : wf a -> verify_shift_amount (width a) s = Ok u -> (Z.to_nat (s / 64) <= length (digits a))%nat.
Proof.
  intros (W & L & _) H. unfold verify_shift_amount, width in H. destruct (Z.ltb_spec s (len a)); [|discriminate].
  assert (s / 64 <= (len a + 63) / 64) by (apply Z.div_le_mono; lia). lia.
Qed.
Ltac fwd := repeat match goal with
  | H : access_data _ = Val (DExt _) |- _ => apply acc_inv in H
  | H : zip_access_data _ _ = Val (Ok (ZExt _ _)) |- _ => apply zip_inv in H as (? & ? & ?)
  | H : shl_digits _ _ = Val _ |- _ => apply shl_digits_length in H
  | H : lshr_digits _ _ = Val _ |- _ => apply lshr_digits_length in H
  | H : rposition_nonzero _ = Some _ |- _ => apply rposition_length in H
  | W : wf ?a, H : verify_shift_amount (width ?a) _ = Ok _ |- _ => apply (steps_length a) in H; [|exact W]
  | H : ?x = digits _ |- _ => is_var x; subst x
  end; unfold digit_steps in *.
Ltac clia := solve [lia | fwd; lia].
(** What a step that has been done tells. *)
Ltac tell E :=
  lazymatch type of E with
  | snd (clift (nsub _ _)) = _ => apply nsub_inv in E
  | snd (c_upd _ _ _) = _ => apply upd_length in E
  | snd (cpay _) = _ => clear E
  | snd (c_idx _ _) = _ => clear E
  | snd (clift _) = _ => cbn [clift snd] in E
  | snd (cval _) = _ => cbn [cval snd] in E; injection E as E; try subst
  | _ => idtac
  end.
Ltac cstep :=
  lazymatch goal with
  | |- costs (let '(_, _) := ?x in _) _ => destruct x eqn:?
  | |- costs (match ?x with _ => _ end) _ => destruct x eqn:?
  | |- costs (cbind (cbind _ _) _) _ => apply costs_assoc
  | |- costs (cbind (match ?x with _ => _ end) _) _ => destruct x eqn:?
  | |- costs (cbind _ _) _ => eapply costs_bind; [solve [eauto with costs]|let E := fresh "E" in intros ? E; tell E|try clia]
  | |- costs (cval _) _ => apply costs_val; try clia
  | |- costs (clift _) _ => apply costs_lift; try clia
  | |- costs _ _ => eapply costs_le; [solve [eauto with costs]|try clia]
  end.
Ltac cst := repeat cstep.
Tactic Notation "loop" constr(c) "by" tactic3(t) :=
  eapply costs_bind; [apply (costs_for_range _ c); [try clia|intros; t]|let E := fresh "E" in intros ? E|try clia].

(** * Shifts *)
Lemma k_ashr_subdigit b u x : costs (c_ashr_subdigit b u x) (3 * Z.of_nat (length x) + 2).
Proof. unfold c_ashr_subdigit. cstep. loop 3 by cst. cst. Qed.
Lemma k_ashr_fill d e x : costs (c_ashr_fill d e x) (2 * Z.of_nat d).
Proof. unfold c_ashr_fill. eapply costs_le; [apply (costs_for_range _ 2); [lia|intros; cst]|lia]. Qed.
#[export] Hint Resolve k_ashr_subdigit k_ashr_fill : costs.
Lemma k_ashr_digit d e x : costs (c_ashr_digit d e x) (2 * Z.of_nat (length x) + 2 * Z.of_nat d).
Proof. unfold c_ashr_digit. loop 2 by cst. cst. Qed.
Lemma k_ashr_both d e b u x : costs (c_ashr_both d e b u x) (3 * Z.of_nat (length x) + 2 + 2 * Z.of_nat d).
Proof. unfold c_ashr_both. cstep. loop 3 by cst. cst. Qed.
#[export] Hint Resolve k_ashr_digit k_ashr_both : costs.

Definition nd (a : apint) : Z := Z.of_nat (length (digits a)).
Lemma k_shl a s : costs (c_wrapping_shl_assign a s) (2 * nd a + 2).
Proof. unfold c_wrapping_shl_assign, nd. cst. Qed.
Lemma k_lshr a s : wf a -> costs (c_wrapping_lshr_assign a s) (3 * nd a).
Proof. intros W. unfold c_wrapping_lshr_assign, nd. cst. Qed.
Lemma k_ashr a s : wf a -> costs (c_wrapping_ashr_assign a s) (5 * nd a + 7).
Proof. intros W. unfold c_wrapping_ashr_assign. pose proof (k_lshr a s W). unfold nd in *. cst. Qed.
Lemma k_inc a : costs (c_wrapping_inc a) (nd a + 2).
Proof. unfold c_wrapping_inc, nd. cst. Qed.
Lemma k_dec a : costs (c_wrapping_dec a) (nd a + 2).
Proof. unfold c_wrapping_dec, nd. cst. Qed.
#[export] Hint Resolve k_shl k_lshr k_ashr k_inc k_dec : costs.
Lemma bitnot_length a c : snd (c_bitnot a) = Val c -> wf a -> nd c = nd a.
Proof.
  unfold c_bitnot. cbn [snd]. intros E W. destruct (bitnot_spec a W) as (c' & E' & (_ & L & _) & L' & _). rewrite E in E'. injection E' as <-.
  destruct W as (_ & La & _). unfold nd. rewrite L, La, L'. reflexivity.
Qed.
Lemma k_neg a : wf a -> costs (c_wrapping_neg a) (2 * nd a + 4).
Proof.
  intros W. unfold c_wrapping_neg. eapply costs_bind; [apply costs_bitnot| |unfold nd; lia]. intros c E. apply bitnot_length in E; [|exact W].
  eapply costs_le; [apply k_inc|]. unfold nd in *. lia.
Qed.
#[export] Hint Resolve k_neg : costs.

(** * Addition and subtraction *)
Lemma k_add_step rhs i st : costs (c_add_step rhs i st) 3.
Proof. unfold c_add_step. cst. Qed.
Lemma k_sub_step rhs i st : costs (c_sub_step rhs i st) 3.
Proof. unfold c_sub_step. cst. Qed.
Lemma costs_for {S} n c lo (f : nat -> S -> clocked S) s : (forall i s, costs (f i s) c) -> 0 <= c -> costs (c_for_range n lo f s) (Z.of_nat n * c).
Proof. intros H K. now apply costs_for_range. Qed.
Lemma costs_for_rev {S} n c lo (f : nat -> S -> clocked S) s : (forall i s, costs (f i s) c) -> 0 <= c -> costs (c_for_range_rev n lo f s) (Z.of_nat n * c).
Proof. intros H K. now apply costs_for_range_rev. Qed.
#[export] Hint Resolve k_add_step k_sub_step : costs.
#[export] Hint Extern 3 (costs (c_for_range _ _ _ _) _) => (eapply costs_for; [solve [intros; eauto with costs]|lia]) : costs.
#[export] Hint Extern 3 (costs (c_for_range_rev _ _ _ _) _) => (eapply costs_for_rev; [solve [intros; eauto with costs]|lia]) : costs.
Lemma k_add_digits l r : costs (c_add_digits l r) (3 * Z.of_nat (length l) + 3).
Proof. unfold c_add_digits. cst. Qed.
Lemma k_sub_digits l r : costs (c_sub_digits l r) (3 * Z.of_nat (length l) + 3).
Proof. unfold c_sub_digits. cst. Qed.
#[export] Hint Resolve k_add_digits k_sub_digits : costs.
Lemma k_add a b : costs (c_wrapping_add_assign a b) (3 * nd a + 5).
Proof. unfold c_wrapping_add_assign, nd. cst. Qed.
Lemma k_sub a b : costs (c_wrapping_sub_assign a b) (3 * nd a + 5).
Proof. unfold c_wrapping_sub_assign, nd. cst. Qed.

(** * Multiplication *)
Lemma k_sig_bits ds s : costs (c_sig_bits ds s) 1.
Proof. unfold c_sig_bits. cst. Qed.
Lemma k_mul_row_step m r l i st : costs (c_mul_row_step m r l i st) 3.
Proof. unfold c_mul_row_step. cst. Qed.
Lemma k_mul_row_first m r i s : costs (c_mul_row_first m r i s) 3.
Proof. unfold c_mul_row_first. cst. Qed.
#[export] Hint Resolve k_sig_bits k_mul_row_step k_mul_row_first : costs.
Lemma k_mul_full_row n l r s i sum : (s <= n)%nat -> costs (c_mul_full_row l r s i sum) (3 * Z.of_nat n + 7).
Proof. intros Hs. unfold c_mul_full_row. cst. Qed.
Lemma k_mul_wrap_row n l r s i sum : (s <= n)%nat -> costs (c_mul_wrap_row l r s i sum) (3 * Z.of_nat n + 7).
Proof. intros Hs. unfold c_mul_wrap_row. cst. Qed.
Lemma row_length n (r : list Z) : (length (skipn 1 (firstn n r)) <= n - 1)%nat.
Proof. rewrite List.skipn_length, firstn_length. lia. Qed.
Lemma k_mul_no_overflow n l r ls rs : (length l <= n)%nat -> (ls < n)%nat -> (rs < n)%nat ->
  costs (c_mul_no_overflow l r ls rs) (3 * Z.of_nat n * Z.of_nat n + 9 * Z.of_nat n + 3).
Proof.
  intros L Hl Hr. unfold c_mul_no_overflow. pose proof (row_length rs r).
  assert (P : 0 <= Z.of_nat (ls - 1) * (3 * Z.of_nat n + 7) <= (Z.of_nat n - 1) * (3 * Z.of_nat n + 7)) by nia.
  assert (Q : 0 <= (Z.of_nat n - 1) * (3 * Z.of_nat n + 7)) by nia.
  pose proof (k_mul_full_row n l r rs) as K.
  repeat (cstep || (eapply costs_bind; [apply costs_for with (c := 3 * Z.of_nat n + 7); [intros; apply K; lia|lia]|intros ? _|lia])
    || (eapply costs_bind; [apply K; lia|intros ? _|lia])).
Qed.
Lemma k_mul_wrapping l r : costs (c_mul_wrapping l r) (3 * Z.of_nat (length l) * Z.of_nat (length l) + 9 * Z.of_nat (length l) + 5).
Proof.
  unfold c_mul_wrapping. eapply costs_bind; [apply costs_lift0| |lia]. intros sig E. tell E. pose proof (row_length sig r). set (n := length l) in *.
  assert (P : 0 <= Z.of_nat (sig - 1) * (3 * Z.of_nat n + 7) <= Z.of_nat n * (3 * Z.of_nat n + 7)) by nia.
  pose proof (fun i s => k_mul_wrap_row n l r sig i s ltac:(lia)) as K.
  repeat (cstep || (eapply costs_bind; [apply costs_for with (c := 3 * Z.of_nat n + 7); [intros; apply K; lia|lia]|intros ? _|lia])).
Qed.
Lemma k_mul_small_step m s i st : costs (c_mul_small_step m s i st) 2.
Proof. unfold c_mul_small_step. cst. Qed.
Lemma k_mul_small_step_inplace m i st : costs (c_mul_small_step_inplace m i st) 2.
Proof. unfold c_mul_small_step_inplace. cst. Qed.
#[export] Hint Resolve k_mul_small_step k_mul_small_step_inplace : costs.
Lemma k_mul_small_lhs n l r s : (s <= n)%nat -> costs (c_mul_small_lhs l r s) (2 * Z.of_nat n + 6).
Proof. intros H. unfold c_mul_small_lhs. cst. Qed.
Lemma k_mul_small_rhs n l r s : (s <= n)%nat -> costs (c_mul_small_rhs l r s) (2 * Z.of_nat n + 6).
Proof. intros H. unfold c_mul_small_rhs. cst. Qed.
Lemma k_mul_small_both l r : costs (c_mul_small_both l r) 4.
Proof. unfold c_mul_small_both. cst. Qed.
Lemma k_mul_digits n l r : length l = n -> length r = n ->
  costs (c_mul_digits l r) (3 * Z.of_nat n * Z.of_nat n + 11 * Z.of_nat n + 9).
Proof.
  intros Hl Hr. unfold c_mul_digits. assert (P : 0 <= 3 * Z.of_nat n * Z.of_nat n) by nia.
  cstep. destruct (rposition_nonzero r) as [rs|] eqn:Er; [|cst]. cstep. destruct (rposition_nonzero l) as [ls|] eqn:El; [|cst].
  apply rposition_length in Er, El. pose proof (k_mul_no_overflow n l r ls rs ltac:(lia) ltac:(lia) ltac:(lia)).
  pose proof (k_mul_wrapping l r). rewrite Hl in *. pose proof (k_mul_small_lhs n l r rs ltac:(lia)). pose proof (k_mul_small_rhs n l r ls ltac:(lia)).
  pose proof (k_mul_small_both l r). cst.
Qed.
Lemma k_mul a b : wf a -> wf b -> costs (c_wrapping_mul_assign a b) (3 * nd a * nd a + 12 * nd a + 11).
Proof.
  intros (_ & Wa & _) (_ & Wb & _). unfold c_wrapping_mul_assign, nd. eapply costs_bind; [apply costs_lift0| |nia]. intros z E.
  assert (P : 0 <= 3 * Z.of_nat (length (digits a)) * Z.of_nat (length (digits a))) by nia.
  destruct z as [[l r|ls rs]|e]; [cst| |cst]. cbn [clift snd] in E. apply zip_inv in E as (-> & -> & E).
  assert (L : length (digits b) = length (digits a)) by (rewrite E in Wa; lia).
  pose proof (k_mul_digits (length (digits a)) (digits a) (digits b) eq_refl L). cst.
Qed.
