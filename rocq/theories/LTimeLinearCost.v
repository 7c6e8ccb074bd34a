(** Bounds on the steps of comparing, bit operations, resizing, parsing and printing. *)
From Verif Require Export LTimeLinear LSerial3 LCast.
From Coq Require Import Lia ZArith.

(** * Comparing *)
Lemma k_digits_eqb xs : forall ys, costs (c_digits_eqb xs ys) (Z.of_nat (length xs)).
Proof.
  induction xs as [|x xs IH]; intros [|y ys]; cbn [c_digits_eqb]; try (apply costs_val; lia).
  eapply costs_bind; [apply costs_pay| |cbn [length]; lia]. intros _ _. destruct (x =? y); [|apply costs_val; cbn [length]; lia].
  eapply costs_le; [apply IH|cbn [length]; lia].
Qed.
Lemma k_apint_eqb a b : costs (c_apint_eqb a b) (nd a).
Proof. unfold c_apint_eqb. destruct (negb _); [apply costs_val; unfold nd; lia|apply k_digits_eqb]. Qed.
Lemma k_ult_loop xs : forall ys, costs (c_ult_loop xs ys) (Z.of_nat (Nat.min (length xs) (length ys))).
Proof.
  induction xs as [|x xs IH]; intros [|y ys]; cbn [c_ult_loop]; try (apply costs_val; lia).
  eapply costs_bind; [apply costs_pay| |cbn [length]; lia]. intros _ _. destruct (x ?= y); try (apply costs_val; cbn [length]; lia).
  eapply costs_le; [apply IH|cbn [length]; lia].
Qed.
Lemma k_ult a b : costs (c_checked_ult a b) (Z.min (nd a) (nd b)).
Proof.
  unfold c_checked_ult, nd. eapply costs_bind; [apply costs_lift0| |lia]. intros [[l r|ls rs]|e] E; try (apply costs_val; lia).
  cbn [clift snd] in E. apply zip_inv in E as (-> & -> & _). eapply costs_bind; [apply k_ult_loop| |rewrite !rev_length; lia].
  intros x _. apply costs_val. rewrite !rev_length. lia.
Qed.
Lemma k_map {A C} (m : clocked A) (f : A -> C) n : costs m n -> costs (let~ r := m in cval (f r)) n.
Proof. intros H. eapply costs_bind; [exact H|intros x _; apply costs_val; lia|lia]. Qed.
Lemma k_slt a b : costs (c_checked_slt a b) (Z.min (nd a) (nd b) + 2).
Proof.
  unfold c_checked_slt. assert (0 <= Z.min (nd a) (nd b)) by (unfold nd; lia). pose proof (k_ult a b).
  eapply costs_bind; [apply costs_lift0| |lia]. intros [[l r|ls rs]|e] E; [clear; unfold nd; cst| |apply costs_val; lia].
  eapply costs_bind; [apply costs_msb| |lia]. intros lm _. eapply costs_bind; [apply costs_msb| |lia]. intros rm _. destruct lm, rm; try (apply costs_val; lia).
  - unfold c_checked_ugt. eapply costs_le; [exact H0|lia].
  - eapply costs_le; [exact H0|lia].
Qed.

(** * Bit operations *)
Lemma nd_pos a : wf a -> 1 <= nd a.
Proof. intros (W & L & _). unfold nd. rewrite L. assert (1 * 64 <= len a + 63) by lia. apply Z.div_le_lower_bound; lia. Qed.
Lemma k_modify_digits f a : wf a -> costs (c_modify_digits f a) (nd a).
Proof. intros W. pose proof (nd_pos a W). unfold c_modify_digits, nd in *. cst. Qed.
Lemma k_modify_zipped_digits f a b : wf a -> costs (c_modify_zipped_digits f a b) (nd a).
Proof. intros W. pose proof (nd_pos a W). unfold c_modify_zipped_digits, nd in *. cst. Qed.
Lemma k_get_bit_at a p : costs (c_get_bit_at a p) 1.
Proof. unfold c_get_bit_at. cst. Qed.
Lemma k_modify_bit_at f a p : costs (c_modify_bit_at f a p) 2.
Proof. unfold c_modify_bit_at. cst. Qed.
#[export] Hint Resolve k_modify_digits k_modify_zipped_digits : costs.
Lemma k_set_all a : wf a -> costs (c_set_all a) (nd a + 2).
Proof. intros W. unfold c_set_all. assert (0 <= nd a) by (unfold nd; lia). eapply costs_bind; [now apply k_modify_digits| |lia]. intros x _. eapply costs_le; [apply costs_clear|lia]. Qed.
Lemma k_flip_all a : wf a -> costs (c_flip_all a) (nd a + 2).
Proof. intros W. unfold c_flip_all. assert (0 <= nd a) by (unfold nd; lia). eapply costs_bind; [now apply k_modify_digits| |lia]. intros x _. eapply costs_le; [apply costs_clear|lia]. Qed.
Lemma k_count_ones a : costs (c_count_ones a) (nd a).
Proof. unfold c_count_ones, as_digit_slice, nd. cst. Qed.
Lemma k_count_zeros a : costs (c_count_zeros a) (nd a).
Proof. unfold c_count_zeros, as_digit_slice, nd. cst. Qed.
Lemma k_count_run f ds : forall z, costs (c_count_run f ds z) (Z.of_nat (length ds)).
Proof.
  induction ds as [|d r IH]; intros z; cbn [c_count_run]; [apply costs_val; lia|].
  eapply costs_bind; [apply costs_pay| |cbn [length]; lia]. intros _ _. destruct (negb _); [apply costs_val; cbn [length]; lia|].
  eapply costs_le; [apply IH|cbn [length]; lia].
Qed.
Lemma k_leading_zeros a : costs (c_leading_zeros a) (nd a).
Proof.
  unfold c_leading_zeros, as_digit_slice, nd. eapply costs_bind; [apply k_count_run| |rewrite rev_length; lia]. intros z _. rewrite rev_length. cst.
Qed.
Lemma k_trailing_zeros a : costs (c_trailing_zeros a) (nd a).
Proof. unfold c_trailing_zeros, as_digit_slice, nd. eapply costs_bind; [apply k_count_run| |lia]. intros z _. cst. Qed.

(** * Resizing *)
Definition rd (w : Z) : Z := Z.of_nat (required_digits w).
Lemma k_from_iter ds : costs (c_from_iter ds) (4 * Z.of_nat (length ds)).
Proof. unfold c_from_iter. cst. Qed.
Lemma k_truncate_fuel n : forall a w, costs (c_truncate_fuel n a w) (Z.of_nat n * (4 * rd w + 2)).
Proof.
  unfold rd. induction n as [|n IH]; intros a w; cbn [c_truncate_fuel]; [apply costs_lift; lia|].
  assert (P : 0 <= Z.of_nat n * (4 * Z.of_nat (required_digits w) + 2)) by nia.
  assert (Q : Z.of_nat (S n) * (4 * Z.of_nat (required_digits w) + 2) = Z.of_nat n * (4 * Z.of_nat (required_digits w) + 2) + 4 * Z.of_nat (required_digits w) + 2) by lia.
  rewrite Q. clear Q. specialize (fun a => IH a w). set (K := Z.of_nat n * (4 * Z.of_nat (required_digits w) + 2)) in *. clearbody K.
  destruct (_ =? _); [apply costs_val; lia|]. destruct (_ <? _); [apply costs_val; lia|]. destruct (Nat.eqb _ _).
  - eapply costs_bind; [apply costs_lift0| |lia]. intros e _. eapply costs_bind with 2; [unfold costs; cbn; lia| |lia]. intros c _. apply costs_val. lia.
  - pose proof (firstn_le_length (required_digits w) (as_digit_slice a)) as F.
    assert (F' : (length (firstn (required_digits w) (as_digit_slice a)) <= required_digits w)%nat) by (rewrite firstn_length; lia).
    eapply costs_bind; [apply k_from_iter| |lia]. intros r _. eapply costs_bind; [apply costs_lift0| |lia]. intros c _.
    destruct (negb _); [|apply costs_val; lia]. eapply costs_bind; [apply IH| |lia]. intros [c' [[]|e]] _; apply costs_val; lia.
Qed.
Lemma k_truncate a w : costs (c_truncate a w) (8 * rd w + 4).
Proof. eapply costs_le; [apply (k_truncate_fuel 2)|]. lia. Qed.
Lemma k_into_truncate a w : costs (c_into_truncate a w) (8 * rd w + 4).
Proof. unfold c_into_truncate. eapply costs_bind; [apply k_truncate| |lia]. intros [c [[]|e]] _; apply costs_val; lia. Qed.
Lemma k_from_iter_truncated ds w : costs (c_from_iter_truncated ds w) (4 * Z.of_nat (length ds) + 8 * rd w + 4).
Proof.
  unfold c_from_iter_truncated, rd in *. eapply costs_bind; [apply k_from_iter| |lia]. intros [c|e] _; [|apply costs_val; lia].
  eapply costs_le; [apply k_into_truncate|unfold rd; lia].
Qed.
Lemma rd_nd a : wf a -> rd (len a) = nd a.
Proof. intros (W & L & _). unfold rd, nd. rewrite required_digits_Z by lia. now rewrite L. Qed.
Lemma k_zero_extend a w : wf a -> costs (c_zero_extend a w) (12 * rd w + 4).
Proof.
  intros W. pose proof (rd_nd a W) as R. unfold c_zero_extend, rd, nd, width in *.
  destruct (_ =? _); [apply costs_val; lia|]. destruct (_ <? _); [apply costs_val; lia|]. destruct (Nat.eqb _ _); [apply costs_val; lia|].
  destruct (Nat.ltb_spec (required_digits (len a)) (required_digits w)); cbn [negb]; [|apply costs_lift; lia].
  assert (L : length (as_digit_slice a ++ repeat ZERO (required_digits w - required_digits (len a))) = required_digits w).
  { rewrite app_length, repeat_length. unfold as_digit_slice. lia. }
  eapply costs_bind; [apply k_from_iter_truncated| |rewrite L; unfold rd; lia]. intros [c|e] _; apply costs_val; rewrite L; unfold rd; lia.
Qed.
Lemma modify_last_length f ds ds' : modify_last f ds = Val ds' -> length ds' = length ds.
Proof.
  destruct ds as [|d ds] using rev_ind; [cbn; discriminate|]. rewrite modify_last_app. destruct (f d); cbn [bind]; try discriminate.
  intros [= <-]. rewrite !app_length. reflexivity.
Qed.
Lemma fill_length a w c r : wf a -> fill_most_significant_digit a w = Val (c, r) -> (length (digits c) <= length (digits a))%nat.
Proof.
  intros W. pose proof (nd_pos a W) as N. unfold nd in N. unfold fill_most_significant_digit. destruct (excess_width w); [|intros [= <- <-]; lia].
  destruct (most_significant_digit a); cbn [bind]; try discriminate. destruct (d_sign_extend_from _ _) as [[d'|e]| |]; cbn [bind]; try discriminate; [|intros [= <- <-]; lia].
  unfold modify_most_significant_digit. destruct (access_data a) as [[d|ds]| |] eqn:E; cbn [bind]; try discriminate.
  - intros [= <- <-]. cbn. lia.
  - apply acc_inv in E. subst ds. destruct (modify_last _ _) as [ds'| |] eqn:M; cbn [bind]; try discriminate. apply modify_last_length in M.
    intros [= <- <-]. cbn [write_ext digits]. lia.
Qed.
Lemma k_fill a w : costs (c_fill_most_significant_digit a w) 2.
Proof. unfold costs. cbn. lia. Qed.
Lemma k_sign_extend a w : wf a -> costs (c_sign_extend a w) (12 * rd w + 9).
Proof.
  intros W. pose proof (rd_nd a W) as R. pose proof (k_zero_extend a w W) as Z0. unfold c_sign_extend, rd, nd, width in *.
  destruct (_ =? _); [apply costs_val; lia|]. destruct (_ <? _); [apply costs_val; lia|].
  eapply costs_bind; [apply costs_msb| |lia]. intros m _. destruct (negb m); [eapply costs_le; [exact Z0|lia]|].
  destruct (Nat.eqb _ _).
  - eapply costs_bind; [apply k_fill| |lia]. intros [a2 [[]|e]] _; [|apply costs_val; lia]. eapply costs_bind; [apply costs_clear| |lia]. intros x _. apply costs_val. lia.
  - destruct (Nat.ltb_spec (required_digits (len a)) (required_digits w)); cbn [negb]; [|apply costs_lift; lia].
    eapply costs_bind; [apply k_fill| |lia]. intros [a1 [[]|e]] E; [|apply costs_val; lia]. cbn [c_fill_most_significant_digit snd] in E. apply fill_length in E; [|exact W].
    assert (L : (length (as_digit_slice a1 ++ repeat ONES (required_digits w - required_digits (len a))) <= required_digits w)%nat).
    { rewrite app_length, repeat_length. unfold as_digit_slice. lia. }
    eapply costs_bind; [apply k_from_iter_truncated| |unfold rd; lia]. intros [c|e] _; [|apply costs_val; unfold rd; lia].
    eapply costs_bind; [apply costs_clear| |unfold rd; lia]. intros x _. apply costs_val. unfold rd. lia.
Qed.
Lemma k_expect m n : costs m n -> costs (c_expect_mut m) n.
Proof. intros H. unfold c_expect_mut. eapply costs_bind; [exact H| |lia]. intros [c r] _. eapply costs_bind; [apply costs_lift0| |lia]. intros x _. apply costs_val. lia. Qed.
Lemma k_zero_resize a w : wf a -> costs (c_zero_resize a w) (12 * rd w + 9).
Proof.
  intros W. unfold c_zero_resize. destruct (_ <=? _); apply k_expect; [eapply costs_le; [apply k_truncate|unfold rd; lia]|].
  eapply costs_le; [now apply k_zero_extend|lia].
Qed.
Lemma k_sign_resize a w : wf a -> costs (c_sign_resize a w) (12 * rd w + 9).
Proof.
  intros W. unfold c_sign_resize. destruct (_ <=? _); apply k_expect; [eapply costs_le; [apply k_truncate|unfold rd; lia]|].
  now apply k_sign_extend.
Qed.
Lemma k_repeat_digit w d : costs (c_repeat_digit w d) (12 * rd w + 4).
Proof.
  unfold c_repeat_digit, rd. eapply costs_bind; [apply k_from_iter| |rewrite repeat_length; lia]. intros r _. rewrite repeat_length.
  eapply costs_bind; [apply costs_lift0| |lia]. intros a _. eapply costs_bind; [apply k_into_truncate| |unfold rd; lia]. intros c _. apply costs_lift. unfold rd. lia.
Qed.

(** * Parsing *)
Lemma k_fold {A S} (f : S -> A -> clocked S) (I : S -> Prop) c v : 0 <= c -> (forall s x, I s -> costs (f s x) c) ->
  (forall s x s', I s -> snd (f s x) = Val s' -> I s') -> forall s, I s -> costs (c_fold_o f v s) (Z.of_nat (length v) * (c + 1)).
Proof.
  intros Hc Hf Hi. induction v as [|x r IH]; intros s Hs; cbn [c_fold_o]; [apply costs_val; lia|].
  assert (P : Z.of_nat (length (x :: r)) * (c + 1) = Z.of_nat (length r) * (c + 1) + c + 1) by (cbn [length]; lia). rewrite P.
  assert (Q : 0 <= Z.of_nat (length r) * (c + 1)) by nia.
  eapply costs_bind; [apply costs_pay| |lia]. intros _ _. eapply costs_bind; [now apply Hf| |lia]. intros s' E. eapply costs_le; [apply IH; eapply Hi; eauto|lia].
Qed.
Lemma k_fold_simple {A S} (f : S -> A -> clocked S) c v s : 0 <= c -> (forall s x, costs (f s x) c) -> costs (c_fold_o f v s) (Z.of_nat (length v) * (c + 1)).
Proof. intros Hc Hf. now apply (k_fold f (fun _ => True)). Qed.
Lemma k_all {A} (f : A -> bool) v : costs (c_all f v) (Z.of_nat (length v)).
Proof.
  induction v as [|x r IH]; cbn [c_all]; [apply costs_val; lia|]. eapply costs_bind; [apply costs_pay| |cbn [length]; lia]. intros _ _.
  destruct (f x); [eapply costs_le; [exact IH|]|apply costs_val]; cbn [length]; lia.
Qed.
Definition total (cs : list (list Z)) : nat := length (concat cs).
Lemma chunks_total n v cs : chunks n v = Val cs -> total cs = length v /\ (length cs <= length v)%nat.
Proof.
  unfold chunks. destruct (Nat.eqb_spec n 0); [discriminate|]. intros [= <-].
  assert (G : forall fuel v, (length v <= fuel)%nat -> total (chunks_fuel fuel n v) = length v /\ (length (chunks_fuel fuel n v) <= length v)%nat).
  { clear v. unfold total. induction fuel as [|fuel IH]; intros [|x t] L; try (cbn in *; lia). cbn [chunks_fuel]. set (v := x :: t) in *.
    destruct (IH (skipn n v)) as (T & K). { rewrite List.skipn_length. assert (length v <> 0)%nat by discriminate. lia. }
    cbn [concat length]. rewrite app_length, T, List.skipn_length, firstn_length. rewrite List.skipn_length in K.
    assert (length v <> 0)%nat by discriminate. lia. }
  apply G. lia.
Qed.
Lemma k_map_fold {C} (f : list Z -> clocked C) cs : (forall c, costs (f c) (Z.of_nat (length c))) ->
  costs (c_map_o f cs) (Z.of_nat (length cs) + Z.of_nat (total cs)).
Proof.
  intros H. unfold total. induction cs as [|c r IH]; cbn [c_map_o concat length]; [apply costs_val; lia|]. rewrite app_length.
  eapply costs_bind; [apply costs_pay| |lia]. intros _ _. eapply costs_bind; [apply H| |lia]. intros y _. eapply costs_bind; [exact IH| |lia].
  intros ys _. apply costs_val. lia.
Qed.
Lemma map_o_length {A C} (f : A -> outcome C) v r : map_o f v = Val r -> length r = length v.
Proof.
  revert r. induction v as [|x v IH]; intros r; cbn [map_o]; [now intros [= <-]|]. destruct (f x); cbn [bind]; try discriminate.
  destruct (map_o f v) as [ys| |]; cbn [bind]; try discriminate. intros [= <-]. cbn [length]. f_equal. now apply IH.
Qed.
Lemma k_from_bitwise v b : costs (c_from_bitwise_digits v b) (7 * Z.of_nat (length v)).
Proof.
  unfold c_from_bitwise_digits. destruct (negb _); [apply costs_lift; lia|]. eapply costs_bind; [apply k_all| |lia]. intros ok _.
  destruct (negb ok); [apply costs_lift; lia|]. eapply costs_bind; [apply costs_lift0| |lia]. intros cs E. cbn [clift snd] in E. apply chunks_total in E as (T & L).
  eapply costs_bind.
  - apply k_map_fold. intros c. eapply costs_le; [apply (k_fold_simple _ 0); [lia|intros; cst]|rewrite rev_length; lia].
  - intros data E.
    assert (D : length data = length cs).
    { rewrite (e_map_o _ (fun c => fold_o (fun acc c => let! s := u64_shl acc b in Val (Z.lor s c)) (rev c) 0)) in E; [now apply map_o_length in E|].
      intros c. apply e_fold_o. intros. erase. }
    eapply costs_bind; [apply k_from_iter| |lia]. intros r _. apply costs_lift. lia.
  - lia.
Qed.
Lemma inexact_step_length b st c st' : inexact_step b st c = Val st' -> (length (fst (fst st')) <= S (length (fst (fst st))))%nat.
Proof.
  destruct st as [[data d] n]. unfold inexact_step. destruct (u64_shl c n); cbn [bind]; try discriminate. destruct (64 <=? n + b).
  - destruct (usize_sub (n + b) 64); cbn [bind]; try discriminate. destruct (usize_sub b _); cbn [bind]; try discriminate.
    destruct (u64_shr c _); cbn [bind]; try discriminate. intros [= <-]. cbn [fst]. rewrite app_length. cbn. lia.
  - intros [= <-]. cbn [fst]. lia.
Qed.
Lemma inexact_fold_length b v : forall st st', fold_o (inexact_step b) v st = Val st' -> (length (fst (fst st')) <= length (fst (fst st)) + length v)%nat.
Proof.
  induction v as [|c v IH]; intros st st'; cbn [fold_o]; [intros [= <-]; lia|]. destruct (inexact_step b st c) as [s| |] eqn:E; cbn [bind]; try discriminate.
  apply inexact_step_length in E. intros F. apply IH in F. cbn [length]. lia.
Qed.
Lemma k_from_inexact v b : costs (c_from_inexact_bitwise_digits v b) (7 * Z.of_nat (length v) + 5).
Proof.
  unfold c_from_inexact_bitwise_digits. destruct (negb _); [apply costs_lift; lia|]. eapply costs_bind; [apply k_all| |lia]. intros ok _.
  destruct (negb ok); [apply costs_lift; lia|]. eapply costs_bind; [apply (k_fold_simple _ 1); [lia|intros; cst]| |lia].
  intros [[data d] dbits] E. rewrite (e_fold_o _ (inexact_step b)) in E by reflexivity. apply inexact_fold_length in E. cbn [fst length] in E.
  apply costs_bind with 1; [destruct (0 <? dbits); [destruct (dbits <? 64)|]; unfold costs; cbn; lia| |lia]. intros ds F.
  assert (D : (length ds <= length v + 1)%nat).
  { destruct (0 <? dbits); [destruct (dbits <? 64)|]; cbn [cval clift cbind cpay snd fst] in F; try discriminate; injection F as <-; rewrite ?app_length; cbn [length]; lia. }
  eapply costs_bind; [apply k_from_iter| |lia]. intros r _. apply costs_lift. lia.
Qed.
Lemma k_fold_radix r v : costs (c_fold_radix r v) (Z.of_nat (length v)).
Proof. eapply costs_le; [apply (k_fold_simple _ 0); [lia|intros; cst]|lia]. Qed.
Definition short (data : list Z) : Prop := exists x, data = [x] \/ data = [x; 0].
Lemma short_step data : short data -> let d := if last_is_not_zero data then data ++ [0] else data in short d /\ (length d <= 2)%nat.
Proof.
  intros (x & [->| ->]); cbn.
  - destruct (x =? 0); cbn; (split; [exists x; auto|lia]).
  - split; [exists x; auto|lia].
Qed.
Lemma radix_chunks r cs : forall data, short data ->
  costs (c_fold_o (c_radix_chunk_step r) cs data) (4 * Z.of_nat (length cs) + Z.of_nat (total cs)) /\
  forall data', snd (c_fold_o (c_radix_chunk_step r) cs data) = Val data' -> short data'.
Proof.
  unfold total. induction cs as [|c cs IH]; intros data S0; cbn [c_fold_o concat length]; [split; [apply costs_val; lia|intros d [= <-]; exact S0]|].
  rewrite app_length. destruct (short_step data S0) as (S1 & L1). cbv zeta in S1, L1.
  assert (K : forall d', snd (c_radix_chunk_step r data c) = Val d' -> short d').
  { intros d'. unfold c_radix_chunk_step, cbind, cpay. cbn [snd]. cbv zeta. cbn [snd]. destruct (snd (c_fold_radix r c)); cbn [snd cval]; try discriminate. intros [= <-]. exact S1. }
  split.
  - eapply costs_bind; [apply costs_pay| |lia]. intros _ _. apply costs_bind with (3 + Z.of_nat (length c)).
    + unfold c_radix_chunk_step. set (d := if last_is_not_zero data then data ++ [0] else data) in *. clearbody d.
      eapply costs_bind; [apply costs_pay| |lia]. intros _ _. eapply costs_bind; [apply costs_pay| |lia]. intros _ _.
      eapply costs_bind; [apply k_fold_radix| |lia]. intros x _. apply costs_val. lia.
    + intros d' E. eapply costs_le; [apply (IH d'); now apply K|lia].
    + lia.
  - intros d'. unfold cbind at 1. cbn [cpay snd]. cbv zeta. cbn [snd]. unfold cbind. destruct (snd (c_radix_chunk_step r data c)) as [d1| |] eqn:E; cbn [snd]; try discriminate.
    apply (IH d1). now apply K.
Qed.
Lemma k_from_radix v r : costs (c_from_radix_digits v r) (6 * Z.of_nat (length v) + 9).
Proof.
  unfold c_from_radix_digits. destruct (negb _); [apply costs_lift; lia|]. eapply costs_bind; [apply k_all| |lia]. intros ok _.
  destruct (negb ok); [apply costs_lift; lia|]. eapply costs_bind; [apply costs_lift0| |lia]. intros [base power] _.
  destruct (power =? 0); [apply costs_lift; lia|]. set (i := if _ =? 0 then _ else _). clearbody i. destruct (_ <? i); [apply costs_lift; lia|].
  pose proof (firstn_length (Z.to_nat i) v) as F. pose proof (List.skipn_length (Z.to_nat i) v) as S.
  set (head := firstn (Z.to_nat i) v) in *. set (tail := skipn (Z.to_nat i) v) in *. clearbody head tail.
  eapply costs_bind; [apply k_fold_radix| |lia]. intros first _. eapply costs_bind; [apply costs_pay| |lia]. intros _ _.
  destruct (negb _); [apply costs_lift; lia|]. eapply costs_bind; [apply costs_lift0| |lia]. intros cs E. cbn [clift snd] in E. apply chunks_total in E as (T & L).
  destruct (radix_chunks r cs [first]) as (K & I); [exists first; auto|]. eapply costs_bind; [exact K| |lia]. intros data D. apply I in D.
  assert (length data <= 2)%nat by (destruct D as (x & [->| ->]); cbn; lia).
  eapply costs_bind; [apply k_from_iter| |lia]. intros x _. apply costs_lift. lia.
Qed.
Lemma k_normalize r input bs : costs (c_normalize r input bs) (2 * Z.of_nat (length bs) + Z.of_nat (length input)).
Proof.
  induction bs as [|b bs IH]; cbn [c_normalize]; [apply costs_val; lia|]. eapply costs_bind; [apply costs_pay| |cbn [length]; lia]. intros _ _.
  destruct (normalize_byte b) as [d|]; [|eapply costs_le; [exact IH|cbn [length]; lia]]. destruct (negb _).
  - eapply costs_bind; [apply costs_pay| |cbn [length]; lia]. intros _ _. apply costs_val. cbn [length]. lia.
  - eapply costs_bind; [apply costs_pay| |cbn [length]; lia]. intros _ _. eapply costs_bind; [exact IH| |cbn [length]; lia].
    intros [v|e] _; apply costs_val; cbn [length]; lia.
Qed.
Lemma normalize_length r input bs : forall v, normalize r input bs = Ok v -> (length v <= length bs)%nat.
Proof.
  induction bs as [|b bs IH]; intros v; cbn [normalize]; [intros [= <-]; cbn; lia|]. destruct (normalize_byte b) as [d|]; [|intros H; apply IH in H; cbn [length]; lia].
  destruct (negb _); [discriminate|]. destruct (normalize r input bs) as [t|e]; [|discriminate]. intros [= <-]. cbn [length]. specialize (IH t eq_refl). lia.
Qed.
Lemma k_from_str_radix r input : costs (c_from_str_radix r input) (11 * Z.of_nat (length input) + 9).
Proof.
  unfold c_from_str_radix. destruct input as [|b bs]; [apply costs_val; lia|]. set (input := b :: bs). clearbody input.
  destruct (b =? 95); [cst|]. destruct (last input 0 =? 95); [cst|]. eapply costs_bind; [apply k_normalize| |lia]. intros [v|e] E; [|apply costs_val; lia].
  rewrite e_normalize in E. injection E as E. apply normalize_length in E. eapply costs_bind; [apply costs_lift0| |lia]. intros o _.
  apply costs_bind with (8 * Z.of_nat (length v) + 9); [|intros x _; apply costs_val; lia|lia]. destruct o as [bits|].
  - eapply costs_bind; [apply costs_pay| |lia]. intros _ _. destruct (_ =? 0).
    + eapply costs_le; [apply k_from_bitwise|rewrite rev_length; lia].
    + eapply costs_le; [apply k_from_inexact|rewrite rev_length; lia].
  - eapply costs_le; [apply k_from_radix|lia].
Qed.

(** * Printing *)
Lemma k_fmt_rest w b al ds : (forall d, In d ds -> length (u64_fmt_padded w b al d) = w) -> costs (c_fmt_rest w b al ds) (Z.of_nat (length ds) * (Z.of_nat w + 1)).
Proof.
  induction ds as [|d r IH]; intros H; cbn [c_fmt_rest]; [apply costs_val; lia|].
  assert (P : Z.of_nat (length (d :: r)) * (Z.of_nat w + 1) = Z.of_nat (length r) * (Z.of_nat w + 1) + Z.of_nat w + 1) by (cbn [length]; lia). rewrite P.
  assert (Q : 0 <= Z.of_nat (length r) * (Z.of_nat w + 1)) by nia. pose proof (H d (or_introl eq_refl)) as L.
  eapply costs_bind; [apply costs_pay| |lia]. intros _ _. eapply costs_bind; [apply IH; intros; apply H; now right| |lia]. intros t _. apply costs_val. lia.
Qed.
Lemma k_fmt_digits w b al ds : (forall d, In d ds -> (length (u64_fmt b al d) <= w)%nat /\ length (u64_fmt_padded w b al d) = w) ->
  costs (c_fmt_digits w b al ds) (Z.of_nat (length ds) * (Z.of_nat w + 1)).
Proof.
  induction ds as [|d r IH]; intros H; cbn [c_fmt_digits]; [apply costs_val; lia|].
  assert (P : Z.of_nat (length (d :: r)) * (Z.of_nat w + 1) = Z.of_nat (length r) * (Z.of_nat w + 1) + Z.of_nat w + 1) by (cbn [length]; lia). rewrite P.
  assert (Q : 0 <= Z.of_nat (length r) * (Z.of_nat w + 1)) by nia. destruct (H d (or_introl eq_refl)) as (L & _).
  eapply costs_bind; [apply costs_pay| |lia]. intros _ _. destruct (d_is_zero d); [eapply costs_le; [apply IH; intros; apply H; now right|lia]|].
  eapply costs_bind; [apply costs_pay| |lia]. intros _ _. eapply costs_bind; [apply k_fmt_rest; intros x Hx; apply H; now right| |lia]. intros t _. apply costs_val. lia.
Qed.
Lemma k_fmt_radix w b al a : wf a -> good_alpha al -> 2 <= b <= 36 -> (1 <= w <= 64)%nat -> b ^ Z.of_nat w = 2 ^ 64 ->
  costs (c_fmt_radix w b al a) (nd a * (Z.of_nat w + 2) + 1).
Proof.
  intros W Ha Hb Hw Hp. unfold c_fmt_radix, nd, as_digit_slice. assert (Q : 0 <= Z.of_nat (length (digits a)) * (Z.of_nat w + 1)) by nia.
  assert (R : Z.of_nat (length (digits a)) * (Z.of_nat w + 2) = Z.of_nat (length (digits a)) * (Z.of_nat w + 1) + Z.of_nat (length (digits a))) by lia. rewrite R.
  eapply costs_bind; [apply costs_is_zero| |lia]. intros [] _.
  - eapply costs_bind; [apply costs_pay| |lia]. intros _ _. apply costs_val. lia.
  - eapply costs_le; [apply k_fmt_digits|rewrite rev_length; lia]. intros d Hd. apply in_rev in Hd.
    assert (D : dok d) by (destruct W as (_ & _ & D & _); rewrite Forall_forall in D; now apply D).
    destruct (fmt_word w b al d Ha Hb Hw Hp D) as (_ & _ & L & _). split; [exact L|]. unfold u64_fmt_padded. rewrite app_length, repeat_length. lia.
Qed.
