(** How many digits are read, written and allocated: calls that do the same for every value. *)
From Verif Require Export LWork.
From Coq Require Import Lia ZArith List Bool.
Import ListNotations.
Open Scope Z_scope.

Lemma y_exact {A} (m : watched A) r w k P o : yields m r w k P -> snd m = o -> yields m r w k (fun v => P v /\ o = Val v).
Proof. intros H <- v E. destruct (H v E). auto. Qed.
Lemma y_work {A} (m : watched A) r w k P v : yields m r w k P -> snd m = Val v -> work (fst m) r w k.
Proof. intros H E. exact (proj2 (H v E)). Qed.

(** The width is not zero and there are as many digits as it needs; whatever they are. *)
Definition sized (a : apint) : Prop := 0 < len a /\ Z.of_nat (List.length (digits a)) = Nd a.
Lemma wf_sized a : wf a -> sized a.
Proof. intros W. split; [apply W|now apply many_digits]. Qed.
Lemma small_n a : sized a -> len a <= 64 -> Nd a = 1.
Proof. intros [L _] S. unfold Nd, digit_count. replace (len a + 63) with ((len a - 1) + 1 * 64) by lia. rewrite Z.div_add, Z.div_small; lia. Qed.
Lemma sized_ext a ds : sized a -> List.length ds = List.length (digits a) -> sized (write_ext a ds).
Proof. intros [L S] E. split; [exact L|]. cbn [digits write_ext]. rewrite E. exact S. Qed.
Lemma sized_inl a d : sized a -> len a <= 64 -> sized (write_inl a d).
Proof. intros S L. pose proof (small_n a S L). split; [apply S|]. cbn. symmetry. exact H. Qed.

Lemma y_access_small p a : len a <= 64 -> yields (w_access_data p a) 1 0 0 (fun v => exists d, v = DInl d).
Proof.
  intros L. unfold w_access_data, access_data, storage. destruct (Z.leb_spec (len a) 64); [|lia]. eapply y_is; [ystep; ystep| | |]; try reflexivity.
  destruct (read_inl a) as [d| |]; cbn in H0; try discriminate. injection H0 as <-. eauto.
Qed.
Lemma y_access_large p a : 64 < len a -> yields (w_access_data p a) 0 0 0 (fun v => v = DExt (digits a)).
Proof.
  intros L. unfold w_access_data, access_data, storage. destruct (Z.leb_spec (len a) 64); [lia|]. eapply y_is; [ystep; ystep| | |]; try reflexivity.
  injection H0 as <-. reflexivity.
Qed.
Lemma y_zip_small a b : len a = len b -> len a <= 64 -> yields (w_zip_access_data a b) 2 0 0 (fun v => exists l r, v = Ok (ZInl l r)).
Proof.
  intros E L. unfold w_zip_access_data, zip_access_data, width, storage. rewrite E, Z.eqb_refl. rewrite E in L. eapply y_is; [ystep|..]; try reflexivity. cbn [negb].
  destruct (Z.leb_spec (len b) 64); [|lia]. eapply y_is; [ystep; ystep|..]; try reflexivity.
  destruct (read_inl a) as [d| |]; cbn in H0; try discriminate. destruct (read_inl b) as [e| |]; cbn in H0; try discriminate. injection H0 as <-. eauto.
Qed.
Lemma y_zip_large a b : len a = len b -> 64 < len a -> yields (w_zip_access_data a b) 0 0 0 (fun v => v = Ok (ZExt (digits a) (digits b))).
Proof.
  intros E L. unfold w_zip_access_data, zip_access_data, width, storage. rewrite E, Z.eqb_refl. rewrite E in L. eapply y_is; [ystep|..]; try reflexivity. cbn [negb].
  destruct (Z.leb_spec (len b) 64); [lia|]. eapply y_is; [ystep; ystep|..]; try reflexivity. injection H0 as <-. reflexivity.
Qed.
Lemma y_modify_top p f a : sized a -> yields (w_modify_most_significant_digit p f a) 1 1 0 (fun v => len v = len a).
Proof.
  intros S. unfold w_modify_most_significant_digit. destruct (Z_le_gt_dec (len a) 64) as [L|L].
  - eapply y_is; [eapply y_bind; [now apply y_access_small|intros v [d ->]]; ystep; ystep; ystep; reflexivity|..]; reflexivity.
  - eapply y_is; [eapply y_bind; [apply y_access_large; lia|intros v ->]; ystep; ystep; ystep; ystep; reflexivity|..]; reflexivity.
Qed.
Lemma y_clear p a : sized a -> yields (w_clear_unused_bits p a) (Xd a) (Xd a) 0 (fun v => len v = len a).
Proof.
  intros S. unfold w_clear_unused_bits. pose proof (excess_some a (proj1 S)) as E. destruct (excess_bits (width a)).
  - eapply y_is; [ystep; now apply y_modify_top|..]; cbn; lia.
  - eapply y_is; [ystep; ystep; reflexivity|..]; cbn; lia.
Qed.

Lemma more_than_one a : len a > 64 -> 2 <= Nd a.
Proof. intros L. unfold Nd, digit_count. apply Z.div_le_lower_bound; lia. Qed.

(** * Digit by digit *)
Lemma y_map f ds : forall i, yields (w_map f i ds) (Z.of_nat (List.length ds)) (Z.of_nat (List.length ds)) 0 (fun v => List.length v = List.length ds).
Proof.
  induction ds as [|d ds IH]; intros i; cbn [w_map].
  - eapply y_is; [ystep; reflexivity|..]; reflexivity.
  - eapply y_is; [ystep; eapply y_bind; [apply IH|intros v E; ystep; cbn [List.length]; now rewrite E]|..]; evald; cbn [List.length]; lia.
Qed.
Lemma y_zipped f ls : forall rs i, List.length ls = List.length rs ->
  yields (w_zip_update f i ls rs) (2 * Z.of_nat (List.length ls)) (Z.of_nat (List.length ls)) 0 (fun v => List.length v = List.length ls).
Proof.
  induction ls as [|l ls IH]; intros [|r rs] i E; try discriminate E; cbn [w_zip_update].
  - eapply y_is; [ystep; reflexivity|..]; reflexivity.
  - eapply y_is; [ystep; eapply y_bind; [apply IH; now injection E|intros v V; ystep; cbn [List.length]; now rewrite V]|..]; evald; cbn [List.length]; lia.
Qed.
Lemma y_modify_digits f a : sized a -> yields (w_modify_digits f a) (Nd a) (Nd a) 0 (fun v => sized v /\ len v = len a).
Proof.
  intros S. unfold w_modify_digits. destruct (Z_le_gt_dec (len a) 64) as [L|L].
  - pose proof (small_n a S L). eapply y_is; [eapply y_bind; [now apply y_access_small|intros v [d ->]]; ystep; ystep; split; [now apply sized_inl|reflexivity]|..]; evald; lia.
  - eapply y_is; [eapply y_bind; [apply y_access_large; lia|intros v ->]; eapply y_bind; [apply y_map|intros v E]; ystep; split; [now apply sized_ext|reflexivity]|..]; destruct S; lia.
Qed.
Lemma y_modify_zipped f a b : sized a -> sized b -> len a = len b -> yields (w_modify_zipped_digits f a b) (2 * Nd a) (Nd a) 0 (fun v => True).
Proof.
  intros S T E. unfold w_modify_zipped_digits. destruct (Z_le_gt_dec (len a) 64) as [L|L].
  - pose proof (small_n a S L). eapply y_is; [eapply y_bind; [now apply y_zip_small|intros v (l & r & ->)]; ystep; ystep; exact I|..]; evald; lia.
  - assert (Nd a = Nd b) as M by (unfold Nd; now rewrite E). destruct S as [_ S], T as [_ T].
    eapply y_is; [eapply y_bind; [apply y_zip_large; [exact E|lia]|intros v ->]; eapply y_bind; [apply y_zipped; lia|intros v V]; ystep; exact I|..]; lia.
Qed.
Lemma X_len a b : len a = len b -> Xd a = Xd b.
Proof. unfold Xd. now intros ->. Qed.
Lemma N_len a b : len a = len b -> Nd a = Nd b.
Proof. unfold Nd. now intros ->. Qed.
Lemma y_clear_as p a b : sized b -> len b = len a -> yields (w_clear_unused_bits p b) (Xd a) (Xd a) 0 (fun v => len v = len a).
Proof. intros S E. eapply y_is; [eapply y_weak; [now apply y_clear|intros v ->; exact E]|..]; try reflexivity; now apply X_len. Qed.
Lemma y_modified f a : sized a -> yields (let& a := w_modify_digits f a in w_clear_unused_bits Self a) (Nd a + Xd a) (Nd a + Xd a) 0 (fun v => len v = len a).
Proof. intros S. eapply y_is; [eapply y_bind; [now apply y_modify_digits|intros v [V E]; now apply y_clear_as]|..]; reflexivity. Qed.
Lemma y_add_digits ls rs : yields (w_add_digits ls rs) (2 * Z.of_nat (List.length ls - 1) + 2) (Z.of_nat (List.length ls - 1) + 1) 0 (fun v => List.length (fst v) = List.length ls).
Proof.
  unfold w_add_digits. eapply y_is; [ystep; ystep; destruct (d_carrying_add a a0) as [t c]; eapply y_bind; [apply y_upd|intros l E; rewrite E]|..].
  - apply (y_times (List.length ls - 1) 1 (w_add_step rs) 2 1 0 (fun v => List.length (fst v) = List.length ls)); [|exact E].
    intros i [x c'] _ J. cbn [fst] in J. unfold w_add_step. eapply y_is; [ystep; ystep; ystep; ystep; cbn [fst]; lia|..]; reflexivity.
  - lia.
  - lia.
  - lia.
Qed.
Lemma y_sub_digits ls rs : yields (w_sub_digits ls rs) (2 * Z.of_nat (List.length ls - 1) + 2) (Z.of_nat (List.length ls - 1) + 1) 0 (fun v => List.length (fst v) = List.length ls).
Proof.
  unfold w_sub_digits. eapply y_is; [ystep; ystep; cbv zeta; eapply y_bind; [apply y_upd|intros l E; rewrite E]|..].
  - apply (y_times (List.length ls - 1) 1 (w_sub_step rs) 2 1 0 (fun v => List.length (fst v) = List.length ls)); [|exact E].
    intros i [x c'] _ J. cbn [fst] in J. unfold w_sub_step. eapply y_is; [ystep; ystep; ystep; ystep; cbn [fst]; lia|..]; reflexivity.
  - lia.
  - lia.
  - lia.
Qed.
Ltac ybind_as P := eapply (y_bind _ _ _ _ _ _ _ _ P).
Definition kin (a v : apint) : Prop := sized v /\ len v = len a.
Lemma kin_inl a d : sized a -> len a <= 64 -> kin a (write_inl a d).
Proof. intros. split; [now apply sized_inl|reflexivity]. Qed.
Lemma kin_ext a ds : sized a -> List.length ds = List.length (digits a) -> kin a (write_ext a ds).
Proof. intros. split; [now apply sized_ext|reflexivity]. Qed.
Lemma y_clear_kin p a b : kin a b -> yields (w_clear_unused_bits p b) (Xd a) (Xd a) 0 (fun v => len v = len a).
Proof. intros [S E]. now apply y_clear_as. Qed.
Lemma y_add a b : sized a -> len a = len b -> yields (w_wrapping_add_assign a b) (2 * Nd a + Xd a) (Nd a + Xd a) 0 (fun v => True).
Proof.
  intros S E. unfold w_wrapping_add_assign. destruct (Z_le_gt_dec (len a) 64) as [L|L].
  - pose proof (small_n a S L). eapply y_is; [eapply y_bind; [now apply y_zip_small|intros v (l & r & ->)]; ybind_as (kin a); [ystep; ystep; now apply kin_inl|intros v V]; eapply y_bind;
      [exact (y_clear_kin Self a v V)|intros; ystep; exact I]|..]; evald; lia.
  - pose proof (proj2 S). eapply y_is; [eapply y_bind; [apply y_zip_large; [exact E|lia]|intros v ->]; ybind_as (kin a);
      [eapply y_bind; [apply y_add_digits|intros [ds c] D; ystep; now apply kin_ext]|intros v V]; eapply y_bind;
      [exact (y_clear_kin Self a v V)|intros; ystep; exact I]|..]; evald; pose proof (more_than_one a L); lia.
Qed.
Lemma y_sub a b : sized a -> len a = len b -> yields (w_wrapping_sub_assign a b) (2 * Nd a + Xd a) (Nd a + Xd a) 0 (fun v => True).
Proof.
  intros S E. unfold w_wrapping_sub_assign. destruct (Z_le_gt_dec (len a) 64) as [L|L].
  - pose proof (small_n a S L). eapply y_is; [eapply y_bind; [now apply y_zip_small|intros v (l & r & ->)]; ybind_as (kin a); [ystep; ystep; now apply kin_inl|intros v V]; eapply y_bind;
      [exact (y_clear_kin Self a v V)|intros; ystep; exact I]|..]; evald; lia.
  - pose proof (proj2 S). eapply y_is; [eapply y_bind; [apply y_zip_large; [exact E|lia]|intros v ->]; ybind_as (kin a);
      [eapply y_bind; [apply y_sub_digits|intros [ds c] D; ystep; now apply kin_ext]|intros v V]; eapply y_bind;
      [exact (y_clear_kin Self a v V)|intros; ystep; exact I]|..]; evald; pose proof (more_than_one a L); lia.
Qed.

(** * One bit, the top bit, the lowest bit *)
Lemma y_get a p : verify_bit_access (width a) p = Ok tt -> yields (w_get_bit_at a p) 1 0 0 (fun _ => True).
Proof.
  intros V. unfold w_get_bit_at. rewrite V. destruct (Z_le_gt_dec (len a) 64) as [L|L].
  - eapply y_is; [ystep; eapply y_bind; [now apply y_access_small|intros v [d ->]]; ystep; exact I|..]; reflexivity.
  - eapply y_is; [ystep; eapply y_bind; [apply y_access_large; lia|intros v ->]; destruct (to_digit_and_bit_pos p); ystep; ystep; exact I|..]; reflexivity.
Qed.
Lemma y_msb a : yields (w_msb a) 1 0 0 (fun _ => True).
Proof.
  unfold w_msb, w_most_significant_digit. destruct (Z_le_gt_dec (len a) 64) as [L|L].
  - eapply y_is; [ybind_as (fun _ : Z => True); [eapply y_bind; [now apply y_access_small|intros v [d ->]]; ystep; exact I|intros v _]; ystep; ystep; exact I|..]; reflexivity.
  - eapply y_is; [ybind_as (fun _ : Z => True); [eapply y_bind; [apply y_access_large; lia|intros v ->]; ystep; ystep; exact I|intros v _]; ystep; ystep; exact I|..]; reflexivity.
Qed.
Lemma y_lsb a : yields (w_lsb a) 1 0 0 (fun _ => True).
Proof.
  unfold w_lsb, w_least_significant_digit. destruct (Z_le_gt_dec (len a) 64) as [L|L].
  - eapply y_is; [ybind_as (fun _ : Z => True); [eapply y_bind; [now apply y_access_small|intros v [d ->]]; ystep; exact I|intros v _]; ystep; exact I|..]; reflexivity.
  - eapply y_is; [ybind_as (fun _ : Z => True); [eapply y_bind; [apply y_access_large; lia|intros v ->]; ystep; exact I|intros v _]; ystep; exact I|..]; reflexivity.
Qed.
(** The change of one bit, which succeeds. *)
Lemma y_modify_bit f a p : verify_bit_access (width a) p = Ok tt -> (forall d q e, f d q <> Val (Err e) \/ ~ 0 <= q < 64) -> 0 <= p -> (len a <= 64 -> p < 64) ->
  yields (w_modify_bit_at f a p) 1 1 0 (fun _ => True).
Proof.
  intros V F P Q. unfold w_modify_bit_at. rewrite V. destruct (Z_le_gt_dec (len a) 64) as [L|L].
  - eapply y_is; [ystep; eapply y_bind; [now apply y_access_small|intros v [d ->]]; ybind_as (fun v : result Z => exists d' : Z, v = Ok d')|..].
    + eapply y_weak; [apply y_lift|]. intros [d'|e] G; [eauto|]. destruct (F d p e) as [F1|F1]; [contradiction|]. exfalso. apply F1. lia.
    + intros v [d' ->]. ystep. ystep. exact I.
    + reflexivity.
    + reflexivity.
    + reflexivity.
  - eapply y_is; [ystep; eapply y_bind; [apply y_access_large; lia|intros v ->]; unfold to_digit_and_bit_pos; ystep; ybind_as (fun v : result Z => exists d' : Z, v = Ok d')|..].
    + eapply y_weak; [apply y_lift|]. intros [d'|e] G; [eauto|]. destruct (F a0 (p mod 64) e) as [F1|F1]; [contradiction|]. exfalso. apply F1. apply Z.mod_pos_bound. lia.
    + intros v [d' ->]. ystep. ystep. exact I.
    + reflexivity.
    + reflexivity.
    + reflexivity.
Qed.
Lemma y_clone p a : sized a -> yields (w_clone p a) (Nd a) (Nd a) (if len a <=? 64 then 0 else Nd a) (fun _ => True).
Proof.
  intros S. unfold w_clone, storage. destruct (Z.leb_spec (len a) 64) as [L|L].
  - pose proof (small_n a S L). eapply y_is; [ystep; ystep; exact I|..]; evald; lia.
  - destruct S as [_ S]. destruct (work_copies p New (List.length (as_digit_slice a))) as (A & B & C). unfold as_digit_slice in *.
    eapply y_is; [ystep; ystep; exact I|..]; evald; rewrite ?A, ?B, ?C; lia.
Qed.

(** * Shifts *)
Lemma y_shl_digits k ds : yields (w_shl_digits k ds) (if Nat.eqb k 0 then 0 else Z.of_nat (List.length ds - k)) (if Nat.eqb k 0 then 0 else Z.of_nat (List.length ds - k) + Z.of_nat k) 0 (fun v => List.length v = List.length ds).
Proof.
  unfold w_shl_digits, shl_digits. destruct (Nat.eqb_spec k 0) as [K|K].
  - eapply y_is; [ystep; ystep; now injection H as <-|..]; reflexivity.
  - eapply y_is; [ystep; ystep|..].
    + eapply y_bind; [apply y_see; apply work_pairs|intros _ _]. eapply y_bind; [apply y_see; apply work_writes|intros _ _]. ystep.
      destruct (Nat.leb_spec k (List.length ds)); [|discriminate]. injection H as <-. rewrite app_length, repeat_length, firstn_length. lia.
    + lia.
    + lia.
    + lia.
Qed.
Lemma y_shl_loop bits ds : forall i c, yields (w_shl_loop bits i c ds) (Z.of_nat (List.length ds)) (Z.of_nat (List.length ds)) 0 (fun v => List.length v = List.length ds).
Proof.
  induction ds as [|d ds IH]; intros i c; cbn [w_shl_loop].
  - eapply y_is; [ystep; reflexivity|..]; reflexivity.
  - eapply y_is; [ystep; ystep; ystep; ystep; eapply y_bind; [apply IH|intros v E; ystep; cbn [List.length]; now rewrite E]|..]; evald; cbn [List.length]; lia.
Qed.
Lemma y_lshr_loop bits ds : forall i c, yields (w_lshr_loop bits i c ds) (Z.of_nat (List.length ds)) (Z.of_nat (List.length ds)) 0 (fun v => List.length v = List.length ds).
Proof.
  induction ds as [|d ds IH]; intros i c; cbn [w_lshr_loop].
  - eapply y_is; [ystep; reflexivity|..]; reflexivity.
  - eapply y_is; [ystep; ystep; ystep; ystep; eapply y_bind; [apply IH|intros v E; ystep; cbn [List.length]; now rewrite E]|..]; evald; cbn [List.length]; lia.
Qed.
Lemma y_lshr_digits k ds : yields (w_lshr_digits k ds) (if Nat.eqb k 0 then 0 else Z.of_nat (List.length ds)) (if Nat.eqb k 0 then 0 else Z.of_nat (List.length ds) + Z.of_nat k) 0 (fun v => List.length v = List.length ds).
Proof.
  unfold w_lshr_digits, lshr_digits. destruct (Nat.eqb_spec k 0) as [K|K].
  - eapply y_is; [ystep; ystep; now injection H as <-|..]; reflexivity.
  - eapply y_is; [ystep; ystep|..].
    + eapply y_bind; [apply y_see; eapply work_app; [apply work_reads|apply work_writes]|intros _ _]. eapply y_bind; [apply y_see; apply work_rev, work_writes|intros _ _]. ystep.
      destruct (Nat.leb_spec k (List.length ds)); [|discriminate]. injection H as <-. rewrite app_length, repeat_length, firstn_length, app_length, skipn_length, firstn_length. lia.
    + lia.
    + lia.
    + lia.
Qed.
