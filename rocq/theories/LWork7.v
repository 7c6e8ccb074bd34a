(** How many digits are read, written and allocated: the statements. *)
From Verif Require Export LWork6.
From Verif Require Import LBits LShift LCount LCast LRel LHom.
From Coq Require Import Lia ZArith List Bool.
Import ListNotations.
Open Scope Z_scope.

Ltac done_by Y := eapply (y_work _ _ _ _ (fun _ => True)); [eapply y_weak; [Y|intros; exact I]|].
Lemma work_one_fact a p n x : wf a -> n = digit_count (len a) -> x = partly_used (len a) ->
  work (fst (w_bitnot a)) (n + x) (n + x) 0 /\ work (fst (w_set_all a)) (n + x) (n + x) 0 /\ work (fst (w_flip_all a)) (n + x) (n + x) 0 /\ work (fst (w_unset_all a)) n n 0 /\
  work (fst (w_count_ones a)) n 0 0 /\ work (fst (w_count_zeros a)) n 0 0 /\ work (fst (w_hash_feed a)) n 0 0 /\
  work (fst (w_msb a)) 1 0 0 /\ work (fst (w_lsb a)) 1 0 0 /\ work (fst (w_is_even a)) 1 0 0 /\ work (fst (w_is_odd a)) 1 0 0 /\
  work (fst (w_clone p a)) n n (if len a <=? 64 then 0 else n).
Proof.
  intros W -> ->. fold (Nd a) (Xd a). pose proof (wf_sized a W) as S. pose proof (wf_sh a W) as Sh. pose proof (many_digits a W) as M.
  destruct (bitnot_spec a W) as (b1 & E1 & _), (set_all_spec a Sh) as (b2 & E2 & _), (flip_all_spec a W) as (b3 & E3 & _), (unset_all_spec a Sh) as (b4 & E4 & _).
  split; [done_by ltac:(now apply y_modified); rewrite <- (we_bitnot a) in E1; exact E1|].
  split; [done_by ltac:(now apply y_modified); rewrite <- (we_set_all a) in E2; exact E2|].
  split; [done_by ltac:(now apply y_modified); rewrite <- (we_flip_all a) in E3; exact E3|].
  split; [done_by ltac:(now apply y_modify_digits); unfold unset_all in E4; rewrite <- (we_modify_digits d_unset_all a) in E4; exact E4|].
  rewrite <- M.
  split; [unfold w_count_ones; rewrite (fst_bind _ tt) by reflexivity; cbn [fst see wlift]; rewrite app_nil_r; apply work_reads|].
  split; [unfold w_count_zeros; rewrite (fst_bind _ tt) by reflexivity; cbn [fst see wlift]; rewrite app_nil_r; apply work_reads|].
  split; [unfold w_hash_feed; rewrite (fst_bind _ tt) by reflexivity; cbn [fst see wval]; rewrite app_nil_r; apply work_reads|].
  split; [done_by ltac:(apply y_msb); rewrite we_msb; now apply msb_spec|].
  split; [done_by ltac:(apply y_lsb); rewrite we_lsb; now apply lsb_spec|].
  split; [eapply (y_work _ _ _ _ (fun _ => True)); [unfold w_is_even; eapply y_is; [eapply y_bind; [apply y_lsb|intros v _; ystep; exact I]|..]; reflexivity|rewrite we_is_even; now apply is_even_spec]|].
  split; [done_by ltac:(apply y_lsb); rewrite we_lsb; now apply lsb_spec|].
  rewrite M. done_by ltac:(now apply y_clone). rewrite we_clone. now apply clone_spec.
Qed.
Lemma set_fine d q e : d_set d q <> Val (Err e) \/ ~ 0 <= q < 64.
Proof. destruct (Z_lt_ge_dec q 64); [|right; lia]. left. unfold d_set, verify_bit_access. rewrite (proj2 (Z.ltb_lt q 64)) by lia. destruct (u64_shl 1 q); discriminate. Qed.
Lemma unset_fine d q e : d_unset d q <> Val (Err e) \/ ~ 0 <= q < 64.
Proof. destruct (Z_lt_ge_dec q 64); [|right; lia]. left. unfold d_unset, verify_bit_access. rewrite (proj2 (Z.ltb_lt q 64)) by lia. destruct (u64_shl 1 q); discriminate. Qed.
Lemma flip_fine d q e : d_flip d q <> Val (Err e) \/ ~ 0 <= q < 64.
Proof. destruct (Z_lt_ge_dec q 64); [|right; lia]. left. unfold d_flip, verify_bit_access. rewrite (proj2 (Z.ltb_lt q 64)) by lia. destruct (u64_shl 1 q); discriminate. Qed.
Lemma work_bit_fact a s : wf a -> 0 <= s < len a ->
  work (fst (w_get_bit_at a s)) 1 0 0 /\ work (fst (w_set_bit_at a s)) 1 1 0 /\ work (fst (w_unset_bit_at a s)) 1 1 0 /\ work (fst (w_flip_bit_at a s)) 1 1 0.
Proof.
  intros W H. pose proof (bit_fine a s H) as V. split; [done_by ltac:(now apply y_get); rewrite we_get_bit_at; apply get_bit_at_spec; [now apply wf_sh|exact H]|].
  destruct (set_bit_at_spec a s W H) as (b1 & E1 & _), (unset_bit_at_spec a s W H) as (b2 & E2 & _), (flip_bit_at_spec a s W H) as (b3 & E3 & _).
  split; [|split].
  - done_by ltac:(apply y_modify_bit; [exact V|exact set_fine|lia|lia]). etransitivity; [apply we_modify_bit_at|exact E1].
  - done_by ltac:(apply y_modify_bit; [exact V|exact unset_fine|lia|lia]). etransitivity; [apply we_modify_bit_at|exact E2].
  - done_by ltac:(apply y_modify_bit; [exact V|exact flip_fine|lia|lia]). etransitivity; [apply we_modify_bit_at|exact E3].
Qed.
Lemma work_two_fact a b n x : wf a -> wf b -> len a = len b -> n = digit_count (len a) -> x = partly_used (len a) ->
  work (fst (w_bitand_assign a b)) (2 * n) n 0 /\ work (fst (w_bitor_assign a b)) (2 * n) n 0 /\ work (fst (w_bitxor_assign a b)) (2 * n) n 0 /\
  work (fst (w_wrapping_add_assign a b)) (2 * n + x) (n + x) 0 /\ work (fst (w_wrapping_sub_assign a b)) (2 * n + x) (n + x) 0.
Proof.
  intros W V E -> ->. fold (Nd a) (Xd a). pose proof (wf_sized a W) as S. pose proof (wf_sized b V) as T.
  destruct (bitand_assign_spec a b W V E) as (b1 & E1 & _), (bitor_assign_spec a b W V E) as (b2 & E2 & _), (bitxor_assign_spec a b W V E) as (b3 & E3 & _),
    (wrapping_add_assign_spec a b W V E) as (b4 & E4 & _), (wrapping_sub_assign_spec a b W V E) as (b5 & E5 & _).
  split; [done_by ltac:(now apply y_modify_zipped); etransitivity; [apply we_modify_zipped_digits|exact E1]|].
  split; [done_by ltac:(now apply y_modify_zipped); etransitivity; [apply we_modify_zipped_digits|exact E2]|].
  split; [done_by ltac:(now apply y_modify_zipped); etransitivity; [apply we_modify_zipped_digits|exact E3]|].
  split; [done_by ltac:(now apply y_add); rewrite we_wrapping_add_assign; exact E4|].
  done_by ltac:(now apply y_sub). rewrite we_wrapping_sub_assign. exact E5.
Qed.
Lemma work_scan_fact a n x z o h : wf a -> n = digit_count (len a) -> x = partly_used (len a) ->
  z = how_many n (fun i => unsigned a mod 2 ^ (64 * i) =? 0) -> o = how_many n (fun i => (unsigned a + 1) mod 2 ^ (64 * i) =? 0) -> h = how_many n (fun i => unsigned a / 2 ^ (64 * (n - i)) =? 0) ->
  work (fst (w_wrapping_inc a)) (o + x) (o + x) 0 /\ work (fst (w_wrapping_dec a)) (z + x) (z + x) 0 /\ work (fst (w_wrapping_neg a)) (n + z + 2 * x) (n + z + 2 * x) 0 /\
  work (fst (w_is_zero a)) z 0 0 /\ work (fst (w_trailing_zeros a)) z 0 0 /\ work (fst (w_leading_zeros a)) h 0 0.
Proof.
  intros W -> -> -> -> ->. fold (Nd a) (Xd a). pose proof (wf_sh a W) as Sh.
  destruct (wrapping_inc_spec a Sh) as (b1 & E1 & _), (wrapping_dec_spec a Sh) as (b2 & E2 & _), (wrapping_neg_spec a W) as (b3 & E3 & _).
  split; [done_by ltac:(now apply y_inc); rewrite we_wrapping_inc; exact E1|].
  split; [done_by ltac:(now apply y_dec); rewrite we_wrapping_dec; exact E2|].
  split; [done_by ltac:(now apply y_neg); rewrite we_wrapping_neg; exact E3|].
  split; [done_by ltac:(now apply y_is_zero); rewrite we_is_zero; now apply is_zero_spec|].
  destruct (trailing_zeros_spec a W) as (k & E4 & _), (leading_zeros_spec a W) as (l & E5 & _).
  split; [done_by ltac:(now apply y_trailing); rewrite we_trailing_zeros; exact E4|].
  done_by ltac:(now apply y_leading). rewrite we_leading_zeros. exact E5.
Qed.

Lemma work_compare_fact a b n l h : wf a -> wf b -> len a = len b -> n = digit_count (len a) ->
  l = how_many n (fun i => unsigned a mod 2 ^ (64 * i) =? unsigned b mod 2 ^ (64 * i)) -> h = how_many n (fun i => unsigned a / 2 ^ (64 * (n - i)) =? unsigned b / 2 ^ (64 * (n - i))) ->
  work (fst (w_apint_eqb a b)) (2 * l) 0 0 /\ work (fst (w_checked_ult a b)) (2 * h) 0 0 /\
  (len a <= 64 -> work (fst (w_checked_slt a b)) 2 0 0) /\
  (64 < len a -> (signed a < 0 <-> signed b < 0) -> work (fst (w_checked_slt a b)) (2 + 2 * h) 0 0) /\
  (64 < len a -> ~ (signed a < 0 <-> signed b < 0) -> work (fst (w_checked_slt a b)) 2 0 0).
Proof.
  intros W V E -> -> ->. fold (Nd a).
  assert (snd (w_checked_slt a b) = Val (Ok (signed a <? signed b))) as Es by (rewrite (proj1 (proj2 (watch_mul_results_fact a b Self []))); now apply checked_slt_spec).
  split; [done_by ltac:(now apply y_eq); apply we_apint_eqb|].
  split; [done_by ltac:(now apply y_ult); rewrite we_checked_ult; now apply checked_ult_spec|].
  split; [intros L; done_by ltac:(now apply y_slt_small); exact Es|].
  assert (Bool.eqb (signed a <? 0) (signed b <? 0) = true <-> (signed a < 0 <-> signed b < 0)) as B.
  { rewrite Bool.eqb_true_iff. destruct (Z.ltb_spec (signed a) 0), (Z.ltb_spec (signed b) 0); split; try discriminate; try reflexivity; lia. }
  split; intros L.
  - intros Sg. apply B in Sg. done_by ltac:(eapply y_is; [now apply y_slt_large|rewrite Sg; reflexivity|reflexivity|reflexivity]). exact Es.
  - intros Sg. assert (Bool.eqb (signed a <? 0) (signed b <? 0) = false) as Sf by (apply Bool.not_true_iff_false; tauto).
    done_by ltac:(eapply y_is; [now apply y_slt_large|rewrite Sf; reflexivity|reflexivity|reflexivity]). exact Es.
Qed.
Lemma work_shift_fact a s n x k : wf a -> 0 <= s < len a -> n = digit_count (len a) -> x = partly_used (len a) -> k = s / 64 ->
  (len a <= 64 -> work (fst (w_wrapping_shl_assign a s)) (1 + x) (1 + x) 0 /\ work (fst (w_wrapping_lshr_assign a s)) 1 1 0) /\
  (64 < len a ->
   work (fst (w_wrapping_shl_assign a s)) ((if s <? 64 then 0 else n - k) + (if s mod 64 =? 0 then 0 else n - k) + x) ((if s <? 64 then 0 else n) + (if s mod 64 =? 0 then 0 else n - k) + x) 0 /\
   work (fst (w_wrapping_lshr_assign a s)) ((if s <? 64 then 0 else n) + (if s mod 64 =? 0 then 0 else n)) ((if s <? 64 then 0 else n + k) + (if s mod 64 =? 0 then 0 else n)) 0).
Proof.
  intros W H -> -> ->. fold (Nd a) (Xd a). pose proof (wf_sized a W) as S. destruct (wrapping_shl_assign_spec a s W H) as (b1 & E1 & _), (wrapping_lshr_assign_spec a s W H) as (b2 & E2 & _).
  rewrite <- we_wrapping_shl_assign in E1. rewrite <- we_wrapping_lshr_assign in E2. split; intros L; split.
  - done_by ltac:(now apply y_shl_small). exact E1.
  - done_by ltac:(now apply y_lshr_small). exact E2.
  - done_by ltac:(now apply y_shl_large). exact E1.
  - done_by ltac:(now apply y_lshr_large). exact E2.
Qed.
Lemma work_ashr_fact a s n x k : wf a -> 0 <= s < len a -> n = digit_count (len a) -> x = partly_used (len a) -> k = s / 64 ->
  (0 <= signed a -> forall r w, work (fst (w_wrapping_lshr_assign a s)) r w 0 -> work (fst (w_wrapping_ashr_assign a s)) (1 + r) w 0) /\
  (signed a < 0 -> s = 0 -> work (fst (w_wrapping_ashr_assign a s)) 1 0 0) /\
  (signed a < 0 -> 0 < s -> len a <= 64 -> work (fst (w_wrapping_ashr_assign a s)) (2 + x) (1 + x) 0) /\
  (signed a < 0 -> 0 < s -> 64 < len a -> s mod 64 = 0 -> work (fst (w_wrapping_ashr_assign a s)) (n + 1 + 2 * x) (n + 2 * x) 0) /\
  (signed a < 0 -> 0 < s -> 64 < len a -> s mod 64 <> 0 -> work (fst (w_wrapping_ashr_assign a s)) (2 * n - k + 2 * x) (n + 2 * x) 0).
Proof.
  intros W H -> -> ->. fold (Nd a) (Xd a). pose proof (wf_sized a W) as S. destruct (wrapping_ashr_assign_spec a s W H) as (b1 & E1 & _). rewrite <- we_wrapping_ashr_assign in E1.
  assert (snd (w_msb a) = Val (signed a <? 0)) as M by (rewrite we_msb; now apply sign_bit).
  split; [|split; [|split; [|split]]].
  - intros P r w Hw. rewrite (proj2 (Z.ltb_ge _ _) P) in M. done_by ltac:(apply y_ashr_positive; [exact M|intros v _; split; [exact I|exact Hw]]). exact E1.
  - intros P ->. rewrite (proj2 (Z.ltb_lt _ _) P) in M. done_by ltac:(apply y_ashr_none; [lia|exact M]). exact E1.
  - intros P Q L. rewrite (proj2 (Z.ltb_lt _ _) P) in M. done_by ltac:(apply y_ashr_small; [exact S|exact L|lia|exact M]). exact E1.
  - intros P Q L R. rewrite (proj2 (Z.ltb_lt _ _) P) in M. apply Z.eqb_eq in R. done_by ltac:(eapply y_is; [apply y_ashr_large; [exact S|exact L|lia|exact M]|rewrite R; lia|lia|reflexivity]). exact E1.
  - intros P Q L R. rewrite (proj2 (Z.ltb_lt _ _) P) in M. apply Z.eqb_neq in R. done_by ltac:(eapply y_is; [apply y_ashr_large; [exact S|exact L|lia|exact M]|rewrite R; lia|lia|reflexivity]). exact E1.
Qed.
(** Refused calls. *)
Lemma work_refused_fact a b s : wf a -> wf b -> len a <> len b -> len a <= s ->
  work (fst (w_bitand_assign a b)) 0 0 0 /\ work (fst (w_bitor_assign a b)) 0 0 0 /\ work (fst (w_bitxor_assign a b)) 0 0 0 /\
  work (fst (w_wrapping_add_assign a b)) 0 0 0 /\ work (fst (w_wrapping_sub_assign a b)) 0 0 0 /\ work (fst (w_wrapping_mul_assign a b)) 0 0 0 /\
  work (fst (w_apint_eqb a b)) 0 0 0 /\ work (fst (w_checked_ult a b)) 0 0 0 /\ work (fst (w_checked_slt a b)) 0 0 0 /\ work (fst (w_strict_assign a b)) 0 0 0 /\
  work (fst (w_get_bit_at a s)) 0 0 0 /\ work (fst (w_set_bit_at a s)) 0 0 0 /\ work (fst (w_unset_bit_at a s)) 0 0 0 /\ work (fst (w_flip_bit_at a s)) 0 0 0 /\
  work (fst (w_wrapping_shl_assign a s)) 0 0 0 /\ work (fst (w_wrapping_lshr_assign a s)) 0 0 0 /\ work (fst (w_wrapping_ashr_assign a s)) 1 0 0.
Proof.
  intros W V E H. assert (width a =? width b = false) as Ew by now apply Z.eqb_neq.
  assert (verify_bit_access (width a) s = Err (InvalidBitAccess s (width a))) as Vb by (unfold verify_bit_access, width; now rewrite (proj2 (Z.ltb_ge _ _) H)).
  assert (verify_shift_amount (width a) s = Err (InvalidShiftAmount s (width a))) as Vs by (unfold verify_shift_amount, width; now rewrite (proj2 (Z.ltb_ge _ _) H)).
  assert (w_zip_access_data a b = ([Branch false], Val (Err (UnmatchingBitwidth (width a) (width b))))) as Zp by (unfold w_zip_access_data, zip_access_data; rewrite Ew; reflexivity).
  split; [unfold w_bitand_assign, w_modify_zipped_digits; rewrite Zp; now repeat split|].
  split; [unfold w_bitor_assign, w_modify_zipped_digits; rewrite Zp; now repeat split|].
  split; [unfold w_bitxor_assign, w_modify_zipped_digits; rewrite Zp; now repeat split|].
  split; [unfold w_wrapping_add_assign; rewrite Zp; now repeat split|].
  split; [unfold w_wrapping_sub_assign; rewrite Zp; now repeat split|].
  split; [unfold w_wrapping_mul_assign; rewrite Zp; now repeat split|].
  split; [unfold w_apint_eqb, len_bits; unfold width in Ew; rewrite Ew; now repeat split|].
  split; [unfold w_checked_ult; rewrite Zp; now repeat split|].
  split; [unfold w_checked_slt; rewrite Zp; now repeat split|].
  split; [unfold w_strict_assign; rewrite Ew; now repeat split|].
  split; [unfold w_get_bit_at; rewrite Vb; now repeat split|].
  split; [unfold w_set_bit_at, w_modify_bit_at; rewrite Vb; now repeat split|].
  split; [unfold w_unset_bit_at, w_modify_bit_at; rewrite Vb; now repeat split|].
  split; [unfold w_flip_bit_at, w_modify_bit_at; rewrite Vb; now repeat split|].
  split; [unfold w_wrapping_shl_assign; rewrite Vs; now repeat split|].
  split; [unfold w_wrapping_lshr_assign; rewrite Vs; now repeat split|].
  assert (snd (w_msb a) = Val (signed a <? 0)) as M by (rewrite we_msb; now apply sign_bit). pose proof (y_work _ _ _ _ _ _ (y_msb a) M) as Wm.
  unfold w_wrapping_ashr_assign. rewrite (fst_bind _ _ _ M). eapply work_is; [apply work_app; [exact Wm|]|..]; [|rewrite Z.add_0_r; reflexivity..].
  rewrite (fst_bind _ (signed a <? 0)) by reflexivity. destruct (signed a <? 0); cbn [negb].
  - rewrite Vs. now repeat split.
  - unfold w_wrapping_lshr_assign. rewrite Vs. now repeat split.
Qed.
