(** Proofs about casts and constructors on a machine whose [usize] is small. *)
From Verif Require Export LUsize2 LConstr.

Lemma z_truncate_fuel_eq M checks : usize_bound M -> forall fuel a t,
  64 * Z.of_nat (length (digits a)) < M -> z_truncate_fuel M checks fuel a t = truncate_fuel fuel a t.
Proof.
  intros HM. induction fuel as [|fuel IH]; intros a t H; [reflexivity|].
  cbn [z_truncate_fuel truncate_fuel]. cbv zeta. unfold width.
  destruct (t =? len a); [reflexivity|]. destruct (len a <? t); [reflexivity|].
  destruct (Nat.eqb _ _); [reflexivity|].
  assert (L : 64 * Z.of_nat (length (firstn (required_digits t) (as_digit_slice a))) < M).
  { unfold as_digit_slice. rewrite firstn_length. lia. }
  rewrite z_from_iter_fit by auto. set (ds := firstn _ _) in *.
  destruct ds as [|d r] eqn:Eds; [reflexivity|].
  rewrite from_iter_spec by discriminate. cbn [bind unwrap].
  destruct (negb _); [|reflexivity]. rewrite IH by exact L. reflexivity.
Qed.
Lemma z_truncate_eq M checks a t : usize_bound M -> 64 * Z.of_nat (length (digits a)) < M ->
  z_truncate M checks a t = truncate a t.
Proof. intros HM H. now apply z_truncate_fuel_eq. Qed.
Lemma z_into_truncate_eq M checks a t : usize_bound M -> 64 * Z.of_nat (length (digits a)) < M ->
  z_into_truncate M checks a t = into_truncate a t.
Proof. intros HM H. unfold z_into_truncate, into_truncate, try_forward_bin_mut_impl. now rewrite z_truncate_eq. Qed.

Lemma required_fit M w : usize_bound M -> 0 < w -> w <= M - 64 -> 64 * Z.of_nat (required_digits w) < M.
Proof.
  intros HM H0 H. destruct (usize_bound_64 M HM) as (k & -> & Hk). rewrite required_digits_Z by auto. lia.
Qed.
Lemma required_full M w : usize_bound M -> M - 64 < w < M -> 64 * Z.of_nat (required_digits w) = M.
Proof.
  intros HM H. destruct (usize_bound_64 M HM) as (k & -> & Hk). rewrite required_digits_Z by lia. lia.
Qed.

(** Padding the digits of an integer to a width and cutting it. *)
Lemma z_pad M checks ds t : usize_bound M -> 0 < t < M -> length ds = required_digits t ->
  (let? a := z_from_iter M checks ds in z_into_truncate M checks a t) =
  if t <=? M - 64 then (let? a := from_iter ds in into_truncate a t) else Stop (too_wide checks).
Proof.
  intros HM Ht Hl. destruct (Z.leb_spec t (M - 64)) as [H|H].
  - pose proof (required_fit M t HM ltac:(lia) H) as F. rewrite <- Hl in F.
    rewrite z_from_iter_fit by auto. destruct ds as [|d r]; [reflexivity|].
    rewrite from_iter_spec by discriminate. cbn [bind]. now apply z_into_truncate_eq.
  - pose proof (required_full M t HM ltac:(lia)) as F. rewrite z_from_iter_stop by (auto; lia). reflexivity.
Qed.

Lemma z_zero_extend_eq M checks a t : usize_bound M -> wf a -> len a <= M - 64 -> 0 < t < M ->
  z_zero_extend M checks a t = if t <=? M - 64 then zero_extend a t else Stop (too_wide checks).
Proof.
  intros HM Ha HL Ht. pose proof (wf_sh _ Ha) as (A0 & A1 & A2).
  unfold z_zero_extend, zero_extend, width. cbv zeta.
  destruct (Z.eqb_spec t (len a)) as [->|N]. { destruct (Z.leb_spec (len a) (M - 64)); [reflexivity|lia]. }
  destruct (Z.ltb_spec t (len a)). { destruct (Z.leb_spec t (M - 64)); [reflexivity|lia]. }
  pose proof (required_digits_mono (len a) t ltac:(lia)).
  destruct (Nat.eqb_spec (required_digits (len a)) (required_digits t)) as [E|E].
  { destruct (Z.leb_spec t (M - 64)); [reflexivity|]. pose proof (required_full M t HM ltac:(lia)).
    pose proof (required_fit M (len a) HM A0 HL). lia. }
  destruct (Nat.ltb_spec (required_digits (len a)) (required_digits t)); [|lia]. cbn [negb].
  rewrite z_pad; auto.
  - destruct (t <=? M - 64); reflexivity.
  - unfold as_digit_slice. rewrite app_length, repeat_length. lia.
Qed.

Lemma z_sign_extend_eq M checks a t : usize_bound M -> wf a -> len a <= M - 64 -> 0 < t < M ->
  z_sign_extend M checks a t = if t <=? M - 64 then sign_extend a t else Stop (too_wide checks).
Proof.
  intros HM Ha HL Ht. pose proof (wf_sh _ Ha) as Hs. pose proof Hs as (A0 & A1 & A2).
  unfold z_sign_extend, sign_extend, width. cbv zeta.
  destruct (Z.eqb_spec t (len a)) as [->|N]. { destruct (Z.leb_spec (len a) (M - 64)); [reflexivity|lia]. }
  destruct (Z.ltb_spec t (len a)). { destruct (Z.leb_spec t (M - 64)); [reflexivity|lia]. }
  pose proof (required_digits_mono (len a) t ltac:(lia)).
  rewrite msb_spec by auto. cbn [bind]. destruct (bit a (len a - 1)); cbn [negb].
  2:{ now apply z_zero_extend_eq. }
  destruct (Nat.eqb_spec (required_digits (len a)) (required_digits t)) as [E|E].
  { destruct (Z.leb_spec t (M - 64)); [reflexivity|]. pose proof (required_full M t HM ltac:(lia)).
    pose proof (required_fit M (len a) HM A0 HL). lia. }
  destruct (Nat.ltb_spec (required_digits (len a)) (required_digits t)); [|lia]. cbn [negb].
  destruct (digits_snoc a Hs) as (init & d & Ed & Hi & Hd & Li).
  pose proof (unsigned_bound _ Ha) as Hu.
  rewrite (fill_msd_spec a (len a) init d); auto; [|apply Hu]. cbn [bind].
  rewrite z_pad; auto.
  - destruct (t <=? M - 64); reflexivity.
  - unfold as_digit_slice. cbn [digits]. rewrite Ed in A1. rewrite !app_length, repeat_length in *. cbn [length] in *. lia.
Qed.

Lemma z_casts M checks a t : usize_bound M -> wf a -> len a <= M - 64 -> 0 < t < M ->
  z_truncate M checks a t = truncate a t /\
  z_zero_extend M checks a t = (if t <=? M - 64 then zero_extend a t else Stop (too_wide checks)) /\
  z_sign_extend M checks a t = (if t <=? M - 64 then sign_extend a t else Stop (too_wide checks)) /\
  z_zero_resize M checks a t = (if t <=? M - 64 then zero_resize a t else Stop (too_wide checks)) /\
  z_sign_resize M checks a t = (if t <=? M - 64 then sign_resize a t else Stop (too_wide checks)) /\
  z_into_truncate M checks a t = into_truncate a t /\
  z_into_zero_extend M checks a t = (if t <=? M - 64 then into_zero_extend a t else Stop (too_wide checks)) /\
  z_into_sign_extend M checks a t = (if t <=? M - 64 then into_sign_extend a t else Stop (too_wide checks)).
Proof.
  intros HM Ha HL Ht. pose proof (z_truncate_eq M checks a t HM (wf_fill M a HM Ha HL)) as E1.
  pose proof (z_zero_extend_eq M checks a t HM Ha HL Ht) as E2.
  pose proof (z_sign_extend_eq M checks a t HM Ha HL Ht) as E3.
  split; [exact E1|]. split; [exact E2|]. split; [exact E3|].
  unfold z_zero_resize, zero_resize, z_sign_resize, sign_resize, width.
  unfold z_into_truncate, into_truncate, z_into_zero_extend, into_zero_extend, z_into_sign_extend, into_sign_extend,
    try_forward_bin_mut_impl.
  rewrite E1, E2, E3.
  destruct (Z.leb_spec t (len a)), (Z.leb_spec t (M - 64)); try lia; repeat split; reflexivity.
Qed.

Lemma z_repeat_digit_eq M checks w d : usize_bound M -> 0 < w < M ->
  z_repeat_digit M checks w d = if w <=? M - 64 then repeat_digit w d else Stop (too_wide checks).
Proof.
  intros HM Hw. unfold z_repeat_digit, repeat_digit. destruct (Z.leb_spec w (M - 64)) as [H|H].
  - pose proof (required_fit M w HM ltac:(lia) H) as F.
    pose proof (required_digits_pos w ltac:(lia)) as Hp.
    rewrite z_from_iter_fit by (auto; rewrite repeat_length; lia).
    destruct (repeat d (required_digits w)) as [|x r] eqn:E.
    { apply (f_equal (@length Z)) in E. rewrite repeat_length in E. cbn in E. lia. }
    rewrite from_iter_spec by discriminate. cbn [bind unwrap].
    rewrite z_into_truncate_eq; auto. cbn [digits]. rewrite <- E, repeat_length. lia.
  - pose proof (required_full M w HM ltac:(lia)) as F.
    rewrite z_from_iter_stop by (auto; rewrite repeat_length; lia). reflexivity.
Qed.

Lemma z_create M checks w : usize_bound M -> 0 < w < M ->
  z_zero M checks w = (if w <=? M - 64 then zero w else Stop (too_wide checks)) /\
  z_one M checks w = (if w <=? M - 64 then one w else Stop (too_wide checks)) /\
  z_all_set M checks w = (if w <=? M - 64 then all_set w else Stop (too_wide checks)) /\
  z_signed_min_value M checks w = (if w <=? M - 64 then signed_min_value w else Stop (too_wide checks)) /\
  z_signed_max_value M checks w = (if w <=? M - 64 then signed_max_value w else Stop (too_wide checks)).
Proof.
  intros HM Hw. unfold z_signed_min_value, signed_min_value, z_signed_max_value, signed_max_value.
  unfold z_zero, zero, z_all_set, all_set. rewrite !z_repeat_digit_eq by auto.
  split; [reflexivity|]. split.
  { unfold z_one, one. assert (Ea : from_u64 1 = Val (mk_apint 64 [1])) by reflexivity.
    set (a := mk_apint 64 [1]) in *. assert (La : len a = 64) by reflexivity.
    assert (Wa : wf a).
    { split; [reflexivity|]. split; [reflexivity|]. split; [|reflexivity].
      constructor; [unfold digit_ok; lia|constructor]. }
    rewrite Ea. cbn [bind]. destruct (usize_bound_64 M HM) as (k & EM & Hk).
    destruct (z_casts M checks a w HM Wa ltac:(lia) Hw) as (_ & _ & _ & E & _). rewrite E. reflexivity. }
  split; [reflexivity|]. destruct (w <=? M - 64); split; reflexivity.
Qed.

Lemma draw_length {S : Type} (next : S -> Z * S) n : forall s, length (fst (draw next n s)) = n.
Proof.
  induction n as [|n IH]; intros s; [reflexivity|]. cbn [draw]. destruct (next s) as [d s']. specialize (IH s').
  destruct (draw next n s') as [ds s'']. cbn [fst length] in *. lia.
Qed.
Lemma z_random_eq {S : Type} M checks (next : S -> Z * S) w s : usize_bound M -> 0 < w < M ->
  z_random_with_width_using M checks next w s =
  if w <=? M - 64 then random_with_width_using next w s else Stop (too_wide checks).
Proof.
  intros HM Hw. unfold z_random_with_width_using, random_with_width_using.
  pose proof (required_digits_pos w ltac:(lia)) as Hp.
  destruct (Nat.leb_spec 1 (required_digits w)); [|lia].
  pose proof (draw_length next (required_digits w) s) as L.
  destruct (draw next (required_digits w) s) as [ds s']. cbn [fst] in L.
  destruct (Z.leb_spec w (M - 64)) as [H1|H1].
  - pose proof (required_fit M w HM ltac:(lia) H1) as F. rewrite <- L in F.
    rewrite z_from_iter_fit by auto. destruct ds as [|x r]; [cbn in L; lia|].
    rewrite from_iter_spec by discriminate. cbn [bind unwrap]. now rewrite z_into_truncate_eq.
  - pose proof (required_full M w HM ltac:(lia)) as F.
    rewrite z_from_iter_stop by (auto; lia). reflexivity.
Qed.
