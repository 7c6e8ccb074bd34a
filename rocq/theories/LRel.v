(** Proofs about comparison, equality and hashing. *)
From Verif Require Export LBits MRelational.

Lemma ult_loop_spec ls : forall rs,
  digs ls -> digs rs -> length ls = length rs ->
  ult_loop (rev ls) (rev rs) = (uval ls <? uval rs).
Proof.
  induction ls as [|l ls IH] using rev_ind; intros rs Hl Hr Hlen.
  - destruct rs; [|discriminate]. reflexivity.
  - destruct rs as [|r rs _] using rev_ind; [rewrite app_length in Hlen; cbn in Hlen; lia|].
    rewrite !app_length in Hlen. cbn in Hlen.
    apply digs_app in Hl as [Hls Hl]. apply digs_cons in Hl as [Hl _].
    apply digs_app in Hr as [Hrs Hr]. apply digs_cons in Hr as [Hr _].
    rewrite !rev_unit. cbn [ult_loop]. rewrite !uval_app, !uval_one.
    assert (length ls = length rs) as E by lia. rewrite <- E.
    pose proof (uval_bound _ Hls). pose proof (uval_bound _ Hrs) as Hb. rewrite <- E in Hb.
    pose proof (P_pos (length ls)). unfold dok in *.
    destruct (Z.compare_spec l r) as [->|Hlt|Hgt].
    + rewrite IH by auto. apply eq_true_iff_eq. rewrite !Z.ltb_lt. lia.
    + symmetry. apply Z.ltb_lt. nia.
    + symmetry. apply Z.ltb_ge. nia.
Qed.

Lemma checked_ult_spec a b :
  wf a -> wf b -> len a = len b -> checked_ult a b = Val (Ok (unsigned a <? unsigned b)).
Proof.
  intros Ha Hb Hl. apply wf_sh in Ha, Hb. unfold checked_ult, bindr.
  pose proof Ha as (Ha0 & Ha1 & Ha2). pose proof Hb as (Hb0 & Hb1 & Hb2).
  destruct (zip_access_data_spec a b Ha Hb Hl) as [(l & r & Hw & Ea & Eb & Hdl & Hdr & ->)|(Hw & ->)];
    cbn [bind].
  - unfold unsigned. rewrite Ea, Eb. cbn [digits]. now rewrite !uval_one.
  - rewrite ult_loop_spec; auto. congruence.
Qed.
Lemma checked_ult_err a b :
  len a <> len b -> checked_ult a b = Val (Err (UnmatchingBitwidth (len a) (len b))).
Proof. intros H. unfold checked_ult, bindr. now rewrite zip_access_data_mismatch. Qed.

Lemma checked_ule_spec a b :
  wf a -> wf b -> len a = len b -> checked_ule a b = Val (Ok (unsigned a <=? unsigned b)).
Proof.
  intros. unfold checked_ule. rewrite checked_ult_spec by auto. cbn. do 2 f_equal. lia.
Qed.
Lemma checked_ugt_spec a b :
  wf a -> wf b -> len a = len b -> checked_ugt a b = Val (Ok (unsigned a >? unsigned b)).
Proof.
  intros. unfold checked_ugt. rewrite checked_ult_spec by auto. do 2 f_equal. lia.
Qed.
Lemma checked_uge_spec a b :
  wf a -> wf b -> len a = len b -> checked_uge a b = Val (Ok (unsigned a >=? unsigned b)).
Proof.
  intros. unfold checked_uge. rewrite checked_ult_spec by auto. cbn. do 2 f_equal. lia.
Qed.

Lemma shl_as_i64 x w :
  0 < w <= 64 -> 0 <= x < 2 ^ w ->
  exists y, u64_shl x (64 - w) = Val y /\ u64_as_i64 y = to_signed w x * 2 ^ (64 - w).
Proof.
  intros Hw Hx. unfold u64_shl. destruct (Z.ltb_spec (64 - w) 64); [|lia].
  eexists; split; [reflexivity|]. rewrite Z.shiftl_mul_pow2 by lia.
  assert (0 < 2 ^ (64 - w)) by (apply Z.pow_pos_nonneg; lia).
  assert (EB : B = 2 ^ w * 2 ^ (64 - w)) by (rewrite <- Z.pow_add_r, B_pow by lia; f_equal; lia).
  rewrite Z.mod_small by (rewrite EB; nia).
  unfold u64_as_i64, to_signed. pose proof (pow2_double w ltac:(lia)) as E2.
  assert (9223372036854775808 = 2 ^ (w - 1) * 2 ^ (64 - w)) as ->.
  { rewrite <- Z.pow_add_r by lia. replace (w - 1 + (64 - w)) with 63 by lia. reflexivity. }
  destruct (Z.ltb_spec x (2 ^ (w - 1))), (Z.ltb_spec (x * 2 ^ (64 - w)) (2 ^ (w - 1) * 2 ^ (64 - w))); try nia.
Qed.

Lemma checked_slt_spec a b :
  wf a -> wf b -> len a = len b -> checked_slt a b = Val (Ok (signed a <? signed b)).
Proof.
  intros Ha Hb Hl. pose proof (wf_sh _ Ha) as Sa. pose proof (wf_sh _ Hb) as Sb.
  unfold checked_slt, bindr.
  pose proof (unsigned_bound a Ha) as Ba. pose proof (unsigned_bound b Hb) as Bb.
  destruct (zip_access_data_spec a b Sa Sb Hl) as [(l & r & Hw & Ea & Eb & Hdl & Hdr & ->)|(Hw & ->)];
    cbn [bind].
  - unfold signed. rewrite <- Hl in *. unfold usize_sub, width. destruct (Z.leb_spec (len a) 64); [|lia].
    cbn [bind]. unfold unsigned in *. rewrite Ea in Ba. rewrite Eb in Bb. cbn [digits len] in Ba, Bb.
    rewrite uval_one in Ba, Bb.
    destruct (shl_as_i64 l (len a)) as (y & -> & Ey); auto.
    destruct (shl_as_i64 r (len a)) as (z & -> & Ez); auto. cbn [bind]. rewrite Ey, Ez.
    assert (uval (digits a) = l) as -> by (rewrite Ea; apply uval_one).
    assert (uval (digits b) = r) as -> by (rewrite Eb; apply uval_one).
    assert (0 < 2 ^ (64 - len a)) by (apply Z.pow_pos_nonneg; lia).
    do 2 f_equal. apply eq_true_iff_eq. rewrite !Z.ltb_lt. symmetry. apply Z.mul_lt_mono_pos_r. lia.
  - rewrite !msb_spec by auto. cbn [bind].
    rewrite (signed_msb a), (signed_msb b) by auto. rewrite <- Hl in *.
    destruct (bit a (len a - 1)), (bit b (len a - 1)).
    + unfold checked_ugt. rewrite checked_ult_spec by auto. do 2 f_equal. lia.
    + do 2 f_equal. symmetry. apply Z.ltb_lt. lia.
    + do 2 f_equal. symmetry. apply Z.ltb_ge. lia.
    + rewrite checked_ult_spec by auto. reflexivity.
Qed.
Lemma checked_slt_err a b :
  len a <> len b -> checked_slt a b = Val (Err (UnmatchingBitwidth (len a) (len b))).
Proof. intros H. unfold checked_slt, bindr. now rewrite zip_access_data_mismatch. Qed.

Lemma checked_sle_spec a b :
  wf a -> wf b -> len a = len b -> checked_sle a b = Val (Ok (signed a <=? signed b)).
Proof.
  intros. unfold checked_sle. rewrite checked_slt_spec by auto. cbn. do 2 f_equal. lia.
Qed.
Lemma checked_sgt_spec a b :
  wf a -> wf b -> len a = len b -> checked_sgt a b = Val (Ok (signed a >? signed b)).
Proof.
  intros. unfold checked_sgt. rewrite checked_slt_spec by auto. do 2 f_equal. lia.
Qed.
Lemma checked_sge_spec a b :
  wf a -> wf b -> len a = len b -> checked_sge a b = Val (Ok (signed a >=? signed b)).
Proof.
  intros. unfold checked_sge. rewrite checked_slt_spec by auto. cbn. do 2 f_equal. lia.
Qed.

Lemma digits_eqb_eq xs ys : digits_eqb xs ys = true <-> xs = ys.
Proof.
  revert ys; induction xs as [|x xs IH]; intros [|y ys]; cbn; split; try discriminate; auto.
  - rewrite andb_true_iff, Z.eqb_eq, IH. now intros [-> ->].
  - intros E. injection E as -> ->. rewrite andb_true_iff, Z.eqb_eq, IH. auto.
Qed.
Lemma apint_eqb_eq a b : apint_eqb a b = true <-> a = b.
Proof.
  unfold apint_eqb, len_bits, as_digit_slice. destruct a as [wa da], b as [wb db]; cbn.
  destruct (Z.eqb_spec wa wb) as [->|N]; cbn [negb].
  - rewrite digits_eqb_eq. split; [now intros -> | now injection 1].
  - split; [discriminate | injection 1; congruence].
Qed.
Lemma apint_eqb_spec a b :
  wf a -> wf b -> (apint_eqb a b = true <-> len a = len b /\ unsigned a = unsigned b).
Proof.
  intros Ha Hb. rewrite apint_eqb_eq. split; [now intros ->|]. intros [? ?]. now apply wf_ext.
Qed.
