(** Proofs about division, part 1: short divisions and the helper macros. *)
From Verif Require Export LFacts MDiv.

Lemma uval_firstn_updl ds i v :
  (i < length ds)%nat -> uval (firstn (S i) (updl ds i v)) = uval (firstn i ds) + v * P i.
Proof.
  intros H. rewrite uval_firstn_S by (rewrite updl_length; lia).
  now rewrite updl_nth_same, updl_firstn by lia.
Qed.
Lemma updl_skipn_S ds ds0 i v :
  (i < length ds)%nat -> skipn i ds = skipn i ds0 -> skipn (S i) (updl ds i v) = skipn (S i) ds0.
Proof. intros H E. rewrite updl_skipn by lia. now apply skipn_S_eq. Qed.

Lemma dd_from_lo_hi_spec lo hi : dok lo -> dok hi -> dd_from_lo_hi lo hi = lo + B * hi.
Proof.
  unfold dok, dd_from_lo_hi. rewrite BB_B, B_pow. intros Hl Hh.
  rewrite Z.shiftl_mul_pow2 by lia. rewrite Z.mod_small by nia.
  rewrite Z.lor_comm, lor_add_low by lia. lia.
Qed.
Lemma dd_lo_small x : 0 <= x < B -> dd_lo x = x.
Proof. intros. unfold dd_lo. now apply Z.mod_small. Qed.

(** * Short divisions *)
Definition good_step (dv : Z) (step : nat -> list Z * Z -> outcome (list Z * Z)) : Prop :=
  forall i duo rem, (i < length duo)%nat -> digs duo -> 0 <= rem < dv ->
  exists q r, step i (duo, rem) = Val (updl duo i q, r) /\ dok q /\ 0 <= r < dv /\
    q * dv + r = rem * B + nth i duo 0.

Lemma good_step_loop dv step n duo rem :
  good_step dv step -> (n <= length duo)%nat -> digs duo -> 0 <= rem < dv ->
  exists duo' r, for_range_rev n 0 step (duo, rem) = Val (duo', r) /\ digs duo' /\
    length duo' = length duo /\ 0 <= r < dv /\ skipn n duo' = skipn n duo /\
    uval (firstn n duo') * dv + r = rem * P n + uval (firstn n duo).
Proof.
  intros Hst. revert duo rem. induction n as [|n IH]; intros duo rem Hn Hd Hr; cbn [for_range_rev].
  - exists duo, rem. cbn [firstn]. rewrite uval_nil, P_0.
    do 5 (split; [solve [auto]|]). lia.
  - cbn [Nat.add]. destruct (Hst n duo rem) as (q & r & -> & Hq & Hr' & E); auto. cbn [bind].
    destruct (IH (updl duo n q) r) as (duo' & r' & -> & Hd' & Hl' & Hr'' & Hs & E'); auto.
    { rewrite updl_length; lia. } { now apply updl_digs. }
    rewrite updl_length in Hl' by lia. exists duo', r'. do 4 (split; [solve [auto]|]). split.
    + apply skipn_S_eq in Hs. rewrite Hs, updl_skipn by lia. reflexivity.
    + rewrite !uval_firstn_S by lia. rewrite updl_firstn in E' by lia.
      replace (nth n duo' 0) with q.
      * rewrite P_S. nia.
      * symmetry. rewrite (nth_of_skipn_eq duo' (updl duo n q)); auto; rewrite ?updl_length by lia; auto; try lia.
        now apply updl_nth_same.
Qed.

Lemma div_bound_q rem d dv : 0 <= rem < dv -> dok d -> 0 < dv -> 0 <= (rem * B + d) / dv < B.
Proof.
  unfold dok. intros Hr Hd Hv. pose proof B_pos. split; [apply Z.div_pos; nia|]. apply Z.div_lt_upper_bound; nia.
Qed.

Lemma small_step_good dv : dok dv -> 0 < dv -> good_step dv (small_step dv).
Proof.
  intros Hv Hp i duo rem Hi Hd Hr. unfold small_step. rewrite ?idx_nth by lia. cbn [bind].
  pose proof (nth_dok i duo Hd) as Hn.
  rewrite dd_from_lo_hi_spec by (auto; unfold dok in *; lia). unfold dd, dd_wdivrem.
  destruct (Z.eqb_spec dv 0); [lia|]. cbn [bind].
  replace (nth i duo 0 + B * rem) with (rem * B + nth i duo 0) by lia.
  pose proof (div_bound_q rem (nth i duo 0) dv Hr Hn Hp) as Hq.
  pose proof (Z.mod_pos_bound (rem * B + nth i duo 0) dv Hp) as Hm.
  rewrite !dd_lo_small by (auto; unfold dok in *; lia).
  rewrite upd_updl by lia. cbn [bind]. eexists _, _. split; [reflexivity|]. split; [exact Hq|]. split; [exact Hm|].
  pose proof (Z.div_mod (rem * B + nth i duo 0) dv). lia.
Qed.

Lemma B32_pow : B32 = 2 ^ 32. Proof. reflexivity. Qed.
Lemma B_B32 : B = B32 * B32. Proof. rewrite B_pow. reflexivity. Qed.
Lemma B32_pos : 0 < B32. Proof. reflexivity. Qed.
Lemma lo_hi32 x : dok x -> 0 <= lo32 x < B32 /\ 0 <= hi32 x < B32 /\ x = lo32 x + B32 * hi32 x.
Proof.
  unfold dok. rewrite B_B32. intros H. unfold lo32, hi32. rewrite Z.shiftr_div_pow2, <- B32_pow by lia.
  pose proof B32_pos. split; [apply Z.mod_pos_bound; lia|]. split; [apply Z.mod_pos_bound; lia|].
  rewrite (Z.mod_small (x / B32)).
  - pose proof (Z.div_mod x B32). lia.
  - split; [apply Z.div_pos; lia|]. apply Z.div_lt_upper_bound; lia.
Qed.
Lemma from_lo_hi32_spec lo hi : 0 <= lo < B32 -> 0 <= hi < B32 -> from_lo_hi32 lo hi = lo + B32 * hi.
Proof.
  intros Hl Hh. unfold from_lo_hi32. rewrite Z.shiftl_mul_pow2 by lia. rewrite B_B32.
  rewrite B32_pow in *. rewrite Z.mod_small by nia. rewrite Z.lor_comm, lor_add_low by lia. lia.
Qed.
Lemma from_lo_hi32_dok lo hi : 0 <= lo < B32 -> 0 <= hi < B32 -> dok (from_lo_hi32 lo hi).
Proof. intros. rewrite from_lo_hi32_spec by auto. unfold dok. rewrite B_B32. nia. Qed.
Lemma lo32_small x : 0 <= x < B32 -> lo32 x = x.
Proof. intros. now apply Z.mod_small. Qed.

(** One half step: a 64-bit by 32-bit division. *)
Lemma half_step dv d rem :
  0 < dv < B32 -> 0 <= rem < dv -> 0 <= d < B32 ->
  exists q r, d_wrapping_divrem (from_lo_hi32 d rem) dv = Val (q, r) /\
    lo32 q = q /\ lo32 r = r /\ 0 <= q < B32 /\ 0 <= r < dv /\ q * dv + r = rem * B32 + d.
Proof.
  intros Hv Hr Hd. rewrite from_lo_hi32_spec by lia. unfold d_wrapping_divrem, d_wrapping_div, d_wrapping_rem.
  destruct (Z.eqb_spec dv 0); [lia|]. cbn [bind]. eexists _, _. split; [reflexivity|].
  set (x := d + B32 * rem). pose proof (Z.div_mod x dv ltac:(lia)) as E.
  pose proof (Z.mod_pos_bound x dv ltac:(lia)) as M. pose proof B32_pos.
  assert (0 <= x / dv < B32).
  { split; [apply Z.div_pos; nia|apply Z.div_lt_upper_bound; nia]. }
  rewrite !lo32_small by lia. repeat (split; [solve [lia|auto]|]). unfold x in *. lia.
Qed.

Lemma u32_step_good dv : 0 < dv < B32 -> good_step dv (u32_step dv).
Proof.
  intros Hv i duo rem Hi Hd Hr. unfold u32_step. rewrite ?idx_nth by lia. cbn [bind].
  destruct (lo_hi32 (nth i duo 0) (nth_dok i duo Hd)) as (H1 & H2 & H3).
  destruct (half_step dv (hi32 (nth i duo 0)) rem) as (q1 & r1 & -> & Q1 & R1 & Hq1 & Hr1 & E1); auto.
  cbn [bind]. rewrite ?idx_nth by lia. cbn [bind]. rewrite Q1, R1.
  destruct (half_step dv (lo32 (nth i duo 0)) r1) as (q2 & r2 & -> & Q2 & R2 & Hq2 & Hr2 & E2); auto.
  cbn [bind]. rewrite Q2, R2. rewrite upd_updl by lia. cbn [bind]. eexists _, _. split; [reflexivity|].
  split; [now apply from_lo_hi32_dok|]. split; [auto|]. rewrite from_lo_hi32_spec by auto. rewrite B_B32.
  clear - E1 E2 H3. nia.
Qed.

(** The remainder is written into the only nonzero digit of the divisor. *)
Lemma uval_only0 div : (0 < length div)%nat -> uval (skipn 1 div) = 0 -> uval div = nth 0 div 0.
Proof.
  intros H E. rewrite (uval_split 1) by lia. rewrite E, uval_firstn_S by lia. cbn [firstn]. rewrite uval_nil, P_0. lia.
Qed.

Lemma euclid a dv q r : 0 <= r < dv -> q * dv + r = a -> q = a / dv /\ r = a mod dv.
Proof.
  intros H E. split; [apply (Z.div_unique a dv q r)|apply (Z.mod_unique a dv q r)]; lia.
Qed.

(** The result of a division on slices. *)
Definition div_result (duo div duo' div' : list Z) : Prop :=
  digs duo' /\ digs div' /\ length duo' = length duo /\ length div' = length div /\
  uval duo' = uval duo / uval div /\ uval div' = uval duo mod uval div.

Lemma short_finish duo sd div q r step :
  digs duo -> digs div -> (sd < length duo)%nat -> uval (skipn (S sd) duo) = 0 ->
  (0 < length div)%nat -> uval (skipn 1 div) = 0 -> dok (nth 0 div 0) ->
  good_step (nth 0 div 0) step -> dok q -> 0 <= r < nth 0 div 0 -> q * nth 0 div 0 + r = nth sd duo 0 ->
  exists duo' div',
    (let! (d, rem) := for_range_rev sd 0 step (updl duo sd q, r) in
     let! dv := upd div 0 rem in Val (d, dv)) = Val (duo', div') /\ div_result duo div duo' div'.
Proof.
  intros Hd Hv Hs Hz Hl Hv1 Hdok Hst Hq Hr E.
  destruct (good_step_loop (nth 0 div 0) step sd (updl duo sd q) r) as (duo' & r' & -> & D1 & D2 & D3 & D4 & D5); auto.
  { rewrite updl_length; lia. } { now apply updl_digs. }
  cbn [bind]. rewrite upd_updl by lia. cbn [bind]. eexists _, _. split; [reflexivity|].
  rewrite updl_length in D2 by lia. rewrite updl_firstn in D5 by lia.
  assert (Ev : uval div = nth 0 div 0) by now apply uval_only0.
  assert (Er : dok r') by (unfold dok in *; lia).
  assert (En : nth sd duo' 0 = q).
  { rewrite (nth_of_skipn_eq duo' (updl duo sd q)); rewrite ?updl_length by lia; auto; try lia. now apply updl_nth_same. }
  assert (Es : skipn (S sd) duo' = skipn (S sd) duo).
  { apply skipn_S_eq in D4. rewrite D4. now apply updl_skipn; lia. }
  unfold div_result. rewrite updl_length by lia.
  do 2 (split; [solve [auto using updl_digs]|]). do 2 (split; [solve [auto]|]).
  assert (A : uval duo' * nth 0 div 0 + r' = uval duo).
  { rewrite (uval_sig duo' sd), (uval_sig duo sd) by (try rewrite Es; auto; lia).
    rewrite !uval_firstn_S by lia. rewrite En. nia. }
  destruct (euclid (uval duo) (nth 0 div 0) (uval duo') r') as [E1 E2]; auto.
  rewrite Ev. split; auto. rewrite updl_uval, Ev by lia. rewrite P_0. lia.
Qed.

Lemma large_div_by_small_spec duo sd div :
  digs duo -> digs div -> (sd < length duo)%nat -> uval (skipn (S sd) duo) = 0 ->
  (0 < length div)%nat -> uval (skipn 1 div) = 0 -> nth 0 div 0 <> 0 ->
  exists duo' div', large_div_by_small duo sd div = Val (duo', div') /\ div_result duo div duo' div'.
Proof.
  intros Hd Hv Hs Hz Hl Hv1 Hn. unfold large_div_by_small. rewrite ?idx_nth by lia. cbn [bind].
  pose proof (nth_dok 0 div Hv) as Hv0. pose proof (nth_dok sd duo Hd) as Hd0.
  assert (Hp : 0 < nth 0 div 0) by (unfold dok in *; lia).
  unfold d_wrapping_divrem, d_wrapping_div, d_wrapping_rem.
  destruct (Z.eqb_spec (nth 0 div 0) 0); [lia|]. cbn [bind]. rewrite upd_updl by lia. cbn [bind].
  pose proof (Z.div_mod (nth sd duo 0) (nth 0 div 0) ltac:(lia)).
  pose proof (Z.mod_pos_bound (nth sd duo 0) (nth 0 div 0) ltac:(lia)).
  apply short_finish; auto.
  - now apply small_step_good.
  - unfold dok in *. pose proof (Z.div_pos (nth sd duo 0) (nth 0 div 0)).
    pose proof (Z.div_lt_upper_bound (nth sd duo 0) (nth 0 div 0) B). nia.
  - lia.
Qed.

Lemma large_div_by_u32_spec duo sd div :
  digs duo -> digs div -> (sd < length duo)%nat -> uval (skipn (S sd) duo) = 0 ->
  (0 < length div)%nat -> uval (skipn 1 div) = 0 -> 0 < nth 0 div 0 < B32 ->
  exists duo' div', large_div_by_u32 duo sd div = Val (duo', div') /\ div_result duo div duo' div'.
Proof.
  intros Hd Hv Hs Hz Hl Hv1 Hn. unfold large_div_by_u32. rewrite ?idx_nth by lia. cbn [bind].
  pose proof (nth_dok 0 div Hv) as Hv0. pose proof (nth_dok sd duo Hd) as Hd0.
  rewrite (lo32_small (nth 0 div 0)) by lia. unfold wrapping_divrem32.
  destruct (Z.eqb_spec (nth 0 div 0) 0); [lia|]. cbn [bind].
  destruct (lo_hi32 (nth sd duo 0) Hd0) as (H1 & H2 & H3).
  set (h := hi32 (nth sd duo 0)) in *. set (l := lo32 (nth sd duo 0)) in *. set (dv := nth 0 div 0) in *.
  pose proof (Z.div_mod h dv ltac:(lia)). pose proof (Z.mod_pos_bound h dv ltac:(lia)).
  destruct (half_step dv l (h mod dv)) as (q & r & -> & Q & R & Hq & Hr & E); auto.
  cbn [bind]. rewrite Q, R. rewrite upd_updl by lia. cbn [bind].
  assert (Hqh : 0 <= h / dv < B32).
  { split; [apply Z.div_pos; lia|apply Z.div_lt_upper_bound; nia]. }
  apply short_finish; auto.
  - now apply u32_step_good.
  - now apply from_lo_hi32_dok.
  - rewrite from_lo_hi32_spec by auto. fold dv. nia.
Qed.

(** * twos_complement! *)
Lemma d_not_spec x : dok x -> d_not x = B - 1 - x.
Proof. apply u64_not_spec. Qed.
Lemma not_dok x : dok x -> dok (B - 1 - x).
Proof. unfold dok. lia. Qed.

Lemma not_range n : forall i a, digs a -> (i + n <= length a)%nat ->
  exists a', for_range n i (fun i1 array => let! y := idx array i1 in upd array i1 (d_not y)) a = Val a' /\
    digs a' /\ length a' = length a /\ firstn i a' = firstn i a /\ skipn (i + n) a' = skipn (i + n) a /\
    uval (firstn (i + n) a') - uval (firstn i a') =
    P (i + n) - P i - (uval (firstn (i + n) a) - uval (firstn i a)).
Proof.
  induction n as [|n IH]; intros i a Hd Hn; cbn [for_range].
  - exists a. rewrite Nat.add_0_r. do 5 (split; [solve [auto]|]). lia.
  - rewrite ?idx_nth by lia. cbn [bind]. rewrite upd_updl by lia. cbn [bind].
    pose proof (nth_dok i a Hd) as Hi. rewrite d_not_spec by auto. pose proof (not_dok _ Hi) as Hni.
    destruct (IH (S i) (updl a i (B - 1 - nth i a 0))) as (a' & -> & D1 & D2 & D3 & D4 & D5).
    { now apply updl_digs. } { rewrite updl_length; lia. }
    rewrite updl_length in D2 by lia. exists a'.
    replace (i + S n)%nat with (S i + n)%nat by lia.
    split; [auto|]. split; [auto|]. split; [auto|]. split.
    { assert (E : firstn i (firstn (S i) a') = firstn i (firstn (S i) (updl a i (B - 1 - nth i a 0)))) by now rewrite D3.
      rewrite !firstn_firstn in E. replace (Nat.min i (S i)) with i in E by lia. rewrite E. apply updl_firstn; lia. }
    split; [rewrite D4; apply updl_skipn; lia|].
    rewrite D3, uval_firstn_updl in D5 by lia.
    assert (E2 : uval (firstn i a') = uval (firstn i a)).
    { assert (E : firstn i (firstn (S i) a') = firstn i (firstn (S i) (updl a i (B - 1 - nth i a 0)))) by now rewrite D3.
      rewrite !firstn_firstn in E. replace (Nat.min i (S i)) with i in E by lia. rewrite E. now rewrite updl_firstn by lia. }
    rewrite E2. revert D5.
    rewrite (uval_split (S i) (firstn (S i + n) (updl _ _ _))) by (rewrite firstn_length_le; rewrite ?updl_length; lia).
    rewrite firstn_firstn. replace (Nat.min (S i) (S i + n)) with (S i) by lia.
    rewrite uval_firstn_updl by lia.
    replace (uval (skipn (S i) (firstn (S i + n) (updl a i (B - 1 - nth i a 0)))))
      with (uval (skipn (S i) (firstn (S i + n) a))).
    2:{ rewrite !skipn_firstn_comm. f_equal. f_equal. symmetry. apply updl_skipn; lia. }
    rewrite (uval_split (S i) (firstn (S i + n) a)) by (rewrite firstn_length_le; lia).
    rewrite firstn_firstn. replace (Nat.min (S i) (S i + n)) with (S i) by lia.
    rewrite (uval_firstn_S a i) by lia. rewrite P_S. nia.
Qed.

Lemma twos_complement_from_spec n : forall i a, digs a -> (i + n <= length a)%nat ->
  exists a' k, twos_complement_from n i a = Val a' /\
    digs a' /\ length a' = length a /\ firstn i a' = firstn i a /\ skipn (i + n) a' = skipn (i + n) a /\
    uval (firstn (i + n) a') - uval (firstn i a') =
    k * P (i + n) - (uval (firstn (i + n) a) - uval (firstn i a)).
Proof.
  induction n as [|n IH]; intros i a Hd Hn; cbn [twos_complement_from].
  - exists a, 0. rewrite Nat.add_0_r. do 5 (split; [solve [auto]|]). lia.
  - rewrite ?idx_nth by lia. cbn [bind]. pose proof (nth_dok i a Hd) as Hi.
    rewrite d_not_spec by auto. unfold d_overflowing_add, u64_oadd, ONE.
    replace (B - 1 - nth i a 0 + 1) with (B - nth i a 0) by lia.
    unfold dok in Hi. pose proof B_pos.
    assert (Hfirst : forall v, firstn i (updl a i v) = firstn i a) by (intros; apply updl_firstn; lia).
    assert (Hrec : forall a' v, firstn (S i) a' = firstn (S i) (updl a i v) -> firstn i a' = firstn i a).
    { intros a' v E. apply (f_equal (firstn i)) in E. rewrite !firstn_firstn in E.
      replace (Nat.min i (S i)) with i in E by lia. now rewrite E, Hfirst. }
    assert (Hval : forall v, uval (firstn (S i + n) (updl a i v)) =
              uval (firstn (S i + n) a) + (v - nth i a 0) * P i).
    { intros v. rewrite (uval_split (S i) (firstn (S i + n) (updl a i v))) by (rewrite firstn_length_le; rewrite ?updl_length; lia).
      rewrite (uval_split (S i) (firstn (S i + n) a)) by (rewrite firstn_length_le; lia).
      rewrite !firstn_firstn. replace (Nat.min (S i) (S i + n)) with (S i) by lia.
      rewrite uval_firstn_updl, uval_firstn_S by lia.
      rewrite !skipn_firstn_comm. rewrite updl_skipn by lia. lia. }
    destruct (Z.leb_spec B (B - nth i a 0)).
    + (* zero digit *)
      assert (E0 : nth i a 0 = 0) by lia. rewrite E0, Z.sub_0_r, Z.mod_same by lia.
      rewrite upd_updl by lia. cbn [bind].
      destruct (IH (S i) (updl a i 0)) as (a' & k & -> & D1 & D2 & D3 & D4 & D5).
      { apply updl_digs; auto. apply dok_0. } { rewrite updl_length; lia. }
      rewrite updl_length in D2 by lia. exists a', k.
      replace (i + S n)%nat with (S i + n)%nat by lia.
      split; [auto|]. split; [auto|]. split; [auto|]. split; [eapply Hrec; eauto|].
      split; [rewrite D4; apply updl_skipn; lia|].
      rewrite (Hrec _ _ D3). rewrite D3, uval_firstn_updl, Hval in D5 by lia. nia.
    + rewrite Z.mod_small by lia. rewrite upd_updl by lia. cbn [bind].
      destruct (not_range n (S i) (updl a i (B - nth i a 0))) as (a' & -> & D1 & D2 & D3 & D4 & D5).
      { apply updl_digs; auto. unfold dok; lia. } { rewrite updl_length; lia. }
      rewrite updl_length in D2 by lia. exists a', 1.
      replace (i + S n)%nat with (S i + n)%nat by lia.
      split; [auto|]. split; [auto|]. split; [auto|]. split; [eapply Hrec; eauto|].
      split; [rewrite D4; apply updl_skipn; lia|].
      rewrite (Hrec _ _ D3). rewrite D3, uval_firstn_updl, Hval in D5 by lia. rewrite P_S in D5. nia.
Qed.

Lemma twos_complement_spec n a : digs a -> (n <= length a)%nat ->
  exists a', twos_complement n a = Val a' /\ digs a' /\ length a' = length a /\
    skipn n a' = skipn n a /\ uval (firstn n a') = (- uval (firstn n a)) mod P n.
Proof.
  intros Hd Hn. destruct (twos_complement_from_spec n 0 a Hd) as (a' & k & E & D1 & D2 & D3 & D4 & D5); [lia|].
  cbn [Nat.add] in *. exists a'. do 4 (split; [solve [auto]|]).
  cbn [firstn] in D5. rewrite uval_nil in D5.
  pose proof (uval_bound _ (digs_firstn n a' D1)) as Hb. rewrite firstn_length_le in Hb by lia.
  symmetry. rewrite <- (Z.mod_small (uval (firstn n a')) (P n)) by lia.
  replace (uval (firstn n a')) with (- uval (firstn n a) + k * P n) by lia. now rewrite Z_mod_plus_full.
Qed.

(** * uge! and ugt! *)
Lemma uge_b1_spec n : forall l r, digs l -> digs r -> (n <= length l)%nat -> (n <= length r)%nat ->
  uge_b1 n l r = Val (uval (firstn n l) <? uval (firstn n r)).
Proof.
  induction n as [|n IH]; intros l r Hl Hr H1 H2; cbn [uge_b1].
  - cbn [firstn]. rewrite uval_nil. reflexivity.
  - rewrite ?idx_nth by lia. cbn [bind]. rewrite !uval_firstn_S by lia.
    pose proof (uval_bound _ (digs_firstn n l Hl)) as B1. rewrite firstn_length_le in B1 by lia.
    pose proof (uval_bound _ (digs_firstn n r Hr)) as B2. rewrite firstn_length_le in B2 by lia.
    set (x := nth n l 0). set (y := nth n r 0). set (p := uval (firstn n l)) in *. set (q := uval (firstn n r)) in *.
    destruct (Z.ltb_spec x y).
    + destruct (Z.ltb_spec (p + x * P n) (q + y * P n)); [auto|nia].
    + destruct (Z.eqb_spec x y) as [->|]; cbn [negb].
      * rewrite IH by (auto; lia). fold p q. f_equal.
        destruct (Z.ltb_spec p q), (Z.ltb_spec (p + y * P n) (q + y * P n)); auto; lia.
      * destruct (Z.ltb_spec (p + x * P n) (q + y * P n)); [nia|auto].
Qed.
Lemma ugt_b1_spec n : forall l r, digs l -> digs r -> (n <= length l)%nat -> (n <= length r)%nat ->
  ugt_b1 n l r = Val (uval (firstn n l) <=? uval (firstn n r)).
Proof.
  induction n as [|n IH]; intros l r Hl Hr H1 H2; cbn [ugt_b1].
  - cbn [firstn]. rewrite uval_nil. reflexivity.
  - rewrite ?idx_nth by lia. cbn [bind]. rewrite !uval_firstn_S by lia.
    pose proof (uval_bound _ (digs_firstn n l Hl)) as B1. rewrite firstn_length_le in B1 by lia.
    pose proof (uval_bound _ (digs_firstn n r Hr)) as B2. rewrite firstn_length_le in B2 by lia.
    set (x := nth n l 0). set (y := nth n r 0). set (p := uval (firstn n l)) in *. set (q := uval (firstn n r)) in *.
    destruct (Z.ltb_spec y x).
    + destruct (Z.leb_spec (p + x * P n) (q + y * P n)); [nia|auto].
    + destruct (Z.eqb_spec x y) as [->|]; cbn [negb].
      * rewrite IH by (auto; lia). fold p q. f_equal.
        destruct (Z.leb_spec p q), (Z.leb_spec (p + y * P n) (q + y * P n)); auto; lia.
      * destruct (Z.leb_spec (p + x * P n) (q + y * P n)); [auto|nia].
Qed.
Lemma uge_spec n l r : digs l -> digs r -> (n <= length l)%nat -> (n <= length r)%nat ->
  uge n l n r = Val (uval (firstn n r) <=? uval (firstn n l)).
Proof.
  intros. unfold uge. rewrite Nat.sub_diag. cbn [any_nonzero_rev bind].
  rewrite uge_b1_spec by auto. cbn [bind]. f_equal. lia.
Qed.
Lemma ugt_spec n l r : digs l -> digs r -> (n <= length l)%nat -> (n <= length r)%nat ->
  ugt n l n r = Val (uval (firstn n r) <? uval (firstn n l)).
Proof.
  intros. unfold ugt. rewrite Nat.sub_diag. cbn [any_nonzero_rev bind].
  rewrite ugt_b1_spec by auto. cbn [bind]. f_equal. lia.
Qed.
