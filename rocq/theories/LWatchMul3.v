(** What multiplications and signed comparisons let an observer see: in numbers. *)
From Verif Require Export LWatchMul2 SpecWatchMul.
From Verif Require Import LTemp2.
From Coq Require Import Lia ZArith.

Lemma rposition_digits ds : digs ds -> rposition_nonzero ds = match digits_for (bits_of (uval ds)) with O => None | S i => Some i end.
Proof.
  intros D. destruct (rposition_nonzero ds) as [i|] eqn:E; [now destruct (sig_value ds i D E) as (_ & _ & _ & _ & ->)|]. rewrite (sig_none ds D E). reflexivity.
Qed.
Lemma quotient_zero u i : 0 <= u -> 0 <= i -> (u / 2 ^ (64 * i) = 0 <-> Z.of_nat (digits_for (bits_of u)) <= i).
Proof.
  intros U I. assert (0 < 2 ^ (64 * i)) as P by (apply Z.pow_pos_nonneg; lia). rewrite Z.div_small_iff by lia. unfold bits_of, digits_for. destruct (Z.eqb_spec u 0) as [->|N]; [split; intros; cbn; lia|].
  pose proof (Z.log2_nonneg u). assert (u < 2 ^ (64 * i) <-> Z.log2 u < 64 * i) as Q by (apply Z.log2_lt_pow2; lia). split; intros H1.
  - destruct H1 as [H1|H1]; [|lia]. destruct H1 as [_ H1]. apply Q in H1. lia.
  - left. split; [lia|]. apply Q. lia.
Qed.
Lemma rposition_math ds ds' : digs ds -> digs ds' ->
  (rposition_nonzero ds = rposition_nonzero ds' <-> forall i, 0 <= i -> (uval ds / 2 ^ (64 * i) = 0 <-> uval ds' / 2 ^ (64 * i) = 0)).
Proof.
  intros D D'. rewrite !rposition_digits by assumption. pose proof (uval_nonneg ds D). pose proof (uval_nonneg ds' D').
  split.
  - intros E i I. rewrite !quotient_zero by assumption. destruct (digits_for (bits_of (uval ds))), (digits_for (bits_of (uval ds'))); try discriminate; [tauto|]. injection E as ->. tauto.
  - intros E. assert (digits_for (bits_of (uval ds)) = digits_for (bits_of (uval ds'))) as ->; [|reflexivity].
    pose proof (E (Z.of_nat (digits_for (bits_of (uval ds)))) ltac:(lia)) as E1. pose proof (E (Z.of_nat (digits_for (bits_of (uval ds')))) ltac:(lia)) as E2. rewrite !quotient_zero in E1, E2 by (assumption || lia). lia.
Qed.
Lemma top_digit ds i : digs ds -> rposition_nonzero ds = Some i -> uval ds <> 0 /\ sb ds i = Z.log2 (uval ds) + 1 /\ ((i <> 0)%nat <-> 2 ^ 64 <= uval ds).
Proof.
  intros D E. destruct (sig_value ds i D E) as (_ & _ & _ & B1 & B2). pose proof (uval_nonneg ds D). unfold sb. unfold bits_of in *. destruct (Z.eqb_spec (uval ds) 0) as [Q|Q]; [cbn in B2; discriminate|].
  split; [exact Q|]. split; [lia|]. assert (2 ^ 64 <= uval ds <-> 64 <= Z.log2 (uval ds)) as -> by (apply Z.log2_le_pow2; lia). unfold digits_for in B2. lia.
Qed.
Lemma learnt_math ls rs ls' rs' : digs ls -> digs rs -> digs ls' -> digs rs' -> List.length ls = List.length ls' ->
  (learnt ls rs ls' rs' <-> products_agree (Z.of_nat (List.length ls)) (uval ls) (uval rs) (uval ls') (uval rs')).
Proof.
  intros Dl Dr Dl' Dr' L. unfold learnt, products_agree. rewrite rposition_math by assumption. split; intros [E H]; (split; [exact E|]); apply (rposition_math rs rs' Dr Dr') in E.
  - intros N. destruct (rposition_nonzero rs) as [r|] eqn:Hr; [|now apply sig_none in Hr]. destruct (H r eq_refl) as [F K]. split; [now apply rposition_math|]. intros A B.
    destruct (rposition_nonzero ls) as [l|] eqn:Hl; [|apply sig_none in Hl; [|exact Dl]; rewrite Hl in A; exfalso; revert A; clear; intros A; vm_compute in A; now apply A].
    destruct (top_digit ls l Dl Hl) as (_ & S1 & T1). destruct (top_digit rs r Dr Hr) as (_ & S2 & T2). destruct (top_digit ls' l Dl' ltac:(congruence)) as (_ & S3 & _). destruct (top_digit rs' r Dr' ltac:(congruence)) as (_ & S4 & _).
    specialize (K l eq_refl (proj2 T1 A) (proj2 T2 B)). unfold fits in K. rewrite S1, S2, S3, S4, <- L in K. clear - K.
    destruct (Z.leb_spec (Z.log2 (uval ls) + 1 + (Z.log2 (uval rs) + 1)) (Z.of_nat (List.length ls) * 64)), (Z.leb_spec (Z.log2 (uval ls') + 1 + (Z.log2 (uval rs') + 1)) (Z.of_nat (List.length ls) * 64)); try discriminate; lia.
  - intros r Hr. destruct (top_digit rs r Dr Hr) as (N & S2 & T2). destruct (H N) as [F K]. apply (rposition_math ls ls' Dl Dl') in F. split; [exact F|]. intros l Hl A B.
    destruct (top_digit ls l Dl Hl) as (_ & S1 & T1). destruct (top_digit ls' l Dl' ltac:(congruence)) as (_ & S3 & _). destruct (top_digit rs' r Dr' ltac:(congruence)) as (_ & S4 & _).
    specialize (K (proj1 T1 A) (proj1 T2 B)). unfold fits. rewrite S1, S2, S3, S4, <- L. clear - K.
    destruct (Z.leb_spec (Z.log2 (uval ls) + 1 + (Z.log2 (uval rs) + 1)) (Z.of_nat (List.length ls) * 64)), (Z.leb_spec (Z.log2 (uval ls') + 1 + (Z.log2 (uval rs') + 1)) (Z.of_nat (List.length ls) * 64)); try reflexivity; lia.
Qed.
Lemma mul_exact a a' b b' : wf a -> wf a' -> wf b -> wf b' -> len a = len a' -> len b = len b' ->
  (fst (w_wrapping_mul_assign a b) = fst (w_wrapping_mul_assign a' b') <->
   len a <> len b \/ len a <= 64 \/ products_agree ((len a + 63) / 64) (unsigned a) (unsigned b) (unsigned a') (unsigned b')).
Proof.
  intros Ha Ha' Hb Hb' E F. pose proof (wf_alike _ _ Ha Ha' E) as K. pose proof (wf_alike _ _ Hb Hb' F) as J. pose proof K as [_ L]. pose proof J as [_ M].
  destruct (wf_parts a Ha) as (_ & D & _). destruct (wf_parts a' Ha') as (_ & D' & _). destruct (wf_parts b Hb) as (_ & Db & _). destruct (wf_parts b' Hb') as (_ & Db' & _).
  assert (len a <> len b \/ len a <= 64 \/ learnt (digits a) (digits b) (digits a') (digits b') -> same (w_wrapping_mul_assign a b) (w_wrapping_mul_assign a' b')) as Back.
  { intros H. unfold w_wrapping_mul_assign. pose proof (same_zip _ _ _ _ K J) as Z. pose proof (we_zip_access_data a b) as Z1. pose proof (we_zip_access_data a' b') as Z2.
    destruct (w_zip_access_data a b) as [es o], (w_zip_access_data a' b') as [es' o']. destruct Z as [Zt Zv]. cbn [fst snd] in Zt, Zv, Z1, Z2. subst es' o o'.
    unfold zip_access_data, width in *. rewrite <- E, <- F in *. destruct (Z.eqb_spec (len a) (len b)) as [W|W]; cbn [negb] in *; [|apply same_known, same_val; split; [exact K|reflexivity]].
    destruct (Z_le_gt_dec (len a) 64) as [S|S].
    - destruct (small_storage a Ha S) as (d & P & G). destruct (small_storage a' Ha' ltac:(lia)) as (d' & _ & G'). destruct (small_storage b Hb ltac:(lia)) as (e & _ & Q). destruct (small_storage b' Hb' ltac:(lia)) as (e' & _ & Q').
      rewrite P. unfold read_inl. rewrite G, G', Q, Q'. cbn [bind]. apply same_known. apply same_see; [reflexivity|]. apply same_bind; [apply same_clear; auto with same|]. intros. apply same_val. now split.
    - rewrite large_storage by lia. apply same_known. unfold as_digit_slice. destruct H as [H|[H|H]]; [contradiction|lia|]. apply same_bind; [now apply digits_backward|].
      intros [o|] [o'|] O; try contradiction; [|apply same_val; split; [|exact I]; cbn [fst]; apply same_write_ext; [exact K|]; unfold alike, alike_digits; now rewrite !map_length].
      apply same_bind; [apply same_clear; auto with same|]. intros. apply same_val. now split. }
  rewrite <- (proj1 (proj2 Ha)). rewrite learnt_math in Back by (assumption || exact L). split; [|intros H; apply same_seen, Back, H].
  intros H. destruct (Z.eq_dec (len a) (len b)) as [W|W]; [right|now left]. destruct (Z_le_gt_dec (len a) 64) as [S|S]; [now left|right]. apply learnt_math; try assumption.
  unfold w_wrapping_mul_assign, w_zip_access_data, zip_access_data, width in H. rewrite <- E, <- F, <- W, Z.eqb_refl in H. cbn [negb] in H. rewrite large_storage in H by lia. unfold as_digit_slice in H.
  rewrite (fst_bind _ (Ok (ZExt (digits a) (digits b)))), (fst_bind _ (Ok (ZExt (digits a') (digits b')))) in H by reflexivity. rewrite app_head_iff in H.
  match type of H with fst (wbind _ ?k) = fst (wbind _ ?k') => destruct (fst_prefix (w_mul_digits (digits a) (digits b)) k) as [Y PY]; destruct (fst_prefix (w_mul_digits (digits a') (digits b')) k') as [Y' PY'] end.
  rewrite PY, PY' in H. now apply digits_forward in H.
Qed.

(** * Signed comparisons *)
Lemma msb_of_seen p a : wf a -> w_msb_of p a = ([Branch false; Read p (List.length (digits a) - 1)], Val (signed a <? 0)).
Proof. intros H. unfold w_msb_of, wbind, see. cbn [snd fst]. unfold wlift. now rewrite msb_sign. Qed.
Lemma slt_exact a a' b b' : wf a -> wf a' -> wf b -> wf b' -> len a = len a' -> len b = len b' ->
  (fst (w_checked_slt a b) = fst (w_checked_slt a' b') <->
   len a <> len b \/ len a <= 64 \/
   (signed a < 0 <-> signed a' < 0) /\ (signed b < 0 <-> signed b' < 0) /\
   ((signed a < 0 <-> signed b < 0) ->
    (forall i, 0 <= i -> (unsigned a / 2 ^ (64 * i) = unsigned b / 2 ^ (64 * i) <-> unsigned a' / 2 ^ (64 * i) = unsigned b' / 2 ^ (64 * i))) /\
    (unsigned a < unsigned b <-> unsigned a' < unsigned b'))).
Proof.
  intros Ha Ha' Hb Hb' E F. pose proof (wf_alike _ _ Ha Ha' E) as K. pose proof (wf_alike _ _ Hb Hb' F) as J. pose proof K as [_ L]. pose proof J as [_ M].
  pose proof (ult_exact a a' b b' Ha Ha' Hb Hb' E F) as U. unfold w_checked_slt, w_zip_access_data, zip_access_data, width. rewrite <- E, <- F.
  destruct (Z.eqb_spec (len a) (len b)) as [W|W]; cbn [negb]; [|split; [now left|reflexivity]]. destruct (Z_le_gt_dec (len a) 64) as [S|S].
  - split; [auto|]. intros _. destruct (small_storage a Ha S) as (d & P & D). destruct (small_storage a' Ha' ltac:(lia)) as (d' & _ & D'). destruct (small_storage b Hb ltac:(lia)) as (e & _ & G).
    destruct (small_storage b' Hb' ltac:(lia)) as (e' & _ & G'). rewrite P. unfold read_inl. rewrite D, D', G, G'. cbn [bind]. rewrite !(fst_bind _ (Ok (ZInl d e))), !(fst_bind _ (Ok (ZInl d' e'))) by reflexivity.
    f_equal. destruct (usize_sub 64 (len a)) as [x| |]; unfold u64_shl, wbind, wlift; cbn [snd fst]; try reflexivity. destruct (x <? 64); reflexivity.
  - rewrite large_storage by lia. unfold as_digit_slice. rewrite (fst_bind _ (Ok (ZExt (digits a) (digits b)))), (fst_bind _ (Ok (ZExt (digits a') (digits b')))) by reflexivity. rewrite app_head_iff.
    rewrite !msb_of_seen by assumption. rewrite <- L, <- M. rewrite !(fst_bind (_ :: _, _) _ _ eq_refl), !(fst_bind (branch _) _ _ eq_refl). cbn [fst branch app].
    assert (len a <> len b <-> False) as T1 by tauto. assert (len a <= 64 <-> False) as T2 by lia. rewrite T1, T2 in *. clear T1 T2.
    destruct (Z.ltb_spec (signed a) 0), (Z.ltb_spec (signed b) 0), (Z.ltb_spec (signed a') 0), (Z.ltb_spec (signed b') 0); cbn [fst wval];
    (split; [intros Q; try discriminate Q; right; right; (split; [lia|]; split; [lia|]); intros Sg; try lia; injection Q as Q; apply U in Q; tauto
            |intros [Q|[Q|(Q1 & Q2 & Q3)]]; try contradiction; try lia; try reflexivity; (rewrite (proj2 U); [reflexivity|right; right; apply Q3; lia])]).
Qed.

Lemma watch_mul_results_fact a b p ds : snd (w_wrapping_mul_assign a b) = wrapping_mul_assign a b /\ snd (w_checked_slt a b) = checked_slt a b /\ snd (w_rposition p ds (List.length ds)) = Val (rposition_nonzero ds).
Proof. split; [apply we_wrapping_mul_assign|]. split; [apply we_checked_slt|]. rewrite we_rposition by lia. now rewrite firstn_all. Qed.
Lemma watch_mul_fact a a' b b' : twins a a' -> twins b b' ->
  (fst (w_wrapping_mul_assign a b) = fst (w_wrapping_mul_assign a' b') <->
   len a <> len b \/ len a <= 64 \/ products_agree ((len a + 63) / 64) (unsigned a) (unsigned b) (unsigned a') (unsigned b')).
Proof. intros (W & W' & E) (V & V' & F). now apply mul_exact. Qed.
Lemma watch_mul_full_fact a a' b b' : twins a a' -> twins b b' -> signed a < 0 -> signed a' < 0 -> signed b < 0 -> signed b' < 0 ->
  fst (w_wrapping_mul_assign a b) = fst (w_wrapping_mul_assign a' b').
Proof.
  intros T T' A A' B B'. pose proof T as (W & W' & E). pose proof T' as (V & V' & F). apply watch_mul_fact; [exact T|exact T'|]. destruct (Z.eq_dec (len a) (len b)) as [L|L]; [right|now left].
  destruct (Z_le_gt_dec (len a) 64) as [S|S]; [now left|right].
  assert (forall x, wf x -> signed x < 0 -> 0 <= unsigned x /\ 0 < len x /\ 2 ^ (len x - 1) <= unsigned x < 2 ^ len x /\ Z.log2 (unsigned x) = len x - 1) as G.
  { intros x X N. destruct X as (P & _ & D & U). pose proof (uval_nonneg (digits x) D) as Q. fold (unsigned x) in *. unfold signed, to_signed in N. destruct (Z.ltb_spec (unsigned x) (2 ^ (len x - 1))) as [K|K]; [lia|].
    split; [exact Q|]. split; [lia|]. split; [lia|]. apply Z.log2_unique; [lia|]. replace (Z.succ (len x - 1)) with (len x) by lia. lia. }
  destruct (G a W A) as (A0 & A1 & A2 & A3), (G a' W' A') as (A0' & A1' & A2' & A3'), (G b V B) as (B0 & B1 & B2 & B3), (G b' V' B') as (B0' & B1' & B2' & B3').
  assert (forall u v i, 0 < u -> 0 < v -> 0 <= i -> Z.log2 u = Z.log2 v -> (u / 2 ^ (64 * i) = 0 <-> v / 2 ^ (64 * i) = 0)) as Q.
  { intros u v i U0 V0 I K. rewrite !quotient_zero by lia. unfold bits_of. destruct (Z.eqb_spec u 0); [lia|]. destruct (Z.eqb_spec v 0); [lia|]. rewrite K. tauto. }
  pose proof (Z.pow_pos_nonneg 2 (len a - 1) ltac:(lia) ltac:(lia)). rewrite <- E, <- F, <- L in *.
  unfold products_agree. split; [intros i I; apply Q; lia|]. intros _. split; [intros i I; apply Q; lia|]. intros _ _. rewrite A3, A3', B3, B3'. tauto.
Qed.
Lemma watch_slt_fact a a' b b' : twins a a' -> twins b b' ->
  (fst (w_checked_slt a b) = fst (w_checked_slt a' b') <->
   len a <> len b \/ len a <= 64 \/
   (signed a < 0 <-> signed a' < 0) /\ (signed b < 0 <-> signed b' < 0) /\
   ((signed a < 0 <-> signed b < 0) ->
    (forall i, 0 <= i -> (unsigned a / 2 ^ (64 * i) = unsigned b / 2 ^ (64 * i) <-> unsigned a' / 2 ^ (64 * i) = unsigned b' / 2 ^ (64 * i))) /\
    (unsigned a < unsigned b <-> unsigned a' < unsigned b'))).
Proof. intros (W & W' & E) (V & V' & F). now apply slt_exact. Qed.
