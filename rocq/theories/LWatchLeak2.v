(** What the calls that stop early give away, exactly (continued). *)
From Verif Require Export LWatchLeak.
From Coq Require Import Lia ZArith.

Lemma zero_beyond u u' n : 0 <= u < 2 ^ (64 * Z.of_nat n) -> 0 <= u' < 2 ^ (64 * Z.of_nat n) ->
  (u mod 2 ^ (64 * Z.of_nat n) = 0 <-> u' mod 2 ^ (64 * Z.of_nat n) = 0) -> forall i, Z.of_nat n < i -> (u mod 2 ^ (64 * i) = 0 <-> u' mod 2 ^ (64 * i) = 0).
Proof. intros H H' E i I. rewrite !(small_mod _ (Z.of_nat n)) by lia. now rewrite !Z.mod_small in E by lia. Qed.
Lemma any_width_last n (Q Q' : Z -> Prop) : ((Q (Z.of_nat n) <-> Q' (Z.of_nat n)) -> forall i, Z.of_nat n < i -> (Q i <-> Q' i)) ->
  ((forall k, (k <= n)%nat -> (Q (Z.of_nat k) <-> Q' (Z.of_nat k))) <-> (forall i, 0 <= i -> (Q i <-> Q' i))).
Proof.
  intros H. split; intros E i I.
  - destruct (Z_lt_le_dec (Z.of_nat n) i); [apply H; [apply E; lia|assumption]|]. specialize (E (Z.to_nat i) ltac:(lia)). now rewrite Z2Nat.id in E by lia.
  - apply E. lia.
Qed.
Lemma low_zero_run q ds ds' : digs ds -> digs ds' -> List.length ds = List.length ds' ->
  (forall ds k, digs ds -> forallb q (firstn k ds) = forallb d_is_zero (firstn k ds)) ->
  (run q ds = run q ds' <-> forall i, 0 <= i -> (uval ds mod 2 ^ (64 * i) = 0 <-> uval ds' mod 2 ^ (64 * i) = 0)).
Proof.
  intros D D' L F. rewrite run_iff by exact L. pose proof (uval_bound _ D) as U. pose proof (uval_bound _ D') as U'. rewrite <- L in U'. rewrite P_pow in U, U'.
  rewrite <- (any_width_last (List.length ds)) by (intros Z i I; now apply (zero_beyond _ _ (List.length ds))).
  split; intros X k N; specialize (X k N); rewrite ?F, !low_zero in * by (assumption || lia); exact X.
Qed.
Lemma dec_exact a a' : wf a -> wf a' -> len a = len a' ->
  (fst (w_wrapping_dec a) = fst (w_wrapping_dec a') <->
   len a <= 64 \/ forall i, 0 <= i -> (unsigned a mod 2 ^ (64 * i) = 0 <-> unsigned a' mod 2 ^ (64 * i) = 0)).
Proof.
  intros H H' E. pose proof (wf_alike _ _ H H' E) as K. destruct (Z_le_gt_dec (len a) 64) as [S|S].
  - split; [now left|]. intros _. apply same_seen. unfold w_wrapping_dec. destruct (small_access Self a H S) as (d & ->), (small_access Self a' H' ltac:(lia)) as (d' & ->).
    apply same_known. apply same_bind; [apply same_see; [reflexivity|]; apply same_val; auto with same|]. intros. now apply same_clear.
  - rewrite (dec_seen a), (dec_seen a') by lia. rewrite app_head_iff.
    assert (fst (w_clear_unused_bits Self (write_ext a (dec_loop (digits a)))) = fst (w_clear_unused_bits Self (write_ext a' (dec_loop (digits a'))))) as ->.
    { apply same_seen, same_clear. split; [exact E|]. cbn. rewrite !dec_loop_length. apply K. }
    rewrite app_tail_iff. pose proof K as [_ L]. rewrite (steps_iff _ _ _ _ _ _ dec_steps) by exact L.
    destruct (wf_parts a H) as (_ & D & _). destruct (wf_parts a' H') as (_ & D' & _). rewrite low_zero_run by auto using dec_prefix.
    unfold unsigned. split; [tauto|]. intros [X|X]; [lia|exact X].
Qed.

(** * Negating *)
Lemma complement_low w u i : 0 <= u < 2 ^ w -> 0 <= i -> 64 * i <= w ->
  ((2 ^ w - 1 - u) mod 2 ^ (64 * i) = 2 ^ (64 * i) - 1 <-> u mod 2 ^ (64 * i) = 0).
Proof.
  intros U I W. set (m := 2 ^ (64 * i)). assert (0 < m) as M by (apply Z.pow_pos_nonneg; lia).
  assert (2 ^ w = m * 2 ^ (w - 64 * i)) as -> by (unfold m; rewrite <- Z.pow_add_r by lia; f_equal; lia).
  pose proof (Z.div_mod u m ltac:(lia)) as DM. pose proof (Z.mod_pos_bound u m M) as B1. revert DM B1. generalize (u / m) (u mod m) (2 ^ (w - 64 * i)). clearbody m. clear U W I. intros q r X DM B1. subst u.
  replace (m * X - 1 - (m * q + r)) with ((m - 1 - r) + (X - q - 1) * m) by ring. rewrite Z.mod_add, Z.mod_small by lia. lia.
Qed.
Lemma neg_exact a a' : wf a -> wf a' -> len a = len a' ->
  (fst (w_wrapping_neg a) = fst (w_wrapping_neg a') <->
   len a <= 64 \/ forall i, 0 <= i -> 64 * i <= len a -> (unsigned a mod 2 ^ (64 * i) = 0 <-> unsigned a' mod 2 ^ (64 * i) = 0)).
Proof.
  intros H H' E. pose proof (wf_alike _ _ H H' E) as K. destruct (bitnot_spec a H) as (c & Ec & (W & L & V)). destruct (bitnot_spec a' H') as (c' & Ec' & (W' & L' & V')).
  unfold w_wrapping_neg. rewrite (fst_bind _ c) by now rewrite we_bitnot. rewrite (fst_bind _ c') by now rewrite we_bitnot.
  rewrite (same_seen _ _ (same_bitnot _ _ K)), app_head_iff, inc_exact by (assumption || congruence). rewrite L.
  pose proof (unsigned_bound a H) as U. pose proof (unsigned_bound a' H') as U'. rewrite V, V', <- E in *. pose proof (wf_len a H) as W0.
  split; (intros [X|X]; [now left|right]).
  - intros i I N. specialize (X i I). rewrite !complement_low in X by lia. exact X.
  - intros i I. destruct (Z_le_gt_dec (64 * i) (len a)) as [N|N].
    + rewrite !complement_low by lia. now apply X.
    + assert (2 ^ len a < 2 ^ (64 * i)) by (apply Z.pow_lt_mono_r; lia). rewrite !Z.mod_small by lia. lia.
Qed.

(** * Zeros *)
Lemma all_zero_steps : steps_like d_is_zero (fun i => [Read Self i]) (fun _ : nat => @nil event) S Branch (fun i l => fst (w_all_zero i l)).
Proof.
  split; [discriminate|]. split; [reflexivity|]. intros i x r. cbn [w_all_zero]. rewrite (fst_bind _ tt) by reflexivity. rewrite (fst_bind _ (d_is_zero x)) by reflexivity.
  cbn [fst see branch app]. destruct (d_is_zero x); reflexivity.
Qed.
Lemma is_zero_exact a a' : wf a -> wf a' -> len a = len a' ->
  (fst (w_is_zero a) = fst (w_is_zero a') <->
   len a <= 64 \/ forall i, 0 <= i -> (unsigned a mod 2 ^ (64 * i) = 0 <-> unsigned a' mod 2 ^ (64 * i) = 0)).
Proof.
  intros H H' E. pose proof (wf_alike _ _ H H' E) as K. unfold w_is_zero. destruct (Z_le_gt_dec (len a) 64) as [S|S].
  - split; [now left|]. intros _. destruct (small_access Self a H S) as (d & ->), (small_access Self a' H' ltac:(lia)) as (d' & ->). reflexivity.
  - unfold w_access_data, access_data. rewrite !large_storage by lia. rewrite (fst_bind _ (DExt (digits a))), (fst_bind _ (DExt (digits a'))) by reflexivity. cbn [fst wbind see wlift snd app].
    change (Branch false :: fst (w_all_zero 0 (digits a))) with ([Branch false] ++ fst (w_all_zero 0 (digits a))). 
    change (Branch false :: fst (w_all_zero 0 (digits a'))) with ([Branch false] ++ fst (w_all_zero 0 (digits a'))). rewrite app_head_iff.
    pose proof K as [_ L]. rewrite (steps_iff _ _ _ _ _ _ all_zero_steps) by exact L. destruct (wf_parts a H) as (_ & D & _). destruct (wf_parts a' H') as (_ & D' & _).
    rewrite low_zero_run by auto. unfold unsigned. split; [tauto|]. intros [X|X]; [lia|exact X].
Qed.
Lemma count_steps (up : bool) f z : steps_like (fun d => f d =? 64) (fun i => [Read Self i]) (fun _ : nat => @nil event) (fun i => if up then S i else pred i) (fun b => Branch (negb b)) (fun i l => fst (w_count_run up f i l z)).
Proof.
  split; [discriminate|]. split; [reflexivity|]. intros i x r. cbn [w_count_run]. rewrite (fst_bind _ tt) by reflexivity. rewrite (fst_bind _ (negb (f x =? 64))) by reflexivity.
  cbn [fst see branch app]. destruct (f x =? 64); [|reflexivity]. cbn [negb]. do 2 f_equal.
  generalize (z + f x) (if up then S i else pred i). clear. intros z' j. revert j z z'. induction r as [|y r IH]; intros i z z'; [reflexivity|]. cbn [w_count_run]. 
  rewrite !(fst_bind _ tt), !(fst_bind _ (negb (f y =? 64))) by reflexivity. destruct (negb (f y =? 64)); [reflexivity|]. cbn [fst see branch app]. do 2 f_equal. apply IH.
Qed.
Lemma trailing_prefix ds k : digs ds -> forallb (fun d => u64_trailing_zeros d =? 64) (firstn k ds) = forallb d_is_zero (firstn k ds).
Proof.
  intros H. apply forallb_weak. intros x X. apply (in_digs _ _ (digs_firstn k _ H)) in X. unfold d_is_zero, ZERO. destruct (Z.eqb_spec x 0) as [->|N]; [reflexivity|].
  destruct (u64_tz_spec x) as [T _]; [now apply digit_ok_dok|exact N|]. destruct (Z.eqb_spec (u64_trailing_zeros x) 64); [lia|reflexivity].
Qed.
Lemma leading_prefix ds k : digs ds -> forallb (fun d => u64_leading_zeros d =? 64) (firstn k ds) = forallb d_is_zero (firstn k ds).
Proof.
  intros H. apply forallb_weak. intros x X. apply (in_digs _ _ (digs_firstn k _ H)) in X. unfold d_is_zero, ZERO. destruct (Z.eqb_spec x 0) as [->|N]; [reflexivity|].
  destruct (d_leading_zeros_spec x) as [T _]; [now apply digit_ok_dok|exact N|]. unfold d_leading_zeros in T. destruct (Z.eqb_spec (u64_leading_zeros x) 64); [lia|reflexivity].
Qed.
Lemma trailing_all a : wf a -> (width a <=? count_run u64_trailing_zeros (digits a) 0) = (unsigned a =? 0).
Proof.
  intros H. pose proof (unsigned_bound _ H) as Hu. pose proof (wf_sh _ H) as (H0 & H1 & H2). pose proof (trailing_run (digits a) H2) as L. cbv zeta in L. unfold width.
  set (k := count_run _ _ 0) in *. destruct L as [L1 L2]. fold (unsigned a) in *. rewrite H1 in *. pose proof (required_digits_bound _ H0).
  destruct (Z.eqb_spec (unsigned a) 0) as [E|N].
  - specialize (L1 E). destruct (Z.leb_spec (len a) k); [reflexivity|lia].
  - destruct (L2 N) as (Hk & q & Eq). destruct (odd_factor_bits k q Hk) as [O1 _]. destruct (Z.leb_spec (len a) k) as [X|X]; [|reflexivity]. exfalso.
    rewrite <- Eq in O1. rewrite (testbit_high _ (len a)) in O1 by auto. discriminate.
Qed.
Lemma trailing_exact a a' : wf a -> wf a' -> len a = len a' ->
  (fst (w_trailing_zeros a) = fst (w_trailing_zeros a') <->
   forall i, 0 <= i -> (unsigned a mod 2 ^ (64 * i) = 0 <-> unsigned a' mod 2 ^ (64 * i) = 0)).
Proof.
  intros H H' E. pose proof (wf_alike _ _ H H' E) as [_ L]. destruct (wf_parts a H) as (_ & D & U). destruct (wf_parts a' H') as (_ & D' & U'). rewrite <- L in U'.
  assert (forall b, fst (w_trailing_zeros b) = fst (w_count_run true u64_trailing_zeros 0 (digits b) 0) ++ [Branch (width b <=? count_run u64_trailing_zeros (digits b) 0)]) as T.
  { intros b. unfold w_trailing_zeros, as_digit_slice. rewrite (fst_bind _ _ _ (we_count_run _ _ _ _ _)). rewrite (fst_bind _ (width b <=? count_run u64_trailing_zeros (digits b) 0)) by reflexivity. f_equal. cbn [fst branch].
    destruct (width b <=? _); [|reflexivity]. cbn. destruct (unused_bits (width b)); reflexivity. }
  rewrite !T, !trailing_all by assumption. unfold unsigned in *.
  assert (run (fun d => u64_trailing_zeros d =? 64) (digits a) = run (fun d => u64_trailing_zeros d =? 64) (digits a') <->
          forall i, 0 <= i -> (uval (digits a) mod 2 ^ (64 * i) = 0 <-> uval (digits a') mod 2 ^ (64 * i) = 0)) as R by (apply low_zero_run; auto using trailing_prefix).
  split.
  - intros X. apply R. apply (steps_iff _ _ _ _ _ _ (count_steps true u64_trailing_zeros 0) (digits a) (digits a') O L). apply app_inj_tail in X. apply X.
  - intros X. pose proof (X (Z.of_nat (List.length (digits a))) ltac:(lia)) as Z. rewrite !Z.mod_small in Z by lia. f_equal.
    + apply (steps_iff _ _ _ _ _ _ (count_steps true u64_trailing_zeros 0) (digits a) (digits a') O L). now apply R.
    + do 2 f_equal. destruct (Z.eqb_spec (uval (digits a)) 0), (Z.eqb_spec (uval (digits a')) 0); tauto.
Qed.
Lemma leading_exact a a' : wf a -> wf a' -> len a = len a' ->
  (fst (w_leading_zeros a) = fst (w_leading_zeros a') <->
   forall i, 0 <= i -> (unsigned a / 2 ^ (64 * i) = 0 <-> unsigned a' / 2 ^ (64 * i) = 0)).
Proof.
  intros H H' E. pose proof (wf_alike _ _ H H' E) as [_ L]. destruct (wf_parts a H) as (_ & D & U). destruct (wf_parts a' H') as (_ & D' & U'). rewrite <- L in U'.
  assert (forall b, fst (w_leading_zeros b) = fst (w_count_run false u64_leading_zeros (List.length (digits b) - 1) (rev (digits b)) 0)) as T.
  { intros b. unfold w_leading_zeros, as_digit_slice. rewrite (fst_bind _ _ _ (we_count_run _ _ _ _ _)). destruct (unused_bits (width b)); cbn [wbind wlift snd fst]; now rewrite ?app_nil_r. }
  rewrite !T, <- L. assert (List.length (rev (digits a)) = List.length (rev (digits a'))) as L2 by now rewrite !rev_length.
  rewrite (steps_iff _ _ _ _ _ _ (count_steps false u64_leading_zeros 0) _ _ _ L2), run_iff by exact L2. rewrite rev_length. unfold unsigned in *.
  rewrite <- (any_height (List.length (digits a))) by (intros i I; rewrite !(small_div _ (Z.of_nat (List.length (digits a)))) by lia; tauto).
  split; intros X k N; specialize (X k N); rewrite ?leading_prefix, !high_zero, <- L in * by (try apply digs_rev; assumption || lia); exact X.
Qed.

(** * Comparing *)
Fixpoint eqb_seen (i : nat) (l : list (Z * Z)) : list event :=
  match l with [] => [] | (x, y) :: r => [Read Self i; Read Other i] ++ Branch (x =? y) :: [] ++ (if x =? y then eqb_seen (S i) r else []) end.
Lemma eqb_seen_ok xs : forall ys i, fst (w_digits_eqb i xs ys) = eqb_seen i (combine xs ys).
Proof.
  induction xs as [|x xs IH]; intros [|y ys] i; try reflexivity. cbn [w_digits_eqb combine eqb_seen]. rewrite (fst_bind _ tt), (fst_bind _ (x =? y)) by reflexivity. cbn [fst see branch app].
  destruct (x =? y); [now rewrite IH|reflexivity].
Qed.
Lemma eqb_steps : steps_like (fun p => fst p =? snd p) (fun i => [Read Self i; Read Other i]) (fun _ : nat => @nil event) S Branch eqb_seen.
Proof. split; [discriminate|]. split; [reflexivity|]. intros i [x y] r. reflexivity. Qed.
Lemma eq_exact a a' b b' : wf a -> wf a' -> wf b -> wf b' -> len a = len a' -> len b = len b' ->
  (fst (w_apint_eqb a b) = fst (w_apint_eqb a' b') <->
   len a <> len b \/ forall i, 0 <= i -> (unsigned a mod 2 ^ (64 * i) = unsigned b mod 2 ^ (64 * i) <-> unsigned a' mod 2 ^ (64 * i) = unsigned b' mod 2 ^ (64 * i))).
Proof.
  intros Ha Ha' Hb Hb' E F. pose proof (wf_alike _ _ Ha Ha' E) as [_ L]. unfold w_apint_eqb, len_bits, as_digit_slice. rewrite <- E, <- F.
  rewrite !(fst_bind _ (negb (len a =? len b))) by reflexivity. rewrite app_head_iff. destruct (Z.eqb_spec (len a) (len b)) as [W|W]; cbn [negb]; [|split; [now left|reflexivity]].
  pose proof (wf_alike _ _ Ha Hb W) as [_ M]. pose proof (wf_alike _ _ Ha' Hb' ltac:(lia)) as [_ M']. rewrite !eqb_seen_ok.
  destruct (wf_parts a Ha) as (_ & D & U). destruct (wf_parts a' Ha') as (_ & D' & U'). destruct (wf_parts b Hb) as (_ & Db & Ub). destruct (wf_parts b' Hb') as (_ & Db' & Ub').
  rewrite <- M' , <- L in Ub'. rewrite <- M in Ub. rewrite <- L in U'.
  assert (List.length (combine (digits a) (digits b)) = List.length (digits a)) as C by (rewrite combine_length; lia).
  assert (List.length (combine (digits a) (digits b)) = List.length (combine (digits a') (digits b'))) as C' by (rewrite !combine_length; lia).
  rewrite (steps_iff _ _ _ _ _ _ eqb_steps) by exact C'. rewrite run_iff, C by exact C'. unfold unsigned in *.
  transitivity (forall i, 0 <= i -> (uval (digits a) mod 2 ^ (64 * i) = uval (digits b) mod 2 ^ (64 * i) <-> uval (digits a') mod 2 ^ (64 * i) = uval (digits b') mod 2 ^ (64 * i))).
  2:{ split; [tauto|]. intros [X|X]; [contradiction|exact X]. }
  rewrite <- (any_width_last (List.length (digits a))) by (intros Z i I; rewrite !(small_mod _ (Z.of_nat (List.length (digits a)))) by lia; now rewrite !Z.mod_small in Z by lia).
  split; intros X k N; specialize (X k N);
  pose proof (low_equal (digits a) (digits b) k D Db M N) as R; pose proof (low_equal (digits a') (digits b') k D' Db' M' ltac:(rewrite <- L; exact N)) as R'; clear - X R R'; tauto.
Qed.
Lemma ult_loop_iff xs : forall xs' ys ys' i, List.length xs = List.length xs' -> List.length xs = List.length ys -> List.length xs = List.length ys' ->
  (fst (w_ult_loop i xs ys) = fst (w_ult_loop i xs' ys') <->
   run (fun p => fst p =? snd p) (combine xs ys) = run (fun p => fst p =? snd p) (combine xs' ys') /\ ult_loop xs ys = ult_loop xs' ys').
Proof.
  induction xs as [|x xs IH]; intros [|x' xs'] [|y ys] [|y' ys'] i L1 L2 L3; try discriminate L1; try discriminate L2; try discriminate L3; [tauto|].
  injection L1 as L1. injection L2 as L2. injection L3 as L3. specialize (IH xs' ys ys' (pred i) L1 L2 L3). cbn [w_ult_loop combine run ult_loop fst snd].
  rewrite !(fst_bind _ tt) by reflexivity. rewrite app_head_iff.
  destruct (Z.compare_spec x y) as [X|X|X]; [subst y; rewrite Z.eqb_refl|rewrite (proj2 (Z.eqb_neq x y)) by lia|rewrite (proj2 (Z.eqb_neq x y)) by lia];
  (destruct (Z.compare_spec x' y') as [X'|X'|X']; [subst y'; rewrite Z.eqb_refl|rewrite (proj2 (Z.eqb_neq x' y')) by lia|rewrite (proj2 (Z.eqb_neq x' y')) by lia]);
  rewrite !(fst_bind _ tt) by reflexivity; cbn [fst see wval app]; split; intros Q; match type of Q with _ /\ _ => destruct Q as [Q1 Q2] | _ => idtac end; try discriminate; try tauto.
  - injection Q as Q. apply IH in Q as [Q1 Q2]. split; congruence.
  - do 2 f_equal. apply IH. split; [now injection Q1|exact Q2].
Qed.
Lemma ult_exact a a' b b' : wf a -> wf a' -> wf b -> wf b' -> len a = len a' -> len b = len b' ->
  (fst (w_checked_ult a b) = fst (w_checked_ult a' b') <->
   len a <> len b \/ len a <= 64 \/
   (forall i, 0 <= i -> (unsigned a / 2 ^ (64 * i) = unsigned b / 2 ^ (64 * i) <-> unsigned a' / 2 ^ (64 * i) = unsigned b' / 2 ^ (64 * i))) /\
   (unsigned a < unsigned b <-> unsigned a' < unsigned b')).
Proof.
  intros Ha Ha' Hb Hb' E F. pose proof (wf_alike _ _ Ha Ha' E) as [_ L]. unfold w_checked_ult, w_zip_access_data, zip_access_data, width. rewrite <- E, <- F.
  destruct (Z.eqb_spec (len a) (len b)) as [W|W]; cbn [negb]; [|split; [now left|reflexivity]]. destruct (Z_le_gt_dec (len a) 64) as [S|S].
  - split; [auto|]. intros _. destruct (small_storage a Ha S) as (d & -> & D). destruct (small_storage a' Ha' ltac:(lia)) as (d' & _ & D'). destruct (small_storage b Hb ltac:(lia)) as (e & _ & G).
    destruct (small_storage b' Hb' ltac:(lia)) as (e' & _ & G'). unfold read_inl. now rewrite D, D', G, G'.
  - rewrite large_storage by lia. pose proof (wf_alike _ _ Ha Hb W) as [_ M]. pose proof (wf_alike _ _ Ha' Hb' ltac:(lia)) as [_ M'].
    destruct (wf_parts a Ha) as (_ & D & U). destruct (wf_parts a' Ha') as (_ & D' & U'). destruct (wf_parts b Hb) as (_ & Db & Ub). destruct (wf_parts b' Hb') as (_ & Db' & Ub').
    rewrite <- M' , <- L in Ub'. rewrite <- M in Ub. rewrite <- L in U'. unfold as_digit_slice.
    rewrite (fst_bind _ (Ok (ZExt (digits a) (digits b)))), (fst_bind _ (Ok (ZExt (digits a') (digits b')))) by reflexivity. rewrite app_head_iff.
    rewrite !(fst_bind _ _ _ (we_ult_loop _ _ _)), app_tail_iff, <- L. rewrite ult_loop_iff by (rewrite !rev_length; lia). rewrite !ult_loop_spec by (assumption || lia).
    assert (List.length (combine (rev (digits a)) (rev (digits b))) = List.length (digits a)) as C by (rewrite combine_length, !rev_length; lia).
    assert (List.length (combine (rev (digits a)) (rev (digits b))) = List.length (combine (rev (digits a')) (rev (digits b')))) as C' by (rewrite !combine_length, !rev_length; lia).
    rewrite run_iff, C by exact C'. unfold unsigned in *.
    assert ((uval (digits a) <? uval (digits b)) = (uval (digits a') <? uval (digits b')) <-> (uval (digits a) < uval (digits b) <-> uval (digits a') < uval (digits b'))) as ->
      by (destruct (Z.ltb_spec (uval (digits a)) (uval (digits b))), (Z.ltb_spec (uval (digits a')) (uval (digits b'))); split; intros; try discriminate; try reflexivity; lia).
    rewrite <- (any_height (List.length (digits a))) by (intros i I; rewrite !(small_div _ (Z.of_nat (List.length (digits a)))) by lia; tauto).
    split.
    + intros [X Y]. right. right. split; [|exact Y]. intros k N. specialize (X k N).
      pose proof (high_equal (digits a) (digits b) k D Db M N) as R; pose proof (high_equal (digits a') (digits b') k D' Db' M' ltac:(rewrite <- L; exact N)) as R'. rewrite <- L in R'. clear - X R R'. tauto.
    + intros [X|[X|[X Y]]]; [contradiction|lia|]. split; [|exact Y]. intros k N. specialize (X k N).
      pose proof (high_equal (digits a) (digits b) k D Db M N) as R; pose proof (high_equal (digits a') (digits b') k D' Db' M' ltac:(rewrite <- L; exact N)) as R'. rewrite <- L in R'. clear - X R R'. tauto.
Qed.

(** * The sign *)
Lemma same_bind_snd {A C} `{Alike A} `{Alike C} (m m' : watched A) (k k' : A -> watched C) : same m m' -> snd m = snd m' -> (forall a, same (k a) (k' a)) -> same (wbind m k) (wbind m' k').
Proof.
  intros [E O] S K. unfold same, wbind. rewrite <- S. destruct (snd m) as [a| |]; cbn; auto. destruct (K a) as [E1 O1]. split; [now f_equal|exact O1].
Qed.
Lemma same_for (a a' : apint) s : alike a a' -> msb a = msb a' -> same (w_wrapping_ashr_assign a s) (w_wrapping_ashr_assign a' s).
Proof.
  intros H M. unfold w_wrapping_ashr_assign. apply same_bind_snd; [now apply same_msb|now rewrite !we_msb|]. intros m. apply same_branch; [reflexivity|]. destruct m; cbn [negb]; [|now apply same_lshr].
  unfold width. pose proof H as [-> _]. destruct (verify_shift_amount (len a') s); (apply same_see; [reflexivity|]); [|apply same_val; now split].
  apply same_branch; [reflexivity|]. destruct (s =? 0); [apply same_val; now split|]. apply same_lift_eq. intros uns. apply same_bind; [now apply same_access|]. intros acc acc' K.
  apply same_bind; [|intros a1 a1' H1; apply same_bind; [now apply same_clear|]; intros; apply same_val; now split].
  destruct acc as [d|l], acc' as [d'|l']; try contradiction.
  - apply same_lift_eq. intros. apply same_see; [reflexivity|]. apply same_val. auto with same.
  - apply same_branch; [reflexivity|]. apply same_bind.
    { destruct (negb _); [|now apply same_val]. pose proof K as L. unfold alike, alike_access, alike, alike_digits in L. rewrite L. apply same_lift_eq. intros n.
      apply same_bind; [now apply same_idx|]. intros. apply same_bind; [apply same_lift; auto with same|]. intros. apply same_bind; [apply same_lift; now apply ends_unwrap|]. intros. now apply same_upd. }
    clear l l' K. intros l l' K. pose proof K as L. unfold alike, alike_digits in L. rewrite L. apply same_lift_eq. intros diff. apply same_branch; [reflexivity|].
    apply same_bind; [|intros; apply same_val; auto with same].
    assert (forall x x' dg df, alike x x' -> same (w_ashr_fill dg df x) (w_ashr_fill dg df x')) as Fill.
    { intros. unfold w_ashr_fill. apply same_for_range; [assumption|]. intros. apply same_bind; [now apply same_idx|]. intros. now apply same_upd. }
    destruct (Nat.eqb _ _).
    + unfold w_ashr_subdigit. rewrite L. apply same_lift_eq. intros n. apply same_bind.
      * apply same_for_range; [exact K|]. intros. apply same_bind; [now apply same_idx|]. intros. apply same_bind; [now apply same_idx|]. intros. now apply same_upd.
      * intros. apply same_bind; [now apply same_idx|]. intros. now apply same_upd.
    + apply same_branch; [reflexivity|]. destruct (_ =? 0).
      * unfold w_ashr_digit. rewrite L. apply same_bind; [|intros; now apply Fill]. apply same_for_range; [exact K|]. intros. apply same_bind; [now apply same_idx|]. intros. apply same_lift_eq. intros. now apply same_upd.
      * unfold w_ashr_both. rewrite L. apply same_lift_eq. intros n. apply same_bind.
        -- apply same_for_range; [exact K|]. intros. apply same_bind; [now apply same_idx|]. intros. apply same_bind; [now apply same_idx|]. intros. apply same_lift_eq. intros. now apply same_upd.
        -- intros. apply same_lift_eq. intros. apply same_bind; [now apply same_idx|]. intros. apply same_bind; [now apply same_upd|]. intros. now apply Fill.
Qed.
Lemma msb_sign a : wf a -> msb a = Val (signed a <? 0).
Proof. intros H. rewrite msb_spec by now apply wf_sh. now rewrite bit_msb_neg. Qed.
Lemma sign_iff a a' : (signed a <? 0) = (signed a' <? 0) <-> (signed a < 0 <-> signed a' < 0).
Proof. destruct (Z.ltb_spec (signed a) 0), (Z.ltb_spec (signed a') 0); split; intros; try discriminate; try reflexivity; lia. Qed.
Lemma ashr_exact a a' s : wf a -> wf a' -> len a = len a' ->
  (fst (w_wrapping_ashr_assign a s) = fst (w_wrapping_ashr_assign a' s) <-> (signed a < 0 <-> signed a' < 0)).
Proof.
  intros H H' E. pose proof (wf_alike _ _ H H' E) as K. rewrite <- sign_iff. split.
  - unfold w_wrapping_ashr_assign. rewrite (fst_bind (w_msb a) (signed a <? 0)) by (rewrite we_msb; now apply msb_sign). rewrite (fst_bind (w_msb a') (signed a' <? 0)) by (rewrite we_msb; now apply msb_sign).
    rewrite (same_seen _ _ (same_msb _ _ K)), app_head_iff. rewrite (fst_bind _ (signed a <? 0)) by reflexivity. rewrite (fst_bind _ (signed a' <? 0)) by reflexivity. cbn [fst branch app]. intros X. now injection X.
  - intros X. apply same_seen, same_for; [exact K|]. rewrite !msb_sign by assumption. now rewrite X.
Qed.
Lemma same_fill a a' w : alike a a' -> same (w_fill_most_significant_digit a w) (w_fill_most_significant_digit a' w).
Proof.
  intros H. unfold w_fill_most_significant_digit. destruct (excess_width w); (apply same_see; [reflexivity|]); [|apply same_val; now split].
  apply same_bind; [now apply same_msd|]. intros. apply same_bind; [apply same_lift; auto with same|]. intros [d|e] [d'|e'] R; try contradiction.
  - apply same_bind; [apply same_modify_msd; [exact H|]; intros; exact I|]. intros. apply same_val. now split.
  - apply same_val. split; [exact H|exact R].
Qed.
Lemma same_sign_extend a a' t : alike a a' -> msb a = msb a' -> same (w_sign_extend a t) (w_sign_extend a' t).
Proof.
  intros H M. pose proof H as [E L]. unfold w_sign_extend, width, as_digit_slice. rewrite E. apply same_branch; [reflexivity|]. destruct (t =? len a'); [apply same_val; now split|].
  apply same_branch; [reflexivity|]. destruct (t <? len a'); [apply same_val; split; [exact H|reflexivity]|].
  apply same_bind_snd; [now apply same_msb|now rewrite !we_msb|]. intros m. apply same_branch; [reflexivity|]. destruct m; cbn [negb]; [|now apply same_zero_extend].
  apply same_branch; [reflexivity|]. destruct (Nat.eqb _ _).
  - apply same_bind; [apply same_fill; split; [reflexivity|exact L]|]. intros [c [u|e]] [c' [u'|e']] [C1 C2]; try contradiction.
    + apply same_bind; [now apply same_clear|]. intros. apply same_val. now split.
    + apply same_val. split; [exact C1|exact C2].
  - destruct (negb _); [now apply same_lift|]. apply same_bind; [now apply same_fill|]. intros [c [u|e]] [c' [u'|e']] [C1 C2]; try contradiction.
    + pose proof C1 as [_ CL]. cbn [fst] in CL. rewrite CL. apply same_bind; [apply same_from_iter_truncated; unfold alike, alike_digits; now rewrite !app_length, CL|].
      intros [x|e] [x'|e'] R; try contradiction.
      * apply same_bind; [now apply same_clear|]. intros. apply same_val. split; [exact R|exact I].
      * apply same_val. split; [exact C1|exact R].
    + apply same_val. split; [exact C1|exact C2].
Qed.
Lemma sign_extend_exact a a' t : wf a -> wf a' -> len a = len a' ->
  (fst (w_sign_extend a t) = fst (w_sign_extend a' t) <-> t <= len a \/ (signed a < 0 <-> signed a' < 0)).
Proof.
  intros H H' E. pose proof (wf_alike _ _ H H' E) as K. rewrite <- sign_iff. split.
  - unfold w_sign_extend, width. rewrite <- E. rewrite !(fst_bind _ (t =? len a)) by reflexivity. rewrite app_head_iff. destruct (Z.eqb_spec t (len a)); [left; lia|].
    rewrite !(fst_bind _ (t <? len a)) by reflexivity. rewrite app_head_iff. destruct (Z.ltb_spec t (len a)); [left; lia|].
    rewrite (fst_bind (w_msb a) (signed a <? 0)) by (rewrite we_msb; now apply msb_sign). rewrite (fst_bind (w_msb a') (signed a' <? 0)) by (rewrite we_msb; now apply msb_sign).
    rewrite (same_seen _ _ (same_msb _ _ K)), app_head_iff. rewrite (fst_bind _ (signed a <? 0)) by reflexivity. rewrite (fst_bind _ (signed a' <? 0)) by reflexivity. cbn [fst branch app]. intros X. right. now injection X.
  - intros [X|X].
    + unfold w_sign_extend, width. rewrite <- E. rewrite !(fst_bind _ (t =? len a)) by reflexivity. rewrite app_head_iff. destruct (Z.eqb_spec t (len a)); [reflexivity|].
      rewrite !(fst_bind _ (t <? len a)) by reflexivity. rewrite app_head_iff. destruct (Z.ltb_spec t (len a)); [reflexivity|lia].
    + apply same_seen, same_sign_extend; [exact K|]. rewrite !msb_sign by assumption. now rewrite X.
Qed.
Lemma expect_seen m : fst (w_expect_mut m) = fst m.
Proof. unfold w_expect_mut, wbind. destruct (snd m) as [[a r]| |] eqn:E; cbn; try reflexivity. destruct r; cbn; now rewrite ?app_nil_r. Qed.
Lemma sign_resize_exact a a' t : wf a -> wf a' -> len a = len a' ->
  (fst (w_sign_resize a t) = fst (w_sign_resize a' t) <-> t <= len a \/ (signed a < 0 <-> signed a' < 0)).
Proof.
  intros H H' E. pose proof (wf_alike _ _ H H' E) as K. unfold w_sign_resize, width. rewrite <- E. rewrite !(fst_bind _ (t <=? len a)) by reflexivity. rewrite app_head_iff.
  destruct (Z.leb_spec t (len a)).
  - split; [auto|]. intros _. apply same_seen, same_expect_mut. now apply same_truncate.
  - rewrite !expect_seen. now apply sign_extend_exact.
Qed.
