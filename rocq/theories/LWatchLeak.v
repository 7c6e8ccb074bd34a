(** What the calls that stop early give away, exactly. *)
From Verif Require Export LWatchSame LCount LRel LCast.
From Coq Require Import Lia ZArith.

(** * How far a loop goes that stops at the first digit of some kind *)
Fixpoint run {A} (q : A -> bool) (l : list A) : nat := match l with [] => O | x :: r => if q x then S (run q r) else O end.
Lemma run_le {A} (q : A -> bool) l : (run q l <= List.length l)%nat.
Proof. induction l as [|x l IH]; cbn; [lia|]. destruct (q x); lia. Qed.
Lemma run_prefix {A} (q : A -> bool) l : forall k, (k <= List.length l)%nat -> forallb q (firstn k l) = Nat.leb k (run q l).
Proof.
  induction l as [|x l IH]; intros [|k] H; try reflexivity; [cbn in H; lia|]. cbn [firstn forallb run List.length] in *. destruct (q x); [|reflexivity]. cbn [andb]. rewrite IH by lia. reflexivity.
Qed.
Lemma run_iff {A} (q : A -> bool) l l' : List.length l = List.length l' ->
  (run q l = run q l' <-> forall k, (k <= List.length l)%nat -> (forallb q (firstn k l) = true <-> forallb q (firstn k l') = true)).
Proof.
  intros L. pose proof (run_le q l). pose proof (run_le q l'). split.
  - intros E k K. rewrite !run_prefix by lia. now rewrite E.
  - intros E. pose proof (E (run q l) ltac:(lia)) as E1. pose proof (E (run q l') ltac:(lia)) as E2. rewrite !run_prefix, !Nat.leb_le in E1, E2 by lia. lia.
Qed.

Definition steps_like {A} (q : A -> bool) (before after : nat -> list event) (next : nat -> nat) (decide : bool -> event) (loop : nat -> list A -> list event) : Prop :=
  decide true <> decide false /\
  (forall i, loop i [] = []) /\
  forall i x r, loop i (x :: r) = before i ++ decide (q x) :: after i ++ (if q x then loop (next i) r else []).
Lemma steps_iff {A} (q : A -> bool) e1 e2 nx d loop : steps_like q e1 e2 nx d loop ->
  forall l l' i, List.length l = List.length l' -> (loop i l = loop i l' <-> run q l = run q l').
Proof.
  intros (D & N & S). induction l as [|x l IH]; intros [|x' l'] i L; try discriminate L; [tauto|]. injection L as L. rewrite !S. cbn [run]. specialize (IH l' (nx i) L).
  destruct (q x), (q x').
  - split; intros E.
    + f_equal. apply IH. apply app_inv_head in E. injection E as E. now apply app_inv_head in E.
    + do 2 f_equal. f_equal. apply IH. now injection E.
  - split; [|discriminate]. intros E. apply app_inv_head in E. injection E as E. congruence.
  - split; [|discriminate]. intros E. apply app_inv_head in E. injection E as E. congruence.
  - tauto.
Qed.

(** * What the digits of the kind are *)
Lemma all_ones ds : digs ds -> (forallb (fun d => d =? ONES) ds = true <-> uval ds = P (List.length ds) - 1).
Proof.
  intros H. rewrite <- uval_repeat_ONES. split.
  - intros E. f_equal. clear H. induction ds as [|d ds IH]; [reflexivity|]. cbn in E. apply andb_prop in E as [E1 E2]. apply Z.eqb_eq in E1. subst d. cbn. f_equal. auto.
  - intros E. apply uval_inj in E; [|exact H|apply digs_repeat, dok_ONES|now rewrite repeat_length]. rewrite E. generalize (List.length ds). clear. induction n; [reflexivity|exact IHn].
Qed.
Lemma all_zero ds : digs ds -> (forallb d_is_zero ds = true <-> uval ds = 0).
Proof.
  intros H. rewrite uval_zero_iff by exact H. rewrite forallb_forall, Forall_forall. split; intros E x X; specialize (E x X); unfold d_is_zero in *; [now apply Z.eqb_eq|now apply Z.eqb_eq].
Qed.
Lemma all_equal xs ys : digs xs -> digs ys -> List.length xs = List.length ys -> (forallb (fun p => fst p =? snd p) (combine xs ys) = true <-> uval xs = uval ys).
Proof.
  intros Hx Hy L. split.
  - intros E. f_equal. clear Hx Hy. revert ys L E. induction xs as [|x xs IH]; intros [|y ys] L E; try discriminate L; [reflexivity|]. cbn in E. apply andb_prop in E as [E1 E2]. apply Z.eqb_eq in E1. subst y. f_equal. auto.
  - intros E. apply uval_inj in E; auto. subst ys. clear. induction xs as [|x xs IH]; [reflexivity|]. cbn. now rewrite Z.eqb_refl.
Qed.
Lemma low_ones ds k : digs ds -> (k <= List.length ds)%nat -> (forallb (fun d => d =? ONES) (firstn k ds) = true <-> uval ds mod 2 ^ (64 * Z.of_nat k) = 2 ^ (64 * Z.of_nat k) - 1).
Proof. intros H K. rewrite all_ones by now apply digs_firstn. now rewrite uval_firstn_mod, firstn_length_le, P_pow by assumption. Qed.
Lemma low_zero ds k : digs ds -> (k <= List.length ds)%nat -> (forallb d_is_zero (firstn k ds) = true <-> uval ds mod 2 ^ (64 * Z.of_nat k) = 0).
Proof. intros H K. rewrite all_zero by now apply digs_firstn. now rewrite uval_firstn_mod, P_pow by assumption. Qed.
Lemma low_equal xs ys k : digs xs -> digs ys -> List.length xs = List.length ys -> (k <= List.length xs)%nat ->
  (forallb (fun p => fst p =? snd p) (firstn k (combine xs ys)) = true <-> uval xs mod 2 ^ (64 * Z.of_nat k) = uval ys mod 2 ^ (64 * Z.of_nat k)).
Proof.
  intros Hx Hy L K. rewrite combine_firstn, all_equal; [|now apply digs_firstn|now apply digs_firstn|rewrite !firstn_length; lia]. now rewrite !uval_firstn_mod, P_pow by (assumption || lia).
Qed.
Lemma high_zero ds k : digs ds -> (k <= List.length ds)%nat -> (forallb d_is_zero (firstn k (rev ds)) = true <-> uval ds / 2 ^ (64 * Z.of_nat (List.length ds - k)) = 0).
Proof.
  intros H K. rewrite firstn_rev, all_zero by (apply digs_rev; now apply digs_skipn). rewrite <- P_pow, <- uval_skipn_div by (assumption || lia).
  rewrite !uval_zero_iff by (try apply digs_rev; now apply digs_skipn). rewrite !Forall_forall. split; intros E x X; apply E; [now apply -> in_rev|now apply in_rev].
Qed.
Lemma combine_rev {A C} (xs : list A) : forall ys : list C, List.length xs = List.length ys -> combine (rev xs) (rev ys) = rev (combine xs ys).
Proof.
  induction xs as [|x xs IH]; intros [|y ys] L; try discriminate L; [reflexivity|]. injection L as L. cbn [rev combine]. rewrite <- IH by exact L.
  clear IH. assert (List.length (rev xs) = List.length (rev ys)) as E by now rewrite !rev_length. revert E. generalize (rev xs) (rev ys). clear. induction l as [|a l IH]; intros [|b m] E; try discriminate E; [reflexivity|].
  cbn. f_equal. apply IH. now injection E.
Qed.
Lemma high_equal xs ys k : digs xs -> digs ys -> List.length xs = List.length ys -> (k <= List.length xs)%nat ->
  (forallb (fun p => fst p =? snd p) (firstn k (combine (rev xs) (rev ys))) = true <->
   uval xs / 2 ^ (64 * Z.of_nat (List.length xs - k)) = uval ys / 2 ^ (64 * Z.of_nat (List.length xs - k))).
Proof.
  intros Hx Hy L K. rewrite combine_firstn, !firstn_rev, <- L. set (m := (List.length xs - k)%nat). rewrite <- P_pow, <- !uval_skipn_div by (assumption || lia).
  assert (List.length (skipn m xs) = List.length (skipn m ys)) as E by (rewrite !skipn_length; lia).
  rewrite <- all_equal by (try apply digs_skipn; assumption). rewrite combine_rev by exact E.
  rewrite !forallb_forall. split; intros F x X; apply F; [now apply -> in_rev|now apply in_rev].
Qed.

(** * From numbers of digits to numbers of bits *)
Lemma any_width n (Q Q' : Z -> Prop) : (forall i, Z.of_nat n < i -> (Q i <-> Q' i)) ->
  ((forall k, (k <= n)%nat -> (Q (Z.of_nat k) <-> Q' (Z.of_nat k))) <-> (forall i, 0 <= i -> (Q i <-> Q' i))).
Proof.
  intros H. split; intros E i I.
  - destruct (Z_lt_le_dec (Z.of_nat n) i); [auto|]. specialize (E (Z.to_nat i) ltac:(lia)). now rewrite Z2Nat.id in E by lia.
  - apply E. lia.
Qed.
Lemma any_height n (Q Q' : Z -> Prop) : (forall i, Z.of_nat n < i -> (Q i <-> Q' i)) ->
  ((forall k, (k <= n)%nat -> (Q (Z.of_nat (n - k)) <-> Q' (Z.of_nat (n - k)))) <-> (forall i, 0 <= i -> (Q i <-> Q' i))).
Proof.
  intros H. rewrite <- (any_width n) by exact H. split; intros E k K; [|apply E; lia]. specialize (E (n - k)%nat ltac:(lia)). now replace (n - (n - k))%nat with k in E by lia.
Qed.
Lemma small_mod u n i : 0 <= u < 2 ^ (64 * n) -> 0 <= n < i -> u mod 2 ^ (64 * i) = u.
Proof. intros H I. apply Z.mod_small. assert (2 ^ (64 * n) <= 2 ^ (64 * i)) by (apply Z.pow_le_mono_r; lia). lia. Qed.
Lemma small_div u n i : 0 <= u < 2 ^ (64 * n) -> 0 <= n < i -> u / 2 ^ (64 * i) = 0.
Proof. intros H I. apply Z.div_small. assert (2 ^ (64 * n) <= 2 ^ (64 * i)) by (apply Z.pow_le_mono_r; lia). lia. Qed.
Lemma bigger_pow n i : 0 <= n < i -> 2 ^ (64 * n) < 2 ^ (64 * i).
Proof. intros I. apply Z.pow_lt_mono_r; lia. Qed.

(** * The integers compared *)
Lemma wf_alike a a' : wf a -> wf a' -> len a = len a' -> alike a a'.
Proof. intros (_ & H & _) (_ & H' & _) E. split; [exact E|]. rewrite E in H. lia. Qed.
Lemma same_seen {A} `{Alike A} (m m' : watched A) : same m m' -> fst m = fst m'.
Proof. now intros []. Qed.
Lemma same_known {A C} `{Alike C} es (a a' : A) (k k' : A -> watched C) : same (k a) (k' a') -> same (wbind (es, Val a) k) (wbind (es, Val a') k').
Proof. intros [E O]. split; cbn; [now f_equal|exact O]. Qed.
Lemma fst_bind {A C} (m : watched A) a (k : A -> watched C) : snd m = Val a -> fst (wbind m k) = fst m ++ fst (k a).
Proof. intros H. unfold wbind. now rewrite H. Qed.
Lemma wf_parts a : wf a -> 0 < len a /\ digs (digits a) /\ 0 <= uval (digits a) < 2 ^ (64 * Z.of_nat (List.length (digits a))).
Proof.
  intros H. pose proof (wf_sh _ H) as (H0 & _ & H2). split; [exact H0|]. split; [exact H2|]. rewrite <- P_pow. now apply uval_bound.
Qed.
Lemma small_storage a : wf a -> len a <= 64 -> exists d, storage (len a) = SInl /\ digits a = [d].
Proof.
  intros (H0 & H1 & _) L. unfold storage. destruct (Z.leb_spec (len a) 64); [|lia]. assert (Z.of_nat (List.length (digits a)) = 1) as E.
  { rewrite H1. replace (len a + 63) with ((len a - 1) + 1 * 64) by lia. rewrite Z.div_add, Z.div_small; lia. }
  destruct (digits a) as [|d [|e r]]; cbn in E; try lia. eauto.
Qed.
Lemma small_access p a : wf a -> len a <= 64 -> exists d, w_access_data p a = ([Branch true; Read p 0], Val (DInl d)).
Proof. intros H L. destruct (small_storage a H L) as (d & S & D). exists d. unfold w_access_data, access_data, read_inl. now rewrite S, D. Qed.
Lemma large_storage a : 64 < len a -> storage (len a) = SExt.
Proof. intros L. unfold storage. destruct (Z.leb_spec (len a) 64); [lia|reflexivity]. Qed.
Lemma ones_beyond u n : 0 <= u < 2 ^ (64 * Z.of_nat n) -> forall i, Z.of_nat n < i -> u mod 2 ^ (64 * i) <> 2 ^ (64 * i) - 1.
Proof. intros H i I E. rewrite (small_mod _ (Z.of_nat n)) in E by lia. pose proof (bigger_pow (Z.of_nat n) i). lia. Qed.

(** * Adding one *)
Lemma inc_steps : steps_like (fun x => snd (d_overflowing_add x ONE)) (fun i => [Read Self i]) (fun i => [Write Self i]) S Branch (fun i l => fst (w_inc_loop i l)).
Proof.
  split; [discriminate|]. split; [reflexivity|]. intros i x r. cbn [w_inc_loop]. destruct (d_overflowing_add x ONE) as [v c]. cbn [snd]. rewrite (fst_bind _ tt) by reflexivity.
  rewrite (fst_bind _ c) by reflexivity. rewrite (fst_bind _ tt) by reflexivity. cbn [fst see branch app]. do 3 f_equal. destruct c; [|reflexivity]. erewrite fst_bind by apply we_inc_loop. apply app_nil_r.
Qed.
Lemma dec_steps : steps_like (fun x => snd (d_overflowing_sub x ONE)) (fun i => [Read Self i]) (fun i => [Write Self i]) S Branch (fun i l => fst (w_dec_loop i l)).
Proof.
  split; [discriminate|]. split; [reflexivity|]. intros i x r. cbn [w_dec_loop]. destruct (d_overflowing_sub x ONE) as [v c]. cbn [snd]. rewrite (fst_bind _ tt) by reflexivity.
  rewrite (fst_bind _ c) by reflexivity. rewrite (fst_bind _ tt) by reflexivity. cbn [fst see branch app]. do 3 f_equal. destruct c; [|reflexivity]. erewrite fst_bind by apply we_dec_loop. apply app_nil_r.
Qed.
Lemma forallb_weak {A} (q q' : A -> bool) l : (forall x, In x l -> q x = q' x) -> forallb q l = forallb q' l.
Proof. induction l as [|x l IH]; intros H; [reflexivity|]. cbn. rewrite H by now left. f_equal. apply IH. intros. apply H. now right. Qed.
Lemma in_digs ds x : digs ds -> In x ds -> 0 <= x < 2 ^ 64.
Proof. intros H X. eapply Forall_forall in H; [|exact X]. now apply digit_ok_dok in H. Qed.
Lemma inc_prefix ds k : digs ds -> forallb (fun x => snd (d_overflowing_add x ONE)) (firstn k ds) = forallb (fun d => d =? ONES) (firstn k ds).
Proof.
  intros H. apply forallb_weak. intros x X. apply (in_digs _ _ (digs_firstn k _ H)) in X. cbn. unfold ONE. rewrite ONES_B. rewrite <- B_pow in X.
  destruct (Z.leb_spec B (x + 1)), (Z.eqb_spec x (B - 1)); lia.
Qed.
Lemma dec_prefix ds k : digs ds -> forallb (fun x => snd (d_overflowing_sub x ONE)) (firstn k ds) = forallb d_is_zero (firstn k ds).
Proof.
  intros H. apply forallb_weak. intros x X. apply (in_digs _ _ (digs_firstn k _ H)) in X. cbn. unfold ONE, d_is_zero. destruct (Z.ltb_spec x 1), (Z.eqb_spec x ZERO); unfold ZERO in *; lia.
Qed.
Lemma inc_loop_length l : List.length (inc_loop l) = List.length l.
Proof. induction l as [|x l IH]; [reflexivity|]. cbn [inc_loop]. destruct (d_overflowing_add x ONE) as [v [|]]; cbn; congruence. Qed.
Lemma dec_loop_length l : List.length (dec_loop l) = List.length l.
Proof. induction l as [|x l IH]; [reflexivity|]. cbn [dec_loop]. destruct (d_overflowing_sub x ONE) as [v [|]]; cbn; congruence. Qed.
Lemma app_tail_iff {A} (x y z : list A) : x ++ z = y ++ z <-> x = y.
Proof. split; [apply app_inv_tail|congruence]. Qed.
Lemma app_head_iff {A} (x y z : list A) : z ++ x = z ++ y <-> x = y.
Proof. split; [apply app_inv_head|congruence]. Qed.

Lemma inc_seen a : 64 < len a -> fst (w_wrapping_inc a) = [Branch false] ++ fst (w_inc_loop 0 (digits a)) ++ fst (w_clear_unused_bits Self (write_ext a (inc_loop (digits a)))).
Proof.
  intros L. unfold w_wrapping_inc, w_access_data, access_data. rewrite (large_storage a L). rewrite (fst_bind _ (DExt (digits a))) by reflexivity.
  cbv beta iota. rewrite (fst_bind _ (write_ext a (inc_loop (digits a)))) by (erewrite wbind_val by apply we_inc_loop; reflexivity). rewrite (fst_bind _ (inc_loop (digits a))) by apply we_inc_loop. cbn [fst wval]. now rewrite app_nil_r.
Qed.
Lemma dec_seen a : 64 < len a -> fst (w_wrapping_dec a) = [Branch false] ++ fst (w_dec_loop 0 (digits a)) ++ fst (w_clear_unused_bits Self (write_ext a (dec_loop (digits a)))).
Proof.
  intros L. unfold w_wrapping_dec, w_access_data, access_data. rewrite (large_storage a L). rewrite (fst_bind _ (DExt (digits a))) by reflexivity.
  cbv beta iota. rewrite (fst_bind _ (write_ext a (dec_loop (digits a)))) by (erewrite wbind_val by apply we_dec_loop; reflexivity). rewrite (fst_bind _ (dec_loop (digits a))) by apply we_dec_loop. cbn [fst wval]. now rewrite app_nil_r.
Qed.
Lemma inc_exact a a' : wf a -> wf a' -> len a = len a' ->
  (fst (w_wrapping_inc a) = fst (w_wrapping_inc a') <->
   len a <= 64 \/ forall i, 0 <= i -> (unsigned a mod 2 ^ (64 * i) = 2 ^ (64 * i) - 1 <-> unsigned a' mod 2 ^ (64 * i) = 2 ^ (64 * i) - 1)).
Proof.
  intros H H' E. pose proof (wf_alike _ _ H H' E) as K. destruct (Z_le_gt_dec (len a) 64) as [S|S].
  - split; [now left|]. intros _. apply same_seen. unfold w_wrapping_inc. destruct (small_access Self a H S) as (d & ->), (small_access Self a' H' ltac:(lia)) as (d' & ->).
    apply same_known. apply same_bind; [apply same_see; [reflexivity|]; apply same_val; auto with same|]. intros. now apply same_clear.
  - rewrite (inc_seen a), (inc_seen a') by lia. rewrite app_head_iff.
    assert (fst (w_clear_unused_bits Self (write_ext a (inc_loop (digits a)))) = fst (w_clear_unused_bits Self (write_ext a' (inc_loop (digits a'))))) as ->.
    { apply same_seen, same_clear. split; [exact E|]. cbn. rewrite !inc_loop_length. apply K. }
    rewrite app_tail_iff. pose proof K as [_ L]. rewrite (steps_iff _ _ _ _ _ _ inc_steps) by exact L. rewrite run_iff by exact L.
    destruct (wf_parts a H) as (_ & D & U). destruct (wf_parts a' H') as (_ & D' & U'). rewrite <- L in U'.
    transitivity (forall i, 0 <= i -> (uval (digits a) mod 2 ^ (64 * i) = 2 ^ (64 * i) - 1 <-> uval (digits a') mod 2 ^ (64 * i) = 2 ^ (64 * i) - 1)).
    2:{ unfold unsigned. split; [tauto|]. intros [X|X]; [lia|exact X]. }
    rewrite <- (any_width (List.length (digits a))) by (intros i I; pose proof (ones_beyond _ _ U i I); pose proof (ones_beyond _ _ U' i I); tauto).
    split; intros X k N; specialize (X k N); rewrite ?inc_prefix, !low_ones in * by (assumption || lia); exact X.
Qed.
