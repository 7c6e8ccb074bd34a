(** How many digits are read, written and allocated: products by their factors, and the statements. *)
From Verif Require Export LWork5.
From Verif Require Import LTemp2 LMul.
From Coq Require Import Lia ZArith List Bool.
Import ListNotations.
Open Scope Z_scope.

Definition TwoL (n : nat) (st : list Z * Z) : Prop := List.length (fst st) = n.
Lemma y_small_lhs lhs rhs s n : (0 < s < n)%nat -> List.length lhs = n -> yields (w_mul_small_lhs lhs rhs s) (Z.of_nat s + 2) (Z.min (Z.of_nat n) (Z.of_nat s + 2)) 0 (fun v => List.length v = n).
Proof.
  intros P L. unfold w_mul_small_lhs. eapply y_is.
  - ystep. ystep. destruct (d_carrying_mul a a0) as [lo hi]. ystep. eapply y_bind; [apply (y_times (s - 1) 1 _ 1 1 0 (TwoL n))|].
    + intros i [t c] _ J. unfold TwoL in *. cbn [fst] in J. unfold w_mul_small_step. eapply y_is; [ystep; destruct (d_carrying_mul_add a a2 c) as [lo' hi']; ystep; ystep; cbn [fst]; lia|..]; reflexivity.
    + unfold TwoL. cbn [fst]. lia.
    + intros [t c] J. unfold TwoL in J. cbn [fst] in J. eapply (y_bind _ _ _ _ _ _ _ _ (fun v => v = (n - 1)%nat)); [eapply y_weak; [apply y_lift|rewrite J; apply lift_sub; lia]|intros last ->].
      ystep. ystep. instantiate (1 := 0). instantiate (1 := if Nat.eqb s (n - 1) then 1 else 2). instantiate (1 := 0). destruct (Nat.eqb s (n - 1)).
      * ystep. lia.
      * destruct (d_carrying_mul_add a a2 c) as [lo' hi']. eapply y_is; [ystep; ystep; lia|..]; reflexivity.
  - lia.
  - destruct (Nat.eqb_spec s (n - 1)); lia.
  - lia.
Qed.
Lemma y_small_rhs lhs rhs s n : (0 < s < n)%nat -> List.length lhs = n -> yields (w_mul_small_rhs lhs rhs s) (2 * Z.of_nat s + 2) (Z.min (Z.of_nat n) (Z.of_nat s + 2)) 0 (fun v => List.length v = n).
Proof.
  intros P L. unfold w_mul_small_rhs. eapply y_is.
  - ystep. ystep. destruct (d_carrying_mul a a0) as [lo hi]. ystep. eapply y_bind; [apply (y_times (s - 1) 1 _ 2 1 0 (TwoL n))|].
    + intros i [t c] _ J. unfold TwoL in *. cbn [fst] in J. unfold w_mul_small_step_inplace. eapply y_is; [ystep; ystep; destruct (d_carrying_mul_add a a2 c) as [lo' hi']; ystep; ystep; cbn [fst]; lia|..]; reflexivity.
    + unfold TwoL. cbn [fst]. lia.
    + intros [t c] J. unfold TwoL in J. cbn [fst] in J. eapply (y_bind _ _ _ _ _ _ _ _ (fun v => v = (n - 1)%nat)); [eapply y_weak; [apply y_lift|rewrite J; apply lift_sub; lia]|intros last ->].
      ystep. ystep. ystep. instantiate (1 := 0). instantiate (1 := if Nat.eqb s (n - 1) then 1 else 2). instantiate (1 := 0). destruct (Nat.eqb s (n - 1)).
      * ystep. lia.
      * destruct (d_carrying_mul_add a a2 c) as [lo' hi']. eapply y_is; [ystep; ystep; lia|..]; reflexivity.
  - lia.
  - destruct (Nat.eqb_spec s (n - 1)); lia.
  - lia.
Qed.
Lemma y_small_both lhs rhs n : List.length lhs = n -> yields (w_mul_small_both lhs rhs) 2 2 0 (fun v => List.length v = n).
Proof. intros L. unfold w_mul_small_both. eapply y_is; [ystep; ystep; destruct (d_carrying_mul a a0) as [lo hi]; ystep; ystep; lia|..]; reflexivity. Qed.

(** * The whole product *)
Lemma needed_some ds i : digs ds -> rposition_nonzero ds = Some i -> digits_needed (uval ds) = Z.of_nat i + 1 /\ sb ds i = Z.log2 (uval ds) + 1 /\ (i < List.length ds)%nat.
Proof.
  intros D E. destruct (top_digit ds i D E) as (Q & B & _). pose proof (uval_nonneg ds D). destruct (sig_value ds i D E) as (I & _ & Lz & _). split; [|now split]. unfold digits_needed.
  destruct (Z.eqb_spec (uval ds) 0); [lia|]. unfold sb in B. f_equal. symmetry. apply Z.div_unique with (63 - d_leading_zeros (nth i ds 0)); lia.
Qed.
Lemma needed_none ds : digs ds -> rposition_nonzero ds = None -> digits_needed (uval ds) = 0.
Proof. intros D E. assert (uval ds = 0) as -> by (pose proof (rposition_nonzero_spec ds D) as R; now rewrite E in R). reflexivity. Qed.

Lemma mul_work lhs rhs n l r : digs lhs -> digs rhs -> List.length lhs = n -> List.length rhs = n -> (2 <= n)%nat -> rposition_nonzero lhs = Some l -> rposition_nonzero rhs = Some r ->
  forall R W K,
  ((l = 0%nat -> r = 0%nat -> R = 2 /\ W = 2 /\ K = 0) /\
   (l = 0%nat -> r <> 0%nat -> R = Z.of_nat r + 2 /\ W = Z.min (Z.of_nat n) (Z.of_nat r + 2) /\ K = 0) /\
   (l <> 0%nat -> r = 0%nat -> R = 2 * Z.of_nat l + 2 /\ W = Z.min (Z.of_nat n) (Z.of_nat l + 2) /\ K = 0) /\
   (l <> 0%nat -> r <> 0%nat -> Z.log2 (uval lhs) + Z.log2 (uval rhs) + 2 <= 64 * Z.of_nat n ->
     R = 4 + Z.of_nat r + Z.of_nat l * (2 * Z.of_nat r + 3) + Z.min (Z.of_nat n) (Z.of_nat (l + r + 2)) /\
     W = (Z.of_nat r + 2) * (Z.of_nat l + 1) + Z.min (Z.of_nat n) (Z.of_nat (l + r + 2)) /\ K = Z.of_nat (l + r + 2)) /\
   (l <> 0%nat -> r <> 0%nat -> 64 * Z.of_nat n < Z.log2 (uval lhs) + Z.log2 (uval rhs) + 2 ->
     R = 3 * tri (S n) + 1 /\ W = tri (S n) + Z.of_nat n - 1 /\ K = Z.of_nat n)) ->
  yields (w_mul_cases lhs rhs l r) R W K (fun v => List.length v = n).
Proof.
  intros Dl Dr Ll Lr N El Er R W K H. destruct (needed_some lhs l Dl El) as (_ & Bl & Il), (needed_some rhs r Dr Er) as (_ & Br & Ir).
  destruct H as (H1 & H2 & H3 & H4 & H5). unfold w_mul_cases.
  destruct (Nat.eqb_spec l 0) as [L0|L0], (Nat.eqb_spec r 0) as [R0|R0].
  - destruct (H1 L0 R0) as (-> & -> & ->). eapply y_is; [ystep; ystep; now apply y_small_both|..]; reflexivity.
  - destruct (H2 L0 R0) as (-> & -> & ->). eapply y_is; [ystep; ystep; apply y_small_lhs; [lia|exact Ll]|..]; reflexivity.
  - destruct (H3 L0 R0) as (-> & -> & ->). eapply y_is; [ystep; ystep; apply y_small_rhs; [lia|exact Ll]|..]; reflexivity.
  - assert (forall p ds s, (s < List.length ds)%nat -> yields (w_sig_bits p ds s) 1 0 0 (fun v => v = sb ds s)) as SB.
    { intros p ds s I. unfold w_sig_bits. eapply y_is; [eapply y_bind; [apply y_idx|intros d D]; rewrite idx_nth in D by exact I; injection D as <-; ystep; reflexivity|..]; reflexivity. }
    destruct (Z_le_gt_dec (Z.log2 (uval lhs) + Z.log2 (uval rhs) + 2) (64 * Z.of_nat n)) as [F|F].
    + destruct (H4 L0 R0 F) as (-> & -> & ->). eapply y_is; [ystep; ystep; eapply y_bind; [now apply SB|intros v ->]; eapply y_bind; [now apply SB|intros v ->]; ystep;
        destruct (Z.leb_spec (sb lhs l + sb rhs r) (Z.of_nat (List.length lhs) * 64)); [|lia]; apply (y_no_overflow _ _ _ _ n); lia|..]; lia.
    + destruct (H5 L0 R0 ltac:(lia)) as (-> & -> & ->). eapply y_is; [ystep; ystep; eapply y_bind; [now apply SB|intros v ->]; eapply y_bind; [now apply SB|intros v ->]; ystep;
        destruct (Z.leb_spec (sb lhs l + sb rhs r) (Z.of_nat (List.length lhs) * 64)); [lia|]; apply (y_wrapping _ _ n); lia|..]; lia.
Qed.
Lemma work_mul_fact a b n x l r : wf a -> wf b -> len a = len b -> 64 < len a ->
  n = digit_count (len a) -> x = partly_used (len a) -> l = digits_needed (unsigned a) -> r = digits_needed (unsigned b) ->
  (r = 0 -> work (fst (w_wrapping_mul_assign a b)) n n 0) /\
  (0 < r -> l = 0 -> work (fst (w_wrapping_mul_assign a b)) (2 * n + 1 - r) n 0) /\
  (l = 1 -> r = 1 -> work (fst (w_wrapping_mul_assign a b)) (2 * n + 2 + x) (2 + x) 0) /\
  (l = 1 -> 1 < r -> work (fst (w_wrapping_mul_assign a b)) (2 * n + 2 + x) (Z.min n (r + 1) + x) 0) /\
  (1 < l -> r = 1 -> work (fst (w_wrapping_mul_assign a b)) (2 * n + 1 + l + x) (Z.min n (l + 1) + x) 0) /\
  (1 < l -> 1 < r -> Z.log2 (unsigned a) + Z.log2 (unsigned b) + 2 <= 64 * n ->
   work (fst (w_wrapping_mul_assign a b)) (2 * n + 4 + 2 * (l - 1) * r + Z.min n (l + r) + x) (l * (r + 1) + Z.min n (l + r) + x) (l + r)) /\
  (1 < l -> 1 < r -> 64 * n < Z.log2 (unsigned a) + Z.log2 (unsigned b) + 2 ->
   work (fst (w_wrapping_mul_assign a b)) (3 * (n * (n + 1) / 2) + 2 * n + 3 - l - r + x) (n * (n + 1) / 2 + n - 1 + x) n).
Proof.
  intros Wa Wb E L Hn Hx Hl Hr. destruct (wrapping_mul_assign_spec a b Wa Wb E) as (c & EV & _). rewrite <- (proj1 (watch_mul_results_fact a b Self [])) in EV.
  destruct (wf_parts a Wa) as (_ & Da & _), (wf_parts b Wb) as (_ & Db & _). pose proof (many_digits a Wa) as Na. pose proof (many_digits b Wb) as Nb.
  rewrite <- (N_len a b E) in Nb. fold (Nd a) in Hn. fold (Xd a) in Hx. pose proof (more_than_one a ltac:(lia)) as N2. set (m := List.length (digits a)) in *.
  assert (List.length (digits b) = m) as Lb by lia. assert (n = Z.of_nat m) as Hm by lia.
  assert (n * (n + 1) / 2 = tri (S m)) as ->. { pose proof (tri_twice (S m)) as T. symmetry. apply Z.div_unique_exact; lia. }
  unfold unsigned in *.
  assert (forall R W K R' W' K', yields (w_mul_digits (digits a) (digits b)) R W K (fun o => exists ds, o = Some ds /\ List.length ds = m) -> R + x = R' -> W + x = W' -> K = K' -> work (fst (w_wrapping_mul_assign a b)) R' W' K') as Some_case.
  { intros R W K R' W' K' Y E1 E2 E3. eapply (y_work _ _ _ _ (fun _ => True)); [|exact EV]. unfold w_wrapping_mul_assign. eapply y_is; [eapply y_bind; [apply y_zip_large; [exact E|lia]|intros v ->]; eapply y_bind; [exact Y|intros v (ds & -> & D)];
      eapply y_bind; [apply (y_clear_kin Self a); apply kin_ext; [now apply wf_sized|exact D]|intros; ystep; exact I]|..]; lia. }
  assert (forall R W K, yields (w_mul_digits (digits a) (digits b)) R W K (fun o => o = None) -> work (fst (w_wrapping_mul_assign a b)) R W K) as None_case.
  { intros R W K Y. eapply (y_work _ _ _ _ (fun _ => True)); [|exact EV]. unfold w_wrapping_mul_assign. eapply y_is; [eapply y_bind; [apply y_zip_large; [exact E|lia]|intros v ->]; eapply y_bind; [exact Y|intros v ->]; ystep; exact I|..]; lia. }
  pose proof (y_rposition Other (digits b) m ltac:(lia)) as Yr. pose proof (y_rposition Self (digits a) m ltac:(lia)) as Yl. rewrite !firstn_all2 in Yr by lia. rewrite !firstn_all2 in Yl by lia.
  unfold w_mul_digits in *. fold m in Some_case, None_case. rewrite Lb in Some_case, None_case.
  destruct (rposition_nonzero (digits b)) as [ri|] eqn:Er.
  2:{ rewrite (needed_none (digits b) Db Er) in Hr. subst r. split; [|repeat split; lia]. intros _. apply None_case. eapply y_is; [eapply y_bind; [exact Yr|intros v ->]; eapply y_bind; [apply y_see, work_writes|intros _ _; ystep; reflexivity]|..]; lia. }
  destruct (needed_some (digits b) ri Db Er) as (Nr & _ & Ir). rewrite Nr in Hr.
  destruct (rposition_nonzero (digits a)) as [li|] eqn:El.
  2:{ rewrite (needed_none (digits a) Da El) in Hl. subst l. split; [lia|]. split; [|repeat split; lia]. intros _ _. apply None_case. eapply y_is; [eapply y_bind; [exact Yr|intros v ->]; eapply y_bind; [exact Yl|intros v ->]; eapply y_bind; [apply y_see, work_writes|intros _ _; ystep; reflexivity]|..]; lia. }
  destruct (needed_some (digits a) li Da El) as (Nl & _ & Il). rewrite Nl in Hl.
  assert (forall R W K R' W' K', yields (w_mul_cases (digits a) (digits b) li ri) R W K (fun v => List.length v = m) -> Z.of_nat m - Z.of_nat ri + (Z.of_nat m - Z.of_nat li) + R + x = R' -> W + x = W' -> K = K' -> work (fst (w_wrapping_mul_assign a b)) R' W' K') as Case.
  { intros R W K R' W' K' Y E1 E2 E3. eapply Some_case; [eapply y_bind; [exact Yr|intros v ->]; eapply y_bind; [exact Yl|intros v ->]; eapply y_bind; [exact Y|intros v V; ystep; eauto]|..]; lia. }
  pose proof (mul_work (digits a) (digits b) m li ri Da Db eq_refl Lb ltac:(lia) El Er) as MW.
  split; [lia|]. split; [lia|].
  split; [|split; [|split; [|split]]].
  - intros. eapply Case; [apply (MW 2 2 0); repeat split; lia|..]; lia.
  - intros. eapply Case; [apply (MW (Z.of_nat ri + 2) (Z.min (Z.of_nat m) (Z.of_nat ri + 2)) 0); repeat split; lia|..]; lia.
  - intros. eapply Case; [apply (MW (2 * Z.of_nat li + 2) (Z.min (Z.of_nat m) (Z.of_nat li + 2)) 0); repeat split; lia|..]; lia.
  - intros. eapply Case; [apply (MW (4 + Z.of_nat ri + Z.of_nat li * (2 * Z.of_nat ri + 3) + Z.min (Z.of_nat m) (Z.of_nat (li + ri + 2)))
      ((Z.of_nat ri + 2) * (Z.of_nat li + 1) + Z.min (Z.of_nat m) (Z.of_nat (li + ri + 2))) (Z.of_nat (li + ri + 2))); repeat split; lia|..]; subst; nia.
  - intros. eapply Case; [apply (MW (3 * tri (S m) + 1) (tri (S m) + Z.of_nat m - 1) (Z.of_nat m)); repeat split; lia|..]; lia.
Qed.
Lemma work_mul_small_fact a b : wf a -> wf b -> len a = len b -> len a <= 64 -> work (fst (w_wrapping_mul_assign a b)) (2 + partly_used (len a)) (1 + partly_used (len a)) 0.
Proof.
  intros Wa Wb E L. destruct (wrapping_mul_assign_spec a b Wa Wb E) as (c & EV & _). rewrite <- (proj1 (watch_mul_results_fact a b Self [])) in EV. fold (Xd a). eapply (y_work _ _ _ _ (fun _ => True)); [|exact EV].
  unfold w_wrapping_mul_assign. eapply y_is; [eapply y_bind; [now apply y_zip_small|intros v (l & r & ->)]; ystep; eapply y_bind; [apply (y_clear_kin Self a); apply kin_inl; [now apply wf_sized|exact L]|intros; ystep; exact I]|..]; evald; lia.
Qed.
