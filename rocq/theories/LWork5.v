(** How many digits are read, written and allocated: products. *)
From Verif Require Export LWork4.
From Coq Require Import Lia ZArith List Bool.
Import ListNotations.
Open Scope Z_scope.

Lemma y_rposition p ds n : (n <= List.length ds)%nat ->
  yields (w_rposition p ds n) (match rposition_nonzero (firstn n ds) with Some i => Z.of_nat n - Z.of_nat i | None => Z.of_nat n end) 0 0 (fun v => v = rposition_nonzero (firstn n ds)).
Proof.
  induction n as [|n IH]; intros H.
  - cbn [w_rposition firstn rposition_nonzero]. eapply y_is; [ystep; reflexivity|..]; reflexivity.
  - specialize (IH ltac:(lia)). pose proof (we_rposition p ds (S n) H) as E. set (o := rposition_nonzero (firstn (S n) ds)) in *. clearbody o. cbn [w_rposition] in *. rewrite (wbind_val _ (nth n ds 0)) in E by (unfold w_idx; cbn [snd]; apply idx_nth; lia).
    rewrite (wbind_val _ (negb (d_is_zero (nth n ds 0)))) in E by reflexivity.
    destruct (d_is_zero (nth n ds 0)) eqn:Z; cbn [negb] in E.
    + rewrite (we_rposition p ds n) in E by lia. injection E as <-. eapply y_is; [eapply y_bind; [apply y_idx|intros d D]; rewrite idx_nth in D by lia; injection D as <-; rewrite Z; ystep; exact IH|..].
      * destruct (rposition_nonzero (firstn n ds)) eqn:R; lia.
      * reflexivity.
      * reflexivity.
    + cbn in E. injection E as <-. eapply y_is; [eapply y_bind; [apply y_idx|intros d D]; rewrite idx_nth in D by lia; injection D as <-; rewrite Z; ystep; cbn [negb]; ystep; reflexivity|..]; lia.
Qed.
Lemma y_push ag m rs : forall i sum c, yields (w_mul_push_loop ag m i rs sum c) (Z.of_nat (List.length rs) * (1 + digits_read ag)) (Z.of_nat (List.length rs) * (1 + digits_written ag)) (Z.of_nat (List.length rs) * digits_allocated ag)
  (fun v => List.length (fst v) = (List.length sum + List.length rs)%nat).
Proof.
  induction rs as [|r rs IH]; intros i sum c; cbn [w_mul_push_loop].
  - eapply y_is; [ystep; cbn; lia|..]; reflexivity.
  - eapply y_is; [ystep; destruct (d_carrying_mul_add m r c) as [lo hi]; eapply y_weak; [apply IH|intros v V; cbv beta in V; rewrite V, app_length; cbn [List.length]; lia]|..];
      rewrite ?read_app, ?written_app, ?allocated_app; evald; cbn [List.length]; lia.
Qed.
Definition ThreeL (n : nat) (st : list Z * Z * Z) : Prop := List.length (fst (fst st)) = n.
Lemma y_row_step ag m rhs li ri n st : ThreeL n st -> yields (w_mul_row_step ag m rhs li ri st) (2 + digits_read ag) (1 + digits_written ag) (digits_allocated ag) (ThreeL n).
Proof.
  intros T. destruct st as [[sum c] d]. unfold w_mul_row_step, ThreeL in *. cbn [fst] in T.
  eapply y_is; [ystep; ystep; destruct (d_carrying_mul_add m a c) as [lo hi]; ystep; cbv zeta; ystep; ystep; cbn [fst]; lia|..]; lia.
Qed.
Lemma y_row_first m rhs li sum n : List.length sum = n -> yields (w_mul_row_first m rhs li sum) 2 1 0 (ThreeL n).
Proof.
  intros T. unfold w_mul_row_first, ThreeL. eapply y_is; [ystep; destruct (d_carrying_mul m a) as [lo hi]; ystep; destruct (d_carrying_add a0 lo) as [v c]; ystep; ystep; cbn [fst]; lia|..]; reflexivity.
Qed.
Lemma y_full_row lhs rhs rs li sum n : (0 < rs)%nat -> List.length sum = n -> yields (w_mul_full_row lhs rhs rs li sum) (2 * Z.of_nat rs + 3) (Z.of_nat rs + 2) 0 (fun v => List.length v = S n).
Proof.
  intros P T. unfold w_mul_full_row. eapply y_is.
  - ystep. eapply y_bind; [now apply (y_row_first _ _ _ _ n)|intros st ST]. eapply y_bind; [apply (y_times (rs - 1) 1 _ 2 1 0 (ThreeL n)); [|exact ST]|].
    { intros i s _ J. eapply y_is; [apply (y_row_step [] _ _ _ _ n _ J)|..]; reflexivity. }
    intros [[s c] d] J. unfold ThreeL in J. cbn [fst] in J. ystep. destruct (d_carrying_mul_add a a0 c) as [lo hi]. ystep. cbv zeta. ystep. ystep. ystep. rewrite app_length. cbn [List.length]. lia.
  - evald. lia.
  - evald. lia.
  - evald. lia.
Qed.
(** A loop whose invariant counts the rounds. *)
Lemma y_for_at {S} n lo (body : nat -> S -> watched S) (R W : nat -> Z) (I : nat -> S -> Prop) :
  (forall i s, (lo <= i < lo + n)%nat -> I i s -> yields (body i s) (R (Datatypes.S i) - R i) (W (Datatypes.S i) - W i) 0 (I (Datatypes.S i))) ->
  forall s, I lo s -> yields (w_for_range n lo body s) (R (lo + n)%nat - R lo) (W (lo + n)%nat - W lo) 0 (I (lo + n)%nat).
Proof.
  revert lo. induction n as [|n IH]; intros lo B s Is; cbn [w_for_range].
  - rewrite Nat.add_0_r. eapply y_is; [eapply y_weak; [apply y_val|intros v ->; exact Is]| | |]; lia.
  - replace (lo + Datatypes.S n)%nat with (Datatypes.S lo + n)%nat by lia. eapply y_is; [eapply y_bind; [apply B; [lia|exact Is]|]| | |].
    + intros s' Is'. apply (IH (Datatypes.S lo)); [|exact Is']. intros i s2 Hi. apply B. lia.
    + lia.
    + lia.
    + lia.
Qed.
Lemma y_no_overflow lhs rhs l r n : (0 < l)%nat -> (0 < r)%nat -> List.length lhs = n -> (r < List.length rhs)%nat ->
  yields (w_mul_no_overflow lhs rhs l r)
    (2 + Z.of_nat r + Z.of_nat l * (2 * Z.of_nat r + 3) + Z.min (Z.of_nat n) (Z.of_nat (l + r + 2)))
    ((Z.of_nat r + 2) * (Z.of_nat l + 1) + Z.min (Z.of_nat n) (Z.of_nat (l + r + 2))) (Z.of_nat (l + r + 2)) (fun v => List.length v = n).
Proof.
  intros Pl Pr L R. unfold w_mul_no_overflow. assert (List.length (skipn 1 (firstn r rhs)) = (r - 1)%nat) as K by (rewrite skipn_length, firstn_length_le by lia; reflexivity). eapply y_is.
  - ystep. ystep. destruct (d_carrying_mul a a0) as [lo hi]. ystep. eapply y_bind; [apply y_push|intros [s c] J]. cbn [fst List.length] in J. rewrite K in J.
    ystep. destruct (d_carrying_mul_add a a1 c) as [lo' hi']. ystep. cbv zeta.
    ybind_as (fun v : list Z => List.length v = (r + 1 + l)%nat).
    + eapply y_weak; [apply (y_for_at (l - 1) 1 (w_mul_full_row lhs rhs r) (fun i => Z.of_nat i * (2 * Z.of_nat r + 3)) (fun i => Z.of_nat i * (Z.of_nat r + 2)) (fun i v => List.length v = (r + 1 + i)%nat))|].
      * intros i t _ J'. cbv beta in J'. eapply y_is; [eapply y_weak; [apply (y_full_row _ _ _ _ _ (r + 1 + i) Pr J')|intros v V; cbv beta in V; lia]|..]; lia.
      * rewrite !app_length. cbn [List.length]. lia.
      * intros v V. cbv beta in V. lia.
    + intros t T. ybind_as (fun v : list Z => List.length v = (l + r + 2)%nat).
      * eapply y_weak; [apply (y_full_row _ _ _ _ _ (r + 1 + l) Pr T)|intros v V; cbv beta in V; lia].
      * intros u U. ystep. rewrite L, U. instantiate (1 := 0). instantiate (1 := Z.min (Z.of_nat n) (Z.of_nat (l + r + 2))). instantiate (1 := Z.min (Z.of_nat n) (Z.of_nat (l + r + 2))).
        destruct (Nat.ltb_spec n (l + r + 2)).
        -- eapply y_is; [eapply y_bind; [apply y_see, work_copies|intros _ _; ystep; rewrite firstn_length; lia]|..]; lia.
        -- eapply y_is; [eapply y_bind; [apply y_see, work_copies|intros _ _; ystep; rewrite app_length, skipn_length; lia]|..]; lia.
  - rewrite K. evald. replace (1 + (l - 1))%nat with l by lia. lia.
  - rewrite K. evald. replace (1 + (l - 1))%nat with l by lia. lia.
  - rewrite K. evald. lia.
Qed.
(** The sum of the numbers below. *)
Fixpoint tri (n : nat) : Z := match n with O => 0 | S n => Z.of_nat n + tri n end.
Lemma tri_twice n : 2 * tri n = Z.of_nat n * (Z.of_nat n - 1).
Proof. induction n as [|n IH]; [reflexivity|]. cbn [tri]. lia. Qed.
Lemma y_wrap_row lhs rhs s li sum n : (li < s)%nat -> List.length sum = n -> yields (w_mul_wrap_row lhs rhs s li sum) (6 + 3 * Z.of_nat (s - li - 1)) (2 + Z.of_nat (s - li - 1)) 0 (fun v => List.length v = n).
Proof.
  intros P T. unfold w_mul_wrap_row. eapply y_is.
  - ystep. eapply y_bind; [now apply (y_row_first _ _ _ _ n)|intros st ST]. cbv zeta. eapply y_bind; [apply (y_times (s - li - 1) 1 _ 3 1 0 (ThreeL n)); [|exact ST]|].
    { intros i t _ J. eapply y_is; [apply (y_row_step [Read Self li] _ _ _ _ n _ J)|..]; reflexivity. }
    intros [[t c] d] J. unfold ThreeL in J. cbn [fst] in J. ystep. ystep. ystep. ystep. lia.
  - evald. lia.
  - evald. lia.
  - evald. lia.
Qed.
Lemma y_wrapping lhs rhs n : List.length lhs = n -> List.length rhs = n -> (2 <= n)%nat ->
  yields (w_mul_wrapping lhs rhs) (3 * tri (S n) - 1) (tri (S n) + Z.of_nat n - 1) (Z.of_nat n) (fun v => List.length v = n).
Proof.
  intros L R P. unfold w_mul_wrapping. assert (List.length (skipn 1 (firstn (n - 1) rhs)) = (n - 2)%nat) as K by (rewrite skipn_length, firstn_length_le by lia; lia). rewrite L. eapply y_is.
  - eapply (y_bind _ _ _ _ _ _ _ _ (fun v => v = (n - 1)%nat)); [eapply y_weak; [apply y_lift|apply lift_sub; lia]|intros sig ->].
    ystep. ystep. destruct (d_carrying_mul a a0) as [lo hi]. ystep. eapply y_bind; [apply y_push|intros [s c] J]. cbn [fst List.length] in J. rewrite K in J.
    ystep. ystep. ystep. cbv zeta.
    ybind_as (fun v : list Z => List.length v = n).
    + eapply y_weak; [apply (y_for_at (n - 1 - 1) 1 (w_mul_wrap_row lhs rhs (n - 1)) (fun i => (6 + 3 * (Z.of_nat n - 2)) * Z.of_nat i - 3 * tri i) (fun i => (2 + (Z.of_nat n - 2)) * Z.of_nat i - tri i) (fun i v => List.length v = n))|].
      * intros i t Hi J'. cbv beta in J'. eapply y_is; [eapply y_weak; [apply (y_wrap_row _ _ (n - 1) _ _ n); [lia|exact J']|intros v V; exact V]|..]; cbn [tri]; lia.
      * rewrite !app_length. cbn [List.length]. lia.
      * intros v V. exact V.
    + intros t T. eapply y_bind; [apply y_see, work_copies|intros _ _]. ystep. ystep. ystep. ystep. ystep. rewrite app_length, firstn_length. cbn [List.length]. lia.
  - rewrite K. evald. replace (1 + (n - 1 - 1))%nat with (n - 1)%nat by lia. pose proof (tri_twice (n - 1)). pose proof (tri_twice (S n)). cbn [tri] in *. nia.
  - rewrite K. evald. replace (1 + (n - 1 - 1))%nat with (n - 1)%nat by lia. pose proof (tri_twice (n - 1)). pose proof (tri_twice (S n)). cbn [tri] in *. nia.
  - rewrite K. evald. lia.
Qed.
