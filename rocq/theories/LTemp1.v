(** Proofs about the vectors of multiplication and division: they do not change
    what is computed. *)
From Verif Require Export MTemp SpecTemp.
From Verif Require Import LBase.

(** [m] ends as [o] does, with results related by [R]. *)
Definition sim {A B : Type} (R : A -> B -> Prop) (m : counted A) (o : outcome B) : Prop :=
  match m, o with
  | Val (a, _), Val b => R a b
  | Stop x, Stop y => x = y
  | OutOfFuel, OutOfFuel => True
  | _, _ => False
  end.

Lemma sim_lift {A : Type} (o : outcome A) : sim eq (tlift o) o.
Proof. destruct o; reflexivity. Qed.
Lemma sim_bind {A B C D : Type} (R : A -> B -> Prop) (T : C -> D -> Prop) m o k k' :
  sim R m o -> (forall a b, R a b -> sim T (k a) (k' b)) -> sim T (tbind m k) (bind o k').
Proof.
  intros H K. destruct m as [[a s]|x|], o as [b|y|]; cbn in H |- *; try contradiction; auto.
  specialize (K a b H). unfold bind. destruct (k a) as [[c t]| |]; exact K.
Qed.
Lemma sim_bind_eq {A C D : Type} (T : C -> D -> Prop) (m : counted A) o k k' :
  sim eq m o -> (forall a, sim T (k a) (k' a)) -> sim T (tbind m k) (bind o k').
Proof. intros H K. apply (sim_bind eq T m o k k' H). intros a b <-. apply K. Qed.
Lemma sim_val {A B : Type} (R : A -> B -> Prop) a s b : R a b -> sim R (Val (a, s)) (Val b).
Proof. exact (fun H => H). Qed.
(** A step that the plain model does not have. *)
Lemma sim_extra {A C D : Type} (T : C -> D -> Prop) (a : A) s k (o : outcome D) :
  sim T (k a) o -> sim T (tbind (Val (a, s)) k) o.
Proof. intros H. unfold tbind, bind. destruct (k a) as [[c t]| |]; exact H. Qed.
Lemma sim_eq {A : Type} (m : counted A) o : sim eq m o -> (let! (r, _) := m in Val r) = o.
Proof. destruct m as [[a s]| |], o; cbn; intros H; try contradiction; congruence. Qed.

Definition rvec (v : vec) (ds : list Z) : Prop := items v = ds.
Definition rvec2 (p : vec * Z) (q : list Z * Z) : Prop := items (fst p) = fst q /\ snd p = snd q.

Lemma sim_push (T : Type) (D : Type) (R : T -> D -> Prop) v d k (o : outcome D) :
  (forall c, sim R (k (mk_vec c (items v ++ [d]))) o) -> sim R (tbind (vec_push v d) k) o.
Proof. intros H. unfold vec_push. destruct (Nat.ltb _ _); apply sim_extra, H. Qed.
Lemma sim_for_range {S T : Type} (R : S -> T -> Prop) n : forall lo body body' s t,
  R s t -> (forall i s t, R s t -> sim R (body i s) (body' i t)) ->
  sim R (t_for_range n lo body s) (for_range n lo body' t).
Proof.
  induction n as [|n IH]; intros lo body body' s t H K; cbn [t_for_range for_range].
  - exact H.
  - apply (sim_bind R R); [apply K, H|]. intros a b Hab. apply IH; auto.
Qed.

Lemma sim_val_bind {A B C D : Type} (R : A -> B -> Prop) (T : C -> D -> Prop) (m : counted A) (b : B) k (o : outcome D) :
  sim R m (Val b) -> (forall a, R a b -> sim T (k a) o) -> sim T (tbind m k) o.
Proof. intros H K. destruct m as [[a s]| |]; [|contradiction|contradiction]. apply sim_extra, K, H. Qed.

Ltac lifted := apply sim_bind_eq; [apply sim_lift|intros ?; cbv beta].

(** * Multiplication *)
Lemma sim_push_loop mult rs : forall v ds c, items v = ds ->
  sim rvec2 (t_mul_push_loop mult rs v c) (Val (mul_push_loop mult rs ds c)).
Proof.
  induction rs as [|r rs IH]; intros v ds c <-; cbn [t_mul_push_loop mul_push_loop].
  - split; reflexivity.
  - destruct (d_carrying_mul_add mult r c) as [lo hi]. apply sim_push. intros cap. apply IH. reflexivity.
Qed.
Lemma sim_full_row lhs rhs rs li v ds : rvec v ds -> sim rvec (t_mul_full_row lhs rhs rs li v) (mul_full_row lhs rhs rs li ds).
Proof.
  unfold rvec. intros <-. unfold t_mul_full_row, mul_full_row.
  do 3 lifted. destruct a1 as [[sum mc] ac]. lifted. destruct (d_carrying_mul_add _ _ _) as [lo hi].
  do 2 lifted. unfold vec_push. destruct (Nat.ltb _ _); reflexivity.
Qed.
Lemma sim_no_overflow lhs rhs ls rs : sim eq (t_mul_no_overflow lhs rhs ls rs) (mul_no_overflow lhs rhs ls rs).
Proof.
  unfold t_mul_no_overflow, mul_no_overflow. do 2 lifted. destruct (d_carrying_mul _ _) as [lo hi].
  apply sim_extra. apply sim_push. intros cap. cbn [items app].
  pose proof (sim_push_loop a (skipn 1 (firstn rs rhs)) (mk_vec cap [lo]) [lo] hi eq_refl) as H.
  destruct (mul_push_loop a (skipn 1 (firstn rs rhs)) [lo] hi) as [sum mc].
  apply (sim_val_bind rvec2 eq _ _ _ _ H). intros [v c] [E1 E2]. cbn [fst snd] in E1, E2. subst c sum.
  lifted. destruct (d_carrying_mul_add _ _ _) as [lo1 hi1].
  apply sim_push. intros c1. apply sim_push. intros c2. cbn [items].
  apply (sim_bind rvec eq).
  { apply sim_for_range; [reflexivity|]. intros i s t H'. apply sim_full_row, H'. }
  intros s t H'. apply (sim_bind rvec eq); [apply sim_full_row, H'|]. intros s' t' H''. unfold rvec in H''. rewrite H''.
  destruct (Nat.ltb _ _); reflexivity.
Qed.
Lemma sim_wrapping lhs rhs : sim eq (t_mul_wrapping lhs rhs) (mul_wrapping lhs rhs).
Proof.
  unfold t_mul_wrapping, mul_wrapping. do 3 lifted. destruct (d_carrying_mul _ _) as [lo hi].
  apply sim_extra. apply sim_push. intros cap. cbn [items app].
  pose proof (sim_push_loop a0 (skipn 1 (firstn a rhs)) (mk_vec cap [lo]) [lo] hi eq_refl) as H.
  destruct (mul_push_loop a0 (skipn 1 (firstn a rhs)) [lo] hi) as [sum mc].
  apply (sim_val_bind rvec2 eq _ _ _ _ H). intros [v c] [E1 E2]. cbn [fst snd] in E1, E2. subst c sum.
  lifted. apply sim_push. intros c1. cbn [items]. do 3 lifted. reflexivity.
Qed.
Lemma sim_mul_digits lhs rhs : sim eq (t_mul_digits lhs rhs) (mul_digits lhs rhs).
Proof.
  unfold t_mul_digits, mul_digits. destruct (rposition_nonzero rhs) as [rs|]; [|reflexivity].
  destruct (rposition_nonzero lhs) as [ls|]; [|reflexivity].
  apply sim_bind_eq; [|reflexivity].
  destruct (Nat.eqb ls 0), (Nat.eqb rs 0); try apply sim_lift.
  do 2 lifted. destruct (_ <=? _); [apply sim_no_overflow|apply sim_wrapping].
Qed.
Lemma sim_mul a b : sim eq (t_mul a b) (wrapping_mul_assign a b).
Proof.
  unfold t_mul, wrapping_mul_assign. lifted. destruct a0 as [[l r|ls rs]|e]; [| |reflexivity].
  - lifted. reflexivity.
  - apply sim_bind_eq; [apply sim_mul_digits|]. intros [ds|]; [|reflexivity]. lifted. reflexivity.
Qed.

(** * Division *)
Definition rvec_row (p : vec * Z) (base : list Z) (q : list Z * Z) : Prop := items (fst p) = base ++ fst q /\ snd p = snd q.
Lemma sim_sub_row mul xs : forall v c, sim (fun p q => rvec_row p (items v) q) (t_sub_row mul xs v c) (Val (sub_row mul xs c)).
Proof.
  induction xs as [|x xs IH]; intros v c; cbn [t_sub_row sub_row].
  - split; [symmetry; apply app_nil_r|reflexivity].
  - destruct (d_carrying_mul_add mul x c) as [t c1]. apply sim_push. intros cap.
    specialize (IH (mk_vec cap (items v ++ [t])) c1).
    destruct (t_sub_row mul xs _ c1) as [[[w c2] s]| |]; [|contradiction|contradiction].
    destruct (sub_row mul xs c1) as [r c3]. destruct IH as [E1 E2]. cbn [fst snd items] in *.
    split; [|exact E2]. cbn [fst]. rewrite E1, <- app_assoc. reflexivity.
Qed.
Lemma sim_push_zeros n : forall v, sim rvec (t_push_zeros n v) (Val (items v ++ repeat ZERO n)).
Proof.
  induction n as [|n IH]; intros v; cbn [t_push_zeros repeat].
  - symmetry. apply app_nil_r.
  - apply sim_push. intros cap. specialize (IH (mk_vec cap (items v ++ [ZERO]))). cbn [items] in IH.
    rewrite <- app_assoc in IH. exact IH.
Qed.
Lemma sim_mul_or_mul_sub1 len duo sd lz div dsd :
  sim eq (t_mul_or_mul_sub1 len duo sd lz div dsd) (mul_or_mul_sub1 len duo sd lz div dsd).
Proof.
  unfold t_mul_or_mul_sub1, mul_or_mul_sub1. do 3 lifted. set (mul := dd_lo a1).
  apply sim_extra. lifted. destruct (d_carrying_mul _ _) as [t0 c0]. apply sim_push. intros cap. cbn [items app].
  pose proof (sim_sub_row mul (skipn 1 (firstn dsd div)) (mk_vec cap [t0]) c0) as H.
  destruct (sub_row mul (skipn 1 (firstn dsd div)) c0) as [row carry].
  apply (sim_val_bind _ eq _ _ _ _ H). intros [v c] [E1 E2]. cbn [fst snd items app] in E1, E2. subst c.
  do 2 lifted. destruct (Nat.eqb dsd a4).
  - destruct (d_carrying_mul_add _ _ _) as [t c]. apply sim_push. intros c1. cbn [items]. rewrite E1. cbn [app].
    destruct (negb (d_is_zero c)); [apply sim_lift|]. lifted. destruct a5; apply sim_lift.
  - destruct (d_carrying_mul_add _ _ _) as [t c]. apply sim_push. intros c1. apply sim_push. intros c2. cbn [items]. rewrite E1.
    replace (((t0 :: row) ++ [t]) ++ [c]) with ((t0 :: row) ++ [t; c]) by (rewrite <- app_assoc; reflexivity).
    apply (sim_val_bind _ eq _ _ _ _ (sim_push_zeros _ _)). intros v' E. unfold rvec in E. cbn [items] in E. rewrite E.
    lifted. destruct a5; apply sim_lift.
Qed.
Lemma sim_mul_or_mul_sub1_quo len duo sd lz sig div dsd quo :
  sim eq (t_mul_or_mul_sub1_quo len duo sd lz sig div dsd quo) (mul_or_mul_sub1_quo len duo sd lz sig div dsd quo).
Proof.
  unfold t_mul_or_mul_sub1_quo, mul_or_mul_sub1_quo. do 2 lifted. set (mul := dd_lo a0).
  apply sim_extra. lifted. apply sim_push. intros cap. cbn [items app].
  set (t0 := dd_wmul (dd mul) (dd a1)).
  pose proof (sim_sub_row mul (skipn 1 (firstn dsd div)) (mk_vec cap [dd_lo t0]) (dd_hi t0)) as H.
  destruct (sub_row mul (skipn 1 (firstn dsd div)) (dd_hi t0)) as [row carry].
  apply (sim_val_bind _ eq _ _ _ _ H). intros [v c] [E1 E2]. cbn [fst snd items app] in E1, E2. subst c.
  lifted. destruct (d_carrying_mul_add _ _ _) as [t c]. apply sim_push. intros c1. apply sim_push. intros c2. cbn [items]. rewrite E1.
  replace (((dd_lo t0 :: row) ++ [t]) ++ [c]) with ((dd_lo t0 :: row) ++ [t; c]) by (rewrite <- app_assoc; reflexivity).
  apply (sim_val_bind _ eq _ _ _ _ (sim_push_zeros _ _)). intros v' E. unfold rvec in E. cbn [items] in E. rewrite E.
  lifted. destruct a3.
  - do 2 lifted. apply sim_lift.
  - lifted. apply sim_lift.
Qed.
Lemma sim_div_loop fuel : forall len duo div quo sd lz dsd sb lb add1,
  sim eq (t_div_loop fuel len duo div quo sd lz dsd sb lb add1) (div_loop fuel len duo div quo sd lz dsd sb lb add1).
Proof.
  induction fuel as [|fuel IH]; intros; cbn [t_div_loop div_loop]; [exact I|].
  do 3 lifted. destruct (_ <=? _); [|apply sim_mul_or_mul_sub1_quo].
  do 4 lifted. destruct a5 as [sd'|].
  - do 2 lifted. destruct (_ =? _).
    + lifted. destruct a7; repeat lifted; reflexivity.
    + destruct (_ <? _); [repeat lifted; reflexivity|]. destruct (Nat.ltb sd' 2); [apply sim_lift|apply IH].
  - repeat lifted. reflexivity.
Qed.
Lemma sim_large len duo sd div dsd : sim eq (t_large_div_by_large len duo sd div dsd) (large_div_by_large len duo sd div dsd).
Proof.
  unfold t_large_div_by_large, large_div_by_large. do 4 lifted. destruct (_ <? _).
  { lifted. destruct a3. reflexivity. }
  destruct (_ =? _).
  { lifted. destruct a3; lifted; [apply sim_lift|]. destruct a3. reflexivity. }
  destruct (_ <? _); [apply sim_mul_or_mul_sub1|]. do 2 lifted. apply sim_extra. apply sim_div_loop.
Qed.
Lemma sim_divrem_digits duo div : sim eq (t_divrem_digits duo div) (aarons_algorithm_divrem duo div).
Proof.
  unfold t_divrem_digits, aarons_algorithm_divrem.
  destruct (rposition_nonzero div) as [dsd|] eqn:E1; [|apply sim_lift].
  destruct (rposition_nonzero duo) as [sd|] eqn:E2; [|apply sim_lift].
  destruct (Nat.ltb sd dsd) eqn:E3; cbn [negb andb]; [apply sim_lift|].
  destruct (Nat.eqb sd 0) eqn:E4; cbn [negb andb]; [apply sim_lift|].
  destruct (Nat.eqb dsd 0) eqn:E5; cbn [negb andb]; [apply sim_lift|].
  destruct (Nat.eqb sd 1) eqn:E6; cbn [negb andb]; [apply sim_lift|].
  apply sim_bind_eq; [apply sim_large|]. intros [x y]. reflexivity.
Qed.
Lemma sim_remdiv_digits duo div : sim eq (t_remdiv_digits duo div) (aarons_algorithm_remdiv duo div).
Proof.
  unfold t_remdiv_digits, aarons_algorithm_remdiv. apply sim_bind_eq; [apply sim_divrem_digits|].
  intros [[x y] ok]. destruct ok; [|reflexivity]. lifted. destruct a. reflexivity.
Qed.
Lemma sim_clone a : sim eq (t_clone a) (clone a).
Proof. unfold t_clone. destruct (clone a); reflexivity. Qed.
Lemma sim_by_zero op x : sim eq (t_division_by_zero op x) (division_by_zero op x).
Proof. apply sim_bind_eq; [apply sim_clone|]. reflexivity. Qed.
Lemma sim_udivrem swap a b :
  sim eq (t_udivrem swap a b) (if swap then wrapping_uremdiv_assign a b else wrapping_udivrem_assign a b).
Proof.
  unfold t_udivrem, wrapping_uremdiv_assign, wrapping_udivrem_assign.
  destruct swap; (lifted; destruct a0 as [[l r|ls rs]|e]; [| |reflexivity]).
  1,3: destruct (negb _); [lifted; destruct a0; reflexivity|apply sim_bind_eq; [apply sim_by_zero|reflexivity]].
  - apply sim_bind_eq; [apply sim_remdiv_digits|]. intros [[x y] ok]. destruct ok; [reflexivity|apply sim_bind_eq; [apply sim_by_zero|reflexivity]].
  - apply sim_bind_eq; [apply sim_divrem_digits|]. intros [[x y] ok]. destruct ok; [reflexivity|apply sim_bind_eq; [apply sim_by_zero|reflexivity]].
Qed.
Lemma sim_udiv rem a b : sim eq (t_udiv rem a b) (if rem then wrapping_urem_assign a b else wrapping_udiv_assign a b).
Proof.
  unfold t_udiv, wrapping_urem_assign, wrapping_udiv_assign.
  destruct rem; (lifted; destruct a0 as [[l r|ls rs]|e]; [| |reflexivity]).
  1,3: destruct (negb _); [lifted; reflexivity|apply sim_bind_eq; [apply sim_by_zero|reflexivity]].
  - apply sim_extra. apply sim_bind_eq; [apply sim_remdiv_digits|]. intros [[x y] ok]. destruct ok; [reflexivity|apply sim_bind_eq; [apply sim_by_zero|reflexivity]].
  - apply sim_extra. apply sim_bind_eq; [apply sim_divrem_digits|]. intros [[x y] ok]. destruct ok; [reflexivity|apply sim_bind_eq; [apply sim_by_zero|reflexivity]].
Qed.
Lemma sim_unwrap2 m o : sim eq m o -> sim eq (t_unwrap_mut2 m) (unwrap_mut2 o).
Proof. intros H. apply sim_bind_eq; [exact H|]. intros [[x y] r]. lifted. reflexivity. Qed.
Lemma sim_sdivrem swap a b :
  sim eq (t_sdivrem swap a b) (if swap then wrapping_sremdiv_assign a b else wrapping_sdivrem_assign a b).
Proof.
  unfold t_sdivrem, wrapping_sremdiv_assign, wrapping_sdivrem_assign.
  destruct swap; (lifted; destruct a0; [apply sim_bind_eq; [apply sim_by_zero|reflexivity]|]);
    do 2 lifted; destruct a0, a1; do 2 lifted;
    (apply sim_bind_eq; [apply sim_unwrap2; first [apply (sim_udivrem true)|apply (sim_udivrem false)]|]; intros [x y]; do 2 lifted; reflexivity).
Qed.
Lemma sim_sdiv rem a b : sim eq (t_sdiv rem a b) (if rem then wrapping_srem_assign a b else wrapping_sdiv_assign a b).
Proof.
  unfold t_sdiv, wrapping_srem_assign, wrapping_sdiv_assign.
  destruct rem; (lifted; destruct a0; [apply sim_bind_eq; [apply sim_by_zero|reflexivity]|]);
    (apply sim_bind_eq; [apply sim_clone|intros c]); do 2 lifted; destruct a0, a1; do 2 lifted;
    (apply sim_bind_eq; [apply sim_unwrap2; first [apply (sim_udivrem true)|apply (sim_udivrem false)]|]; intros [x y]; lifted; reflexivity).
Qed.

Lemma count_bin_fact o a b : (let! (r, _) := count_bin o a b in Val r) = cbin o a b.
Proof.
  apply sim_eq. destruct o; cbn [count_bin]; try apply sim_lift; cbn [cbin].
  - apply sim_mul.
  - exact (sim_udiv false a b).
  - exact (sim_udiv true a b).
  - exact (sim_sdiv false a b).
  - exact (sim_sdiv true a b).
Qed.
Lemma count_pair_fact o a b : (let! (r, _) := count_pair o a b in Val r) = cpair o a b.
Proof.
  apply sim_eq. destruct o; cbn [count_pair cpair].
  - exact (sim_udivrem false a b).
  - exact (sim_udivrem true a b).
  - exact (sim_sdivrem false a b).
  - exact (sim_sdivrem true a b).
Qed.
