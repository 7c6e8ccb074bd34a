(** Basic facts about digit lists, slices, loops and the storage accessors. *)
From Coq Require Export ZArith List Bool Lia.
From Coq Require Export ZifyBool ZifyNat ZifyN.
From Verif Require Export MUtils Spec.
Export ListNotations.
Open Scope Z_scope.
Ltac Zify.zify_post_hook ::= Z.div_mod_to_equations.

Arguments Z.pow : simpl never.
Arguments Z.mul : simpl never.
Arguments Z.add : simpl never.
Arguments Z.sub : simpl never.
Arguments Z.of_nat : simpl never.
Arguments Z.div : simpl never.
Arguments Z.modulo : simpl never.

Lemma Val_inj {A : Type} (x y : A) : Val x = Val y -> x = y.
Proof. now injection 1. Qed.

Lemma B_pow : B = 2 ^ 64.
Proof. reflexivity. Qed.
Lemma BB_pow : BB = 2 ^ 128.
Proof. reflexivity. Qed.
Lemma BB_B : BB = B * B.
Proof. reflexivity. Qed.
Lemma ONES_B : ONES = B - 1.
Proof. reflexivity. Qed.
Lemma B_pos : 0 < B.
Proof. reflexivity. Qed.
Lemma B_gt1 : 1 < B.
Proof. reflexivity. Qed.
Lemma ONES_pow : ONES = 2 ^ 64 - 1.
Proof. reflexivity. Qed.

#[global] Opaque B BB ONES.

(** [P n] is the weight of digit [n]. *)
Definition P (n : nat) : Z := B ^ Z.of_nat n.
Lemma P_0 : P 0 = 1.
Proof. reflexivity. Qed.
Lemma P_S n : P (S n) = B * P n.
Proof. unfold P. rewrite Nat2Z.inj_succ, Z.pow_succ_r; lia. Qed.
Lemma P_1 : P 1 = B.
Proof. rewrite P_S, P_0. lia. Qed.
Lemma P_pos n : 0 < P n.
Proof. apply Z.pow_pos_nonneg; [apply B_pos | lia]. Qed.
Lemma P_add n m : P (n + m) = P n * P m.
Proof. unfold P. rewrite Nat2Z.inj_add, Z.pow_add_r; lia. Qed.
Lemma P_pow n : P n = 2 ^ (64 * Z.of_nat n).
Proof. unfold P. rewrite B_pow, <- Z.pow_mul_r; lia. Qed.
Lemma P_ge1 n : 1 <= P n.
Proof. pose proof (P_pos n); lia. Qed.
Lemma P_mono n m : (n <= m)%nat -> P n <= P m.
Proof. intros. unfold P. apply Z.pow_le_mono_r; [apply B_pos | lia]. Qed.
Lemma P_lt n m : (n < m)%nat -> P n < P m.
Proof. intros. unfold P. apply Z.pow_lt_mono_r; [apply B_gt1 | lia | lia]. Qed.
#[global] Opaque P.

Definition dok (d : Z) : Prop := 0 <= d < B.
Definition digs (ds : list Z) : Prop := Forall dok ds.

Lemma digit_ok_dok d : digit_ok d <-> dok d.
Proof. unfold digit_ok, dok. rewrite B_pow. tauto. Qed.
Lemma digs_digit_ok ds : Forall digit_ok ds <-> digs ds.
Proof.
  unfold digs. split; intros H; eapply Forall_impl; try exact H; intros; now apply digit_ok_dok.
Qed.

Lemma uval_nil : uval [] = 0.
Proof. reflexivity. Qed.
Lemma uval_cons d r : uval (d :: r) = d + B * uval r.
Proof. rewrite B_pow. reflexivity. Qed.
Lemma uval_one d : uval [d] = d.
Proof. rewrite uval_cons, uval_nil. lia. Qed.
#[global] Opaque uval.

Lemma uval_app xs ys : uval (xs ++ ys) = uval xs + P (length xs) * uval ys.
Proof.
  induction xs as [|x xs IH]; cbn [app length].
  - rewrite P_0, uval_nil. lia.
  - rewrite !uval_cons, IH, P_S. lia.
Qed.

Lemma digs_nil : digs [].
Proof. constructor. Qed.
Lemma digs_cons d r : digs (d :: r) <-> dok d /\ digs r.
Proof. split; [intros H; inversion H; auto | intros []; constructor; auto]. Qed.
Lemma digs_app xs ys : digs (xs ++ ys) <-> digs xs /\ digs ys.
Proof. apply Forall_app. Qed.
Lemma digs_firstn n xs : digs xs -> digs (firstn n xs).
Proof.
  intros H. apply Forall_forall. intros x Hx.
  eapply Forall_forall in H; [exact H|]. rewrite <- (firstn_skipn n xs). apply in_or_app; auto.
Qed.
Lemma digs_skipn n xs : digs xs -> digs (skipn n xs).
Proof.
  intros H. apply Forall_forall. intros x Hx.
  eapply Forall_forall in H; [exact H|]. rewrite <- (firstn_skipn n xs). apply in_or_app; auto.
Qed.
Lemma digs_rev xs : digs xs -> digs (rev xs).
Proof. apply Forall_rev. Qed.
Lemma dok_0 : dok 0.
Proof. unfold dok. pose proof B_pos. lia. Qed.
Lemma dok_1 : dok 1.
Proof. unfold dok. pose proof B_gt1. lia. Qed.
Lemma dok_ONES : dok ONES.
Proof. unfold dok. rewrite ONES_B. pose proof B_pos. lia. Qed.
Lemma dok_mod x : dok (x mod B).
Proof. unfold dok. apply Z.mod_pos_bound, B_pos. Qed.
Lemma digs_repeat d n : dok d -> digs (repeat d n).
Proof. intros; induction n; cbn; constructor; auto. Qed.

Lemma uval_bound ds : digs ds -> 0 <= uval ds < P (length ds).
Proof.
  induction ds as [|d r IH]; intros H; cbn [length].
  - rewrite uval_nil, P_0. lia.
  - apply digs_cons in H as [[Hd0 Hd1] Hr]. specialize (IH Hr).
    rewrite uval_cons, P_S. pose proof B_pos. nia.
Qed.
Lemma uval_nonneg ds : digs ds -> 0 <= uval ds.
Proof. intros; apply uval_bound; auto. Qed.

Lemma uval_inj xs ys :
  digs xs -> digs ys -> length xs = length ys -> uval xs = uval ys -> xs = ys.
Proof.
  revert ys; induction xs as [|x xs IH]; intros [|y ys] Hx Hy Hl Hv; cbn in Hl; try discriminate; auto.
  apply digs_cons in Hx as [Hx Hxs]. apply digs_cons in Hy as [Hy Hys].
  rewrite !uval_cons in Hv. unfold dok in *.
  assert (x = y /\ uval xs = uval ys) as [-> Hu].
  { assert ((x + B * uval xs) mod B = (y + B * uval ys) mod B) as E by congruence.
    rewrite !(Z.mul_comm B), !Z_mod_plus_full, !Z.mod_small in E by lia.
    split; [assumption|]. pose proof B_pos. nia. }
  f_equal. apply IH; auto.
Qed.

Lemma uval_repeat_0 n : uval (repeat 0 n) = 0.
Proof. induction n; cbn [repeat]; rewrite ?uval_cons, ?uval_nil; lia. Qed.
Lemma uval_repeat_ONES n : uval (repeat ONES n) = P n - 1.
Proof.
  induction n; cbn [repeat]; rewrite ?uval_cons, ?uval_nil, ?P_0, ?P_S, ?ONES_B in *; lia.
Qed.

Lemma uval_zero_iff ds : digs ds -> (uval ds = 0 <-> Forall (fun d => d = 0) ds).
Proof.
  induction ds as [|d r IH]; intros H.
  - rewrite uval_nil. split; auto.
  - apply digs_cons in H as [Hd Hr]. rewrite uval_cons. specialize (IH Hr).
    pose proof (uval_nonneg r Hr). pose proof B_pos. unfold dok in Hd. split.
    + intros E. constructor; [nia|]. apply IH. nia.
    + intros F. inversion F; subst. apply IH in H4. nia.
Qed.

Lemma uval_firstn_mod n ds :
  digs ds -> (n <= length ds)%nat -> uval (firstn n ds) = uval ds mod P n.
Proof.
  intros H Hn. pose proof (firstn_skipn n ds) as E. rewrite <- E at 2.
  rewrite uval_app, firstn_length_le by lia.
  rewrite Z.mul_comm, Z_mod_plus_full, Z.mod_small; auto.
  pose proof (uval_bound _ (digs_firstn n ds H)) as Hb.
  rewrite firstn_length_le in Hb by lia. lia.
Qed.
Lemma uval_skipn_div n ds :
  digs ds -> (n <= length ds)%nat -> uval (skipn n ds) = uval ds / P n.
Proof.
  intros H Hn. pose proof (firstn_skipn n ds) as E. rewrite <- E at 2.
  rewrite uval_app, firstn_length_le by lia.
  pose proof (uval_bound _ (digs_firstn n ds H)) as Hb.
  rewrite firstn_length_le in Hb by lia.
  rewrite Z.mul_comm, Z.div_add by lia. rewrite Z.div_small; lia.
Qed.
Lemma uval_split n ds :
  (n <= length ds)%nat -> uval ds = uval (firstn n ds) + P n * uval (skipn n ds).
Proof.
  intros Hn. rewrite <- (firstn_skipn n ds) at 1. rewrite uval_app, firstn_length_le by lia. auto.
Qed.

(** * Slices *)

Lemma nth_dok i ds : digs ds -> dok (nth i ds 0).
Proof.
  intros H. destruct (Nat.ltb_spec i (length ds)) as [Hi|Hi].
  - eapply Forall_forall in H; [exact H|]. now apply nth_In.
  - rewrite nth_overflow by lia. apply dok_0.
Qed.

Lemma idx_nth (ds : list Z) i : (i < length ds)%nat -> idx ds i = Val (nth i ds 0).
Proof.
  intros H. unfold idx. rewrite (nth_error_nth' ds 0 H). reflexivity.
Qed.

Lemma nth_split_eq (ds : list Z) i :
  (i < length ds)%nat -> ds = firstn i ds ++ nth i ds 0 :: skipn (S i) ds.
Proof.
  revert i; induction ds as [|d r IH]; intros i H; cbn in H; [lia|].
  destruct i; cbn; [reflexivity|]. f_equal. apply IH. lia.
Qed.

Definition updl (ds : list Z) (i : nat) (v : Z) : list Z := firstn i ds ++ v :: skipn (S i) ds.

Lemma upd_updl (ds : list Z) i v : (i < length ds)%nat -> upd ds i v = Val (updl ds i v).
Proof. intros H. unfold upd. destruct (Nat.ltb_spec i (length ds)); [reflexivity|lia]. Qed.

Lemma updl_length ds i v : (i < length ds)%nat -> length (updl ds i v) = length ds.
Proof.
  intros H. unfold updl. rewrite app_length, firstn_length_le by lia. cbn [length].
  rewrite skipn_length. lia.
Qed.
Lemma updl_digs ds i v : digs ds -> dok v -> digs (updl ds i v).
Proof.
  intros H Hv. unfold updl. apply digs_app. split; [now apply digs_firstn|].
  apply digs_cons. split; auto. now apply digs_skipn.
Qed.
Lemma updl_uval ds i v :
  (i < length ds)%nat -> uval (updl ds i v) = uval ds + (v - nth i ds 0) * P i.
Proof.
  intros H. rewrite (nth_split_eq ds i H) at 2. unfold updl.
  rewrite !uval_app, !uval_cons. rewrite firstn_length_le by lia. lia.
Qed.
Lemma updl_nth_same ds i v : (i < length ds)%nat -> nth i (updl ds i v) 0 = v.
Proof.
  intros H. unfold updl. rewrite app_nth2; rewrite firstn_length_le by lia; [|lia].
  rewrite Nat.sub_diag. reflexivity.
Qed.
Lemma updl_nth_other ds i j v : (i < length ds)%nat -> j <> i -> nth j (updl ds i v) 0 = nth j ds 0.
Proof.
  intros H Hj. rewrite (nth_split_eq ds i H) at 2. unfold updl.
  destruct (Nat.ltb_spec j i) as [Hl|Hl].
  - rewrite !app_nth1; auto; rewrite firstn_length_le by lia; lia.
  - rewrite !app_nth2; rewrite ?firstn_length_le by lia; try lia.
    destruct (j - i)%nat eqn:E; [lia|]. reflexivity.
Qed.
Lemma updl_firstn ds i v n : (i < length ds)%nat -> (n <= i)%nat -> firstn n (updl ds i v) = firstn n ds.
Proof.
  intros H Hn. unfold updl. rewrite firstn_app, firstn_length_le by lia.
  replace (n - i)%nat with 0%nat by lia. cbn [firstn]. rewrite app_nil_r.
  rewrite firstn_firstn. f_equal. lia.
Qed.
Lemma skipn_skipn_add (i m : nat) (ds : list Z) : skipn m (skipn i ds) = skipn (i + m) ds.
Proof.
  revert ds; induction i as [|k IH]; intros ds; cbn [Nat.add]; [reflexivity|].
  destruct ds; [now rewrite !skipn_nil|]. cbn [skipn]. apply IH.
Qed.
Lemma updl_skipn ds i v n : (i < length ds)%nat -> (i < n)%nat -> skipn n (updl ds i v) = skipn n ds.
Proof.
  intros H Hn. unfold updl. rewrite skipn_app, firstn_length_le by lia.
  rewrite skipn_all2 by (rewrite firstn_length_le by lia; lia). cbn [app].
  replace (n - i)%nat with (S (n - S i))%nat by lia. cbn [skipn].
  replace n with (S i + (n - S i))%nat at 2 by lia.
  now rewrite <- skipn_skipn_add.
Qed.

Lemma nth_uval_digit ds i :
  digs ds -> (i < length ds)%nat -> nth i ds 0 = (uval ds / P i) mod B.
Proof.
  intros H Hi. rewrite <- uval_skipn_div by (auto; lia).
  rewrite (nth_split_eq ds i Hi) at 2. rewrite skipn_app, firstn_length_le by lia.
  rewrite skipn_all2 by (rewrite firstn_length_le; lia). rewrite Nat.sub_diag. cbn [skipn app].
  rewrite uval_cons, Z.mul_comm, Z_mod_plus_full, Z.mod_small; auto. apply nth_dok; auto.
Qed.

Lemma uval_firstn_S ds i :
  (i < length ds)%nat -> uval (firstn (S i) ds) = uval (firstn i ds) + nth i ds 0 * P i.
Proof.
  intros H. rewrite (nth_split_eq ds i H) at 1.
  rewrite firstn_app, firstn_firstn, firstn_length_le by lia.
  replace (Nat.min (S i) i) with i by lia. replace (S i - i)%nat with 1%nat by lia.
  cbn [firstn]. rewrite uval_app, uval_one, firstn_length_le by lia. lia.
Qed.
Lemma uval_firstn_all ds : uval (firstn (length ds) ds) = uval ds.
Proof. now rewrite firstn_all. Qed.
Lemma uval_skipn_nth ds i :
  (i < length ds)%nat -> uval (skipn i ds) = nth i ds 0 + B * uval (skipn (S i) ds).
Proof.
  intros H. rewrite (nth_split_eq ds i H) at 1.
  rewrite skipn_app, firstn_length_le by lia.
  rewrite skipn_all2 by (rewrite firstn_length_le; lia). rewrite Nat.sub_diag. cbn [app skipn].
  now rewrite uval_cons.
Qed.

(** * Last digit *)

Lemma list_last_cases (ds : list Z) : ds <> [] -> exists init d, ds = init ++ [d].
Proof. intros H. destruct (exists_last H) as (i & d & ->). eauto. Qed.
Lemma last_digit_app init d : last_digit (init ++ [d]) = Val d.
Proof.
  induction init as [|x [|y r] IH]; [reflexivity | reflexivity |]. cbn [app] in *. exact IH.
Qed.
Lemma modify_last_app f init d :
  modify_last f (init ++ [d]) = let! d' := f d in Val (init ++ [d']).
Proof.
  induction init as [|x r IH]; cbn [app].
  - cbn. reflexivity.
  - destruct (r ++ [d]) eqn:E; [destruct r; discriminate|].
    cbn [modify_last]. cbn [modify_last] in IH. rewrite IH. destruct (f d); reflexivity.
Qed.
Lemma removelast_app1 (init : list Z) d : removelast (init ++ [d]) = init.
Proof. apply removelast_last. Qed.
Lemma nth_last_app (init : list Z) d n : n = length init -> nth n (init ++ [d]) 0 = d.
Proof. intros ->. rewrite app_nth2, Nat.sub_diag; auto. Qed.

(** * Loops *)

Lemma for_range_inv {S : Type} (I : nat -> S -> Prop) (body : nat -> S -> outcome S) n :
  forall lo s,
  I lo s ->
  (forall i s, (lo <= i < lo + n)%nat -> I i s -> exists s', body i s = Val s' /\ I (Datatypes.S i) s') ->
  exists s', for_range n lo body s = Val s' /\ I (lo + n)%nat s'.
Proof.
  induction n as [|n IH]; intros lo s H0 Hstep; cbn [for_range].
  - rewrite Nat.add_0_r. eauto.
  - destruct (Hstep lo s) as (s1 & E & H1); [lia | auto |]. rewrite E. cbn [bind].
    destruct (IH (Datatypes.S lo) s1 H1) as (s2 & E2 & H2).
    + intros i s' Hi. apply Hstep. lia.
    + exists s2. split; auto. now replace (lo + Datatypes.S n)%nat with (Datatypes.S lo + n)%nat by lia.
Qed.

Lemma for_range_rev_inv {S : Type} (I : nat -> S -> Prop) (body : nat -> S -> outcome S) n :
  forall lo s,
  I (lo + n)%nat s ->
  (forall i s, (lo <= i < lo + n)%nat -> I (Datatypes.S i) s -> exists s', body i s = Val s' /\ I i s') ->
  exists s', for_range_rev n lo body s = Val s' /\ I lo s'.
Proof.
  induction n as [|n IH]; intros lo s H0 Hstep; cbn [for_range_rev].
  - rewrite Nat.add_0_r in H0. eauto.
  - destruct (Hstep (lo + n)%nat s) as (s1 & E & H1); [lia | |].
    + now replace (Datatypes.S (lo + n)) with (lo + Datatypes.S n)%nat by lia.
    + rewrite E. cbn [bind]. destruct (IH lo s1 H1) as (s2 & E2 & H2); eauto.
      intros i s' Hi. apply Hstep. lia.
Qed.

(** * Machine words *)

Lemma dd_lo_hi x : 0 <= x < BB -> dd_lo x + B * dd_hi x = x /\ dok (dd_lo x) /\ dok (dd_hi x).
Proof.
  intros H. unfold dd_lo, dd_hi, dok. rewrite Z.shiftr_div_pow2, <- B_pow by lia.
  rewrite BB_B in H. pose proof B_pos.
  assert (0 <= x / B < B) by (split; [apply Z.div_pos; lia | apply Z.div_lt_upper_bound; lia]).
  rewrite (Z.mod_small (x / B)) by lia.
  pose proof (Z.div_mod x B). pose proof (Z.mod_pos_bound x B). lia.
Qed.

Lemma mul_dok_bound x y : dok x -> dok y -> 0 <= x * y <= (B - 1) * (B - 1).
Proof. unfold dok. intros. pose proof B_pos. nia. Qed.

Lemma d_carrying_add_spec x y :
  dok x -> dok y ->
  exists lo c, d_carrying_add x y = (lo, c) /\ dok lo /\ 0 <= c <= 1 /\ lo + B * c = x + y.
Proof.
  unfold dok, d_carrying_add, u64_oadd. intros Hx Hy. pose proof B_pos.
  destruct (Z.leb_spec B (x + y)).
  - eexists _, _. split; [reflexivity|]. unfold ONE.
    assert ((x + y) mod B = x + y - B) as ->.
    { symmetry. apply Z.mod_unique with 1; lia. }
    lia.
  - eexists _, _. split; [reflexivity|]. unfold ZERO.
    rewrite Z.mod_small by lia. lia.
Qed.

Lemma d_carrying_mul_spec x y :
  dok x -> dok y ->
  exists lo hi, d_carrying_mul x y = (lo, hi) /\ dok lo /\ dok hi /\ lo + B * hi = x * y.
Proof.
  intros Hx Hy. unfold d_carrying_mul, dd_wmul, dd.
  pose proof (mul_dok_bound x y Hx Hy). pose proof B_pos.
  rewrite Z.mod_small by (rewrite BB_B; nia).
  destruct (dd_lo_hi (x * y)) as (E & H1 & H2); [rewrite BB_B; nia|].
  eauto 10.
Qed.

Lemma d_carrying_mul_add_spec x y a :
  dok x -> dok y -> dok a ->
  exists lo hi, d_carrying_mul_add x y a = (lo, hi) /\ dok lo /\ dok hi /\ lo + B * hi = x * y + a.
Proof.
  intros Hx Hy Ha. unfold d_carrying_mul_add, dd_wmul, dd_wadd, dd.
  pose proof (mul_dok_bound x y Hx Hy). pose proof B_pos. unfold dok in Ha.
  rewrite (Z.mod_small (x * y)) by (rewrite BB_B; nia).
  rewrite Z.mod_small by (rewrite BB_B; nia).
  destruct (dd_lo_hi (x * y + a)) as (E & H1 & H2); [rewrite BB_B; nia|].
  eauto 10.
Qed.

(** Three-way addition with a small carry. *)
Lemma dd_add3_spec x y c :
  dok x -> dok y -> 0 <= c <= 1 ->
  let t := dd_wadd (dd_wadd (dd x) (dd y)) (dd c) in
  dok (dd_lo t) /\ 0 <= dd_hi t <= 1 /\ dd_lo t + B * dd_hi t = x + y + c.
Proof.
  unfold dok, dd_wadd, dd. intros Hx Hy Hc. pose proof B_gt1.
  rewrite (Z.mod_small (x + y)) by (rewrite BB_B; nia).
  rewrite Z.mod_small by (rewrite BB_B; nia).
  cbv zeta.
  destruct (dd_lo_hi (x + y + c)) as (E & H1 & H2); [rewrite BB_B; nia|].
  unfold dok in *. repeat split; try lia. nia.
Qed.

Lemma u64_not_spec x : dok x -> u64_not x = B - 1 - x.
Proof.
  unfold dok, u64_not. intros H. unfold Z.lnot.
  symmetry. apply Z.mod_unique with (-1); lia.
Qed.

Lemma land_ones_mod x n : 0 <= n -> Z.land x (2 ^ n - 1) = x mod 2 ^ n.
Proof. intros H. rewrite <- Z.land_ones by lia. f_equal. now rewrite Z.ones_equiv, Z.sub_1_r. Qed.

Lemma not_mask n : 0 <= n < 64 -> u64_shl ONES n = Val (B - 2 ^ n) /\ u64_not (B - 2 ^ n) = 2 ^ n - 1.
Proof.
  intros H. unfold u64_shl. destruct (Z.ltb_spec n 64); [|lia].
  rewrite Z.shiftl_mul_pow2, ONES_B by lia.
  assert (0 < 2 ^ n < B).
  { rewrite B_pow. split; [apply Z.pow_pos_nonneg; lia | apply Z.pow_lt_mono_r; lia]. }
  split.
  - f_equal. symmetry. apply Z.mod_unique with (2 ^ n - 1); lia.
  - rewrite u64_not_spec by (unfold dok; lia). lia.
Qed.

Lemma d_retain_last_n_spec x n :
  0 <= n < 64 -> d_retain_last_n x n = Val (Ok (x mod 2 ^ n)).
Proof.
  intros H. unfold d_retain_last_n, verify_bit_access.
  destruct (Z.ltb_spec n 64); [|lia].
  destruct (not_mask n H) as [-> E]. cbn [bind]. rewrite E, land_ones_mod by lia. reflexivity.
Qed.
Lemma d_truncate_to_spec x n :
  0 <= n < 64 -> d_truncate_to x n = Val (Ok (x mod 2 ^ n)).
Proof.
  intros H. unfold d_truncate_to, d_verify_valid_bitwidth.
  destruct (Z.ltb_spec 64 n); [lia|].
  destruct (not_mask n H) as [-> E]. cbn [bind]. rewrite E, land_ones_mod by lia. reflexivity.
Qed.

(** * Shapes *)

(** Everything of [wf] except that unused bits are zero. *)
Definition shape (a : apint) : Prop :=
  0 < len a /\ length (digits a) = required_digits (len a) /\ digs (digits a).

Lemma required_digits_Z w : 0 < w -> Z.of_nat (required_digits w) = (w + 63) / 64.
Proof. intros. unfold required_digits. lia. Qed.
Lemma required_digits_pos w : (0 < w)%Z -> (0 < required_digits w)%nat.
Proof. intros. unfold required_digits. lia. Qed.
Lemma required_digits_bound w : 0 < w -> w <= 64 * Z.of_nat (required_digits w) < w + 64.
Proof. intros. rewrite required_digits_Z by lia. lia. Qed.

Lemma wf_shape a : wf a <-> shape a /\ uval (digits a) < 2 ^ len a.
Proof.
  unfold wf, shape. rewrite digs_digit_ok. split.
  - intros (H0 & H1 & H2 & H3). split; auto. split; auto. split; auto.
    apply Nat2Z.inj. now rewrite required_digits_Z.
  - intros ((H0 & H1 & H2) & H3). split; auto. split; auto. rewrite H1. now apply required_digits_Z.
Qed.

Lemma wf_len a : wf a -> 0 < len a.
Proof. now intros []. Qed.
Lemma unsigned_bound a : wf a -> 0 <= unsigned a < 2 ^ len a.
Proof.
  intros H. apply wf_shape in H as [(_ & _ & H1) H2]. split; auto. now apply uval_nonneg.
Qed.

Lemma P_len a : shape a -> P (length (digits a)) = 2 ^ (64 * Z.of_nat (required_digits (len a))).
Proof. intros (_ & H & _). now rewrite P_pow, H. Qed.
Lemma P_required_ge w : 0 < w -> 2 ^ w <= P (required_digits w).
Proof.
  intros. rewrite P_pow. apply Z.pow_le_mono_r; [lia|]. pose proof (required_digits_bound w). lia.
Qed.

Lemma is_apint_unique a b w u : is_apint a w u -> is_apint b w u -> a = b.
Proof.
  intros (Ha & Hla & Hua) (Hb & Hlb & Hub). apply wf_shape in Ha as [(_ & Ha2 & Ha3) _].
  apply wf_shape in Hb as [(_ & Hb2 & Hb3) _]. destruct a as [la da], b as [lb db]; cbn in *.
  unfold unsigned in *; cbn in *. subst lb w u. f_equal. symmetry. apply uval_inj; auto; congruence.
Qed.
Lemma wf_ext a b : wf a -> wf b -> len a = len b -> unsigned a = unsigned b -> a = b.
Proof. intros. apply is_apint_unique with (len a) (unsigned a); unfold is_apint; auto. Qed.

(** The two storage classes. *)
Inductive shape_view (a : apint) : Prop :=
| view_inl d : 0 < len a <= 64 -> a = mk_apint (len a) [d] -> dok d ->
    storage (len a) = SInl -> access_data a = Val (DInl d) -> shape_view a
| view_ext : 64 < len a -> (2 <= length (digits a))%nat ->
    storage (len a) = SExt -> access_data a = Val (DExt (digits a)) -> shape_view a.

Lemma required_digits_1 w : 0 < w <= 64 -> required_digits w = 1%nat.
Proof. intros. unfold required_digits. lia. Qed.
Lemma required_digits_2 w : 64 < w -> (2 <= required_digits w)%nat.
Proof. intros. unfold required_digits. lia. Qed.
Lemma storage_inl w : w <= 64 -> storage w = SInl.
Proof. intros. unfold storage. destruct (Z.leb_spec w 64); auto; lia. Qed.
Lemma storage_ext w : 64 < w -> storage w = SExt.
Proof. intros. unfold storage. destruct (Z.leb_spec w 64); auto; lia. Qed.

Lemma shape_viewP a : shape a -> shape_view a.
Proof.
  destruct a as [w ds]. intros (H0 & H1 & H2); cbn in *.
  destruct (Z.leb_spec w 64) as [Hw|Hw].
  - rewrite required_digits_1 in H1 by lia. destruct ds as [|d [|]]; try discriminate.
    apply digs_cons in H2 as [Hd _].
    apply view_inl with d; cbn; auto using storage_inl.
    unfold access_data; cbn. rewrite storage_inl by lia. reflexivity.
  - apply view_ext; cbn; auto using storage_ext.
    + rewrite H1. now apply required_digits_2.
    + unfold access_data; cbn. rewrite storage_ext by lia. reflexivity.
Qed.

Lemma zip_access_data_spec a b :
  shape a -> shape b -> len a = len b ->
  (exists l r, 0 < len a <= 64 /\ a = mk_apint (len a) [l] /\ b = mk_apint (len a) [r] /\
     dok l /\ dok r /\ zip_access_data a b = Val (Ok (ZInl l r))) \/
  (64 < len a /\ zip_access_data a b = Val (Ok (ZExt (digits a) (digits b)))).
Proof.
  intros Ha Hb Hl. unfold zip_access_data, width. rewrite <- Hl, Z.eqb_refl. cbn [negb].
  destruct (shape_viewP a Ha) as [l Hw Ea Hdl Hs _|Hw _ Hs _].
  - left. destruct (shape_viewP b Hb) as [r _ Eb Hdr _ _|Hw' _ _ _]; [|lia].
    rewrite Hs. destruct a as [wa da], b as [wb db]; cbn in *. subst wb.
    injection Ea as ->. injection Eb as ->. exists l, r. auto 10.
  - right. rewrite Hs. auto.
Qed.
Lemma zip_access_data_mismatch a b :
  len a <> len b -> zip_access_data a b = Val (Err (UnmatchingBitwidth (len a) (len b))).
Proof.
  intros H. unfold zip_access_data, width. destruct (Z.eqb_spec (len a) (len b)); [lia|reflexivity].
Qed.

(** [clear_unused_bits] reduces the value modulo 2^len. *)
Lemma pow2_split a b : 0 <= b <= a -> 2 ^ a = 2 ^ b * 2 ^ (a - b).
Proof. intros. rewrite <- Z.pow_add_r by lia. f_equal. lia. Qed.

Lemma uval_snoc_mod init d e :
  digs init -> 0 <= e ->
  uval (init ++ [d]) mod 2 ^ (64 * Z.of_nat (length init) + e)
  = uval init + P (length init) * (d mod 2 ^ e).
Proof.
  intros Hi He. rewrite uval_app, uval_one.
  assert (2 ^ (64 * Z.of_nat (length init) + e) = P (length init) * 2 ^ e) as ->.
  { rewrite P_pow, <- Z.pow_add_r by lia. f_equal. }
  pose proof (uval_bound init Hi) as Hb. pose proof (P_pos (length init)).
  assert (0 < 2 ^ e) by (apply Z.pow_pos_nonneg; lia).
  pose proof (Z.div_mod d (2 ^ e)). pose proof (Z.mod_pos_bound d (2 ^ e)).
  symmetry. apply Z.mod_unique with (d / 2 ^ e).
  - left. nia.
  - nia.
Qed.

Lemma clear_unused_bits_spec a :
  shape a ->
  exists a', clear_unused_bits a = Val a' /\ is_apint a' (len a) (uval (digits a) mod 2 ^ len a).
Proof.
  intros Ha. pose proof Ha as (H0 & H1 & H2).
  assert (0 < 2 ^ len a) by (apply Z.pow_pos_nonneg; lia).
  unfold clear_unused_bits, excess_bits, width. cbv zeta.
  destruct (Z.eqb_spec (len a mod 64) 0) as [E|E].
  - exists a. split; auto. unfold is_apint.
    pose proof (uval_bound _ H2) as Hb. rewrite (P_len a Ha) in Hb.
    pose proof (required_digits_bound _ H0).
    assert (64 * Z.of_nat (required_digits (len a)) = len a) as El.
    { rewrite required_digits_Z in * by lia. lia. }
    rewrite El in Hb. rewrite wf_shape. rewrite Z.mod_small by lia. unfold unsigned. intuition lia.
  - assert (digits a <> []) as Hne.
    { intros E0. rewrite E0 in H1. pose proof (required_digits_pos _ H0). cbn in H1. lia. }
    destruct (list_last_cases _ Hne) as (init & d & Ed).
    assert (dok d) as Hd. { rewrite Ed in H2. apply digs_app in H2 as [_ H2]. now apply digs_cons in H2 as []. }
    assert (digs init) as Hi. { rewrite Ed in H2. now apply digs_app in H2 as []. }
    assert (modify_most_significant_digit
       (fun d => let! r := d_retain_last_n d (len a mod 64) in unwrap r) a
       = Val (mk_apint (len a) (init ++ [d mod 2 ^ (len a mod 64)]))) as ->.
    { unfold modify_most_significant_digit.
      destruct (shape_viewP a Ha) as [d' Hw Ea Hd' _ Hacc|Hw _ _ Hacc]; rewrite Hacc; cbn [bind].
      - rewrite d_retain_last_n_spec by lia. cbn. unfold write_inl.
        rewrite Ea in Ed; cbn in Ed. destruct init as [|? [|]]; try discriminate.
        injection Ed as ->. reflexivity.
      - rewrite Ed, modify_last_app, d_retain_last_n_spec by lia. reflexivity. }
    eexists; split; [reflexivity|].
    assert (Z.of_nat (length init) = (len a) / 64) as Hli.
    { rewrite Ed, app_length in H1. cbn in H1.
      pose proof (required_digits_Z _ H0). lia. }
    assert (0 < 2 ^ (len a mod 64)) by (apply Z.pow_pos_nonneg; lia).
    assert (2 ^ (len a mod 64) <= B).
    { rewrite B_pow. apply Z.pow_le_mono_r; lia. }
    assert (uval (init ++ [d mod 2 ^ (len a mod 64)]) = uval (digits a) mod 2 ^ len a) as Ev.
    { rewrite Ed. assert (len a = 64 * Z.of_nat (length init) + len a mod 64) as El by lia.
      transitivity (uval (init ++ [d]) mod 2 ^ (64 * Z.of_nat (length init) + len a mod 64));
        [|now rewrite <- El].
      rewrite uval_snoc_mod by (auto; lia). rewrite uval_app, uval_one. reflexivity. }
    unfold is_apint. rewrite wf_shape. unfold unsigned, shape; cbn. rewrite Ev.
    repeat split; auto.
    + rewrite <- H1, Ed, !app_length. reflexivity.
    + apply digs_app; split; auto. apply digs_cons; split; [|constructor].
      unfold dok. pose proof (Z.mod_pos_bound d (2 ^ (len a mod 64))). lia.
    + apply Z.mod_pos_bound. lia.
Qed.
