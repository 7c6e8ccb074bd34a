(** What a call accesses is all that matters to it: the calls. *)
From Verif Require Export LTouch4 SpecTouch LBase LArith.
From Coq Require Import Lia ZArith.

Lemma event_dec (x y : event) : {x = y} + {x <> y}.
Proof. decide equality; try apply Nat.eq_dec; try apply Bool.bool_dec; decide equality. Qed.
Definition scope_of (es : list event) (n m : nat) (w : bool) : scope :=
  mk_scope (fun p i => In (Read p i) es) (fun p i => In (Write p i) es)
    (fun p i => match p with Self => (i < n)%nat | Other => (i < m)%nat | _ => True end)
    (fun p => match p with Self => w = true | Other => False | _ => True end).
Lemma within_own es n m w : within (scope_of es n m w) es.
Proof. apply Forall_forall. intros [p i|p i|b|k] H; cbn; auto. Qed.
Lemma cells_start s p : forall xs ys lo, List.length xs = List.length ys -> (forall i, (lo <= i < lo + List.length xs)%nat -> room s p i) -> (forall i, rd s p i \/ ~ rd s p i) ->
  (forall i, rd s p (lo + i)%nat -> nth_error xs i = nth_error ys i) -> cells s p (seq lo (List.length xs)) xs ys xs ys.
Proof.
  induction xs as [|x xs IH]; intros [|y ys] lo L R D A; try discriminate L; [constructor|]. cbn [List.length seq] in *. constructor.
  - split; [apply R; lia|]. split; [|now split]. destruct (D lo) as [Y|Y]; [|now right]. left. specialize (A 0%nat). rewrite Nat.add_0_r in A. specialize (A Y). cbn in A. congruence.
  - apply IH; [lia|intros; apply R; lia|exact D|]. intros i I. apply (A (S i)). now rewrite <- plus_n_Sm.
Qed.
Lemma wf_len a : wf a -> List.length (digits a) = required_digits (len a) /\ (0 < List.length (digits a))%nat.
Proof. intros W. destruct (wf_sh a W) as (P & L & _). split; [exact L|]. rewrite L. now apply required_digits_pos. Qed.
Lemma start_held es n m w p a a' : twins a a' -> agree es p a a' -> (forall i, (i < List.length (digits a))%nat -> room (scope_of es n m w) p i) -> held (scope_of es n m w) p a a' a a'.
Proof.
  intros (W & W' & L) A R. destruct (wf_len a W) as [E N], (wf_len a' W') as [E' _]. split; [exact L|]. split; [exact N|]. apply cells_start; [congruence|intros; apply R; lia| |intros i I; now apply A].
  intros i. cbn. destruct (in_dec event_dec (Read p i) es); auto.
Qed.
Lemma agree_refl es p a : agree es p a a. Proof. now intros i _. Qed.
Lemma twins_refl a : wf a -> twins a a. Proof. now split. Qed.
Lemma roomy_bounds es a b w : roomy (scope_of es (List.length (digits a)) (List.length (digits b)) w) es -> in_bounds es a b /\ (w = false -> forall i, ~ In (Write Self i) es).
Proof.
  intros R. unfold roomy in R. rewrite Forall_forall in R. split; [|intros -> i H; apply R in H; cbn in H; now destruct H].
  intros i. repeat split; intros H; apply R in H; cbn in H; [exact H|apply H|exact H|apply H].
Qed.
Lemma made_spec es n m w a a' c c' : made (scope_of es n m w) a a' c c' -> same_but_unread es a a' c c' /\ kept_if_unwritten es a c.
Proof.
  intros [(L & N & K)|[<- W]].
  - destruct (lists_length _ _ _ _ _ _ K) as [M M2]. split.
    + split; [exact L|]. split; [exact M|]. intros i. pose proof (cells_nth _ _ _ _ _ _ _ i K) as C. rewrite nth_seq in C. destruct (Nat.ltb i (List.length (digits a))); [|left; destruct C as (_ & _ & X & Y); congruence]. destruct C as (x & y & u & v & X & Y & U & V & (_ & [E|(E & E1 & E2)] & _)); [left; congruence|right]. split; [exact E|]. split; congruence.
    + intros i I W _. pose proof (cells_nth _ _ _ _ _ _ _ i K) as C. rewrite nth_seq in C. destruct (Nat.ltb i (List.length (digits a))); [|destruct C as (_ & _ & X & Y); apply nth_error_Some in I; congruence]. destruct C as (x & y & u & v & X & Y & U & V & (_ & _ & E)). destruct (E W). congruence.
  - split; [split; [reflexivity|]; split; [reflexivity|]; intros i; now left|]. intros i I W1 W2. destruct (W i I); contradiction.
Qed.
Lemma touch_intro {V R} (now : V -> apint) (said : V -> R) f :
  (forall s a a' b b', open s Self -> free s New -> held s Self a a' a a' -> held s Other b b' b b' -> (len a = len b -> List.length (digits a) = List.length (digits b)) ->
   dep s (fun v v' => made s a a' (now v) (now v') /\ said v = said v') (f a b) (f a' b')) -> touches_only now said f.
Proof.
  intros D a b a' b' v TA TB E es. set (s := scope_of es (List.length (digits a)) (List.length (digits b)) true).
  assert (forall x y, twins a x -> twins b y -> agree es Self a x -> agree es Other b y -> fst (f x y) = es /\ (exists v', snd (f x y) = Val v' /\ made s a x (now v) (now v') /\ said v = said v') /\ roomy s es) as K.
  { intros x y TX TY AX AY. assert (open s Self /\ free s New) as [O F] by (cbn; repeat split). destruct (D s a x b y O F) as (E1 & E2 & E3).
    - now apply start_held.
    - now apply start_held.
    - intros L. destruct TA as (WA & _), TB as (WB & _). destruct (wf_len a WA), (wf_len b WB). congruence.
    - apply within_own.
    - split; [symmetry; exact E1|]. rewrite E in E2. split; [|now apply (E3 v)]. destruct (snd (f x y)) as [v'| |]; try contradiction. exists v'. split; [reflexivity|exact E2]. }
  destruct (K a b) as (_ & (v0 & E0 & M & _) & RM); [apply twins_refl, TA|apply twins_refl, TB|apply agree_refl|apply agree_refl|]. rewrite E in E0. injection E0 as <-.
  split; [now apply (roomy_bounds es a b true)|]. split; [now apply made_spec in M|]. intros A1 A2. destruct (K a' b' TA TB A1 A2) as (E1 & (v' & E2 & M' & S) & _). split; [exact E1|]. exists v'. split; [exact E2|]. split; [now symmetry|]. now apply made_spec in M'.
Qed.
Lemma read_intro {V} (f : apint -> apint -> watched V) :
  (forall s a a' b b', free s New -> held s Self a a' a a' -> held s Other b b' b b' -> (len a = len b -> List.length (digits a) = List.length (digits b)) -> dep s eq (f a b) (f a' b')) -> reads_only f.
Proof.
  intros D a b a' b' v TA TB E es. set (s := scope_of es (List.length (digits a)) (List.length (digits b)) false).
  assert (forall x y, twins a x -> twins b y -> agree es Self a x -> agree es Other b y -> fst (f x y) = es /\ snd (f x y) = Val v /\ roomy s es) as K.
  { intros x y TX TY AX AY. assert (free s New) as F by (cbn; repeat split). destruct (D s a x b y F) as (E1 & E2 & E3).
    - now apply start_held.
    - now apply start_held.
    - intros L. destruct TA as (WA & _), TB as (WB & _). destruct (wf_len a WA), (wf_len b WB). congruence.
    - apply within_own.
    - split; [symmetry; exact E1|]. rewrite E in E2. split; [|now apply (E3 v)]. destruct (snd (f x y)) as [v'| |]; try contradiction. cbn in E2. now rewrite E2. }
  destruct (K a b) as (_ & _ & R); [apply twins_refl, TA|apply twins_refl, TB|apply agree_refl|apply agree_refl|]. destruct (roomy_bounds es a b false R) as [B NW].
  split; [exact B|]. split; [now apply NW|]. intros A1 A2. now destruct (K a' b' TA TB A1 A2) as (E1 & E2 & _).
Qed.

Lemma changes_paired f : (forall s a a' b b', open s Self -> free s New -> held s Self a a' a a' -> held s Other b b' b b' -> (len a = len b -> List.length (digits a) = List.length (digits b)) -> dep s (paired s a a') (f a b) (f a' b')) -> changes f.
Proof. intros D. apply touch_intro. intros s a a' b b' P F H H2 E. apply (dep_weak _ _ _ _ _ (D s a a' b b' P F H H2 E)). intros x y [X Y]. split; [now left|exact Y]. Qed.
Lemma changes_made f : (forall s a a' b b', open s Self -> free s New -> held s Self a a' a a' -> held s Other b b' b b' -> dep s (made2 s a a') (f a b) (f a' b')) -> changes f.
Proof. intros D. apply touch_intro. intros s a a' b b' P F H H2 E. exact (D s a a' b b' P F H H2). Qed.
Lemma turns_held f : (forall s a a' b b', open s Self -> free s New -> held s Self a a' a a' -> held s Other b b' b b' -> dep s (held s Self a a') (f a b) (f a' b')) -> turns f.
Proof. intros D. apply touch_intro. intros s a a' b b' P F H H2 E. apply (dep_weak _ _ _ _ _ (D s a a' b b' P F H H2)). intros x y X. split; [now left|reflexivity]. Qed.
Lemma turns_made f : (forall s a a' b b', open s Self -> free s New -> held s Self a a' a a' -> held s Other b b' b b' -> dep s (made s a a') (f a b) (f a' b')) -> turns f.
Proof. intros D. apply touch_intro. intros s a a' b b' P F H H2 E. apply (dep_weak _ _ _ _ _ (D s a a' b b' P F H H2)). intros x y X. now split. Qed.

Lemma touch_one :
  turns (alone w_wrapping_inc) /\ turns (alone w_wrapping_dec) /\ turns (alone w_wrapping_neg) /\ turns (alone w_bitnot) /\
  turns (alone w_set_all) /\ turns (alone w_unset_all) /\ turns (alone w_flip_all) /\
  (forall pos, changes (alone (fun a => w_set_bit_at a pos))) /\ (forall pos, changes (alone (fun a => w_unset_bit_at a pos))) /\ (forall pos, changes (alone (fun a => w_flip_bit_at a pos))) /\
  (forall n, changes (alone (fun a => w_wrapping_shl_assign a n))) /\ (forall n, changes (alone (fun a => w_wrapping_lshr_assign a n))) /\ (forall n, changes (alone (fun a => w_wrapping_ashr_assign a n))).
Proof.
  unfold alone. repeat match goal with |- _ /\ _ => split end; intros; try (apply turns_held; intros); try (apply changes_paired; intros).
  all: first [now apply dep_inc|now apply dep_dec|now apply dep_neg|now apply dep_modify_clear|now apply dep_modify_digits|now apply dep_modify_bit|now apply dep_shl|now apply dep_lshr|now apply dep_ashr].
Qed.
Lemma touch_two :
  changes w_wrapping_add_assign /\ changes w_wrapping_sub_assign /\ changes w_wrapping_mul_assign /\
  changes w_bitand_assign /\ changes w_bitor_assign /\ changes w_bitxor_assign /\ changes w_strict_assign /\ turns w_assign.
Proof.
  split; [apply changes_paired; intros; now apply dep_add with (3 := H2)|]. split; [apply changes_paired; intros; now apply dep_sub with (3 := H2)|]. split; [apply changes_paired; intros; now apply dep_mul with (4 := H2)|].
  do 3 (split; [apply changes_paired; intros; now apply dep_modify_zipped with (3 := H2)|]). split; [apply changes_made; intros; now apply dep_strict_assign with (3 := H2)|]. apply turns_made. intros. now apply dep_assign with (4 := H2).
Qed.
Lemma touch_cast t :
  changes (alone (fun a => w_truncate Self a t)) /\ changes (alone (fun a => w_zero_extend a t)) /\ changes (alone (fun a => w_sign_extend a t)) /\
  turns (alone (fun a => w_zero_resize a t)) /\ turns (alone (fun a => w_sign_resize a t)).
Proof.
  unfold alone. split; [apply changes_made; intros; now apply dep_truncate|]. split; [apply changes_made; intros; now apply dep_zero_extend|]. split; [apply changes_made; intros; now apply dep_sign_extend|]. split; [apply turns_made; intros; now apply dep_zero_resize|apply turns_made; intros; now apply dep_sign_resize].
Qed.
Lemma touch_none :
  reads_only (alone w_is_zero) /\ reads_only (alone w_is_even) /\ reads_only (alone w_is_odd) /\ reads_only (alone w_msb) /\ reads_only (alone w_hash_feed) /\
  (forall pos, reads_only (alone (fun a => w_get_bit_at a pos))) /\
  reads_only (alone w_count_ones) /\ reads_only (alone w_count_zeros) /\ reads_only (alone w_leading_zeros) /\ reads_only (alone w_trailing_zeros) /\
  (forall ty, reads_only (alone (fun a => w_resize_to_primitive_ty a ty))) /\ reads_only (alone w_resize_to_bool) /\ reads_only (alone w_resize_to_i128) /\ reads_only (alone w_resize_to_u128) /\
  reads_only (alone (w_clone Self)) /\
  reads_only w_apint_eqb /\ reads_only w_checked_ult /\ reads_only w_checked_slt.
Proof.
  unfold alone. repeat match goal with |- _ /\ _ => split end; intros; apply read_intro; intros s a a' b b' F H H2 E.
  all: first [ now apply dep_is_zero with (1 := H) | apply dep_eq; [now apply dep_lsb with (1 := H)|intros; now apply dep_val] | now apply dep_lsb with (1 := H) | now apply dep_msb with (1 := H)
    | now apply (dep_all_read s a a' a a' hash_feed) | now apply dep_get_bit with (1 := H) | now apply (dep_all_read_lift s a a' a a' count_ones) | now apply (dep_all_read_lift s a a' a a' count_zeros)
    | now apply dep_leading with (1 := H) | now apply dep_trailing with (1 := H) | now apply dep_resize_to with (1 := H) | now apply dep_i128 with (1 := H) | now apply dep_u128 with (1 := H)
    | apply (dep_weak _ _ _ _ _ (dep_clone s Self a a' a a' F H)); now intros ? ? [[? _] _]
    | now apply dep_eqb with (1 := H) (2 := H2) | now apply dep_ult with (1 := H) (2 := H2) | now apply dep_slt with (1 := H) (2 := H2) ].
Qed.
