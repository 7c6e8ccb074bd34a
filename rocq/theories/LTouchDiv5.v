(** What a division accesses is all that matters to it: the signed calls, and all of them. *)
From Verif Require Export LTouchDiv4.
From Coq Require Import Lia ZArith.

(** * Calls with other operands *)
Definition pull (f : place -> place) (s : scope) : scope := mk_scope (fun p => rd s (f p)) (fun p => wr s (f p)) (fun p => room s (f p)) (fun p => open s (f p)).
Lemma dep_elsewhere {A} s f (Q : A -> A -> Prop) m m' : dep (pull f s) Q m m' -> dep s Q (elsewhere f m) (elsewhere f m').
Proof.
  intros D W. unfold elsewhere in *. cbn [fst snd] in *. destruct (D) as (E & O & R).
  - unfold within in *. rewrite Forall_map in W. revert W. apply Forall_impl. intros [p i|p i|b|n]; cbn; auto.
  - split; [now rewrite E|]. split; [exact O|]. intros v V. specialize (R v V). unfold roomy in *. rewrite Forall_map. revert R. apply Forall_impl. intros [p i|p i|b|n]; cbn; auto.
Qed.
Lemma cells_pull s f p is o o' xs ys : cells s (f p) is o o' xs ys <-> cells (pull f s) p is o o' xs ys.
Proof. split; induction 1; constructor; auto. Qed.
Lemma held_pull s f p q o o' a a' : q = f p -> held s q o o' a a' <-> held (pull f s) p o o' a a'.
Proof. intros ->. unfold held, lists. now rewrite cells_pull. Qed.
Lemma free_pull s f p q : q = f p -> free s q -> free (pull f s) p. Proof. now intros ->. Qed.
Lemma dep_is_zero_at s f q o o' a a' : q = f Self -> held s q o o' a a' -> dep s eq (elsewhere f (w_is_zero a)) (elsewhere f (w_is_zero a')).
Proof. intros E H. apply dep_elsewhere. apply (held_pull s f Self q _ _ _ _ E) in H. now apply dep_is_zero with (1 := H). Qed.
Lemma dep_msb_at s f q o o' a a' : q = f Self -> held s q o o' a a' -> dep s eq (elsewhere f (w_msb a)) (elsewhere f (w_msb a')).
Proof. intros E H. apply dep_elsewhere. apply (held_pull s f Self q _ _ _ _ E) in H. now apply dep_msb with (1 := H). Qed.
Lemma dep_neg_if s f q (b : bool) o o' a a' : q = f Self -> open s q -> held s q o o' a a' -> dep s (held s q o o') (w_neg_if f b a) (w_neg_if f b a').
Proof.
  intros E P H. unfold w_neg_if. destruct b; [|now apply dep_val]. apply dep_elsewhere. pose proof H as X. apply (held_pull s f Self q _ _ _ _ E) in X.
  apply (dep_weak _ (held (pull f s) Self o o')); [apply dep_neg; [now subst|exact X]|]. intros. now apply (held_pull s f Self q _ _ _ _ E).
Qed.
Lemma same_len s p o o' a a' : held s p o o' a a' -> List.length (digits a) = List.length (digits o). Proof. intros (_ & _ & H). now apply lists_length in H. Qed.
Lemma dep_unwrap2 s (Q : apint * apint -> apint * apint -> Prop) m m' : dep s (fst_rel Q) m m' -> dep s Q (w_unwrap_mut2 m) (w_unwrap_mut2 m').
Proof. intros D. unfold w_unwrap_mut2. apply (dep_bind _ _ _ _ _ _ _ D). intros [x r] [y r'] [X Y]. cbn in X, Y. subst. apply dep_lift_eq. intros. now apply dep_val. Qed.
Lemma dep_and {A} s (Q : A -> A -> Prop) (P : A -> Prop) m m' : dep s Q m m' -> (forall c, snd m = Val c -> P c) -> dep s (fun x y => Q x y /\ P x) m m'.
Proof. intros D K W. destruct (D W) as (E & O & R). split; [exact E|]. split; [|exact R]. revert O. destruct (snd m) eqn:X, (snd m'); cbn; auto. Qed.
(** A call keeps the width of its operand. *)
Definition wide (a : apint) (m : watched apint) : Prop := forall c, snd m = Val c -> len c = len a.
Lemma bind_val {A C} (m : outcome A) (k : A -> outcome C) c : bind m k = Val c -> exists a, m = Val a /\ k a = Val c.
Proof. destruct m; cbn; [eauto|discriminate|discriminate]. Qed.
Lemma wide_clear a c : clear_unused_bits a = Val c -> len c = len a.
Proof.
  unfold clear_unused_bits. destruct (excess_bits (width a)); [|intros H; injection H as <-; reflexivity]. unfold modify_most_significant_digit. intros H. apply bind_val in H as ([d|ds] & _ & H).
  - apply bind_val in H as (d' & _ & H). injection H as <-. reflexivity.
  - repeat (apply bind_val in H as (? & _ & H)). injection H as <-. reflexivity.
Qed.
Lemma wide_neg a c : wrapping_neg a = Val c -> len c = len a.
Proof.
  unfold wrapping_neg, bitnot, modify_digits, wrapping_inc. intros H. apply bind_val in H as (b & E & H). apply bind_val in E as (b0 & E0 & E). apply bind_val in E0 as (acc & _ & E0). apply bind_val in H as (acc2 & _ & H). apply wide_clear in E, H.
  transitivity (len b); [destruct acc2; rewrite H; reflexivity|]. rewrite E. destruct acc; injection E0 as <-; reflexivity.
Qed.
Lemma wide_neg_if f (b : bool) a : wide a (w_neg_if f b a).
Proof. intros c. unfold w_neg_if. destruct b; cbn; [rewrite we_wrapping_neg; apply wide_neg|]. intros H. injection H as <-. reflexivity. Qed.
Lemma dep_sdivrem s o o' v v' a a' b b' : open s Self -> open s Other -> free s New -> free s Sub -> free s Quo -> held s Self o o' a a' -> held s Other v v' b b' -> (len a = len b -> List.length (digits a) = List.length (digits b)) ->
  dep s (both s o o' v v') (w_wrapping_sdivrem_assign a b) (w_wrapping_sdivrem_assign a' b').
Proof.
  intros P1 P2 F F1 F2 H1 H2 E. unfold w_wrapping_sdivrem_assign. apply dep_eq; [now apply (dep_is_zero_at s on_rhs Other v v')|]. intros z. go. go; [apply dep_eq; [now apply dep_by_zero with (2 := H1)|intros; apply dep_val; now split]|].
  apply dep_eq; [now apply dep_msb with (1 := H1)|]. intros ml. apply dep_eq; [now apply (dep_msb_at s on_rhs Other v v')|]. intros mr. go. go. 
  destruct (match ml, mr with false, false => (false, false) | true, false => (true, true) | false, true => (true, false) | true, true => (false, true) end) as [nl nr].
  apply (dep_bind s (fun x y => held s Self o o' x y /\ len x = len a)); [apply dep_and; [now apply dep_neg_if|apply wide_neg_if]|]. intros a1 a1' [A1 LA].
  apply (dep_bind s (fun x y => held s Other v v' x y /\ len x = len b)); [apply dep_and; [now apply dep_neg_if|apply wide_neg_if]|]. intros b1 b1' [B1 LB].
  apply (dep_bind s (two (held s Self o o') (held s Other v v'))).
  { apply dep_unwrap2. apply (dep_weak _ (both s o o' v v')); [|intros [[? ?] ?] [[? ?] ?] (X & Y & W); split; [split; assumption|assumption]]. apply dep_udivrem; try assumption. rewrite (same_len _ _ _ _ _ _ A1), (same_len _ _ _ _ _ _ B1), <- (same_len _ _ _ _ _ _ H1), <- (same_len _ _ _ _ _ _ H2), LA, LB. exact E. }
  intros ? ? ?. pairs. go. via (held s Self o o'); [now apply dep_neg_if|]. go. via (held s Other v v'); [now apply dep_neg_if|]. apply dep_val. split; [assumption|]. now split.
Qed.
Lemma dep_sremdiv s o o' v v' a a' b b' : open s Self -> open s Other -> free s New -> free s Sub -> free s Quo -> held s Self o o' a a' -> held s Other v v' b b' -> (len a = len b -> List.length (digits a) = List.length (digits b)) ->
  dep s (both s o o' v v') (w_wrapping_sremdiv_assign a b) (w_wrapping_sremdiv_assign a' b').
Proof.
  intros P1 P2 F F1 F2 H1 H2 E. unfold w_wrapping_sremdiv_assign. apply dep_eq; [now apply (dep_is_zero_at s on_rhs Other v v')|]. intros z. go. go; [apply dep_eq; [now apply dep_by_zero with (2 := H1)|intros; apply dep_val; now split]|].
  apply dep_eq; [now apply dep_msb with (1 := H1)|]. intros ml. apply dep_eq; [now apply (dep_msb_at s on_rhs Other v v')|]. intros mr. go. go. 
  destruct (match ml, mr with false, false => (false, false) | true, false => (true, true) | false, true => (false, true) | true, true => (true, false) end) as [nl nr].
  apply (dep_bind s (fun x y => held s Self o o' x y /\ len x = len a)); [apply dep_and; [now apply dep_neg_if|apply wide_neg_if]|]. intros a1 a1' [A1 LA].
  apply (dep_bind s (fun x y => held s Other v v' x y /\ len x = len b)); [apply dep_and; [now apply dep_neg_if|apply wide_neg_if]|]. intros b1 b1' [B1 LB].
  apply (dep_bind s (two (held s Self o o') (held s Other v v'))).
  { apply dep_unwrap2. apply (dep_weak _ (both s o o' v v')); [|intros [[? ?] ?] [[? ?] ?] (X & Y & W); split; [split; assumption|assumption]]. apply dep_uremdiv; try assumption. rewrite (same_len _ _ _ _ _ _ A1), (same_len _ _ _ _ _ _ B1), <- (same_len _ _ _ _ _ _ H1), <- (same_len _ _ _ _ _ _ H2), LA, LB. exact E. }
  intros ? ? ?. pairs. go. via (held s Self o o'); [now apply dep_neg_if|]. go. via (held s Other v v'); [now apply dep_neg_if|]. apply dep_val. split; [assumption|]. now split.
Qed.
Lemma wide_clone p a : wide a (w_clone p a).
Proof.
  intros c. unfold w_clone, wbind, see, wlift. cbn [fst snd]. destruct (storage (len a)) eqn:S; cbn [snd]; unfold clone; rewrite S.
  - intros H. apply bind_val in H as (d & _ & H). revert H. unfold new_inl. rewrite S. intros H. injection H as <-. reflexivity.
  - destruct (Nat.eqb _ _); [|discriminate]. unfold new_ext. rewrite S. intros H. injection H as <-. reflexivity.
Qed.
Lemma dep_copied s v v' b b' : free s New -> held s Other v v' b b' -> dep s (fun x y => held s New v v' x y /\ len x = len b) (w_clone Other b) (w_clone Other b').
Proof.
  intros F H. pose proof H as (L & N & K). destruct (lists_len4 _ _ _ _ _ _ K) as (A & B & C). apply (dep_weak _ _ _ _ _ (dep_and _ _ _ _ _ (dep_clone s Other v v' b b' F H) (wide_clone Other b))). intros c c' [[[<- W] D] E]. split; [|exact E]. split; [reflexivity|]. split; [exact N|].
  apply lists_fresh; [lia|rewrite D; lia|]. intros i I. split; [apply W; rewrite D; lia|apply F].
Qed.
Lemma dep_sdiv s o o' v v' a a' b b' : open s Self -> free s New -> free s Sub -> free s Quo -> held s Self o o' a a' -> held s Other v v' b b' -> (len a = len b -> List.length (digits a) = List.length (digits b)) ->
  dep s (paired s o o') (w_wrapping_sdiv_assign a b) (w_wrapping_sdiv_assign a' b').
Proof.
  intros P1 F F1 F2 H1 H2 E. unfold w_wrapping_sdiv_assign. apply dep_eq; [now apply (dep_is_zero_at s on_rhs Other v v')|]. intros z. go. go; [apply dep_eq; [now apply dep_by_zero with (2 := H1)|intros; apply dep_val; now split]|].
  apply (dep_bind s (fun x y => held s New v v' x y /\ len x = len b)); [now apply dep_copied|]. intros c c' [HC LC].
  apply dep_eq; [now apply dep_msb with (1 := H1)|]. intros ml. apply dep_eq; [now apply (dep_msb_at s on_clone New v v')|]. intros mr. go. go. cbv zeta.
  apply (dep_bind s (fun x y => held s Self o o' x y /\ len x = len a)); [apply dep_and; [now apply dep_neg_if|apply wide_neg_if]|]. intros a1 a1' [A1 LA].
  apply (dep_bind s (fun x y => held s New v v' x y /\ len x = len c)); [apply dep_and; [apply dep_neg_if; [reflexivity|apply F|exact HC]|apply wide_neg_if]|]. intros b1 b1' [B1 LB].
  apply (dep_bind s (two (held s Self o o') (held s New v v'))).
  { apply dep_unwrap2. apply dep_elsewhere. apply (dep_weak _ (both (pull by_clone s) o o' v v')).
    - apply dep_udivrem; [exact P1|exact (proj1 F)|exact F|exact F1|exact F2|now apply (held_pull s by_clone Self Self)|now apply (held_pull s by_clone Other New)|]. rewrite (same_len _ _ _ _ _ _ A1), (same_len _ _ _ _ _ _ B1), <- (same_len _ _ _ _ _ _ H1), <- (same_len _ _ _ _ _ _ H2), LA, LB, LC. exact E.
    - intros [[? ?] ?] [[? ?] ?] (X & Y & W). split; [split; [now apply (held_pull s by_clone Self Self)|now apply (held_pull s by_clone Other New)]|exact W]. }
  intros ? ? ?. pairs. go. via (held s Self o o'); [now apply dep_neg_if|]. apply dep_val. now split.
Qed.
Lemma dep_srem s o o' v v' a a' b b' : open s Self -> free s New -> free s Sub -> free s Quo -> held s Self o o' a a' -> held s Other v v' b b' -> (len a = len b -> List.length (digits a) = List.length (digits b)) ->
  dep s (paired s o o') (w_wrapping_srem_assign a b) (w_wrapping_srem_assign a' b').
Proof.
  intros P1 F F1 F2 H1 H2 E. unfold w_wrapping_srem_assign. apply dep_eq; [now apply (dep_is_zero_at s on_rhs Other v v')|]. intros z. go. go; [apply dep_eq; [now apply dep_by_zero with (2 := H1)|intros; apply dep_val; now split]|].
  apply (dep_bind s (fun x y => held s New v v' x y /\ len x = len b)); [now apply dep_copied|]. intros c c' [HC LC].
  apply dep_eq; [now apply dep_msb with (1 := H1)|]. intros ml. apply dep_eq; [now apply (dep_msb_at s on_clone New v v')|]. intros mr. go. go. cbv zeta.
  apply (dep_bind s (fun x y => held s Self o o' x y /\ len x = len a)); [apply dep_and; [now apply dep_neg_if|apply wide_neg_if]|]. intros a1 a1' [A1 LA].
  apply (dep_bind s (fun x y => held s New v v' x y /\ len x = len c)); [apply dep_and; [apply dep_neg_if; [reflexivity|apply F|exact HC]|apply wide_neg_if]|]. intros b1 b1' [B1 LB].
  apply (dep_bind s (two (held s Self o o') (held s New v v'))).
  { apply dep_unwrap2. apply dep_elsewhere. apply (dep_weak _ (both (pull by_clone s) o o' v v')).
    - apply dep_uremdiv; [exact P1|exact (proj1 F)|exact F|exact F1|exact F2|now apply (held_pull s by_clone Self Self)|now apply (held_pull s by_clone Other New)|]. rewrite (same_len _ _ _ _ _ _ A1), (same_len _ _ _ _ _ _ B1), <- (same_len _ _ _ _ _ _ H1), <- (same_len _ _ _ _ _ _ H2), LA, LB, LC. exact E.
    - intros [[? ?] ?] [[? ?] ?] (X & Y & W). split; [split; [now apply (held_pull s by_clone Self Self)|now apply (held_pull s by_clone Other New)]|exact W]. }
  intros ? ? ?. pairs. go. via (held s Self o o'); [now apply dep_neg_if|]. apply dep_val. now split.
Qed.

(** * What the words of the specification say *)
Definition scope_both (es : list event) (n m : nat) : scope :=
  mk_scope (fun p i => In (Read p i) es) (fun p i => In (Write p i) es)
    (fun p i => match p with Self => (i < n)%nat | Other => (i < m)%nat | _ => True end) (fun _ => True).
Lemma held_start es s p a a' : (forall q i, rd s q i = In (Read q i) es) -> twins a a' -> agree es p a a' -> (forall i, (i < List.length (digits a))%nat -> room s p i) -> held s p a a' a a'.
Proof.
  intros RD (W & W' & L) A R. destruct (wf_len a W) as [E N], (wf_len a' W') as [E' _]. split; [exact L|]. split; [exact N|]. apply cells_start; [congruence|intros; apply R; lia| |intros i I; rewrite RD in I; now apply A].
  intros i. rewrite RD. destruct (in_dec event_dec (Read p i) es); auto.
Qed.
Lemma held_spec es n m p a a' c c' : held (scope_both es n m) p a a' c c' -> same_but_unread_at p es a a' c c' /\ kept_if_unwritten_at p es a c.
Proof.
  intros (L & N & K). destruct (lists_length _ _ _ _ _ _ K) as [M M2]. split.
  - split; [exact L|]. split; [exact M|]. intros i. pose proof (cells_nth _ _ _ _ _ _ _ i K) as C. rewrite nth_seq in C. destruct (Nat.ltb i (List.length (digits a))); [|left; destruct C as (_ & _ & X & Y); congruence]. destruct C as (x & y & u & v & X & Y & U & V & (_ & [E|(E & E1 & E2)] & _)); [left; congruence|right]. split; [exact E|]. split; congruence.
  - intros i W. pose proof (cells_nth _ _ _ _ _ _ _ i K) as C. rewrite nth_seq in C. destruct (Nat.ltb i (List.length (digits a))); [|destruct C as (X & _ & Y & _); congruence]. destruct C as (x & y & u & v & X & Y & U & V & (_ & _ & E)). destruct (E W). congruence.
Qed.
Lemma both_intro f :
  (forall s a a' b b', open s Self -> open s Other -> free s New -> free s Sub -> free s Quo -> held s Self a a' a a' -> held s Other b b' b b' -> (len a = len b -> List.length (digits a) = List.length (digits b)) ->
   dep s (both s a a' b b') (f a b) (f a' b')) -> changes_both f.
Proof.
  intros D a b a' b' c d r TA TB E es. set (s := scope_both es (List.length (digits a)) (List.length (digits b))).
  assert (within s es) as WI by (apply Forall_forall; intros [p i|p i|z|k] H; cbn; auto).
  assert (forall x y, twins a x -> twins b y -> agree es Self a x -> agree es Other b y -> fst (f x y) = es /\ (exists c' d', snd (f x y) = Val (c', d', r) /\ held s Self a x c c' /\ held s Other b y d d') /\ roomy s es) as K.
  { intros x y TX TY AX AY. destruct (D s a x b y) as (E1 & E2 & E3); try (cbn; repeat split; exact I).
    - now apply (held_start es).
    - now apply (held_start es).
    - intros L. destruct TA as (WA & _), TB as (WB & _). destruct (wf_len a WA), (wf_len b WB). congruence.
    - exact WI.
    - split; [symmetry; exact E1|]. rewrite E in E2. split; [|now apply (E3 (c, d, r))]. destruct (snd (f x y)) as [[[c' d'] r']| |]; try contradiction. destruct E2 as (X & Y & W). cbn in X, Y, W. subst r'. exists c', d'. now split. }
  destruct (K a b) as (_ & (c0 & d0 & E0 & M1 & M2) & RM); [apply twins_refl, TA|apply twins_refl, TB|apply agree_refl|apply agree_refl|]. rewrite E in E0. injection E0 as <- <-.
  split; [unfold roomy in RM; rewrite Forall_forall in RM; intros i; repeat split; intros H; apply RM in H; cbn in H; solve [exact H|apply H]|].
  split; [now apply held_spec in M1|]. split; [now apply held_spec in M2|]. intros A1 A2. destruct (K a' b' TA TB A1 A2) as (E1 & (c' & d' & E2 & N1 & N2) & _). split; [exact E1|]. exists c', d'. split; [exact E2|]. split; [now apply held_spec in N1|now apply held_spec in N2].
Qed.
Lemma changes_intro f :
  (forall s a a' b b', open s Self -> free s New -> free s Sub -> free s Quo -> held s Self a a' a a' -> held s Other b b' b b' -> (len a = len b -> List.length (digits a) = List.length (digits b)) ->
   dep s (paired s a a') (f a b) (f a' b')) -> changes f.
Proof.
  intros D a b a' b' v TA TB E es. set (s := scope_of es (List.length (digits a)) (List.length (digits b)) true).
  assert (forall x y, twins a x -> twins b y -> agree es Self a x -> agree es Other b y -> fst (f x y) = es /\ (exists v', snd (f x y) = Val v' /\ made s a x (fst v) (fst v') /\ snd v = snd v') /\ roomy s es) as K.
  { intros x y TX TY AX AY. destruct (D s a x b y) as (E1 & E2 & E3); try (cbn; repeat split; exact I).
    - now apply start_held.
    - now apply start_held.
    - intros L. destruct TA as (WA & _), TB as (WB & _). destruct (wf_len a WA), (wf_len b WB). congruence.
    - apply within_own.
    - split; [symmetry; exact E1|]. rewrite E in E2. split; [|now apply (E3 v)]. destruct (snd (f x y)) as [v'| |]; try contradiction. destruct E2 as [X Y]. exists v'. split; [reflexivity|]. split; [now left|exact Y]. }
  destruct (K a b) as (_ & (v0 & E0 & M & _) & RM); [apply twins_refl, TA|apply twins_refl, TB|apply agree_refl|apply agree_refl|]. rewrite E in E0. injection E0 as <-.
  split; [now apply (roomy_bounds es a b true)|]. split; [now apply made_spec in M|]. intros A1 A2. destruct (K a' b' TA TB A1 A2) as (E1 & (v' & E2 & M' & S) & _). split; [exact E1|]. exists v'. split; [exact E2|]. split; [now symmetry|]. now apply made_spec in M'.
Qed.
Lemma touch_div :
  changes w_wrapping_udiv_assign /\ changes w_wrapping_urem_assign /\ changes w_wrapping_sdiv_assign /\ changes w_wrapping_srem_assign.
Proof. repeat match goal with |- _ /\ _ => split end; apply changes_intro; intros; [now apply dep_udiv with (6 := H4)|now apply dep_urem with (6 := H4)|now apply dep_sdiv with (6 := H4)|now apply dep_srem with (6 := H4)]. Qed.
Lemma touch_divrem :
  changes_both w_wrapping_udivrem_assign /\ changes_both w_wrapping_uremdiv_assign /\ changes_both w_wrapping_sdivrem_assign /\ changes_both w_wrapping_sremdiv_assign.
Proof. repeat match goal with |- _ /\ _ => split end; apply both_intro; intros; [now apply dep_udivrem|now apply dep_uremdiv|now apply dep_sdivrem|now apply dep_sremdiv]. Qed.
