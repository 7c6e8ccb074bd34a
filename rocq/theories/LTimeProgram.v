(** The time of programs of public calls. *)
From Verif Require Export LTimeText MTimeProgram SpecTimeProgram.
From Verif Require Import LMach4 LText2 SpecTimeText.
From Verif Require Import SpecTime SpecTimeProgram.
From Coq Require Import Lia ZArith List.
Import ListNotations.
Open Scope list_scope.
Open Scope Z_scope.
Notation length := List.length.

(** * Combinators *)
Lemma takes_le {A} (m : clocked A) o n n' : takes m o n -> n <= n' -> takes m o n'.
Proof. intros (E & L) H. split; [exact E|lia]. Qed.
Lemma takes_bind {A C} (m : clocked A) o (f : A -> clocked C) g n n' : takes m o n -> 0 <= n' -> (forall x, o = Val x -> takes (f x) (g x) n') ->
  takes (cbind m f) (bind o g) (n + n').
Proof.
  intros (E & L) H K. unfold takes, cbind in *. rewrite E. destruct o as [x| |]; cbn [fst snd bind]; [|split; [reflexivity|lia]..].
  destruct (K x eq_refl) as (E' & L'). split; [exact E'|lia].
Qed.
Lemma takes_map {A C} (m : clocked A) o (f : A -> C) n : takes m o n -> takes (let~ x := m in cval (f x)) (let! x := o in Val (f x)) n.
Proof. intros H. replace n with (n + 0) by lia. apply takes_bind; [exact H|lia|]. intros x _. split; [reflexivity|cbn; lia]. Qed.
Lemma takes_pay {A} n (m : clocked A) o k : takes m o k -> takes (let~ _ := cpay n in m) o (Z.of_nat n + k).
Proof. intros (E & L). split; [exact E|]. unfold cbind. cbn [snd fst]. cbn. lia. Qed.
Lemma takes_lift {A} (o : outcome A) n : 0 <= n -> takes (clift o) o n.
Proof. intros H. split; [reflexivity|cbn; lia]. Qed.
Lemma takes_kind {A} (m : clocked (eresult A)) o n : takes m o n -> takes (c_kind m) (erase o) n.
Proof.
  intros H. unfold c_kind. replace (erase o) with (let! r := o in Val (match r with EOk a => Ok a | EErr e => Err (e_kind e) end)); [now apply takes_map|].
  destruct o as [[|]| |]; reflexivity.
Qed.
Lemma takes_kind_mut m o n : takes m o n -> takes (c_kind_mut m) (erase_mut o) n.
Proof.
  intros H. unfold c_kind_mut. replace (erase_mut o) with (let! x := o in Val (let '(s, r) := x in (s, match r with EOk a => Ok a | EErr e => Err (e_kind e) end) : apint * result unit)).
  - eapply takes_le; [apply takes_bind with (n' := 0); [exact H|lia|]|lia]. intros [s r] _. split; [reflexivity|cbn; lia].
  - destruct o as [[s [|]]| |]; reflexivity.
Qed.
Lemma takes_told {A} (m : clocked (result A)) o n x : takes m o n -> 0 <= x -> (forall k, o = Val (Err k) -> zlen (message_of k) <= x) -> takes (c_told m) o (n + x).
Proof.
  intros (E & L) Hx K. apply takes_intro.
  - unfold c_told, c_kind. rewrite (erase_bind _ (plain o) _ (fun r => Val (match r with EOk a => Ok a | EErr e => Err (e_kind e) end))); [|now apply e_plain|reflexivity].
    destruct o as [[|]| |]; reflexivity.
  - unfold c_told, c_kind. apply k_map. apply k_plain; [exact L|exact Hx|]. intros k Ek. apply K. congruence.
Qed.
Lemma takes_told_mut {S} (m : clocked (S * result unit)) o n x : takes m o n -> 0 <= x -> (forall s k, o = Val (s, Err k) -> zlen (message_of k) <= x) -> takes (c_told_mut m) o (n + x).
Proof.
  intros (E & L) Hx K. apply takes_intro.
  - unfold c_told_mut, c_kind_mut. rewrite (erase_bind _ (plain_mut o) _ (fun x => Val (let '(s, r) := x in (s, match r with EOk a => Ok a | EErr e => Err (e_kind e) end) : S * result unit)));
      [|now apply e_plain_mut|intros [s r]; reflexivity].
    destruct o as [[s [[]|]]| |]; reflexivity.
  - unfold c_told_mut, c_kind_mut. eapply costs_bind; [apply k_plain_mut; [exact L|exact Hx|]| |]. { intros s k Ek. apply (K s). congruence. }
    intros [s r] _. apply costs_val. lia. lia.
Qed.
Lemma takes_total m o n : takes m o n -> takes (c_total m) (MMachine.total o) n.
Proof. apply takes_map. Qed.
Lemma takes_total_mut m o n : takes m o n -> takes (c_total_mut m) (total_mut o) n.
Proof. apply (takes_map m o (fun a => (a, Ok tt))). Qed.
Definition forwarded (o : mut_result) : outcome (result apint) :=
  let! (this, r) := o in match r with Ok _ => Val (Ok this) | Err e => Val (Err e) end.
Lemma takes_forward m o n : takes m o n -> takes (c_forward m) (forwarded o) n.
Proof.
  intros H. eapply takes_le; [apply takes_bind with (n' := 0); [exact H|lia|]|lia]. intros [s [[]|]] _; (split; [reflexivity|cbn; lia]).
Qed.

(** * Errors *)
(** An error of a program that works with [n] digits at a time. *)
Definition fits (n : Z) (a : apint) : Prop := wf a /\ len a <= 64 * n.
Definition figure_ok (n x : Z) : Prop := 0 <= x /\ (x < 2 ^ 64 \/ x <= 64 * n).
Definition slight (n : Z) (k : error_kind) : Prop := payload_ok k /\ Forall (figure_ok n) (figures k) /\ Forall (fits n) (integers k).
Lemma words_le n w : 0 < w -> w <= 64 * n -> 1 <= words w <= n.
Proof. intros P H. split; [now apply words_pos|]. unfold words. apply Z.lt_succ_r. apply Z.div_lt_upper_bound; lia. Qed.
Lemma fits_words n a : fits n a -> 1 <= words (len a) <= n.
Proof. intros (W & L). apply words_le; [apply W|exact L]. Qed.
Lemma figure_log n x : 1 <= n -> figure_ok n x -> Z.log2 x + 1 <= 64 + n.
Proof.
  intros Hn (H0 & [H|H]).
  - destruct (Z.eq_dec x 0) as [->|]; [cbn; lia|]. assert (Z.log2 x < 64) by (apply Z.log2_lt_pow2; lia). lia.
  - destruct (Z.eq_dec x 0) as [->|]; [cbn; lia|]. pose proof (log_words x ltac:(lia)). pose proof (words_le n x ltac:(lia) H). lia.
Qed.
Lemma slight_message n k : 2 <= n -> slight n k -> zlen (message_of k) <= 30 * n + 288.
Proof.
  intros Hn (P & F & I). pose proof (time_message_fact k P) as M. change (Z.of_nat (length (message_of k))) with (zlen (message_of k)) in M.
  assert (G : forall x, figure_ok n x -> Z.log2 x + 1 <= 64 + n) by (intros x; apply figure_log; lia).
  assert (J : forall a, fits n a -> 30 * words (len a) <= 30 * n) by (intros a Ha; pose proof (fits_words n a Ha); lia).
  destruct k; cbn [figures integers map SpecTimeText.total fold_right] in M, F, I;
    repeat match goal with H : Forall _ (_ :: _) |- _ => inversion H; subst; clear H end;
    repeat match goal with H : figure_ok n ?x |- _ => apply G in H end; repeat match goal with H : fits n ?x |- _ => apply J in H end; lia.
Qed.
Lemma width_figure n a : fits n a -> figure_ok n (len a).
Proof. intros (W & L). pose proof (wf_len a W). split; [lia|auto]. Qed.
#[local] Hint Resolve width_figure : core.

(** * Calls *)
Definition light (n : Z) : Z := 128 * n + 609.
Lemma told_light {A} n (m : clocked (result A)) o c : 2 <= n -> takes m o c -> c <= 98 * n + 321 -> (forall k, o = Val (Err k) -> slight n k) -> takes (c_told m) o (light n).
Proof.
  intros Hn H L K. eapply takes_le; [apply (takes_told m o c (30 * n + 288) H); [lia|]|unfold light; lia]. intros k E. apply slight_message; [exact Hn|eauto].
Qed.
Lemma told_mut_light {S} n (m : clocked (S * result unit)) o c : 2 <= n -> takes m o c -> c <= 98 * n + 321 ->
  (forall s k, o = Val (s, Err k) -> slight n k) -> takes (c_told_mut m) o (light n).
Proof.
  intros Hn H L K. eapply takes_le; [apply (takes_told_mut m o c (30 * n + 288) H); [lia|]|unfold light; lia]. intros s k E. apply slight_message; [exact Hn|eauto].
Qed.
Lemma width_error n w e : bitwidth_new w = Err e -> slight n e.
Proof.
  unfold bitwidth_new. destruct (Z.eqb_spec w 0) as [->|]; [|discriminate]. intros H. injection H as <-.
  split; [cbn; lia|]. split; repeat constructor; cbn; lia.
Qed.
Lemma takes_sized {A} n w (k : Z -> clocked (result A)) g : 2 <= n -> 0 <= w -> (0 < w -> takes (k w) (g w) (light n)) -> takes (c_sized w k) (sized w g) (light n).
Proof.
  intros Hn Hw H. unfold c_sized, sized. destruct (bitwidth_new w) as [v|e] eqn:E.
  - unfold bitwidth_new in E. destruct (Z.eqb_spec w 0); [discriminate|]. injection E as <-. apply H. lia.
  - apply (told_light n _ _ 0 Hn); [split; [reflexivity|cbn; lia]|lia|]. intros k' E'. injection E' as <-. now apply (width_error n w).
Qed.
Lemma takes_sized_mut n a w k g : 2 <= n -> 0 <= w -> (0 < w -> takes (k w) (g w) (light n)) -> takes (c_sized_mut a w k) (sized_mut a w g) (light n).
Proof.
  intros Hn Hw H. unfold c_sized_mut, sized_mut. destruct (bitwidth_new w) as [v|e] eqn:E.
  - unfold bitwidth_new in E. destruct (Z.eqb_spec w 0); [discriminate|]. injection E as <-. apply H. lia.
  - apply (told_mut_light n _ _ 0 Hn); [split; [reflexivity|cbn; lia]|lia|]. intros s k' E'. injection E' as <- <-. now apply (width_error n w).
Qed.

Lemma t_from_array vals : takes (c_from_u64_array vals) (from_u64_array vals) (5 * Z.of_nat (length vals)).
Proof.
  eapply takes_le; [apply takes_pay|].
  - cbv zeta. unfold from_u64_array. destruct (Nat.eqb _ _); [|apply takes_lift with (n := 4 * Z.of_nat (length vals)); lia].
    eapply takes_le; [apply takes_bind with (n := 4 * Z.of_nat (length vals)) (n' := 0); [|lia|]|lia].
    + split; [reflexivity|]. eapply Z.le_trans; [apply (k_from_iter (rev vals))|]. rewrite rev_length. lia.
    + intros x _. apply takes_lift. lia.
  - lia.
Qed.
Lemma t_inl m : takes (c_inl m) m 1.
Proof. apply (takes_pay 1 _ _ 0). apply takes_lift. lia. Qed.
Lemma t_expect m o n : takes m o n -> takes (c_expect_mut m) (expect_mut o) n.
Proof.
  intros H. unfold c_expect_mut, expect_mut. eapply takes_le; [apply takes_bind with (n' := 0); [exact H|lia|]|lia]. intros [a r] _.
  apply takes_bind with (n := 0) (n' := 0); [apply takes_lift; lia|lia|]. intros [] _. split; [reflexivity|cbn; lia].
Qed.

(** ** Construction *)
Lemma t_zero w : 0 < w -> takes (c_zero w) (zero w) (12 * words w + 4).
Proof. intros H. apply takes_intro; [apply e_repeat_digit|]. rewrite <- (rd_words w H). apply k_repeat_digit. Qed.
Lemma t_all_set w : 0 < w -> takes (c_all_set w) (all_set w) (12 * words w + 4).
Proof. intros H. apply takes_intro; [apply e_repeat_digit|]. rewrite <- (rd_words w H). apply k_repeat_digit. Qed.
Lemma t_one w : 0 < w -> takes (c_one w) (one w) (12 * words w + 10).
Proof.
  intros H. unfold c_one, one. eapply takes_le; [apply takes_bind with (n := 1) (n' := 12 * words w + 9); [apply t_inl|pose proof (words_pos w H); lia|]|lia].
  intros a E. assert (W : wf a).
  { destruct from_unsigned_fact as (_ & _ & _ & _ & U & _). destruct (U 1 ltac:(lia)) as (c & Ec & Hc & _). congruence. }
  destruct (time_resize_fact a w 0 W H) as (_ & _ & _ & _ & R & _). exact R.
Qed.
Lemma t_set_msb a : takes (c_set_msb a) (set_msb a) 2.
Proof. apply t_expect. apply (time_bit_fact a). Qed.
Lemma t_unset_msb a : takes (c_unset_msb a) (unset_msb a) 2.
Proof. apply t_expect. apply (time_bit_fact a). Qed.
Lemma t_flip_msb a : takes (c_flip_msb a) (flip_msb a) 2.
Proof. apply t_expect. apply (time_bit_fact a). Qed.
Lemma t_signed_min w : 0 < w -> takes (c_signed_min_value w) (signed_min_value w) (12 * words w + 6).
Proof. intros H. eapply takes_le; [apply takes_bind with (n' := 2); [now apply t_zero|lia|]|lia]. intros a _. apply t_set_msb. Qed.
Lemma t_signed_max w : 0 < w -> takes (c_signed_max_value w) (signed_max_value w) (12 * words w + 6).
Proof. intros H. eapply takes_le; [apply takes_bind with (n' := 2); [now apply t_all_set|lia|]|lia]. intros a _. apply t_unset_msb. Qed.

(** Parsing, with the texts of the error. *)
Lemma u64_digits_length f : forall base x acc, zlen (u64_digits f base x acc) <= Z.of_nat f + zlen acc.
Proof.
  induction f as [|f IH]; intros base x acc; cbn [u64_digits]; [lia|].
  repeat match goal with |- context [if ?c then _ else _] => destruct c end;
    try (eapply Z.le_trans; [apply IH|]); unfold zlen; cbn [length]; lia.
Qed.
Lemma char_text b : zlen (dbg_char b) <= 76.
Proof.
  assert (H : zlen (u64_fmt 16 97 b) <= 64).
  { unfold u64_fmt, zlen. rewrite map_length. pose proof (u64_digits_length 64 16 b []) as H. unfold zlen in H. cbn [length] in H. lia. }
  unfold dbg_char. rewrite !zlen_app. lits. enough (zlen (escape_debug 39 b) <= 70) by lia. unfold escape_debug. revert H. generalize (u64_fmt 16 97 b). intros t H.
  repeat match goal with |- context [if ?c then _ else _] => destruct c end; rewrite ?zlen_app; lits; try (unfold zlen; cbn [length]; lia). lia.
Qed.
Lemma radix_text r : 2 <= r <= 36 -> zlen (render (dbg_radix r)) <= 13.
Proof.
  intros H. unfold dbg_radix. rewrite render_num. lits. pose proof (dec_length r ltac:(lia)). assert (Z.log2 r <= Z.log2 36) by (apply Z.log2_le_mono; lia).
  change (Z.log2 36) with 5 in *. lia.
Qed.
Lemma annotated_length e t : Z.of_nat (text_length (with_annotation e t)) = zlen (e_message e) + zlen t.
Proof. unfold text_length, zlen. cbn [with_annotation e_message e_annotation]. lia. Qed.
Lemma refused_text r s e : 2 <= r <= 36 -> explained_from_str_radix r s = Val (EErr e) -> Z.of_nat (text_length e) <= Z.of_nat (length s) + 300.
Proof.
  intros Hr. assert (M : forall s, zlen (e_message (error_of (InvalidStringRepr s r None))) <= 100).
  { intros x. cbn [error_of e_message]. unfold message_of. rewrite !zlen_app. lits. pose proof (radix_text r Hr). lia. }
  unfold explained_from_str_radix. destruct s as [|b t]; [intros E; injection E as <-; rewrite annotated_length; lits; specialize (M []); cbn [length]; lia|].
  specialize (M (b :: t)). pose proof (Nat2Z.is_nonneg (length (b :: t))).
  destruct (Z.eqb_spec b 95); [intros E; injection E as <-; rewrite annotated_length; lits; lia|].
  destruct (Z.eqb_spec (last (b :: t) 0) 95); [intros E; injection E as <-; rewrite annotated_length; lits; lia|].
  destruct (first_invalid r 0 (b :: t)) as [[p c]|] eqn:F.
  - intros E. injection E as <-. apply first_invalid_spec in F as (pre & post & Es & -> & _); [|lia].
    assert (L : 0 <= Z.of_nat (length pre) < Z.of_nat (length (b :: t))) by (rewrite Es, app_length; cbn [length]; lia).
    unfold text_length, invalid_char_in_string_repr. cbn [e_message e_annotation]. rewrite Nat.add_0_r.
    match goal with |- Z.of_nat (length ?t) <= _ => change (Z.of_nat (length t)) with (zlen t) end. rewrite !zlen_app. lits.
    pose proof (char_text c). pose proof (radix_text r Hr). pose proof (dec_length (0 + Z.of_nat (length pre)) ltac:(lia)) as D.
    assert (Z.log2 (0 + Z.of_nat (length pre)) <= Z.of_nat (length pre)) by (apply Z.log2_le_lin; lia). lia.
  - intros E. exfalso. unfold plain in E. destruct (from_str_radix r (b :: t)) as [[x|k]| |] eqn:G; try discriminate E.
    eapply from_str_no_error; [reflexivity| | |exact F|exact G]; assumption.
Qed.
Lemma t_parse r s : takes (c_from_str_radix_u8 r s) (from_str_radix_u8 r s) (12 * Z.of_nat (length s) + 309).
Proof.
  unfold c_from_str_radix_u8, from_str_radix_u8. eapply takes_le; [apply takes_bind with (n := 0) (n' := 12 * Z.of_nat (length s) + 309); [apply takes_lift; lia|lia|]|lia]. intros q Eq.
  assert (Hq : 2 <= q <= 36).
  { unfold radix_from, radix_new in Eq. destruct ((2 <=? r) && (r <=? 36))%bool eqn:E; cbn in Eq; [|discriminate]. injection Eq as <-. lia. }
  rewrite <- (erase_parse q s). apply takes_kind. unfold c_explained_from_str_radix.
  assert (X : explained_from_str_radix q s = bind (from_str_radix q s) (fun r => match r with Ok a => Val (EOk a) | Err _ => explained_from_str_radix q s end)).
  { pose proof (erase_parse q s) as P. unfold erase in P. destruct (explained_from_str_radix q s) as [[x|k]| |]; rewrite <- P; reflexivity. }
  match goal with |- takes ?m _ ?n => refine (eq_ind_r (fun o => takes m o n) _ X) end. eapply takes_le; [apply takes_bind with (n' := Z.of_nat (length s) + 300); [apply time_parse_fact|lia|]|lia].
  intros [a|k] _; [split; [reflexivity|cbn; lia]|].
  apply takes_intro; [|].
  - destruct (explained_from_str_radix q s) as [[x|e]| |]; reflexivity.
  - eapply costs_bind; [apply costs_lift0| |lia]. intros [a|e] E; [apply costs_val; lia|].
    pose proof (refused_text q s e Hq E). eapply costs_bind; [apply costs_pay|intros u _; apply costs_val; lia|lia].
Qed.
Lemma t_new_takes n c : 2 <= n -> newop_ok c -> within n (New c) -> takes (t_new c) (cnew c) (light n).
Proof.
  intros Hn Hc Hi. unfold light. destruct c; cbn [t_new cnew newop_ok within] in *;
    try (eapply takes_le; [apply takes_total, t_inl|lia]).
  - eapply takes_le; [apply takes_total, t_from_array|cbn [length]; lia].
  - eapply takes_le; [apply takes_total, t_from_array|cbn [length]; lia].
  - eapply takes_le; [apply takes_total, t_from_array|lia].
  - eapply takes_le; [apply takes_total; apply takes_pay; apply t_from_array|rewrite map_length; lia].
  - apply takes_sized; [lia|lia|]. intros P. pose proof (words_le n w P ltac:(lia)). eapply takes_le; [apply takes_total; now apply t_zero|unfold light; lia].
  - apply takes_sized; [lia|lia|]. intros P. pose proof (words_le n w P ltac:(lia)). eapply takes_le; [apply takes_total; now apply t_one|unfold light; lia].
  - apply takes_sized; [lia|lia|]. intros P. pose proof (words_le n w P ltac:(lia)). eapply takes_le; [apply takes_total; now apply t_all_set|unfold light; lia].
  - apply takes_sized; [lia|lia|]. intros P. pose proof (words_le n w P ltac:(lia)). eapply takes_le; [apply takes_total; now apply t_zero|unfold light; lia].
  - apply takes_sized; [lia|lia|]. intros P. pose proof (words_le n w P ltac:(lia)). eapply takes_le; [apply takes_total; now apply t_all_set|unfold light; lia].
  - apply takes_sized; [lia|lia|]. intros P. pose proof (words_le n w P ltac:(lia)). eapply takes_le; [apply takes_total; now apply t_signed_min|unfold light; lia].
  - apply takes_sized; [lia|lia|]. intros P. pose proof (words_le n w P ltac:(lia)). eapply takes_le; [apply takes_total; now apply t_signed_max|unfold light; lia].
  - eapply takes_le; [apply t_parse|lia].
Qed.

(** ** Methods with one operand *)
Lemma slight_pair n x y k : figure_ok n x -> figure_ok n y -> payload_ok k -> figures k = [x; y] -> integers k = [] -> slight n k.
Proof. intros H1 H2 P F I. split; [exact P|]. rewrite F, I. split; [|constructor]. apply Forall_cons; [exact H1|]. apply Forall_cons; [exact H2|constructor]. Qed.
Lemma machine_figure n x : 0 <= x -> x < 2 ^ 64 -> figure_ok n x.
Proof. intros H1 H2. split; [exact H1|left; exact H2]. Qed.
(** An error that shows two small numbers. *)
Lemma shift_slight n x y k : figure_ok n x -> figure_ok n y -> observe k = EShift x y -> slight n k.
Proof.
  intros Hx Hy E. destruct k as [|? ? [|]| | | | | | | | |]; cbn in E; try discriminate E. injection E as -> ->.
  apply (slight_pair n x y); [exact Hx|exact Hy|split; [apply Hx|apply Hy]|reflexivity|reflexivity].
Qed.
Lemma access_slight n x y k : figure_ok n x -> figure_ok n y -> observe k = EBitAccess x y -> slight n k.
Proof.
  intros Hx Hy E. destruct k as [|? ? [|]| | | | | | | | |]; cbn in E; try discriminate E. injection E as -> ->.
  apply (slight_pair n x y); [exact Hx|exact Hy|split; [apply Hx|apply Hy]|reflexivity|reflexivity].
Qed.
Lemma widths_slight n x y k : figure_ok n x -> figure_ok n y -> observe k = EWidths x y -> slight n k.
Proof.
  intros Hx Hy E. destruct k as [|? ? [|]| | | | | | | | |]; cbn in E; try discriminate E. injection E as -> ->.
  apply (slight_pair n x y); [exact Hx|exact Hy|split; [apply Hx|apply Hy]|reflexivity|reflexivity].
Qed.
Lemma division_slight n op a : fits n a -> slight n (DivisionByZero op a).
Proof. intros Ha. split; [apply Ha|]. split; [constructor|]. apply Forall_cons; [exact Ha|constructor]. Qed.
Lemma self_rel a : wf a -> rel a (len a, unsigned a).
Proof. intros W. split; [exact W|auto]. Qed.
Lemma t_mut_takes n c a x : 2 <= n -> mutop_ok c -> within n (Mut c x) -> fits n a -> takes (t_mut c a) (cmut c a) (light n).
Proof.
  intros Hn Hc Hi Ha. pose proof (fits_words n a Ha) as L. pose proof (width_figure n a Ha) as Fa. pose proof Ha as (W & _).
  destruct (time_linear_fact a a W) as (T1 & T2 & T3 & _). destruct (time_bits_fact a a W) as (_ & _ & _ & T4 & _).
  pose proof (mut_sim c a _ Hc (self_rel a W)) as (R & _).
  destruct c; cbn [t_mut cmut mutop_ok within] in *.
  1,2,3,4: (eapply takes_le; [apply takes_total_mut; eassumption|unfold light; lia]).
  1,2,3: destruct (time_shift_fact a s W) as (S1 & S2 & S3);
    (eapply told_mut_light; [exact Hn|eassumption|lia|]; intros b k E; rewrite E in R; cbn [amut] in R; destruct (Z.ltb_spec s (len a));
     [destruct R as (c & X & _); discriminate X|destruct R as (k' & X & O); injection X as _ <-; apply (shift_slight n s (len a)); auto using machine_figure]).
  all: apply takes_sized_mut; [lia|lia|]; intros P; pose proof (words_le n t P ltac:(lia)) as Lt;
    destruct (time_assign_text_fact a a t W W P) as (_ & A1 & A2 & A3); destruct (time_resize_fact a t 0 W P) as (_ & _ & _ & _ & R1 & R2 & _);
    destruct (texts_only_fact a a t 0 []) as (_ & _ & _ & _ & _ & _ & _ & _ & _ & X1 & X2 & X3 & _).
  - rewrite <- X1. eapply takes_le; [apply takes_kind_mut; exact A1|]. unfold light. destruct (t <=? len a); lia.
  - rewrite <- X2. eapply takes_le; [apply takes_kind_mut; exact A2|]. unfold light. destruct (len a <=? t); lia.
  - rewrite <- X3. eapply takes_le; [apply takes_kind_mut; exact A3|]. unfold light. destruct (len a <=? t); lia.
  - eapply takes_le; [apply takes_total_mut; exact R1|unfold light; lia].
  - eapply takes_le; [apply takes_total_mut; exact R2|unfold light; lia].
Qed.
Lemma forwarded_mut c a : cinto c a = forwarded (cmut c a).
Proof.
  destruct c; try reflexivity; cbn [cmut cinto]; unfold sized, sized_mut; try (destruct (bitwidth_new t); reflexivity).
  - unfold into_bitnot, forward_mut_impl, total_mut, MMachine.total, forwarded. destruct (bitnot a); reflexivity.
  - unfold into_wrapping_neg, forward_mut_impl, total_mut, MMachine.total, forwarded. destruct (wrapping_neg a); reflexivity.
  - unfold into_wrapping_inc, forward_mut_impl, total_mut, MMachine.total, forwarded. destruct (wrapping_inc a); reflexivity.
  - unfold into_wrapping_dec, forward_mut_impl, total_mut, MMachine.total, forwarded. destruct (wrapping_dec a); reflexivity.
  - destruct (bitwidth_new t); [|reflexivity]. unfold into_zero_resize, total_mut, MMachine.total, forwarded. destruct (zero_resize a a0); reflexivity.
  - destruct (bitwidth_new t); [|reflexivity]. unfold into_sign_resize, total_mut, MMachine.total, forwarded. destruct (sign_resize a a0); reflexivity.
Qed.
Lemma t_into_takes n c a x : 2 <= n -> mutop_ok c -> within n (Into c x) -> fits n a -> takes (c_forward (t_mut c a)) (cinto c a) (light n).
Proof. intros Hn Hc Hi Ha. rewrite forwarded_mut. apply takes_forward. exact (t_mut_takes n c a x Hn Hc Hi Ha). Qed.
Lemma t_put_takes n c a x : 2 <= n -> setop_ok c -> within n (Put c x) -> fits n a -> takes (t_put c a) (cput c a) (light n).
Proof.
  intros Hn Hc Hi Ha. pose proof (fits_words n a Ha) as L. pose proof (width_figure n a Ha) as Fa. pose proof Ha as (W & _).
  destruct (time_bits_fact a a W) as (_ & _ & _ & _ & T1 & T2 & T3 & _). pose proof (put_sim c a _ Hc (self_rel a W)) as R.
  pose proof (t_set_msb a). pose proof (t_unset_msb a). pose proof (t_flip_msb a).
  destruct c; cbn [t_put cput setop_ok within] in *; try (eapply takes_le; [apply takes_total_mut; eassumption|unfold light; lia]).
  all: destruct (time_bit_fact a p) as (_ & B1 & B2 & B3);
    (eapply told_mut_light; [exact Hn|eassumption|lia|]; intros b k E; rewrite E in R; cbn [aput] in R; destruct (Z.ltb_spec p (len a));
     [destruct R as (c & X & _); discriminate X|destruct R as (k' & X & O); injection X as _ <-; apply (access_slight n p (len a)); auto using machine_figure]).
Qed.

(** ** Methods with two operands *)
Lemma bin_err n o a b s k : fits n a -> fits n b -> cbin o a b = Val (s, Err k) -> slight n k.
Proof.
  intros Ha Hb E. pose proof Ha as (Wa & _). pose proof Hb as (Wb & _). pose proof (width_figure n a Ha) as Fa. pose proof (width_figure n b Hb) as Fb.
  pose proof (bin_sim o a b _ _ (self_rel a Wa) (self_rel b Wb)) as (R & _). rewrite E in R.
  assert (M : forall (r : ares), rel_mut a (Val (s, Err k)) (Some (if len a =? len b then r else inr (EWidths (len a) (len b)))) ->
    (len a = len b -> rel_mut a (Val (s, Err k)) (Some r) -> slight n k) -> slight n k).
  { intros r H K. destruct (Z.eqb_spec (len a) (len b)) as [Q|Q]; [exact (K Q H)|]. destruct H as (k' & X & O). injection X as _ <-. now apply (widths_slight n (len a) (len b)). }
  assert (Z : forall x, rel_mut a (Val (s, Err k)) (Some (inl x)) -> slight n k) by (intros x (c & X & _); discriminate X).
  destruct o; cbn [abin fst snd] in R; unfold signed_div in R; cbn [fst snd] in R; try (apply (M _ R); intros _ H; exact (Z _ H)).
  - apply (M _ R). intros Q H. destruct (Z.eqb_spec (unsigned b) 0) as [U|U]; [|exact (Z _ H)].
    destruct (udiv_zero_fact a b Wa Wb Q U) as (_ & _ & X & _). cbn [cbin] in E. rewrite X in E. injection E as _ <-. now apply division_slight.
  - apply (M _ R). intros Q H. destruct (Z.eqb_spec (unsigned b) 0) as [U|U]; [|exact (Z _ H)].
    destruct (udiv_zero_fact a b Wa Wb Q U) as (_ & _ & _ & _ & X & _). cbn [cbin] in E. rewrite X in E. injection E as _ <-. now apply division_slight.
  - destruct (Z.eqb_spec (unsigned b) 0) as [U|U].
    + destruct (sdiv_zero_fact a b Wa Wb U) as (_ & _ & X & _). cbn [cbin] in E. rewrite X in E. injection E as _ <-. now apply division_slight.
    + destruct (_ =? _); [exact (Z _ R)|discriminate R].
  - destruct (Z.eqb_spec (unsigned b) 0) as [U|U].
    + destruct (sdiv_zero_fact a b Wa Wb U) as (_ & _ & _ & _ & X & _). cbn [cbin] in E. rewrite X in E. injection E as _ <-. now apply division_slight.
    + destruct (_ =? _); [exact (Z _ R)|discriminate R].
Qed.
Lemma pair_err n o a b s k : fits n a -> fits n b -> cpair o a b = Val (s, Err k) -> slight n k.
Proof.
  intros Ha Hb E. pose proof Ha as (Wa & _). pose proof Hb as (Wb & _). pose proof (width_figure n a Ha) as Fa. pose proof (width_figure n b Hb) as Fb.
  pose proof (pair_sim o a b _ _ (self_rel a Wa) (self_rel b Wb)) as R. rewrite E in R. destruct o; cbn [apair fst snd] in R.
  1,2: destruct (Z.eqb_spec (len a) (len b)) as [Q|Q];
    [|destruct R as (k' & X & O); injection X as _ <-; now apply (widths_slight n (len a) (len b))];
    destruct (Z.eqb_spec (unsigned b) 0) as [U|U]; [|destruct R as (? & ? & X & _); discriminate X];
    destruct (udiv_zero_fact a b Wa Wb Q U) as (X1 & X2 & _); cbn [cpair] in E; (rewrite X1 in E || rewrite X2 in E); injection E as _ <-; now apply division_slight.
  1,2: destruct (Z.eqb_spec (unsigned b) 0) as [U|U];
    [|destruct (_ =? _); [destruct R as (? & ? & X & _); discriminate X|discriminate R]];
    destruct (sdiv_zero_fact a b Wa Wb U) as (X1 & X2 & _); cbn [cpair] in E; (rewrite X1 in E || rewrite X2 in E); injection E as _ <-; now apply division_slight.
Qed.
Lemma square_le x n : 1 <= x <= n -> x ^ 2 <= n ^ 2.
Proof. intros H. apply Z.pow_le_mono_l. lia. Qed.
Lemma t_bin_takes n o a b x y : 2 <= n -> fits n a -> fits n b -> takes (t_bin o a b) (cbin o a b) (call_bound n (Bin o x y) - 1).
Proof.
  intros Hn Ha Hb. pose proof (fits_words n a Ha) as La. pose proof (fits_words n b Hb) as Lb. pose proof Ha as (Wa & _). pose proof Hb as (Wb & _). pose proof (square_le _ _ La) as Q.
  destruct (time_linear_fact a b Wa) as (_ & _ & _ & T1 & T2). pose proof (time_mul_fact a b Wa Wb) as T3. destruct (time_udiv_fact a b Wa Wb) as (_ & _ & T4 & T5).
  destruct (time_sdiv_fact a b Wa Wb) as (_ & _ & T6 & T7). destruct (time_bits_fact a b Wa) as (T8 & T9 & T10 & _).
  pose proof (fun s k => bin_err n o a b s k Ha Hb) as X. unfold t_bin, call_bound.
  destruct o; cbn [heavy cbin] in *; (eapply takes_le; [eapply takes_told_mut with (x := 30 * n + 288);
    [eassumption|lia|intros s k E; apply slight_message; [exact Hn|exact (X s k E)]]|lia]).
Qed.
Lemma forwarded_bin o a b : cbin_into o a b = forwarded (cbin o a b).
Proof. destruct o; reflexivity. Qed.
Lemma t_bin_into_takes n o a b x y : 2 <= n -> fits n a -> fits n b -> takes (c_forward (t_bin o a b)) (cbin_into o a b) (call_bound n (IntoBin o x y) - 1).
Proof. intros Hn Ha Hb. rewrite forwarded_bin. apply takes_forward. exact (t_bin_takes n o a b x y Hn Ha Hb). Qed.
Lemma t_pair_takes n o a b x y : 2 <= n -> fits n a -> fits n b -> takes (t_pair o a b) (cpair o a b) (call_bound n (Pair o x y) - 1).
Proof.
  intros Hn Ha Hb. pose proof (fits_words n a Ha) as La. pose proof (fits_words n b Hb) as Lb. pose proof Ha as (Wa & _). pose proof Hb as (Wb & _). pose proof (square_le _ _ La) as Q.
  destruct (time_udiv_fact a b Wa Wb) as (T4 & T5 & _). destruct (time_sdiv_fact a b Wa Wb) as (T6 & T7 & _).
  pose proof (fun s k => pair_err n o a b s k Ha Hb) as X. unfold t_pair, call_bound.
  destruct o; cbn [heavy cpair] in *; (eapply takes_le; [eapply takes_told_mut with (x := 30 * n + 288);
    [eassumption|lia|intros s k E; apply slight_message; [exact Hn|exact (X s k E)]]|lia]).
Qed.
Lemma t_cmp_takes n o a b : 2 <= n -> fits n a -> fits n b -> takes (t_cmp o a b) (ccmp o a b) (light n).
Proof.
  intros Hn Ha Hb. pose proof (fits_words n a Ha) as La. pose proof (fits_words n b Hb) as Lb. pose proof Ha as (Wa & _). pose proof Hb as (Wb & _).
  destruct (time_compare_text_fact a b Wa Wb) as (T1 & T2 & T3 & T4 & T5 & T6 & T7 & T8).
  destruct (texts_only_fact a b 1 0 []) as (X1 & X2 & X3 & X4 & X5 & X6 & X7 & X8 & _).
  unfold t_cmp. destruct o; cbn [ccmp]; [rewrite <- X1|rewrite <- X2|rewrite <- X3|rewrite <- X4|rewrite <- X5|rewrite <- X6|rewrite <- X7|rewrite <- X8];
    (eapply takes_le; [apply takes_kind; eassumption|unfold light; destruct (len a =? len b); lia]).
Qed.

(** ** Methods that only look *)
Lemma takes_cval {A} (a : A) n : 0 <= n -> takes (cval a) (Val a) n.
Proof. intros H. split; [reflexivity|cbn; lia]. Qed.
Lemma takes_read {A} k (o : outcome A) n : Z.of_nat k <= n -> takes (let~ _ := cpay k in clift o) o n.
Proof. intros H. eapply takes_le; [apply takes_pay; now apply (takes_lift o 0)|lia]. Qed.
Lemma nd_le n a : fits n a -> Z.of_nat (length (digits a)) <= n.
Proof. intros Ha. pose proof (fits_words n a Ha). pose proof (nd_words a (proj1 Ha)) as N. unfold nd in N. lia. Qed.
Lemma convert_light {A} n (m : clocked (result A)) o c : takes (c_plain m) (plain o) c -> c <= light n -> takes (c_told m) o (light n).
Proof.
  intros H L. rewrite <- (erase_plain o). unfold c_told. eapply takes_le; [apply takes_kind; exact H|exact L].
Qed.
Lemma t_try_takes n ty a : 2 <= n -> fits n a -> takes (t_try ty a) (ctry ty a) (light n).
Proof.
  intros Hn Ha. pose proof (fits_words n a Ha) as L. destruct (time_convert_fact a (proj1 Ha)) as (T1 & T2 & T3 & T4 & T5 & T6 & T7 & T8 & T9 & T10 & T11).
  assert (B : 32 * words (len a) + 132 <= light n) by (unfold light; lia).
  destruct ty; cbn [t_try ctry]; apply takes_map;
    [exact (convert_light n _ _ _ T1 B)|exact (convert_light n _ _ _ T2 B)|exact (convert_light n _ _ _ T3 B)|exact (convert_light n _ _ _ T4 B)
    |exact (convert_light n _ _ _ T5 B)|exact (convert_light n _ _ _ T6 B)|exact (convert_light n _ _ _ T7 B)|exact (convert_light n _ _ _ T8 B)
    |exact (convert_light n _ _ _ T9 B)|exact (convert_light n _ _ _ T10 B)|exact (convert_light n _ _ _ T11 B)].
Qed.
Lemma t_ask_takes n q a x : 2 <= n -> match q with QBit p => 0 <= p | _ => True end -> within n (Ask q x) -> fits n a -> takes (t_ask q a) (cask q a) (light n).
Proof.
  intros Hn Hq Hi Ha. pose proof (fits_words n a Ha) as L. pose proof (nd_le n a Ha) as N. pose proof Ha as (W & _).
  destruct (time_bits_fact a a W) as (_ & _ & _ & _ & _ & _ & _ & T1 & T2 & T3 & T4 & T5). destruct (time_print_fact a W) as (P1 & P2 & P3).
  assert (G : forall p, p = light n -> 2 <= p) by (unfold light; lia).
  destruct q; cbn [t_ask cask within] in *; try (apply takes_read; unfold light; lia); try (now apply t_try_takes);
    try (apply takes_map; first [apply takes_read; unfold light; lia|eapply takes_le; [eassumption|unfold light; lia]]).
  - apply takes_cval. unfold light. lia.
  - apply takes_map. split; [reflexivity|]. cbn. unfold light. lia.
  - apply takes_map. destruct (time_bit_fact a p) as (B & _). eapply told_light; [exact Hn|exact B|lia|].
    intros k E. pose proof (ask_sim (QBit p) a _ Hq (self_rel a W)) as R. cbn [cask ask] in R. rewrite E in R. unfold obs_rbool in R. cbn [bind] in R.
    destruct (Z.ltb_spec p (len a)); injection R as R; [discriminate R|]. apply (access_slight n p (len a)); auto using machine_figure.
Qed.

(** ** One call *)
Definition all_fit (n : Z) (cs : vars) : Prop := Forall (fun v => forall a, v = Some a -> fits n a) cs.
Lemma get1_takes n cs x k g c : all_fit n cs -> 0 <= c -> (forall a, fits n a -> takes (k a) (g a) c) -> takes (t_get1 cs x k) (cget1 cs x g) c.
Proof.
  intros H Hc K. unfold t_get1, cget1. destruct (nth_error cs x) as [[a|]|] eqn:E; try now apply takes_cval.
  apply K. apply nth_error_In in E. unfold all_fit in H. rewrite Forall_forall in H. exact (H _ E a eq_refl).
Qed.
Lemma get2_takes n cs x y k g c : all_fit n cs -> 0 <= c -> (forall a b, fits n a -> fits n b -> takes (k a b) (g a b) c) -> takes (t_get2 cs x y k) (cget2 cs x y g) c.
Proof. intros H Hc K. apply (get1_takes n); [exact H|exact Hc|]. intros a Ha. apply (get1_takes n); [exact H|exact Hc|]. intros b Hb. now apply K. Qed.
Lemma create_takes cs m o c : takes m o c -> takes (t_create cs m) (ccreate cs o) c.
Proof. apply takes_map. Qed.
Lemma change_takes cs x m o c : takes m o c -> takes (t_change cs x m) (cchange cs x o) c.
Proof. intros H. eapply takes_le; [apply takes_bind with (n' := 0); [exact H|lia|]|lia]. intros [a r] _. now apply takes_cval. Qed.
Lemma bound_light n c : heavy c = false -> call_bound n c - 1 = light n.
Proof. intros H. unfold call_bound, light. rewrite H. lia. Qed.
Lemma bound_nonneg n c : 2 <= n -> 0 <= call_bound n c - 1.
Proof. intros H. unfold call_bound. destruct (heavy c); nia. Qed.
Lemma t_call_takes n cs c : 2 <= n -> all_fit n cs -> cmd_ok c -> within n c -> takes (t_call cs c) (cstep cs c) (call_bound n c - 1).
Proof.
  intros Hn H Hc Hi. pose proof (bound_nonneg n c Hn) as B.
  destruct c as [o|x|x|o x|o x|o x|o x y|o x y|o x y|x y|x y|o x y|x y|q x]; cbn [t_call cstep cmd_ok] in *;
    try (destruct (Nat.eqb x y); [now apply takes_cval|]);
    try (apply (get2_takes n); [exact H|exact B|]; intros a b Ha Hb); try (apply (get1_takes n); [exact H|exact B|]; intros a Ha).
  - rewrite bound_light by reflexivity. apply create_takes. now apply t_new_takes.
  - rewrite bound_light by reflexivity. apply create_takes, takes_total. pose proof (nd_le n a Ha). split; [reflexivity|]. cbn. unfold light. lia.
  - now apply takes_cval.
  - rewrite bound_light by reflexivity. apply change_takes. exact (t_mut_takes n o a x Hn Hc Hi Ha).
  - rewrite bound_light by reflexivity. apply create_takes. exact (t_into_takes n o a x Hn Hc Hi Ha).
  - rewrite bound_light by reflexivity. apply change_takes. exact (t_put_takes n o a x Hn Hc Hi Ha).
  - apply change_takes. exact (t_bin_takes n o a b x y Hn Ha Hb).
  - apply create_takes. exact (t_bin_into_takes n o a b x y Hn Ha Hb).
  - eapply takes_le; [apply takes_bind with (n' := 0); [exact (t_pair_takes n o a b x y Hn Ha Hb)|lia|]|lia]. intros [[a' b'] r] _. now apply takes_cval.
  - rewrite bound_light by reflexivity. pose proof (nd_le n b Hb). apply (takes_map (c_assign a b) (assign a b) (fun c => (update x (Some c) cs, ODone))).
    apply takes_read. unfold light. lia.
  - rewrite bound_light by reflexivity. apply change_takes. pose proof (fits_words n a Ha). pose proof (fits_words n b Hb).
    destruct (time_assign_text_fact a b 1 (proj1 Ha) (proj1 Hb) ltac:(lia)) as (A & _).
    destruct (texts_only_fact a b 1 0 []) as (_ & _ & _ & _ & _ & _ & _ & _ & X & _). rewrite <- X.
    eapply takes_le; [apply takes_kind_mut; exact A|]. unfold light. destruct (len a =? len b); lia.
  - rewrite bound_light by reflexivity. apply takes_map. apply takes_map. now apply t_cmp_takes.
  - rewrite bound_light by reflexivity. destruct (time_compare_fact a b (proj1 Ha)) as (E & _). pose proof (fits_words n a Ha).
    change (Val (cs, OBool (apint_eqb a b))) with (let! e := Val (apint_eqb a b) in Val (cs, OBool e)).
    apply takes_map. eapply takes_le; [exact E|unfold light; lia].
  - rewrite bound_light by reflexivity. apply takes_map. apply (t_ask_takes n q a x); [exact Hn|destruct q; auto|exact Hi|exact Ha].
Qed.
Lemma t_step_takes n cs c : 2 <= n -> all_fit n cs -> cmd_ok c -> within n c -> takes (t_step cs c) (cstep cs c) (call_bound n c).
Proof. intros Hn H Hc Hi. eapply takes_le; [apply takes_pay; now apply (t_call_takes n)|lia]. Qed.

(** * Widths stay small *)
Definition small (n : Z) (v : option aval) : Prop := forall x, v = Some x -> fst x <= 64 * n.
Definition small_res (n : Z) (r : ares) : Prop := forall x, r = inl x -> fst x <= 64 * n.
Lemma new_small n c r : 2 <= n -> newop_ok c -> within n (New c) -> anew c = Some r -> small_res n r.
Proof.
  intros Hn Hc Hi E x Er. subst r.
  assert (WW : forall w y, w <= 64 * n -> fst y = w -> Some (with_width w y) = Some (inl x) -> fst x <= 64 * n).
  { intros w y Hw Hy X. unfold with_width in X. destruct (w =? 0); [discriminate X|]. injection X as <-. lia. }
  destruct c; cbn [anew newop_ok within] in *;
    try (injection E as <-; cbn [fst reduce]; lia); try (apply (WW _ _ Hi) in E; [exact E|reflexivity]).
  destruct ((2 <=? r) && (r <=? 36))%bool eqn:Hr; [|discriminate E]. destruct (is_numeral r s); [|discriminate E]. injection E as <-. unfold parsed. cbv zeta.
  assert (Ls : Z.of_nat (length (string_digits s)) <= Z.of_nat (length s)).
  { clear. induction s as [|b s IH]; [reflexivity|]. cbn [string_digits]. destruct (char_value b); cbn [length]; lia. }
  destruct (r =? 2 ^ Z.log2 r); cbn [fst]; [|destruct (_ || _)%bool; lia].
  assert (L5 : 0 <= Z.log2 r <= 5). { split; [apply Z.log2_nonneg|]. change 5 with (Z.log2 36). apply Z.log2_le_mono. lia. }
  assert (M : Z.log2 r * Z.of_nat (length (string_digits s)) <= 5 * n) by (apply Z.mul_le_mono_nonneg; lia).
  assert ((Z.log2 r * Z.of_nat (length (string_digits s)) + 63) / 64 < n + 1) by (apply Z.div_lt_upper_bound; lia). lia.
Qed.
Lemma mut_small n c a x : mutop_ok c -> within n (Mut c x) -> fst a <= 64 * n -> small_res n (amut c a).
Proof.
  intros Hc Hi Ha y E. destruct a as [w u]. cbn [fst] in Ha. destruct c; cbn [amut mutop_ok within] in *;
    repeat match type of E with context [if ?b then _ else _] => destruct b end; try discriminate E; injection E as <-; cbn [reduce fst]; lia.
Qed.
Lemma put_small n c a : fst a <= 64 * n -> small_res n (aput c a).
Proof.
  intros Ha y E. destruct a as [w u]. cbn [fst] in Ha. destruct c; cbn [aput] in *;
    repeat match type of E with context [if ?b then _ else _] => destruct b end; try discriminate E; injection E as <-; cbn [reduce fst]; lia.
Qed.
Lemma bin_small n o a b r : fst a <= 64 * n -> abin o a b = Some r -> small_res n r.
Proof.
  intros Ha E y Er. subst r. destruct a as [w u]. cbn [fst] in Ha. destruct o; cbn [abin fst snd] in E; unfold signed_div in E; cbn [fst snd] in E;
    repeat match type of E with context [if ?c then _ else _] => destruct c end; try discriminate E; injection E as <-; cbn [reduce fst]; lia.
Qed.
Lemma pair_small n o a b x y : fst a <= 64 * n -> apair o a b = Some (inl (x, y)) -> fst x <= 64 * n /\ fst y <= 64 * n.
Proof.
  intros Ha E. destruct a as [w u]. cbn [fst] in Ha. destruct o; cbn [apair fst snd] in E;
    repeat match type of E with context [if ?c then _ else _] => destruct c end; try discriminate E; injection E as <- <-; cbn [reduce fst]; lia.
Qed.
Lemma update_small n s x v : Forall (small n) s -> small n v -> Forall (small n) (update x v s).
Proof. intros H Hv. revert x. induction H as [|h t Hh Ht IH]; intros [|x]; cbn [update]; constructor; auto. Qed.
Lemma create_small n s r s' o : Forall (small n) s -> small_res n r -> create s r = (s', o) -> Forall (small n) s'.
Proof.
  intros H Hr E. unfold create in E. destruct r as [v|e]; injection E as <- _; [|exact H]. apply Forall_app. split; [exact H|].
  constructor; [|constructor]. intros x X. injection X as <-. exact (Hr v eq_refl).
Qed.
Lemma change_small n s x r s' o : Forall (small n) s -> small_res n r -> change s x r = (s', o) -> Forall (small n) s'.
Proof.
  intros H Hr E. unfold change in E. destruct r as [v|e]; injection E as <- _; [|exact H]. apply update_small; [exact H|].
  intros y X. injection X as <-. exact (Hr v eq_refl).
Qed.
Lemma get1_small n s x k s' o : Forall (small n) s -> get1 s x k = Some (s', o) -> (forall a, fst a <= 64 * n -> k a = Some (s', o) -> Forall (small n) s') -> Forall (small n) s'.
Proof.
  intros H E K. unfold get1 in E. destruct (nth_error s x) as [[a|]|] eqn:N; try (injection E as <- _; exact H).
  apply (K a); [|exact E]. apply nth_error_In in N. rewrite Forall_forall in H. exact (H _ N a eq_refl).
Qed.
Lemma none_small n : small n None.
Proof. intros x E. discriminate E. Qed.
Lemma some_small n a : fst a <= 64 * n -> small n (Some a).
Proof. intros H x E. injection E as <-. exact H. Qed.
Lemma step_small n s c s' o : 2 <= n -> cmd_ok c -> within n c -> Forall (small n) s -> astep s c = Some (s', o) -> Forall (small n) s'.
Proof.
  intros Hn Hc Hi H E.
  destruct c as [m|x|x|m x|m x|m x|m x y|m x y|m x y|x y|x y|m x y|x y|q x]; cbn [astep cmd_ok] in *; unfold get2 in E;
    try (destruct (Nat.eqb x y); [injection E as <- _; exact H|]);
    try (apply (get1_small n _ _ _ _ _ H E); clear E; intros a Ha E; try (apply (get1_small n _ _ _ _ _ H E); clear E; intros b Hb E)).
  - destruct (anew m) as [r|] eqn:A; [|discriminate E]. injection E as E. exact (create_small n _ _ _ _ H (new_small n m r Hn Hc Hi A) E).
  - assert (E' : create s (inl a) = (s', o)) by (injection E as <- <-; reflexivity). refine (create_small n _ (inl a) _ _ H _ E'). intros z X. injection X as <-. exact Ha.
  - injection E as <- _. apply update_small; [exact H|apply none_small].
  - injection E as E. exact (change_small n _ _ _ _ _ H (mut_small n m a x Hc Hi Ha) E).
  - injection E as E. exact (create_small n _ _ _ _ (update_small n s x None H (none_small n)) (mut_small n m a x Hc Hi Ha) E).
  - injection E as E. exact (change_small n _ _ _ _ _ H (put_small n m a Ha) E).
  - destruct (abin m a b) as [r|] eqn:A; [|discriminate E]. injection E as E. exact (change_small n _ _ _ _ _ H (bin_small n m a b r Ha A) E).
  - destruct (abin m a b) as [r|] eqn:A; [|discriminate E]. injection E as E.
    exact (create_small n _ _ _ _ (update_small n s x None H (none_small n)) (bin_small n m a b r Ha A) E).
  - destruct (apair m a b) as [[[v u]|e]|] eqn:A; [| |discriminate E]; injection E as <- _; [|exact H].
    destruct (pair_small n m a b v u Ha A). auto using update_small, some_small.
  - injection E as <- _. auto using update_small, some_small.
  - injection E as E. refine (change_small n _ _ _ _ _ H _ E). intros z X. destruct (_ =? _); [injection X as <-; exact Hb|discriminate X].
  - injection E as <- _. exact H.
  - injection E as <- _. exact H.
  - injection E as <- _. exact H.
Qed.
Lemma small_fit n cs s : Forall2 holds cs s -> Forall (small n) s -> all_fit n cs.
Proof.
  intros H. induction H as [|c v cs s Hv H IH]; intros S; [constructor|]. inversion S as [|? ? S1 S2]; subst. constructor; [|now apply IH].
  intros a ->. destruct v as [[w u]|]; cbn in Hv; [|contradiction]. destruct Hv as (W & L & _). split; [exact W|]. specialize (S1 _ eq_refl). cbn in S1. lia.
Qed.

(** * Programs *)
Lemma run_takes n p : 2 <= n -> Forall cmd_ok p -> Forall (within n) p -> forall cs s, Forall2 holds cs s -> Forall (small n) s ->
  takes (t_run cs p) (crun cs p) (sum (map (call_bound n) p)) /\
  forall cs' os, crun cs p = Val (cs', os) -> all_fit n cs'.
Proof.
  intros Hn Ho. induction Ho as [|c p Hc Ho IH]; intros Hi cs s H S.
  - split; [now apply takes_cval|]. intros cs' os E. injection E as <- _. now apply (small_fit n cs s).
  - inversion Hi as [|? ? Hi1 Hi2]; subst. specialize (IH Hi2). pose proof (small_fit n cs s H S) as F.
    pose proof (t_step_takes n cs c Hn F Hc Hi1) as T. pose proof (step_sim cs s c Hc H) as R. pose proof (step_small n s c) as X.
    assert (P : 0 <= sum (map (call_bound n) p)).
    { clear -Hn. induction p as [|d p IH]; [reflexivity|]. cbn [map sum fold_right]. pose proof (bound_nonneg n d Hn). unfold sum in IH. lia. }
    assert (N : forall cs1 o1, cstep cs c = Val (cs1, o1) -> exists s1, Forall2 holds cs1 s1 /\ Forall (small n) s1).
    { intros cs1 o1 E. unfold step_rel in R. destruct (astep s c) as [[s1 o']|]; [|rewrite R in E; discriminate E].
      destruct R as (cs2 & E2 & H2). rewrite E in E2. injection E2 as <- <-. exists s1. split; [exact H2|]. exact (X s1 o1 Hn Hc Hi1 S eq_refl). }
    split.
    + cbn [t_run crun map sum fold_right]. apply takes_bind; [exact T|exact P|]. intros [cs1 o1] E. destruct (N cs1 o1 E) as (s1 & H1 & S1).
      destruct (IH cs1 s1 H1 S1) as (T1 & _). eapply takes_le; [apply takes_bind with (n' := 0); [exact T1|lia|]|unfold sum; lia].
      intros [cs2 os] _. now apply takes_cval.
    + intros cs' os E. cbn [crun] in E. destruct (cstep cs c) as [[cs1 o1]| |]; try discriminate E. cbn [bind] in E.
      destruct (N cs1 o1 eq_refl) as (s1 & H1 & S1). destruct (IH cs1 s1 H1 S1) as (_ & G). destruct (crun cs1 p) as [[cs2 os2]| |]; try discriminate E.
      cbn [bind] in E. injection E as <- _. exact (G _ _ eq_refl).
Qed.
Lemma time_program_fact n p : 2 <= n -> Forall cmd_ok p -> Forall (within n) p ->
  takes (t_run [] p) (crun [] p) (sum (map (call_bound n) p)).
Proof. intros Hn Ho Hi. apply (run_takes n p Hn Ho Hi [] []); constructor. Qed.
Lemma bounds_total n p : 0 <= n -> sum (map (call_bound n) p) <= Z.of_nat (length p) * (7 * n ^ 2 + 128 * n + 610).
Proof.
  intros Hn. induction p as [|c p IH]; [reflexivity|]. cbn [map sum fold_right length]. unfold sum in IH. rewrite Nat2Z.inj_succ.
  assert (call_bound n c <= 7 * n ^ 2 + 128 * n + 610) by (unfold call_bound; destruct (heavy c); nia). nia.
Qed.
Lemma bounds_light n p : Forall (fun c => heavy c = false) p -> sum (map (call_bound n) p) = Z.of_nat (length p) * (128 * n + 610).
Proof.
  intros H. induction H as [|c p Hc H IH]; [reflexivity|]. cbn [map sum fold_right length]. unfold sum in IH. rewrite IH. unfold call_bound. rewrite Hc. lia.
Qed.
Lemma time_calls_fact n p : 2 <= n -> Forall cmd_ok p -> Forall (within n) p ->
  takes (t_run [] p) (crun [] p) (Z.of_nat (length p) * (7 * n ^ 2 + 128 * n + 610)).
Proof. intros Hn Ho Hi. eapply takes_le; [now apply (time_program_fact n)|apply bounds_total; lia]. Qed.
Lemma time_light_fact n p : 2 <= n -> Forall cmd_ok p -> Forall (within n) p -> Forall (fun c => heavy c = false) p ->
  takes (t_run [] p) (crun [] p) (Z.of_nat (length p) * (128 * n + 610)).
Proof. intros Hn Ho Hi H. rewrite <- (bounds_light n p H). now apply time_program_fact. Qed.
Lemma program_size_fact n p cs os : 2 <= n -> Forall cmd_ok p -> Forall (within n) p -> crun [] p = Val (cs, os) ->
  Forall (fun v => forall a, v = Some a -> Z.of_nat (length (digits a)) <= n) cs.
Proof.
  intros Hn Ho Hi E. destruct (run_takes n p Hn Ho Hi [] []) as (_ & F); [constructor|constructor|]. specialize (F cs os E).
  eapply Forall_impl; [|exact F]. intros v H a Ea. apply nd_le. now apply H.
Qed.
