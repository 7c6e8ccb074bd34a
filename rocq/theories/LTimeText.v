(** The time of calls that fail, and of conversions to machine integers. *)
From Coq Require Import String.
From Verif Require Export LTimeLinearFacts MTimeText.
From Verif Require Import LText LSerial3 LDiv7 LPrim LRel LCast SpecTimeText.
From Coq Require Import Lia ZArith.
Open Scope list_scope.
Open Scope Z_scope.
Notation length := List.length.
Notation words := SpecTime.words.

(** * How long the texts are *)
Definition zlen (s : list Z) : Z := Z.of_nat (length s).
Lemma zlen_app s t : zlen (s ++ t) = zlen s + zlen t.
Proof. unfold zlen. rewrite app_length. lia. Qed.
Lemma zlen_nonneg s : 0 <= zlen s.
Proof. unfold zlen. lia. Qed.
Lemma dec_length_m n m : (1 <= m <= S (Z.to_nat (Z.log2 n)))%nat -> 0 <= n < 10 ^ Z.of_nat m -> zlen (dec_text n) <= Z.of_nat m.
Proof.
  intros Hm Hn. unfold dec_text, zlen. rewrite map_length.
  destruct (u64_digits_spec 10 m ltac:(lia) (S (Z.to_nat (Z.log2 n))) n [] Hm Hn) as (ds & E & _ & _ & _ & Hl & _).
  rewrite E, app_nil_r. lia.
Qed.
Lemma dec_length n : 0 <= n -> zlen (dec_text n) <= Z.log2 n + 1.
Proof.
  intros Hn. pose proof (Z.log2_nonneg n). apply Z.le_trans with (Z.of_nat (S (Z.to_nat (Z.log2 n)))); [|lia].
  apply dec_length_m; [lia|]. split; [assumption|]. rewrite Nat2Z.inj_succ, Z2Nat.id by assumption.
  destruct (Z.eq_dec n 0) as [->|]; [reflexivity|]. pose proof (Z.log2_spec n ltac:(lia)) as [_ L].
  eapply Z.lt_le_trans; [exact L|]. apply Z.pow_le_mono_l. lia.
Qed.
Lemma dec_digit_length d : digit_ok d -> zlen (dec_text d) <= 20.
Proof.
  unfold digit_ok. intros Hd. pose proof (Z.log2_nonneg d). destruct (Z.le_gt_cases 19 (Z.log2 d)) as [L|L].
  - apply (dec_length_m d 20); [lia|]. split; [lia|]. eapply Z.lt_le_trans; [apply Hd|]. now vm_compute.
  - pose proof (dec_length d ltac:(lia)). lia.
Qed.
Lemma log_words w : 0 < w -> Z.log2 w <= words w + 6.
Proof.
  intros H. assert (P : 0 < words w) by (unfold words; apply Z.div_str_pos; lia).
  assert (L : w <= words w * 2 ^ 6).
  { unfold words. pose proof (Z.div_mod (w + 63) 64 ltac:(lia)). pose proof (Z.mod_pos_bound (w + 63) 64 ltac:(lia)). change (2 ^ 6) with 64. lia. }
  apply Z.log2_le_mono in L. rewrite Z.log2_mul_pow2 in L by lia. pose proof (Z.log2_lt_lin (words w) P). lia.
Qed.
Lemma dec_width_length w : 0 < w -> zlen (dec_text w) <= words w + 7.
Proof. intros H. pose proof (dec_length w ltac:(lia)). pose proof (log_words w H). lia. Qed.
Lemma render_num name n : zlen (render (DTuple name [DNum n])) = zlen name + zlen (dec_text n) + 2.
Proof. rewrite render_tuple1, !zlen_app. change (zlen (lit "(")) with 1. change (zlen (lit ")")) with 1. lia. Qed.
Lemma join_length sep ts c : Forall (fun t => zlen t <= c) ts -> zlen (join sep ts) <= (c + zlen sep) * Z.of_nat (length ts).
Proof.
  pose proof (zlen_nonneg sep) as Hs. induction ts as [|t r IH]; intros H; [cbn [join length]; unfold zlen at 1; cbn [length]; lia|]. inversion H as [|? ? H1 H2]; subst.
  assert (Hc : 0 <= c) by (pose proof (zlen_nonneg t); lia). specialize (IH H2). destruct r as [|t' r].
  - cbn [join length]. lia.
  - change (join sep (t :: t' :: r)) with (t ++ sep ++ join sep (t' :: r)). rewrite !zlen_app.
    change (length (t :: t' :: r)) with (S (length (t' :: r))). lia.
Qed.
Lemma digits_length ds : Forall digit_ok ds -> zlen (render (DList (map dbg_digit ds))) <= 29 * Z.of_nat (length ds) + 2.
Proof.
  intros H. cbn [render]. rewrite !zlen_app. change (zlen (lit "[")) with 1. change (zlen (lit "]")) with 1.
  pose proof (join_length (lit ", ") (map render (map dbg_digit ds)) 27) as J. change (zlen (lit ", ")) with 2 in J. rewrite !map_length in J.
  enough (zlen (join (lit ", ") (map render (map dbg_digit ds))) <= (27 + 2) * Z.of_nat (length ds)) by lia. apply J. clear J. rewrite map_map.
  induction H as [|d r Hd Hr IH]; cbn [map]; constructor; [|exact IH]. unfold dbg_digit. rewrite render_num. change (zlen (lit "Digit")) with 5.
  pose proof (dec_digit_length d Hd). lia.
Qed.
Ltac lits := repeat match goal with |- context [zlen (lit ?s)] => let n := eval vm_compute in (zlen (lit s)) in change (zlen (lit s)) with n end.
Lemma width_text w : 0 < w -> zlen (render (dbg_width w)) <= words w + 17.
Proof. intros H. unfold dbg_width. rewrite render_num. pose proof (dec_width_length w H). lits. lia. Qed.
Lemma apint_length a : wf a -> zlen (render (dbg_apint a)) <= 30 * words (len a) + 48.
Proof.
  intros W. pose proof W as (Wa & La & Da & _). pose proof (nd_words a W) as N. unfold nd in N.
  pose proof (digits_length (digits a) Da). pose proof (width_text (len a) Wa).
  unfold dbg_apint, width, as_digit_slice. remember (DList (map dbg_digit (digits a))) as dl. remember (dbg_width (len a)) as dw.
  cbn [render map join]. rewrite !zlen_app. lits. lia.
Qed.
Lemma m_unmatching l r : 0 < l -> 0 < r -> zlen (message_of (UnmatchingBitwidth l r)) <= words l + words r + 120.
Proof. intros H K. unfold message_of. rewrite !zlen_app. lits. pose proof (width_text l H). pose proof (width_text r K). lia. Qed.
Lemma div_op_text op : zlen (render (dbg_div_op op)) <= 14.
Proof. destruct op; vm_compute; discriminate. Qed.
Lemma prim_ty_text t : zlen (render (dbg_prim_ty t)) <= 4.
Proof. destruct t; vm_compute; discriminate. Qed.
Lemma m_division op a : wf a -> zlen (message_of (DivisionByZero op a)) <= 30 * words (len a) + 160.
Proof. intros H. unfold message_of. rewrite !zlen_app. lits. pose proof (apint_length a H). pose proof (div_op_text op). lia. Qed.
Lemma m_unrepresentable t a : wf a -> zlen (message_of (ValueUnrepresentable a t)) <= 30 * words (len a) + 130.
Proof. intros H. unfold message_of. rewrite !zlen_app. lits. pose proof (apint_length a H). pose proof (prim_ty_text t). lia. Qed.
Lemma m_truncation t c : 0 < t -> 0 < c -> zlen (message_of (TruncationBitWidthTooLarge t c)) <= words t + words c + 120.
Proof. intros H K. unfold message_of. rewrite !zlen_app. lits. pose proof (width_text t H). pose proof (width_text c K). lia. Qed.
Lemma m_extension t c : 0 < t -> 0 < c -> zlen (message_of (ExtensionBitWidthTooSmall t c)) <= words t + words c + 120.
Proof. intros H K. unfold message_of. rewrite !zlen_app. lits. pose proof (width_text t H). pose proof (width_text c K). lia. Qed.
Lemma operand_text a b : wf a -> wf b -> zlen (operand_lines a b) <= 30 * (words (len a) + words (len b)) + 112.
Proof.
  intros Ha Hb. unfold operand_lines. rewrite !zlen_app. change (zlen [10; 9]) with 2. lits.
  pose proof (apint_length a Ha). pose proof (apint_length b Hb). lia.
Qed.

(** * The results are those of the definitions repeated *)
Lemma e_error_of k : snd (c_error_of k) = Val (error_of k).
Proof. reflexivity. Qed.
Lemma e_plain {A} (m : clocked (result A)) o : snd m = o -> snd (c_plain m) = plain o.
Proof. intros H. unfold c_plain, plain. apply erase_bind; [exact H|]. intros [x|k]; reflexivity. Qed.
Lemma e_plain_mut {S} (m : clocked (S * result unit)) o : snd m = o -> snd (c_plain_mut m) = plain_mut o.
Proof. intros H. unfold c_plain_mut, plain_mut. apply erase_bind; [exact H|]. intros [s [x|k]]; reflexivity. Qed.
Lemma e_annotated {A} t (m : clocked (eresult A)) o : snd m = o -> snd (c_annotated t m) = annotated t o.
Proof. intros H. unfold c_annotated, annotated. apply erase_bind; [exact H|]. intros [x|k]; reflexivity. Qed.
Lemma e_not_result m o : snd m = o -> snd (c_not_result m) = not_result o.
Proof. intros H. unfold c_not_result, not_result. apply erase_bind; [exact H|]. intros [x|k]; reflexivity. Qed.
Lemma e_explained_mut t m o : snd m = o -> snd (c_explained_mut t m) = explained_mut t o.
Proof. intros H. unfold c_explained_mut, explained_mut. apply erase_bind; [exact H|]. intros [s [x|k]]; reflexivity. Qed.
Lemma e_explained_ult a b : snd (c_explained_ult a b) = explained_ult a b.
Proof. apply e_annotated, e_plain, e_checked_ult. Qed.
Lemma e_explained_slt a b : snd (c_explained_slt a b) = explained_slt a b.
Proof. apply e_annotated, e_plain, e_checked_slt. Qed.
Lemma e_strict_assign a b : snd (c_strict_assign a b) = strict_assign a b.
Proof. unfold c_strict_assign, strict_assign. destruct (negb _); [reflexivity|]. apply erase_pay. erase. Qed.
Lemma e_any_nonzero l : snd (c_any_nonzero l) = Val (any_nonzero l).
Proof.
  induction l as [|d r IH]; [reflexivity|]. cbn [c_any_nonzero]. unfold any_nonzero. cbn [existsb]. apply erase_pay.
  destruct (negb (d =? 0)); [reflexivity|exact IH].
Qed.
Lemma e_unrepresentable {A} a t : snd (@c_unrepresentable A a t) = unrepresentable a t.
Proof. unfold c_unrepresentable, unrepresentable. erase. Qed.
Lemma e_try_cast a t : snd (c_try_cast_to_primitive_ty a t) = try_cast_to_primitive_ty a t.
Proof.
  unfold c_try_cast_to_primitive_ty, try_cast_to_primitive_ty. destruct (is_128 t); [reflexivity|]. apply erase_pay.
  apply erase_bind; [reflexivity|]. intros [lsd rest].
  eapply bind_then with (negb (is_valid_repr t lsd) || any_nonzero rest)%bool; [destruct (negb _); [reflexivity|apply e_any_nonzero]|].
  destruct (_ || _)%bool; [apply e_unrepresentable|]. destruct (is_signed t); [|reflexivity]. destruct (_ <? _); [|reflexivity]. erase.
Qed.
Lemma e_try_map a t f : snd (c_try_cast_map a t f) = try_cast_map a t f.
Proof. unfold c_try_cast_map, try_cast_map. apply erase_bind; [apply e_try_cast|reflexivity]. Qed.
Lemma e_try_to_bool a : snd (c_try_to_bool a) = try_to_bool a.
Proof. unfold c_try_to_bool, try_to_bool, bindr. apply erase_bind; [apply e_try_cast|]. intros [d|e]; [erase|reflexivity]. Qed.
Lemma e_try_to_i128 a : snd (c_try_to_i128 a) = try_to_i128 a.
Proof.
  unfold c_try_to_i128, try_to_i128. apply erase_pay. apply erase_bind; [reflexivity|]. intros [l0 r0]. destruct (split_first_or_zero r0) as [l1 r1].
  eapply bind_then; [apply e_any_nonzero|]. destruct (any_nonzero r1); [apply e_unrepresentable|]. erase.
Qed.
Lemma e_try_to_u128 a : snd (c_try_to_u128 a) = try_to_u128 a.
Proof.
  unfold c_try_to_u128, try_to_u128. apply erase_pay. apply erase_bind; [reflexivity|]. intros [l0 r0]. destruct (split_first_or_zero r0) as [l1 r1].
  eapply bind_then; [apply e_any_nonzero|]. destruct (any_nonzero r1); [apply e_unrepresentable|]. erase.
Qed.

(** * Steps *)
Lemma k_error_of k : costs (c_error_of k) (zlen (message_of k)).
Proof. unfold costs, c_error_of, zlen. cbn. lia. Qed.
Lemma k_plain {A} (m : clocked (result A)) n x : costs m n -> 0 <= x -> (forall k, snd m = Val (Err k) -> zlen (message_of k) <= x) -> costs (c_plain m) (n + x).
Proof.
  intros H Hx K. unfold c_plain. eapply costs_bind; [exact H| |lia]. intros [v|k] E; [apply costs_val; lia|]. specialize (K k E).
  eapply costs_bind; [apply k_error_of|intros e _; apply costs_val; lia|lia].
Qed.
Lemma k_plain_mut {S} (m : clocked (S * result unit)) n x : costs m n -> 0 <= x ->
  (forall s k, snd m = Val (s, Err k) -> zlen (message_of k) <= x) -> costs (c_plain_mut m) (n + x).
Proof.
  intros H Hx K. unfold c_plain_mut. eapply costs_bind; [exact H| |lia]. intros [s [v|k]] E; [apply costs_val; lia|]. specialize (K s k E).
  eapply costs_bind; [apply k_error_of|intros e _; apply costs_val; lia|lia].
Qed.
Lemma k_annotated {A} t (m : clocked (eresult A)) n : costs m n -> costs (c_annotated t m) (n + zlen t).
Proof.
  intros H. pose proof (zlen_nonneg t). unfold c_annotated. eapply costs_bind; [exact H| |lia]. intros [v|e] _; [apply costs_val; lia|].
  eapply costs_bind with (zlen t); [unfold costs, c_with_annotation, zlen; cbn; lia|intros x _; apply costs_val; lia|lia].
Qed.
(** Nothing more for calls that succeed. *)
Lemma k_annotated_ok {A} t (m : clocked (eresult A)) n v : costs m n -> snd m = Val (EOk v) -> costs (c_annotated t m) n.
Proof.
  intros H E. pose proof (zlen_nonneg t). unfold c_annotated. eapply costs_bind; [exact H| |lia]. intros [w|e] E'; [apply costs_val; lia|].
  rewrite E in E'. discriminate.
Qed.
Lemma k_not_result m n : costs m n -> costs (c_not_result m) n.
Proof. apply k_map. Qed.
Lemma k_explained_mut t m n x : costs m n -> 0 <= x -> (forall s k, snd m = Val (s, Err k) -> zlen (message_of k) + zlen t <= x) ->
  costs (c_explained_mut t m) (n + x).
Proof.
  intros H Hx K. pose proof (zlen_nonneg t). unfold c_explained_mut. eapply costs_bind; [exact H| |lia]. intros [s [v|k]] E; [apply costs_val; lia|]. specialize (K s k E).
  eapply costs_bind; [apply k_error_of| |lia]. intros e _.
  eapply costs_bind with (zlen t); [unfold costs, c_with_annotation, zlen; cbn; lia|intros y _; apply costs_val; lia|lia].
Qed.
Lemma k_any l : costs (c_any_nonzero l) (Z.of_nat (length l)).
Proof.
  induction l as [|d r IH]; cbn [c_any_nonzero length]; [apply costs_val; lia|]. eapply costs_bind; [apply costs_pay| |lia]. intros _ _.
  destruct (negb _); [apply costs_val; lia|]. eapply costs_le; [exact IH|lia].
Qed.
Lemma k_unrepresentable {A} a t : costs (@c_unrepresentable A a t) (nd a).
Proof. unfold c_unrepresentable. apply (k_map (c_clone a) (fun c => Err (ValueUnrepresentable c t))), costs_clone. Qed.
Lemma split_len a d rest : split_least_significant_digit a = Val (d, rest) -> 1 <= nd a -> Z.of_nat (length rest) <= nd a - 1.
Proof.
  unfold split_least_significant_digit, nd. intros E P. destruct (access_data a) as [[x|ds]| |] eqn:A; try discriminate; cbn [bind] in E.
  - injection E as <- <-. cbn [length]. lia.
  - apply acc_inv in A. subst ds. destruct (digits a) as [|y r]; [discriminate|]. injection E as <- <-. cbn [length] in *. lia.
Qed.
Lemma k_try_cast a t : wf a -> costs (c_try_cast_to_primitive_ty a t) (2 * nd a).
Proof.
  intros W. assert (P : 1 <= nd a). { rewrite (nd_words a W). unfold words. destruct W as (W & _). apply Z.div_le_lower_bound; lia. }
  unfold c_try_cast_to_primitive_ty. destruct (is_128 t); [apply costs_lift; lia|]. eapply costs_bind; [apply costs_pay| |lia]. intros _ _.
  eapply costs_bind; [apply costs_lift0| |lia]. intros [lsd rest] E.
  pose proof (split_len a lsd rest E P) as L.
  eapply costs_bind with (nd a - 1); [destruct (negb _); [apply costs_val; lia|eapply costs_le; [apply k_any|exact L]]| |lia]. intros any _.
  assert (Q : 0 <= 2 * nd a - Z.of_nat 1 - 0 - (nd a - 1)) by lia.
  destruct any; [eapply costs_le; [apply k_unrepresentable|lia]|]. destruct (is_signed t); [|apply costs_val; lia]. destruct (_ <? _); [|apply costs_val; lia].
  eapply costs_bind; [apply costs_lift0| |lia]. intros r _. eapply costs_bind; [apply costs_lift0| |lia]. intros d _.
  destruct (_ <? _); [|apply costs_val; lia]. eapply costs_bind; [apply costs_lift0| |lia]. intros r' _. eapply costs_bind; [apply costs_lift0| |lia]. intros d' _. apply costs_val. lia.
Qed.
Lemma k_try_i128 a : wf a -> costs (c_try_to_i128 a) (2 * nd a + 2).
Proof.
  intros W. assert (P : 1 <= nd a). { rewrite (nd_words a W). unfold words. destruct W as (W & _). apply Z.div_le_lower_bound; lia. }
  unfold c_try_to_i128. eapply costs_bind; [apply costs_pay| |lia]. intros _ _. eapply costs_bind; [apply costs_lift0| |lia]. intros [l0 r0] E.
  destruct (split_first_or_zero r0) as [l1 r1] eqn:F.
  assert (L : Z.of_nat (length r1) <= nd a).
  { apply split_len in E; [|exact P]. destruct r0 as [|d' r]; cbn in F; injection F as <- <-; cbn [length] in *; lia. }
  eapply costs_bind with (nd a); [eapply costs_le; [apply k_any|lia]| |lia]. intros any _.
  destruct any; [eapply costs_le; [apply k_unrepresentable|lia]|].
  eapply costs_bind; [apply costs_lift0| |lia]. intros hi _. eapply costs_bind; [apply costs_lift0| |lia]. intros res _.
  cbv zeta. destruct (_ <? _); [|apply costs_val; lia]. eapply costs_bind; [apply costs_lift0| |lia]. intros r' _. eapply costs_bind; [apply costs_lift0| |lia]. intros d' _. apply costs_val. lia.
Qed.
Lemma k_try_u128 a : wf a -> costs (c_try_to_u128 a) (2 * nd a + 2).
Proof.
  intros W. assert (P : 1 <= nd a). { rewrite (nd_words a W). unfold words. destruct W as (W & _). apply Z.div_le_lower_bound; lia. }
  unfold c_try_to_u128. eapply costs_bind; [apply costs_pay| |lia]. intros _ _. eapply costs_bind; [apply costs_lift0| |lia]. intros [l0 r0] E.
  destruct (split_first_or_zero r0) as [l1 r1] eqn:F.
  assert (L : Z.of_nat (length r1) <= nd a).
  { apply split_len in E; [|exact P]. destruct r0 as [|d' r]; cbn in F; injection F as <- <-; cbn [length] in *; lia. }
  eapply costs_bind with (nd a); [eapply costs_le; [apply k_any|lia]| |lia]. intros any _.
  destruct any; [eapply costs_le; [apply k_unrepresentable|lia]|].
  eapply costs_bind; [apply costs_lift0| |lia]. intros hi _. eapply costs_bind; [apply costs_lift0| |lia]. intros res _. apply costs_val. lia.
Qed.
(** Conversions fail only with the value inside the error. *)
Lemma try_cast_err a t k : wf a -> try_cast_to_primitive_ty a t = Val (Err k) -> k = ValueUnrepresentable a t.
Proof.
  intros W. unfold try_cast_to_primitive_ty. destruct (is_128 t); [discriminate|]. destruct (split_least_significant_digit a) as [[lsd rest]| |]; try discriminate. cbn [bind].
  unfold unrepresentable. rewrite clone_spec by assumption. cbn [bind]. destruct (_ || _)%bool; [congruence|]. destruct (is_signed t); [|discriminate]. destruct (_ <? _); [|discriminate].
  destruct (d_sign_extend_from lsd (width a)) as [r| |]; try discriminate. cbn [bind]. destruct (unwrap r) as [x| |]; try discriminate. cbn [bind].
  destruct (_ <? _); [|discriminate]. destruct (d_truncate_to x _) as [r'| |]; try discriminate. cbn [bind]. destruct (unwrap r'); discriminate.
Qed.
Lemma try_i128_err a k : wf a -> try_to_i128 a = Val (Err k) -> k = ValueUnrepresentable a PI128.
Proof.
  intros W. unfold try_to_i128. destruct (split_least_significant_digit a) as [[l0 r0]| |]; try discriminate. cbn [bind]. destruct (split_first_or_zero r0) as [l1 r1].
  unfold unrepresentable. rewrite clone_spec by assumption. cbn [bind]. destruct (any_nonzero r1); [congruence|].
  destruct (i128_shl l1 64) as [h| |]; try discriminate. cbn [bind]. destruct (i128_add h l0) as [r| |]; try discriminate. cbn [bind].
  cbv zeta. destruct (_ <? _); [|discriminate]. destruct (usize_sub _ _) as [b| |]; try discriminate. cbn [bind]. destruct (i128_shl 1 b); discriminate.
Qed.
Lemma try_u128_err a k : wf a -> try_to_u128 a = Val (Err k) -> k = ValueUnrepresentable a PU128.
Proof.
  intros W. unfold try_to_u128. destruct (split_least_significant_digit a) as [[l0 r0]| |]; try discriminate. cbn [bind]. destruct (split_first_or_zero r0) as [l1 r1].
  unfold unrepresentable. rewrite clone_spec by assumption. cbn [bind]. destruct (any_nonzero r1); [congruence|].
  destruct (u128_shl l1 64) as [h| |]; try discriminate. cbn [bind]. destruct (u128_add h l0) as [r| |]; discriminate.
Qed.

(** * Facts *)
Lemma words_pos w : 0 < w -> 1 <= words w.
Proof. intros H. unfold words. apply Z.div_le_lower_bound; lia. Qed.
Lemma time_message_fact k : payload_ok k ->
  Z.of_nat (length (message_of k)) <= 160 + total (map (fun x => Z.log2 x + 1) (figures k)) + total (map (fun v => 30 * words (len v)) (integers k)).
Proof.
  change (Z.of_nat (length (message_of k))) with (zlen (message_of k)).
  assert (T : forall name x, 0 <= x -> zlen (render (DTuple name [DNum x])) <= zlen name + Z.log2 x + 3) by (intros name x Hx; rewrite render_num; pose proof (dec_length x Hx); lia).
  destruct k; cbn [figures integers map total fold_right payload_ok]; intros H; try (lazymatch type of H with _ /\ _ => destruct H as (H & H') end);
    try (unfold message_of, dbg_radix, dbg_pos, dbg_width, dbg_shift; rewrite !zlen_app; lits;
      repeat match goal with
      | |- context [zlen (dec_text ?x)] => let L := fresh in pose proof (dec_length x ltac:(assumption)) as L; generalize dependent (zlen (dec_text x)); intros
      | |- context [zlen (render (DTuple ?n [DNum ?x]))] => let L := fresh in pose proof (T n x ltac:(assumption)) as L; revert L; lits; generalize (zlen (render (DTuple n [DNum x]))); intros
      end; lia).
  - pose proof (m_unrepresentable destination_ty value H). lia.
  - pose proof (m_division op lhs H). lia.
  - vm_compute. discriminate.
Qed.


(** Comparisons: what they take if the widths agree, and if not. *)
Lemma k_cmp (cc : apint -> apint -> clocked (result bool)) (c : apint -> apint -> outcome (result bool)) t a b n :
  wf a -> wf b -> costs (cc a b) n -> 0 <= n -> snd (cc a b) = c a b ->
  (len a = len b -> exists v, c a b = Val (Ok v)) -> (len a <> len b -> c a b = Val (Err (UnmatchingBitwidth (len a) (len b)))) ->
  (len a = len b -> costs (c_annotated t (c_plain (cc a b))) n /\ exists v, snd (c_annotated t (c_plain (cc a b))) = Val (EOk v)) /\
  (len a <> len b -> costs (c_annotated t (c_plain (cc a b))) (n + (words (len a) + words (len b) + 120) + zlen t)).
Proof.
  intros Ha Hb H Hn E S F. pose proof (words_pos _ (proj1 Ha)) as Pa. pose proof (words_pos _ (proj1 Hb)) as Pb. split; intros L.
  - destruct (S L) as (v & V). rewrite V in E.
    assert (P : snd (c_plain (cc a b)) = Val (EOk v)) by (rewrite (e_plain _ _ E); reflexivity). split.
    + apply k_annotated_ok with v; [|exact P]. eapply costs_le; [apply (k_plain _ n 0 H); [lia|]|lia]. intros k K. rewrite K in E. discriminate.
    + exists v. rewrite (e_annotated _ _ _ P). reflexivity.
  - apply k_annotated. apply k_plain; [exact H|lia|]. intros k K. rewrite E, (F L) in K. injection K as <-. apply m_unmatching; [apply Ha|apply Hb].
Qed.
Definition cmp_bound (a b : apint) : Z := if len a =? len b then words (len a) + 2 else 64 * (words (len a) + words (len b)) + 600.
Lemma k_explained_ult a b : wf a -> wf b ->
  (len a = len b -> costs (c_explained_ult a b) (words (len a)) /\ exists v, snd (c_explained_ult a b) = Val (EOk v)) /\
  (len a <> len b -> costs (c_explained_ult a b) (32 * (words (len a) + words (len b)) + 312)).
Proof.
  intros Ha Hb. pose proof (words_pos _ (proj1 Ha)) as Pa. pose proof (words_pos _ (proj1 Hb)) as Pb.
  edestruct (k_cmp c_checked_ult checked_ult) as (K1 & K2).
  - exact Ha.
  - exact Hb.
  - eapply costs_le; [apply k_ult|]. rewrite (nd_words a Ha). apply Z.le_min_l.
  - lia.
  - apply e_checked_ult.
  - intros L. eexists. now apply checked_ult_spec.
  - apply checked_ult_err.
  - split; [exact K1|]. intros L. eapply costs_le; [exact (K2 L)|]. rewrite zlen_app. lits. pose proof (operand_text a b Ha Hb). lia.
Qed.
Lemma k_explained_slt a b : wf a -> wf b ->
  (len a = len b -> costs (c_explained_slt a b) (words (len a) + 2) /\ exists v, snd (c_explained_slt a b) = Val (EOk v)) /\
  (len a <> len b -> costs (c_explained_slt a b) (32 * (words (len a) + words (len b)) + 312)).
Proof.
  intros Ha Hb. pose proof (words_pos _ (proj1 Ha)) as Pa. pose proof (words_pos _ (proj1 Hb)) as Pb.
  edestruct (k_cmp c_checked_slt checked_slt) as (K1 & K2).
  - exact Ha.
  - exact Hb.
  - eapply costs_le; [apply k_slt|]. rewrite (nd_words a Ha). apply Z.add_le_mono_r, Z.le_min_l.
  - lia.
  - apply e_checked_slt.
  - intros L. eexists. now apply checked_slt_spec.
  - apply checked_slt_err.
  - split; [exact K1|]. intros L. eapply costs_le; [exact (K2 L)|]. rewrite zlen_app. lits. pose proof (operand_text a b Ha Hb). lia.
Qed.
Lemma c_not_ok m v : snd m = Val (EOk v) -> snd (c_not_result m) = Val (EOk (negb v)).
Proof. intros H. rewrite (e_not_result _ _ H). reflexivity. Qed.
(** The comparisons made of another one, with a text of their own. *)
Lemma k_over t (m : clocked (eresult bool)) a b n : wf a -> wf b -> n <= words (len a) + 2 -> zlen t <= 30 * (words (len a) + words (len b)) + 220 ->
  (len a = len b -> costs m n /\ exists v, snd m = Val (EOk v)) -> (len a <> len b -> costs m (32 * (words (len a) + words (len b)) + 312)) ->
  costs (c_annotated t m) (cmp_bound a b).
Proof.
  intros Ha Hb Hn Ht S F. unfold cmp_bound. pose proof (words_pos _ (proj1 Ha)) as Pa. pose proof (words_pos _ (proj1 Hb)) as Pb.
  destruct (Z.eqb_spec (len a) (len b)) as [L|L].
  - destruct (S L) as (K & v & V). eapply costs_le; [apply (k_annotated_ok t m n v K V)|exact Hn].
  - eapply costs_le; [apply k_annotated, (F L)|lia].
Qed.
Lemma sum_comm a b : words (len a) + words (len b) = words (len b) + words (len a).
Proof. apply Z.add_comm. Qed.
Lemma time_compare_text_fact a b : wf a -> wf b ->
  let n := words (len a) in let m := words (len b) in
  let bound := if len a =? len b then n + 2 else 64 * (n + m) + 600 in
  takes (c_explained_ult a b) (explained_ult a b) bound /\
  takes (c_explained_ule a b) (explained_ule a b) bound /\
  takes (c_explained_ugt a b) (explained_ugt a b) bound /\
  takes (c_explained_uge a b) (explained_uge a b) bound /\
  takes (c_explained_slt a b) (explained_slt a b) bound /\
  takes (c_explained_sle a b) (explained_sle a b) bound /\
  takes (c_explained_sgt a b) (explained_sgt a b) bound /\
  takes (c_explained_sge a b) (explained_sge a b) bound.
Proof.
  intros Ha Hb. cbv zeta. fold (cmp_bound a b). pose proof (words_pos _ (proj1 Ha)) as Pa. pose proof (words_pos _ (proj1 Hb)) as Pb.
  destruct (k_explained_ult a b Ha Hb) as (U1 & U2). destruct (k_explained_ult b a Hb Ha) as (U3 & U4).
  destruct (k_explained_slt a b Ha Hb) as (S1 & S2). destruct (k_explained_slt b a Hb Ha) as (S3 & S4).
  pose proof (operand_text a b Ha Hb) as T.
  assert (D : forall m n, n <= words (len a) + 2 -> (len a = len b -> costs m n /\ exists v, snd m = Val (EOk v)) ->
    (len a <> len b -> costs m (32 * (words (len a) + words (len b)) + 312)) -> @costs (eresult bool) m (cmp_bound a b)).
  { intros m n Hn S F. unfold cmp_bound. destruct (Z.eqb_spec (len a) (len b)) as [L|L]; [eapply costs_le; [apply S, L|exact Hn]|].
    eapply costs_le; [apply F, L|lia]. }
  assert (N : forall m n, (len a = len b -> costs m n /\ exists v, snd m = Val (EOk v)) -> len a = len b -> costs (c_not_result m) n /\ exists v, snd (c_not_result m) = Val (EOk v)).
  { intros m n S L. destruct (S L) as (K & v & V). split; [now apply k_not_result|]. exists (negb v). now apply c_not_ok. }
  assert (W : forall (C : apint -> apint -> clocked (eresult bool)) k, (len b = len a -> costs (C b a) (words (len b) + k) /\ exists v, snd (C b a) = Val (EOk v)) ->
    len a = len b -> costs (C b a) (words (len a) + k) /\ exists v, snd (C b a) = Val (EOk v)).
  { intros C k S L. rewrite L at 1. apply S. now symmetry. }
  assert (W' : forall (C : apint -> apint -> clocked (eresult bool)), (len b <> len a -> costs (C b a) (32 * (words (len b) + words (len a)) + 312)) ->
    len a <> len b -> costs (C b a) (32 * (words (len a) + words (len b)) + 312)).
  { intros C S L. rewrite (sum_comm a b). apply S. congruence. }
  assert (U3' := W c_explained_ult 0). rewrite !Z.add_0_r in U3'. specialize (U3' U3).
  assert (S3' := W c_explained_slt 2 S3). assert (U4' := W' _ U4). assert (S4' := W' _ S4). clear W W' U3 S3 U4 S4.
  repeat match goal with |- _ /\ _ => split end; apply takes_intro.
  - apply e_explained_ult.
  - apply (D _ (words (len a))); [lia|exact U1|exact U2].
  - apply e_annotated, e_not_result, e_explained_ult.
  - apply (k_over _ _ a b (words (len a))); [exact Ha|exact Hb|lia|rewrite zlen_app; lits; lia|apply N, U3'|intros L; exact (k_not_result _ _ (U4' L))].
  - apply e_annotated, e_explained_ult.
  - apply (k_over _ _ a b (words (len a))); [exact Ha|exact Hb|lia|rewrite zlen_app; lits; lia|exact U3'|exact U4'].
  - apply e_annotated, e_not_result, e_explained_ult.
  - apply (k_over _ _ a b (words (len a))); [exact Ha|exact Hb|lia|rewrite zlen_app; lits; lia|apply N, U1|intros L; exact (k_not_result _ _ (U2 L))].
  - apply e_explained_slt.
  - apply (D _ (words (len a) + 2)); [lia|exact S1|exact S2].
  - apply e_annotated, e_not_result, e_explained_slt.
  - apply (k_over _ _ a b (words (len a) + 2)); [exact Ha|exact Hb|lia|rewrite zlen_app; lits; lia|apply N, S3'|intros L; exact (k_not_result _ _ (S4' L))].
  - apply e_annotated, e_explained_slt.
  - apply (k_over _ _ a b (words (len a) + 2)); [exact Ha|exact Hb|lia|rewrite zlen_app; lits; lia|exact S3'|exact S4'].
  - apply e_annotated, e_not_result, e_explained_slt.
  - apply (k_over _ _ a b (words (len a) + 2)); [exact Ha|exact Hb|lia|rewrite zlen_app; lits; lia|apply N, S1|intros L; exact (k_not_result _ _ (S2 L))].
Qed.

Lemma zip_zero a b : wf a -> wf b -> len a = len b -> unsigned b = 0 ->
  (exists l, zip_access_data a b = Val (Ok (ZInl l 0))) \/ zip_access_data a b = Val (Ok (ZExt (digits a) (digits b))).
Proof.
  intros Ha Hb E Hz. destruct (zip_access_data_spec a b (wf_sh a Ha) (wf_sh b Hb) E) as [(l & r & Hw & Ea & Eb & Hl & Hr & H)|(Hw & H)]; [left|right; exact H].
  assert (Er : unsigned b = r) by (rewrite Eb; unfold unsigned; cbn [digits]; apply uval_one). rewrite Hz in Er. subst r. exists l. exact H.
Qed.
Lemma zero_divrem duo div : Forall digit_ok div -> uval div = 0 -> c_aarons_algorithm_divrem duo div = (Z.of_nat (length div) + 0, Val (duo, div, false)).
Proof.
  intros H E. assert (R : rposition_nonzero div = None).
  { pose proof (rposition_nonzero_spec div H) as R. destruct (rposition_nonzero div) as [i|]; [|reflexivity]. destruct R as (R1 & R2 & R3).
    exfalso. apply uval_zero_iff in E; auto. rewrite Forall_forall in E. apply R2, E, nth_In; auto. }
  unfold c_aarons_algorithm_divrem. rewrite R. reflexivity.
Qed.
Lemma zero_remdiv duo div : Forall digit_ok div -> uval div = 0 -> c_aarons_algorithm_remdiv duo div = (Z.of_nat (length div) + 0 + 0, Val (duo, div, false)).
Proof. intros H E. unfold c_aarons_algorithm_remdiv. rewrite zero_divrem by assumption. reflexivity. Qed.
Lemma k_division_by_zero op a : costs (c_division_by_zero op a) (nd a).
Proof. unfold c_division_by_zero. apply (k_map (c_clone a) (DivisionByZero op)), costs_clone. Qed.
Lemma k_udiv_zero a b : wf a -> wf b -> len a = len b -> unsigned b = 0 ->
  costs (c_wrapping_udivrem_assign a b) (3 * nd a) /\ costs (c_wrapping_uremdiv_assign a b) (3 * nd a) /\
  costs (c_wrapping_udiv_assign a b) (3 * nd a) /\ costs (c_wrapping_urem_assign a b) (3 * nd a).
Proof.
  intros Ha Hb E Hz. assert (N : nd b = nd a) by (rewrite !nd_words, E by assumption; reflexivity). unfold nd in N.
  assert (P : 0 <= nd a) by (unfold nd; lia). pose proof Hb as (_ & _ & Db & _).
  unfold c_wrapping_udivrem_assign, c_wrapping_uremdiv_assign, c_wrapping_udiv_assign, c_wrapping_urem_assign.
  destruct (zip_zero a b Ha Hb E Hz) as [(l & H)|H]; rewrite H.
  - repeat match goal with |- _ /\ _ => split end; (eapply costs_bind; [apply costs_lift0| |lia]); intros z Z; injection Z as <-;
      change (d_is_zero 0) with true; cbn [negb]; (eapply costs_bind; [apply k_division_by_zero| |lia]); intros; apply costs_val; lia.
  - unfold nd in *. repeat match goal with |- _ /\ _ => split end; (eapply costs_bind; [apply costs_lift0| |lia]); intros z Z; injection Z as <-.
    3,4: (eapply costs_bind; [apply costs_pay| |lia]); intros _ _.
    1,3: rewrite zero_divrem by assumption. 3,4: rewrite zero_remdiv by assumption.
    all: (eapply costs_bind with (Z.of_nat (length (digits a))); [unfold costs; cbn [fst]; lia| |lia]); intros x X; injection X as <-;
      (eapply costs_bind; [apply k_division_by_zero|intros; apply costs_val|]); unfold nd; cbn [write_ext digits]; lia.
Qed.
Lemma k_sdiv_zero a b : wf a -> wf b -> unsigned b = 0 ->
  costs (c_wrapping_sdivrem_assign a b) (nd a + nd b) /\ costs (c_wrapping_sremdiv_assign a b) (nd a + nd b) /\
  costs (c_wrapping_sdiv_assign a b) (nd a + nd b) /\ costs (c_wrapping_srem_assign a b) (nd a + nd b).
Proof.
  intros Ha Hb Hz. assert (P : 0 <= nd a) by (unfold nd; lia).
  assert (Zb : is_zero b = Val true) by (rewrite is_zero_spec by (now apply wf_sh); f_equal; now apply Z.eqb_eq).
  unfold c_wrapping_sdivrem_assign, c_wrapping_sremdiv_assign, c_wrapping_sdiv_assign, c_wrapping_srem_assign.
  repeat match goal with |- _ /\ _ => split end; (eapply costs_bind; [apply costs_is_zero| |unfold nd; lia]); intros z Z; unfold c_is_zero in Z; cbn [snd] in Z;
    rewrite Zb in Z; injection Z as <-; (eapply costs_bind; [apply k_division_by_zero|intros; apply costs_val|]); unfold nd; lia.
Qed.
Lemma time_division_by_zero_fact a b : wf a -> wf b -> unsigned b = 0 -> len a = len b ->
  let n := words (len a) in
  takes (c_plain_mut (c_wrapping_udivrem_assign a b)) (plain_mut (wrapping_udivrem_assign a b)) (33 * n + 160) /\
  takes (c_plain_mut (c_wrapping_uremdiv_assign a b)) (plain_mut (wrapping_uremdiv_assign a b)) (33 * n + 160) /\
  takes (c_plain_mut (c_wrapping_udiv_assign a b)) (plain_mut (wrapping_udiv_assign a b)) (33 * n + 160) /\
  takes (c_plain_mut (c_wrapping_urem_assign a b)) (plain_mut (wrapping_urem_assign a b)) (33 * n + 160) /\
  takes (c_plain_mut (c_wrapping_sdivrem_assign a b)) (plain_mut (wrapping_sdivrem_assign a b)) (33 * n + 160) /\
  takes (c_plain_mut (c_wrapping_sremdiv_assign a b)) (plain_mut (wrapping_sremdiv_assign a b)) (33 * n + 160) /\
  takes (c_plain_mut (c_wrapping_sdiv_assign a b)) (plain_mut (wrapping_sdiv_assign a b)) (33 * n + 160) /\
  takes (c_plain_mut (c_wrapping_srem_assign a b)) (plain_mut (wrapping_srem_assign a b)) (33 * n + 160).
Proof.
  intros Ha Hb Hz E. cbv zeta. pose proof (words_pos _ (proj1 Ha)) as Pa.
  assert (N : nd b = nd a) by (rewrite !nd_words, E by assumption; reflexivity).
  destruct (k_udiv_zero a b Ha Hb E Hz) as (K1 & K2 & K3 & K4). destruct (k_sdiv_zero a b Ha Hb Hz) as (K5 & K6 & K7 & K8).
  destruct (udiv_zero_fact a b Ha Hb E Hz) as (D1 & D2 & D3 & _ & D4 & _). destruct (sdiv_zero_fact a b Ha Hb Hz) as (D5 & D6 & D7 & _ & D8 & _).
  rewrite N in K5, K6, K7, K8. rewrite (nd_words a Ha) in *.
  assert (F : forall S (m : clocked (S * result unit)) s op c, costs m c -> c <= 3 * words (len a) -> snd m = Val (s, Err (DivisionByZero op a)) ->
    costs (c_plain_mut m) (33 * words (len a) + 160)).
  { intros S m s op c K L X. eapply costs_le; [apply (k_plain_mut m c (30 * words (len a) + 160) K); [lia|]|lia]. intros s' k Y. rewrite X in Y. injection Y as <- <-. now apply m_division. }
  repeat match goal with |- _ /\ _ => split end; (apply takes_intro; [apply e_plain_mut|]).
  - apply e_wrapping_udivrem_assign.
  - eapply F; [exact K1|lia|rewrite e_wrapping_udivrem_assign; exact D1].
  - apply e_wrapping_uremdiv_assign.
  - eapply F; [exact K2|lia|rewrite e_wrapping_uremdiv_assign; exact D2].
  - apply e_wrapping_udiv_assign.
  - eapply F; [exact K3|lia|rewrite e_wrapping_udiv_assign; exact D3].
  - apply e_wrapping_urem_assign.
  - eapply F; [exact K4|lia|rewrite e_wrapping_urem_assign; exact D4].
  - apply e_wrapping_sdivrem_assign.
  - eapply F; [exact K5|lia|rewrite e_wrapping_sdivrem_assign; exact D5].
  - apply e_wrapping_sremdiv_assign.
  - eapply F; [exact K6|lia|rewrite e_wrapping_sremdiv_assign; exact D6].
  - apply e_wrapping_sdiv_assign.
  - eapply F; [exact K7|lia|rewrite e_wrapping_sdiv_assign; exact D7].
  - apply e_wrapping_srem_assign.
  - eapply F; [exact K8|lia|rewrite e_wrapping_srem_assign; exact D8].
Qed.
Lemma time_assign_text_fact a b w : wf a -> wf b -> 0 < w ->
  let n := words (len a) in let m := words (len b) in let t := words w in
  takes (c_explained_strict_assign a b) (explained_strict_assign a b) (if len a =? len b then n else 31 * (n + m) + 270) /\
  takes (c_explained_truncate a w) (explained_truncate a w) (if w <=? len a then 8 * t + 4 else 2 * (n + t) + 330) /\
  takes (c_explained_zero_extend a w) (explained_zero_extend a w) (if len a <=? w then 12 * t + 4 else 2 * (n + t) + 330) /\
  takes (c_explained_sign_extend a w) (explained_sign_extend a w) (if len a <=? w then 12 * t + 9 else 2 * (n + t) + 330).
Proof.
  intros Ha Hb Hw. cbv zeta. pose proof (words_pos _ (proj1 Ha)) as Pa. pose proof (words_pos _ (proj1 Hb)) as Pb. pose proof (words_pos _ Hw) as Pw.
  repeat match goal with |- _ /\ _ => split end; (apply takes_intro; [apply e_explained_mut|]).
  - apply e_strict_assign.
  - unfold c_explained_strict_assign. destruct (Z.eqb_spec (len a) (len b)) as [L|L].
    + eapply costs_le; [apply (k_explained_mut _ _ (words (len a)) 0); [|lia|]|lia].
      * unfold c_strict_assign, width. rewrite L, Z.eqb_refl. cbn [negb]. eapply costs_bind; [apply costs_pay| |].
        -- intros _ _. eapply costs_bind; [apply costs_lift0|intros; apply costs_val|]; pose proof (nd_words b Hb) as N; unfold nd in N; unfold as_digit_slice; rewrite <- N; lia.
        -- pose proof (nd_words b Hb) as N. unfold nd in N. unfold as_digit_slice. rewrite <- N. lia.
      * intros s k X. rewrite e_strict_assign in X. unfold strict_assign, width in X. rewrite L, Z.eqb_refl in X. cbn [negb] in X. destruct (copy_from_slice _ _); discriminate.
    + eapply costs_le; [apply (k_explained_mut _ _ 0 (31 * (words (len a) + words (len b)) + 270)); [|lia|]|lia].
      * unfold c_strict_assign, width. apply Z.eqb_neq in L. rewrite L. cbn [negb]. apply costs_val0.
      * intros s k X. rewrite e_strict_assign in X. unfold strict_assign, width in X. apply Z.eqb_neq in L. rewrite L in X. cbn [negb] in X. injection X as <- <-.
        rewrite !zlen_app. lits. pose proof (apint_length a Ha). pose proof (apint_length b Hb). pose proof (m_unmatching _ _ (proj1 Ha) (proj1 Hb)). lia.
  - apply e_truncate.
  - unfold c_explained_truncate. destruct (Z.leb_spec w (len a)) as [L|L].
    + eapply costs_le; [apply (k_explained_mut _ _ (8 * words w + 4) 0); [rewrite <- (rd_words w Hw); apply k_truncate|lia|]|lia].
      intros s k X. rewrite e_truncate in X. destruct (truncate_spec a w Ha (conj Hw L)) as (c & C & _). rewrite C in X. discriminate.
    + eapply costs_le; [apply (k_explained_mut _ _ 0 (2 * (words (len a) + words w) + 330)); [|lia|]|lia].
      * unfold c_truncate. cbn [c_truncate_fuel]. unfold width. destruct (Z.eqb_spec w (len a)); [lia|]. apply Z.ltb_lt in L. rewrite L. apply costs_val0.
      * intros s k X. rewrite e_truncate, truncate_err in X by assumption. injection X as <- <-.
        rewrite !zlen_app. lits. change (zlen [10]) with 1. unfold width. pose proof (dec_width_length _ (proj1 Ha)). pose proof (dec_width_length _ Hw). pose proof (m_truncation _ _ Hw (proj1 Ha)). lia.
  - apply e_zero_extend.
  - unfold c_explained_zero_extend. destruct (Z.leb_spec (len a) w) as [L|L].
    + eapply costs_le; [apply (k_explained_mut _ _ (12 * words w + 4) 0); [rewrite <- (rd_words w Hw); now apply k_zero_extend|lia|]|lia].
      intros s k X. rewrite e_zero_extend in X. destruct (zero_extend_spec a w Ha L) as (c & C & _). rewrite C in X. discriminate.
    + eapply costs_le; [apply (k_explained_mut _ _ 0 (2 * (words (len a) + words w) + 330)); [|lia|]|lia].
      * unfold c_zero_extend, width. destruct (Z.eqb_spec w (len a)); [lia|]. apply Z.ltb_lt in L. rewrite L. apply costs_val0.
      * intros s k X. rewrite e_zero_extend, zero_extend_err in X by assumption. injection X as <- <-.
        rewrite !zlen_app. lits. unfold width. pose proof (width_text _ (proj1 Ha)). pose proof (width_text _ Hw). pose proof (m_extension _ _ Hw (proj1 Ha)). lia.
  - apply e_sign_extend.
  - unfold c_explained_sign_extend. destruct (Z.leb_spec (len a) w) as [L|L].
    + eapply costs_le; [apply (k_explained_mut _ _ (12 * words w + 9) 0); [rewrite <- (rd_words w Hw); now apply k_sign_extend|lia|]|lia].
      intros s k X. rewrite e_sign_extend in X. destruct (sign_extend_spec a w Ha L) as (c & C & _). rewrite C in X. discriminate.
    + eapply costs_le; [apply (k_explained_mut _ _ 0 (2 * (words (len a) + words w) + 330)); [|lia|]|lia].
      * unfold c_sign_extend, width. destruct (Z.eqb_spec w (len a)); [lia|]. apply Z.ltb_lt in L. rewrite L. apply costs_val0.
      * intros s k X. rewrite e_sign_extend, sign_extend_err in X by assumption. injection X as <- <-.
        rewrite !zlen_app. lits. unfold width. pose proof (width_text _ (proj1 Ha)). pose proof (width_text _ Hw). pose proof (m_extension _ _ Hw (proj1 Ha)). lia.
Qed.
Lemma time_convert_fact a : wf a ->
  let n := words (len a) in
  takes (c_plain (c_try_to_bool a)) (plain (try_to_bool a)) (32 * n + 132) /\
  takes (c_plain (c_try_to_i8 a)) (plain (try_to_i8 a)) (32 * n + 132) /\
  takes (c_plain (c_try_to_u8 a)) (plain (try_to_u8 a)) (32 * n + 132) /\
  takes (c_plain (c_try_to_i16 a)) (plain (try_to_i16 a)) (32 * n + 132) /\
  takes (c_plain (c_try_to_u16 a)) (plain (try_to_u16 a)) (32 * n + 132) /\
  takes (c_plain (c_try_to_i32 a)) (plain (try_to_i32 a)) (32 * n + 132) /\
  takes (c_plain (c_try_to_u32 a)) (plain (try_to_u32 a)) (32 * n + 132) /\
  takes (c_plain (c_try_to_i64 a)) (plain (try_to_i64 a)) (32 * n + 132) /\
  takes (c_plain (c_try_to_u64 a)) (plain (try_to_u64 a)) (32 * n + 132) /\
  takes (c_plain (c_try_to_i128 a)) (plain (try_to_i128 a)) (32 * n + 132) /\
  takes (c_plain (c_try_to_u128 a)) (plain (try_to_u128 a)) (32 * n + 132).
Proof.
  intros W. cbv zeta. pose proof (words_pos _ (proj1 W)) as P.
  assert (F : forall A (m : clocked (result A)) o t, snd m = o -> costs m (2 * nd a + 2) -> (forall k, o = Val (Err k) -> k = ValueUnrepresentable a t) ->
    takes (c_plain m) (plain o) (32 * words (len a) + 132)).
  { intros A m o t E K X. apply takes_intro; [now apply e_plain|]. rewrite (nd_words a W) in K.
    eapply costs_le; [apply (k_plain m _ (30 * words (len a) + 130) K); [lia|]|lia]. intros k Y. rewrite E in Y. rewrite (X k Y). now apply m_unrepresentable. }
  assert (M : forall t f k, try_cast_map a t f = Val (Err k) -> k = ValueUnrepresentable a t).
  { intros t f k. unfold try_cast_map. destruct (try_cast_to_primitive_ty a t) as [[d|e]| |] eqn:E; cbn [bind map_result]; try discriminate.
    intros [= <-]. now apply try_cast_err. }
  assert (KM : forall t f, costs (c_try_cast_map a t f) (2 * nd a + 2)).
  { intros t f. unfold c_try_cast_map. apply (k_map (c_try_cast_to_primitive_ty a t) (map_result f)). eapply costs_le; [now apply k_try_cast|lia]. }
  repeat match goal with |- _ /\ _ => split end.
  2,3,4,5,6,7,8,9: eapply F; [apply e_try_map|apply KM|apply M].
  - apply F with PBool; [apply e_try_to_bool| |].
    + unfold c_try_to_bool. eapply costs_bind; [now apply k_try_cast| |lia]. intros [d|e] _; [|apply costs_val; lia].
      destruct (d =? 0); [apply costs_val; lia|]. destruct (d =? 1); [apply costs_val|apply costs_lift]; lia.
    + intros k. unfold try_to_bool, bindr. destruct (try_cast_to_primitive_ty a PBool) as [[d|e]| |] eqn:E; cbn [bind]; try discriminate.
      * destruct (d =? 0); [discriminate|]. destruct (d =? 1); discriminate.
      * intros [= <-]. now apply try_cast_err.
  - apply F with PI128; [apply e_try_to_i128|now apply k_try_i128|intros k; now apply try_i128_err].
  - apply F with PU128; [apply e_try_to_u128|now apply k_try_u128|intros k; now apply try_u128_err].
Qed.
