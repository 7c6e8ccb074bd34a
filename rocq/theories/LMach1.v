(** The machine over the code simulates the abstract machine: constructors. *)
From Verif Require Export LInt3 MMachine LSerial2.

Definition rel (a : apint) (x : aval) : Prop := is_apint a (fst x) (snd x).
Definition rel_res (m : outcome (result apint)) (r : option ares) : Prop :=
  match r with
  | None => m = Panic
  | Some (inl x) => exists c, m = Val (Ok c) /\ rel c x
  | Some (inr e) => exists k, m = Val (Err k) /\ observe k = e
  end.
Definition rel_mut (a : apint) (m : mut_result) (r : option ares) : Prop :=
  match r with
  | None => m = Panic
  | Some (inl x) => exists c, m = Val (c, Ok tt) /\ rel c x
  | Some (inr e) => exists k, m = Val (a, Err k) /\ observe k = e
  end.

Lemma rel_total m w u : (exists c, m = Val c /\ is_apint c w u) -> rel_res (total m) (Some (inl (w, u))).
Proof. intros (c & -> & H). exists c. auto. Qed.
Lemma rel_total_mut a m w u : (exists c, m = Val c /\ is_apint c w u) -> rel_mut a (total_mut m) (Some (inl (w, u))).
Proof. intros (c & -> & H). exists c. auto. Qed.
Lemma rel_sized w k u : 0 <= w -> (0 < w -> exists c, k w = Val c /\ is_apint c w u) ->
  rel_res (sized w (fun w => total (k w))) (Some (with_width w (w, u))).
Proof.
  intros H Hk. unfold sized, bitwidth_new, with_width. destruct (Z.eqb_spec w 0).
  - exists (InvalidBitWidth 0). auto.
  - destruct Hk as (c & E & Hc); [lia|]. exists c. rewrite E. auto.
Qed.
Lemma signed_apint c w v : wf c -> len c = w -> signed c = v -> is_apint c w (v mod 2 ^ w).
Proof. intros H <- <-. unfold is_apint. rewrite signed_mod; auto. Qed.

(** Parsing *)
Lemma is_numeral_iff r s : is_numeral r s = true <-> numeral r s.
Proof.
  unfold is_numeral, numeral. destruct s as [|b t].
  - split; [discriminate|]. intros (H & _). contradiction.
  - rewrite !andb_true_iff, !negb_true_iff, !Z.eqb_neq, forallb_forall, Forall_forall. cbn [hd]. split.
    + intros ((H1 & H2) & H3). split; [discriminate|]. split; [exact H1|]. split; [exact H2|]. intros x Hx.
      specialize (H3 x Hx). apply orb_true_iff in H3. destruct H3 as [H3|H3]; [left; now apply Z.eqb_eq|].
      right. destruct (char_value x) as [d|]; [|discriminate]. exists d. split; [reflexivity|now apply Z.ltb_lt].
    + intros (_ & H1 & H2 & H3). split; [auto|]. intros x Hx. apply orb_true_iff.
      destruct (H3 x Hx) as [->|(d & E & Hd)]; [left; reflexivity|]. right. rewrite E. now apply Z.ltb_lt.
Qed.

Lemma filter_prefix (f : nat -> bool) n p : (forall k, (1 <= k <= n)%nat -> f k = Nat.leb k p) ->
  length (filter f (seq 1 n)) = Nat.min n p.
Proof.
  induction n as [|n IH]; intros H; [reflexivity|].
  rewrite seq_S, filter_app, app_length, IH by (intros; apply H; lia). cbn [filter Nat.add].
  rewrite (H (S n)) by lia. destruct (Nat.leb_spec (S n) p); cbn [length]; lia.
Qed.
Lemma block_unique r p : 2 <= r -> 0 < p -> r ^ p <= 2 ^ 64 < r ^ (p + 1) -> block r = p.
Proof.
  intros Hr Hp (H1 & H2).
  assert (Hp64 : p <= 64).
  { destruct (Z.le_gt_cases p 64); [assumption|]. exfalso.
    assert (2 ^ 64 < 2 ^ p) by (apply Z.pow_lt_mono_r; lia). assert (2 ^ p <= r ^ p) by (apply Z.pow_le_mono_l; lia). lia. }
  unfold block. rewrite (filter_prefix _ 64 (Z.to_nat p)).
  - rewrite Nat.min_r by lia. lia.
  - intros k Hk. destruct (Nat.leb_spec k (Z.to_nat p)).
    + apply Z.leb_le. apply Z.le_trans with (r ^ p); [|exact H1]. apply Z.pow_le_mono_r; lia.
    + apply Z.leb_gt. apply Z.lt_le_trans with (r ^ (p + 1)); [exact H2|]. apply Z.pow_le_mono_r; lia.
Qed.
Lemma parse_sim r s : 0 <= r < 256 ->
  rel_res (from_str_radix_u8 r s) (anew (NParse r s)).
Proof.
  intros Hr. destruct (radix_fact r s Hr) as (_ & ->). cbn [anew].
  destruct ((2 <=? r) && (r <=? 36)) eqn:E; [|reflexivity].
  apply andb_true_iff in E. rewrite !Z.leb_le in E. destruct (is_numeral r s) eqn:N.
  - apply is_numeral_iff in N. unfold parsed. destruct (Z.eqb_spec r (2 ^ Z.log2 r)) as [P|P].
    + assert (K : 1 <= Z.log2 r <= 5).
      { split; [change 1 with (Z.log2 2); apply Z.log2_le_mono; lia|]. change 5 with (Z.log2 36). apply Z.log2_le_mono; lia. }
      rewrite P in N. destruct (parse_pow2 _ s K N) as (c & Ec & Hc). rewrite <- P in Ec. exists c. split; [exact Ec|].
      unfold rel. cbn [fst snd]. unfold string_value in Hc. rewrite <- P in Hc. exact Hc.
    + assert (P' : forall k, r <> 2 ^ k).
      { intros k Hk. apply P. destruct (Z.le_gt_cases 0 k).
        - rewrite Hk, Z.log2_pow2 by lia. reflexivity.
        - rewrite Z.pow_neg_r in Hk by lia. lia. }
      destruct (parse_other r s E P' N) as (c & p & i & Ec & Hp & Hb & Hi & Hc).
      exists c. split; [exact Ec|]. unfold rel. cbn [fst snd]. rewrite (block_unique r p) by (auto; lia). rewrite <- Hi. exact Hc.
  - destruct (parse_decide r s E) as [(N' & _)|(_ & Ec)].
    + apply is_numeral_iff in N'. congruence.
    + exists (InvalidStringRepr s r None). auto.
Qed.

Lemma new_sim n : newop_ok n -> rel_res (cnew n) (anew n).
Proof.
  destruct from_unsigned_fact as (U1 & U2 & U3 & U4 & U5 & U6). destruct from_signed_fact as (S1 & S2 & S3 & S4 & S5).
  assert (G : forall m w v, (exists c, m = Val c /\ wf c /\ len c = w /\ signed c = v) -> rel_res (total m) (Some (inl (reduce w v)))).
  { intros m w v (c & -> & W & L & S). exists c. split; [reflexivity|]. now apply signed_apint. }
  assert (K : forall w, 0 < w -> 0 < 2 ^ (w - 1) /\ 2 ^ w = 2 * 2 ^ (w - 1)).
  { intros w Hw. split; [apply Z.pow_pos_nonneg; lia|now apply pow2_double]. }
  destruct n; cbn [newop_ok cnew anew]; intros H; try (unfold has_type in H; cbn [type_range fst snd] in H).
  - apply rel_total, U1.
  - apply rel_total, U2, H.
  - apply rel_total, U3, H.
  - apply rel_total, U4, H.
  - apply rel_total, U5, H.
  - apply rel_total, U6, H.
  - apply G, S1, H.
  - apply G, S2, H.
  - apply G, S3, H.
  - apply G, S4, H.
  - apply G, S5, H.
  - destruct H as (H1 & H2). apply rel_total. apply (from_array_fact vs H1).
    eapply Forall_impl; [|exact H2]. intros v Hv. exact Hv.
  - destruct H as (H1 & H2). apply rel_total. apply (from_array_fact vs H1).
  - apply rel_sized; [exact H|]. intros Hw. destruct (constants_fact w Hw) as ((c & E & _ & _ & Hc) & _). eauto.
  - apply rel_sized; [exact H|]. intros Hw. destruct (constants_fact w Hw) as (_ & Ho & _). exact Ho.
  - apply rel_sized; [exact H|]. intros Hw. destruct (constants_fact w Hw) as (_ & _ & (c & E & _ & Hc) & _). eauto.
  - apply rel_sized; [exact H|]. intros Hw. destruct (constants_fact w Hw) as ((c & _ & _ & E & Hc) & _). eauto.
  - apply rel_sized; [exact H|]. intros Hw. destruct (constants_fact w Hw) as (_ & _ & (c & _ & E & Hc) & _). eauto.
  - apply rel_sized; [exact H|]. intros Hw. destruct (constants_fact w Hw) as (_ & _ & _ & (c & E & W & L & S) & _).
    exists c. split; [exact E|]. destruct (K w Hw) as (K1 & K2). replace (2 ^ (w - 1)) with ((- 2 ^ (w - 1)) mod 2 ^ w).
    + now apply signed_apint.
    + symmetry. apply Z.mod_unique_pos with (-1); lia.
  - apply rel_sized; [exact H|]. intros Hw. destruct (constants_fact w Hw) as (_ & _ & _ & _ & (c & E & W & L & S) & _).
    exists c. split; [exact E|]. destruct (K w Hw) as (K1 & K2).
    rewrite <- (Z.mod_small (2 ^ (w - 1) - 1) (2 ^ w)) by lia. now apply signed_apint.
  - apply parse_sim. apply H.
Qed.
