(** Parsing strings. *)
From Verif Require Export LFacts LDiv7 MSerial SpecStr LEx.
Ltac Zify.zify_post_hook ::= idtac.

(** * Values of digit lists *)
Fixpoint le_value (r : Z) (ds : list Z) : Z :=
  match ds with [] => 0 | d :: t => d + r * le_value r t end.

Lemma radix_value_snoc r l d : radix_value r (l ++ [d]) = radix_value r l * r + d.
Proof. unfold radix_value. rewrite fold_left_app. reflexivity. Qed.
Lemma radix_rev r l : radix_value r (rev l) = le_value r l.
Proof.
  induction l as [|d t IH]; [reflexivity|]. cbn [rev le_value]. rewrite radix_value_snoc, IH. lia.
Qed.
Lemma le_rev r l : le_value r (rev l) = radix_value r l.
Proof. rewrite <- radix_rev, rev_involutive. reflexivity. Qed.
Lemma le_app r xs ys : le_value r (xs ++ ys) = le_value r xs + r ^ Z.of_nat (length xs) * le_value r ys.
Proof.
  induction xs as [|d t IH].
  - cbn [app le_value length]. change (r ^ Z.of_nat 0) with 1. lia.
  - cbn [app le_value length]. rewrite IH, Nat2Z.inj_succ, Z.pow_succ_r by lia. lia.
Qed.
Lemma fold_left_radix r l acc :
  fold_left (fun a d => a * r + d) l acc = acc * r ^ Z.of_nat (length l) + radix_value r l.
Proof.
  revert acc. induction l as [|d t IH] using rev_ind; intros acc.
  - cbn [fold_left length]. unfold radix_value. cbn [fold_left]. change (r ^ Z.of_nat 0) with 1. lia.
  - rewrite fold_left_app. cbn [fold_left]. rewrite IH, radix_value_snoc, app_length. cbn [length].
    replace (Z.of_nat (length t + 1)) with (Z.succ (Z.of_nat (length t))) by lia.
    rewrite Z.pow_succ_r by lia. lia.
Qed.
Lemma radix_value_cons r d l : radix_value r (d :: l) = d * r ^ Z.of_nat (length l) + radix_value r l.
Proof. unfold radix_value at 1. cbn [fold_left]. rewrite fold_left_radix. lia. Qed.
Lemma radix_value_app r xs ys :
  radix_value r (xs ++ ys) = radix_value r xs * r ^ Z.of_nat (length ys) + radix_value r ys.
Proof. unfold radix_value at 1. rewrite fold_left_app, fold_left_radix. reflexivity. Qed.

Definition below (r : Z) (ds : list Z) : Prop := Forall (fun d => 0 <= d < r) ds.

Lemma radix_value_bound r l : 0 < r -> below r l -> 0 <= radix_value r l < r ^ Z.of_nat (length l).
Proof.
  intros Hr H. induction H as [|d t Hd Ht IH].
  - unfold radix_value. cbn. lia.
  - rewrite radix_value_cons. cbn [length]. rewrite Nat2Z.inj_succ, Z.pow_succ_r by lia.
    assert (0 < r ^ Z.of_nat (length t)) by (apply Z.pow_pos_nonneg; lia). nia.
Qed.
Lemma le_value_bound r l : 0 < r -> below r l -> 0 <= le_value r l < r ^ Z.of_nat (length l).
Proof.
  intros Hr H. rewrite <- radix_rev, <- (rev_length l). apply radix_value_bound; auto.
  unfold below. now apply Forall_rev.
Qed.
Lemma below_app r xs ys : below r (xs ++ ys) <-> below r xs /\ below r ys.
Proof. apply Forall_app. Qed.
Lemma below_firstn r n l : below r l -> below r (firstn n l).
Proof. intros H. rewrite <- (firstn_skipn n l) in H. now apply below_app in H. Qed.
Lemma below_skipn r n l : below r l -> below r (skipn n l).
Proof. intros H. rewrite <- (firstn_skipn n l) in H. now apply below_app in H. Qed.

(** * from_iter *)
Lemma from_iter_is ds : ds <> [] -> digs ds ->
  exists c, (let! r := from_iter ds in unwrap r) = Val c /\ is_apint c (64 * Z.of_nat (length ds)) (uval ds).
Proof.
  intros Hne Hd. rewrite from_iter_spec by auto. cbn [bind unwrap].
  exists (mk_apint (64 * Z.of_nat (length ds)) ds). split; [reflexivity|].
  assert (Hl : 0 < Z.of_nat (length ds)) by (destruct ds; [congruence|cbn [length]; lia]).
  apply mk_is_apint; auto; [lia| |].
  - unfold required_digits. replace ((64 * Z.of_nat (length ds) - 1) / 64) with (Z.of_nat (length ds) - 1); [lia|].
    apply Z.div_unique with 63; lia.
  - pose proof (uval_bound ds Hd) as [_ Hb]. rewrite P_pow in Hb. exact Hb.
Qed.

(** * Radices whose digits fill 64 bits exactly *)
Lemma chunk_fold bits l k acc : 0 < bits < 64 -> 0 <= k -> k + bits * Z.of_nat (length l) <= 64 ->
  0 <= acc < 2 ^ k -> below (2 ^ bits) l ->
  fold_o (fun acc c => let! s := u64_shl acc bits in Val (Z.lor s c)) l acc
  = Val (acc * (2 ^ bits) ^ Z.of_nat (length l) + radix_value (2 ^ bits) l).
Proof.
  intros Hb. revert k acc. induction l as [|c t IH]; intros k acc Hk Hl Ha Hc.
  - cbn [fold_o length]. unfold radix_value. cbn [fold_left]. change ((2 ^ bits) ^ Z.of_nat 0) with 1. f_equal. lia.
  - inversion Hc as [|? ? Hc0 Ht]; subst. cbn [fold_o]. rewrite u64_shl_spec by lia. cbn [bind].
    cbn [length] in Hl. rewrite Nat2Z.inj_succ in Hl.
    assert (Hlt : 0 <= acc * 2 ^ bits < 2 ^ (k + bits)).
    { rewrite Z.pow_add_r by lia. assert (0 < 2 ^ bits) by (apply Z.pow_pos_nonneg; lia). nia. }
    assert (2 ^ (k + bits) <= B) by (rewrite B_pow; apply Z.pow_le_mono_r; lia).
    rewrite Z.mod_small by lia. rewrite lor_add_low by lia.
    rewrite (IH (k + bits)); [|lia|lia| |assumption].
    + f_equal. rewrite radix_value_cons. cbn [length]. rewrite Nat2Z.inj_succ, (Z.pow_succ_r (2 ^ bits)) by lia. lia.
    + rewrite Z.pow_add_r in * by lia. nia.
Qed.

Lemma chunk_digit bits n chunk : 0 < bits < 64 -> bits * Z.of_nat n = 64 -> (length chunk <= n)%nat ->
  below (2 ^ bits) chunk ->
  fold_o (fun acc c => let! s := u64_shl acc bits in Val (Z.lor s c)) (rev chunk) 0 = Val (le_value (2 ^ bits) chunk) /\
  dok (le_value (2 ^ bits) chunk).
Proof.
  intros Hb Hn Hl Hc. split.
  - rewrite (chunk_fold bits (rev chunk) 0); [|lia|lia|rewrite rev_length; nia|lia|now apply Forall_rev].
    rewrite radix_rev. f_equal.
  - pose proof (le_value_bound (2 ^ bits) chunk ltac:(apply Z.pow_pos_nonneg; lia) Hc) as [H0 H1].
    unfold dok. split; [assumption|]. rewrite B_pow. rewrite <- Z.pow_mul_r in H1 by lia.
    eapply Z.lt_le_trans; [exact H1|]. apply Z.pow_le_mono_r; nia.
Qed.

Lemma chunks_value bits n fuel v : 0 < bits < 64 -> bits * Z.of_nat n = 64 -> (length v <= fuel)%nat ->
  below (2 ^ bits) v ->
  exists data, map_o (fun chunk => fold_o (fun acc c => let! s := u64_shl acc bits in Val (Z.lor s c)) (rev chunk) 0)
    (chunks_fuel fuel n v) = Val data /\ digs data /\ uval data = le_value (2 ^ bits) v /\
    (64 * (Z.of_nat (length data) - 1) < bits * Z.of_nat (length v) <= 64 * Z.of_nat (length data)).
Proof.
  intros Hb Hn. revert v. induction fuel as [|fuel IH]; intros v Hl Hc.
  - destruct v; [|cbn in Hl; lia]. exists []. cbn. rewrite uval_nil. repeat split; try constructor; lia.
  - destruct v as [|c0 t]; [exists []; cbn; rewrite uval_nil; repeat split; try constructor; lia|].
    cbn [chunks_fuel]. set (v := c0 :: t) in *.
    assert (Hn0 : (0 < n)%nat) by lia.
    destruct (IH (skipn n v)) as (data & E & Hd & Hu & Hlen).
    { rewrite skipn_length. subst v. cbn [length] in *. lia. } { now apply below_skipn. }
    destruct (chunk_digit bits n (firstn n v)) as (E0 & Hd0); auto; [apply firstn_le_length|now apply below_firstn|].
    exists (le_value (2 ^ bits) (firstn n v) :: data). cbn [map_o]. rewrite E0. cbn [bind]. rewrite E. cbn [bind].
    split; [reflexivity|]. split; [now apply digs_cons|].
    assert (Lv : (0 < length v)%nat) by (subst v; cbn; lia).
    rewrite uval_cons, Hu. split.
    + rewrite <- (firstn_skipn n v) at 3. rewrite le_app. f_equal.
      destruct (Nat.leb_spec n (length v)) as [L|L].
      * rewrite firstn_length_le by lia. rewrite <- Z.pow_mul_r by lia. rewrite Hn, B_pow. reflexivity.
      * rewrite skipn_all2 by lia. cbn [le_value]. lia.
    + rewrite skipn_length in Hlen. cbn [length]. clear - Hlen Hn Lv Hb Hn0.
      rewrite Nat2Z.inj_succ. destruct (Nat.leb_spec n (length v)) as [L|L].
      * rewrite Nat2Z.inj_sub in Hlen by lia. nia.
      * replace (length v - n)%nat with O in Hlen by lia. assert (Z.of_nat (length data) = 0) by lia. nia.
Qed.

Lemma nonempty_len {A} (l : list A) : l <> [] -> (0 < length l)%nat.
Proof. destruct l; [congruence|cbn; lia]. Qed.
Lemma nonempty_eqb {A} (l : list A) : l <> [] -> Nat.eqb (length l) 0 = false.
Proof. intros H. apply nonempty_len in H. apply Nat.eqb_neq. lia. Qed.
Lemma forallb_below bits v : 0 <= bits -> below (2 ^ bits) v -> forallb (fun c => c <? Z.shiftl 1 bits) v = true.
Proof.
  intros Hb H. apply forallb_forall. intros c Hin. rewrite Z.shiftl_1_l. apply Z.ltb_lt.
  unfold below in H. rewrite Forall_forall in H. specialize (H c Hin). lia.
Qed.

Lemma ceil_unique x n : 64 * (n - 1) < x <= 64 * n -> (x + 63) / 64 = n.
Proof. intros H. symmetry. apply Z.div_unique with (x + 63 - 64 * n); lia. Qed.

Lemma from_bitwise_spec v bits : v <> [] -> 0 < bits < 64 -> bits <= 8 -> 64 mod bits = 0 -> below (2 ^ bits) v ->
  exists c, from_bitwise_digits v bits = Val c /\
    is_apint c (64 * ((bits * Z.of_nat (length v) + 63) / 64)) (le_value (2 ^ bits) v).
Proof.
  intros Hne Hb Hb8 Hm Hc. unfold from_bitwise_digits. rewrite (nonempty_eqb v Hne).
  destruct (Z.leb_spec bits 8); [|lia]. rewrite Hm. cbn [negb andb Z.eqb].
  rewrite forallb_below by (auto; lia). cbn [negb].
  assert (Hdiv : bits * (64 / bits) = 64) by (pose proof (Z.div_mod 64 bits); lia).
  assert (Hq : 0 < 64 / bits) by nia.
  unfold chunks. destruct (Nat.eqb_spec (Z.to_nat (64 / bits)) 0); [lia|]. cbn [bind].
  destruct (chunks_value bits (Z.to_nat (64 / bits)) (length v) v) as (data & E & Hd & Hu & Hl); auto; [lia|].
  rewrite E. cbn [bind]. assert (data <> []).
  { intros ->. cbn [length] in Hl. apply nonempty_len in Hne. nia. }
  destruct (from_iter_is data) as (c & Ec & Hcc); auto. exists c. split; [exact Ec|].
  rewrite Hu in Hcc. rewrite (ceil_unique _ (Z.of_nat (length data))) by lia. exact Hcc.
Qed.

(** * Radices whose digits straddle 64 bits *)
Definition inexact_inv (bits : Z) (v : list Z) (st : list Z * Z * Z) : Prop :=
  let '(data, d, dbits) := st in
  digs data /\ 0 <= dbits < 64 /\ 0 <= d < 2 ^ dbits /\
  64 * Z.of_nat (length data) + dbits = bits * Z.of_nat (length v) /\
  uval (data ++ [d]) = le_value (2 ^ bits) v.

Lemma lor_add_shift d c k : 0 <= k -> 0 <= d < 2 ^ k -> Z.lor d (c * 2 ^ k) = d + c * 2 ^ k.
Proof. intros Hk Hd. rewrite Z.lor_comm, lor_add_low by auto. lia. Qed.

Lemma lor_mod_B d c k : 0 <= k < 64 -> 0 <= d < 2 ^ k -> Z.lor d ((c * 2 ^ k) mod B) = (d + c * 2 ^ k) mod B.
Proof.
  intros Hk Hd. rewrite <- lor_add_shift by lia. rewrite B_pow. apply Z.bits_inj'. intros i Hi.
  rewrite Z.lor_spec. destruct (Z.ltb_spec i 64).
  - rewrite !Z.mod_pow2_bits_low, Z.lor_spec by lia. reflexivity.
  - rewrite !Z.mod_pow2_bits_high by lia. rewrite orb_false_r. apply (testbit_high d k); lia.
Qed.

Lemma snoc_value data d : uval (data ++ [d]) = uval data + P (length data) * d.
Proof. now rewrite uval_app, uval_one. Qed.

Lemma pow_bits bits n : 0 <= bits -> (2 ^ bits) ^ Z.of_nat n = 2 ^ (bits * Z.of_nat n).
Proof. intros. now rewrite <- Z.pow_mul_r by lia. Qed.

Lemma inexact_step_spec bits v st c : 0 < bits <= 8 -> 0 <= c < 2 ^ bits -> inexact_inv bits v st ->
  exists st', inexact_step bits st c = Val st' /\ inexact_inv bits (v ++ [c]) st'.
Proof.
  intros Hb Hc. destruct st as [[data d] dbits]. intros (Hd & Hdb & Hd0 & Hlen & Hu).
  unfold inexact_step. rewrite u64_shl_spec by lia. cbn [bind].
  rewrite lor_mod_B by lia. set (t := d + c * 2 ^ dbits).
  assert (Pd : 0 < 2 ^ dbits) by (apply Z.pow_pos_nonneg; lia).
  assert (Ht : 0 <= t < 2 ^ (dbits + bits)) by (unfold t; rewrite Z.pow_add_r by lia; nia).
  assert (Lv : Z.of_nat (length (v ++ [c])) = Z.of_nat (length v) + 1) by (rewrite app_length; cbn [length]; lia).
  assert (Val' : uval data + P (length data) * t = le_value (2 ^ bits) (v ++ [c])).
  { rewrite le_app, <- Hu, snoc_value. cbn [le_value]. rewrite pow_bits by lia. rewrite <- Hlen.
    rewrite Z.pow_add_r by lia. rewrite P_pow. unfold t. lia. }
  destruct (Z.leb_spec 64 (dbits + bits)) as [Hge|Hlt].
  - unfold usize_sub. destruct (Z.leb_spec 64 (dbits + bits)); [|lia]. cbn [bind].
    destruct (Z.leb_spec (dbits + bits - 64) bits); [|lia]. cbn [bind].
    rewrite u64_shr_spec by lia. cbn [bind]. eexists. split; [reflexivity|].
    replace (bits - (dbits + bits - 64)) with (64 - dbits) by lia.
    assert (P64 : 2 ^ 64 = 2 ^ dbits * 2 ^ (64 - dbits)) by (rewrite <- Z.pow_add_r by lia; f_equal; lia).
    assert (Pe : 0 < 2 ^ (64 - dbits)) by (apply Z.pow_pos_nonneg; lia).
    assert (Hq : t / B = c / 2 ^ (64 - dbits)).
    { unfold t. rewrite B_pow, P64, <- Z.div_div by lia. f_equal. symmetry. apply Z.div_unique with d; lia. }
    unfold inexact_inv. split.
    { apply digs_app. split; [assumption|]. constructor; [apply dok_mod|constructor]. }
    split; [lia|]. split.
    { rewrite <- Hq. split; [apply Z.div_pos; [lia|apply B_pos]|].
      apply Z.div_lt_upper_bound; [apply B_pos|]. rewrite B_pow, <- Z.pow_add_r by lia.
      replace (64 + (dbits + bits - 64)) with (dbits + bits) by lia. lia. }
    split.
    { rewrite Lv, app_length. cbn [length]. lia. }
    rewrite snoc_value, snoc_value, app_length. cbn [length]. rewrite <- Val'.
    rewrite P_add, P_1. rewrite <- Hq. pose proof (Z.div_mod t B ltac:(pose proof B_pos; lia)).
    replace t with (B * (t / B) + t mod B) at 3 by lia. lia.
  - eexists. split; [reflexivity|]. unfold inexact_inv.
    assert (t < B).
    { rewrite B_pow. eapply Z.lt_le_trans; [apply Ht|]. apply Z.pow_le_mono_r; lia. }
    rewrite Z.mod_small by lia.
    split; [assumption|]. split; [lia|]. split; [assumption|]. split; [rewrite Lv; lia|].
    rewrite snoc_value. exact Val'.
Qed.

Lemma inexact_fold bits w : 0 < bits <= 8 -> below (2 ^ bits) w -> forall v st, inexact_inv bits v st ->
  exists st', fold_o (inexact_step bits) w st = Val st' /\ inexact_inv bits (v ++ w) st'.
Proof.
  intros Hb. induction w as [|c t IH]; intros Hc v st Hi.
  - exists st. rewrite app_nil_r. auto.
  - apply Forall_cons_iff in Hc as [Hc0 Ht]. cbn [fold_o]. destruct (inexact_step_spec bits v st c Hb) as (st1 & E1 & H1); auto.
    rewrite E1. cbn [bind]. destruct (IH Ht (v ++ [c]) st1 H1) as (st2 & E2 & Hi2). exists st2. split; [exact E2|].
    now rewrite <- app_assoc in Hi2.
Qed.

Lemma from_inexact_spec v bits : v <> [] -> 0 < bits <= 8 -> 64 mod bits <> 0 -> below (2 ^ bits) v ->
  exists c, from_inexact_bitwise_digits v bits = Val c /\
    is_apint c (64 * ((bits * Z.of_nat (length v) + 63) / 64)) (le_value (2 ^ bits) v).
Proof.
  intros Hne Hb Hm Hc. unfold from_inexact_bitwise_digits. rewrite (nonempty_eqb v Hne).
  destruct (Z.leb_spec bits 8); [|lia]. destruct (Z.eqb_spec (64 mod bits) 0); [contradiction|]. cbn [negb andb].
  rewrite forallb_below by (auto; lia). cbn [negb].
  destruct (inexact_fold bits v Hb Hc [] ([], 0, 0)) as ([[data d] dbits] & E & Hi).
  { cbn [inexact_inv]. change (2 ^ 0) with 1. cbn [length app le_value]. rewrite uval_one.
    repeat split; try constructor; lia. }
  rewrite E. cbn [bind]. rewrite app_nil_l in Hi. destruct Hi as (Hd & Hdb & Hd0 & Hlen & Hu).
  pose proof (nonempty_len v Hne) as Lv. destruct (Z.ltb_spec 0 dbits) as [Hpos|Hz].
  - destruct (Z.ltb_spec dbits 64); [|lia]. cbn [bind].
    destruct (from_iter_is (data ++ [d])) as (c & Ec & Hcc).
    { destruct data; discriminate. }
    { apply digs_app. split; [assumption|]. constructor; [|constructor]. unfold dok. split; [lia|]. rewrite B_pow.
      eapply Z.lt_le_trans; [apply Hd0|]. apply Z.pow_le_mono_r; lia. }
    exists c. split; [exact Ec|]. rewrite Hu in Hcc. rewrite (ceil_unique _ (Z.of_nat (length (data ++ [d])))); [exact Hcc|].
    rewrite app_length. cbn [length]. lia.
  - assert (dbits = 0) by lia. subst dbits. cbn [bind]. change (2 ^ 0) with 1 in Hd0. assert (d = 0) by lia. subst d.
    destruct (from_iter_is data) as (c & Ec & Hcc); auto.
    { intros ->. cbn [length] in Hlen. nia. }
    exists c. split; [exact Ec|]. rewrite snoc_value in Hu. replace (uval data) with (le_value (2 ^ bits) v) in Hcc by lia.
    rewrite (ceil_unique _ (Z.of_nat (length data))) by lia. exact Hcc.
Qed.
