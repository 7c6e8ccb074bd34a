(** Proofs about deserialization on a machine whose [usize] is small. *)
From Verif Require Export LUsize4 LSerde.

Lemma z_try_new M v w : 0 < M -> z_try_new_bitwidth M v = DOk w <-> w = v mod M /\ 0 < w.
Proof.
  intros HM. unfold z_try_new_bitwidth, bitwidth_new. pose proof (Z.mod_pos_bound v M HM).
  destruct (Z.eqb_spec (v mod M) 0).
  - split; [discriminate|]. lia.
  - split; [intros E; injection E as <-; lia|]. intros [-> _]. reflexivity.
Qed.
Lemma z_try_new_0 M v : v mod M = 0 -> z_try_new_bitwidth M v = DErr EInvalidValue.
Proof. intros H. unfold z_try_new_bitwidth, bitwidth_new. now rewrite H. Qed.

Lemma z_bitwidth_human M d w : 0 < M -> z_de_bitwidth M true d = DOk w ->
  0 < w /\ exists W more, w = W mod M /\ d = DSeq (DU64 W :: more).
Proof.
  intros HM. unfold z_de_bitwidth. destruct d as [| |l| | |]; try discriminate. destruct l as [|e r]; [discriminate|].
  destruct e; cbn [de_u64]; try discriminate. intros H. apply z_try_new in H as (-> & Hw); [|auto].
  split; [assumption|]. eexists; eexists; split; reflexivity.
Qed.
Lemma z_bitwidth_compact M d w : 0 < M -> z_de_bitwidth M false d = DOk w -> 0 < w /\ exists W, w = W mod M /\ d = DU64 W.
Proof.
  intros HM. unfold z_de_bitwidth. destruct d; try discriminate. intros H.
  apply z_try_new in H as (-> & Hw); [|auto]. split; [assumption|]. eexists; split; reflexivity.
Qed.

Lemma z_visit_full M es w ds p : z_visit_entries M es (Some w) (Some ds) = DOk p -> es = [] /\ p = (Some w, Some ds).
Proof.
  destruct es as [|[k v] r]; cbn [z_visit_entries].
  - intros H. injection H as <-. auto.
  - destruct (de_field k) as [[|]|e]; discriminate.
Qed.
Lemma z_visit_inv M es w ds : 0 < M -> z_visit_entries M es None None = DOk (Some w, Some ds) ->
  0 < w /\ exists W, w = W mod M /\ readable true (DMap es) W ds.
Proof.
  intros HM H. destruct es as [|[k v] r]; [discriminate H|].
  cbn [z_visit_entries] in H. destruct (de_field k) as [[|]|] eqn:Ek; [| |discriminate H].
  - apply field_width in Ek as ->. destruct (z_de_bitwidth M true v) as [w'|] eqn:Ew; [|discriminate H].
    apply z_bitwidth_human in Ew as (Hw & W & more & EW & ->); [|assumption].
    destruct r as [|[k2 v2] r]; [discriminate H|]. cbn [z_visit_entries] in H.
    destruct (de_field k2) as [[|]|] eqn:Ek2; [discriminate H| |discriminate H]. apply field_digits in Ek2 as ->.
    destruct (de_vec v2) as [ds'|] eqn:Ev; [|discriminate H]. apply de_vec_inv in Ev as ->.
    apply z_visit_full in H as (-> & H). injection H as -> ->. split; [assumption|]. exists W. split; [auto|].
    exists more. now left.
  - apply field_digits in Ek as ->. destruct (de_vec v) as [ds'|] eqn:Ev; [|discriminate H].
    apply de_vec_inv in Ev as ->. destruct r as [|[k2 v2] r]; [discriminate H|].
    cbn [z_visit_entries] in H.
    destruct (de_field k2) as [[|]|] eqn:Ek2; [|discriminate H|discriminate H]. apply field_width in Ek2 as ->.
    destruct (z_de_bitwidth M true v2) as [w'|] eqn:Ew; [|discriminate H].
    apply z_bitwidth_human in Ew as (Hw & W & more & EW & ->); [|assumption].
    apply z_visit_full in H as (-> & H). injection H as -> ->. split; [assumption|]. exists W. split; [auto|].
    exists more. now right.
Qed.

Lemma z_build_eq M checks w ds : usize_bound M -> 0 < w < M -> Z.of_nat (List.length ds) = (w + 63) / 64 ->
  z_build M checks w ds = if w <=? M - 64 then build w ds else Stop (too_wide checks).
Proof.
  intros HM Hw Hl. unfold z_build, build.
  assert (El : List.length ds = required_digits w).
  { pose proof (required_digits_Z w ltac:(lia)). lia. }
  destruct (Z.leb_spec w (M - 64)) as [H|H].
  - pose proof (required_fit M w HM ltac:(lia) H) as F. rewrite <- El in F.
    rewrite z_from_iter_fit by auto. destruct ds as [|x r]; [reflexivity|].
    rewrite from_iter_spec by discriminate. cbn [bind unwrap]. now rewrite z_into_truncate_eq.
  - pose proof (required_full M w HM ltac:(lia)) as F. rewrite z_from_iter_stop by (auto; lia). reflexivity.
Qed.

Lemma readable_ok human d W ds : readable human d W ds -> data_ok d -> digs ds.
Proof.
  intros (more & H) Hok. apply data_ok_digits. destruct human; [destruct H as [-> | ->]|subst d];
  cbn [data_ok] in Hok; intuition.
Qed.

Lemma z_readable M checks human d W ds : readable human d W ds ->
  z_de_apint M checks human d =
  match z_try_new_bitwidth M W with
  | DOk w => if Nat.eqb (required_digits w) (List.length ds) then z_build M checks w ds else Val (DErr EInvalidValue)
  | DErr e => Val (DErr e)
  end.
Proof.
  intros (more & H). unfold z_de_apint. destruct human.
  - destruct H as [-> | ->]; unfold z_visit_human; cbn [z_visit_entries];
    change (de_field (DStr "width")) with (@DOk field FWidth); change (de_field (DStr "digits")) with (@DOk field FDigits);
    cbn iota; unfold z_de_bitwidth; cbn [de_u64]; rewrite (de_elements_map ds : de_vec (doc_digits ds) = DOk ds);
    destruct (z_try_new_bitwidth M W); reflexivity.
  - subst d. unfold z_visit_compact, z_de_bitwidth. destruct (z_try_new_bitwidth M W); cbn [de_bind]; [|reflexivity].
    rewrite (de_elements_map ds : de_vec (doc_digits ds) = DOk ds). reflexivity.
Qed.

Lemma z_deserialize M checks human d : usize_bound M -> data_ok d ->
  (forall W ds, readable human d W ds ->
     let w := W mod M in
     if (0 <? w) && (Z.of_nat (List.length ds) =? (w + 63) / 64) then
       if w <=? M - 64
       then exists c, z_de_apint M checks human d = Val (DOk c) /\ is_apint c w (uval ds mod 2 ^ w)
       else z_de_apint M checks human d = Stop (too_wide checks)
     else z_de_apint M checks human d = Val (DErr EInvalidValue)) /\
  ((forall W ds, ~ readable human d W ds) ->
     (exists e, z_de_apint M checks human d = Val (DErr e)) \/
     (human = false /\ d = DSeq [] /\ z_de_apint M checks human d = Panic)).
Proof.
  intros HM Hok. assert (M0 : 0 < M) by (destruct (usize_bound_64 M HM) as (k & -> & Hk); lia). split.
  - intros W ds HR w. rewrite (z_readable M checks human d W ds HR).
    assert (Hw : 0 <= w < M) by (apply Z.mod_pos_bound; auto).
    destruct (Z.ltb_spec 0 w) as [Hp|Hp]; cbn [andb].
    2:{ rewrite z_try_new_0 by (fold w; lia). reflexivity. }
    rewrite (proj2 (z_try_new M W w M0)) by auto.
    pose proof (required_eq w (List.length ds) Hp) as Er.
    destruct (Nat.eqb (required_digits w) (List.length ds)), (Z.eqb_spec (Z.of_nat (List.length ds)) ((w + 63) / 64)) as [El|El];
      try (exfalso; destruct Er; intuition congruence); [|reflexivity].
    rewrite z_build_eq by (auto; lia). destruct (w <=? M - 64); [|reflexivity].
    apply build_spec; auto. eapply readable_ok; eauto.
  - intros Hn. destruct human; unfold z_de_apint.
    + left. unfold z_visit_human. destruct d as [| | |es| |]; try (eexists; reflexivity).
      destruct (z_visit_entries M es None None) as [[w' ds']|e] eqn:E; cbn [de_bind]; [|eexists; reflexivity].
      destruct w' as [w|]; [|eexists; reflexivity]. destruct ds' as [ds|]; [|eexists; reflexivity].
      apply z_visit_inv in E as (_ & W & _ & HR); [|auto]. destruct (Hn _ _ HR).
    + unfold z_visit_compact. destruct d as [| |l| | |]; try (left; eexists; reflexivity).
      destruct l as [|e rest]; [right; auto|]. left.
      destruct (z_de_bitwidth M false e) as [w|er] eqn:Ew; cbn [de_bind]; [|eexists; reflexivity].
      apply z_bitwidth_compact in Ew as (_ & W & _ & ->); [|auto].
      destruct rest as [|e2 rest]; [eexists; reflexivity|].
      destruct (de_vec e2) as [ds|er] eqn:Ev; cbn [de_bind]; [|eexists; reflexivity].
      apply de_vec_inv in Ev as ->. destruct (Hn W ds). exists rest. reflexivity.
Qed.

(** Reading on a small machine is reading the document with its widths narrowed. *)
Lemma z_bitwidth_narrow_human M e more :
  z_de_bitwidth M true (DSeq (e :: more)) = de_bitwidth true (DSeq (narrowed_width M e :: more)).
Proof. destruct e; reflexivity. Qed.
Lemma z_visit_narrow M es : forall w ds,
  z_visit_entries M es w ds =
  visit_entries (map (fun kv =>
             match kv with
             | (DStr "width", DSeq (e :: more)) => (DStr "width", DSeq (narrowed_width M e :: more))
             | _ => kv
             end) es) w ds.
Proof.
  induction es as [|[k v] r IH]; intros w ds; [reflexivity|].
  destruct (de_field k) as [[|]|] eqn:Ek.
  - apply field_width in Ek as ->. destruct v as [| |[|e more]| | |]; cbn [map z_visit_entries visit_entries];
    change (de_field (DStr "width")) with (@DOk field FWidth); cbn iota; try rewrite z_bitwidth_narrow_human;
    (destruct w; [reflexivity|]); try reflexivity.
    destruct (de_bitwidth true (DSeq (narrowed_width M e :: more))); [apply IH|reflexivity].
  - apply field_digits in Ek as ->. cbn [map z_visit_entries visit_entries].
    change (de_field (DStr "digits")) with (@DOk field FDigits); cbn iota.
    destruct ds; [reflexivity|]. destruct (de_vec v); [apply IH|reflexivity].
  - cbn [map z_visit_entries]. rewrite Ek.
    match goal with |- _ = visit_entries (?x :: _) _ _ => assert (Ex : fst x = k) end.
    { repeat match goal with |- context [match ?x with _ => _ end] => is_var x; destruct x; try reflexivity end. }
    match goal with |- _ = visit_entries (?x :: _) _ _ => destruct x as [k' v'] end.
    cbn [fst] in Ex. subst k'. cbn [visit_entries]. now rewrite Ek.
Qed.
Definition limited (M : Z) (checks : bool) (r : outcome (de_result apint)) : outcome (de_result apint) :=
  match r with
  | Val (DOk c) => if len c <=? M - 64 then r else Stop (too_wide checks)
  | _ => r
  end.
Lemma z_build_limited M checks w ds : usize_bound M -> 0 < w < M -> digs ds ->
  (if Nat.eqb (required_digits w) (List.length ds) then z_build M checks w ds else Val (DErr EInvalidValue)) =
  limited M checks (if Nat.eqb (required_digits w) (List.length ds) then build w ds else Val (DErr EInvalidValue)).
Proof.
  intros HM Hw Hd. destruct (Nat.eqb_spec (required_digits w) (List.length ds)) as [E|E]; [|reflexivity].
  assert (El : Z.of_nat (List.length ds) = (w + 63) / 64) by (apply required_eq; [lia|now apply Nat.eqb_eq]).
  rewrite z_build_eq by auto. destruct (build_spec w ds) as (c & Ec & _ & Lc & _); auto; [lia|].
  rewrite Ec. unfold limited. now rewrite Lc.
Qed.
Lemma z_deserialize_as M checks human d : usize_bound M -> data_ok d ->
  z_de_apint M checks human d =
  match de_apint human (narrowed M human d) with
  | Val (DOk c) => if len c <=? M - 64 then Val (DOk c) else Stop (too_wide checks)
  | r => r
  end.
Proof.
  intros HM Hok. assert (M0 : 0 < M) by (destruct (usize_bound_64 M HM) as (k & -> & Hk); lia).
  enough (H : z_de_apint M checks human d = limited M checks (de_apint human (narrowed M human d))).
  { rewrite H. unfold limited. destruct (de_apint human (narrowed M human d)) as [[c|]| |]; reflexivity. }
  destruct human; unfold z_de_apint, de_apint, narrowed.
  - destruct d as [| | |es| |]; try reflexivity. unfold z_visit_human, visit_human.
    destruct (z_visit_entries M es None None) as [[w' ds']|e] eqn:E; rewrite z_visit_narrow in E;
      rewrite E; cbn [de_bind]; [|reflexivity].
    destruct w' as [w|]; [|reflexivity]. destruct ds' as [ds|]; [|reflexivity].
    rewrite <- z_visit_narrow in E. apply z_visit_inv in E as (Hw & W & EW & HR); [|auto].
    pose proof (Z.mod_pos_bound W M M0).
    apply z_build_limited; auto; [lia|]. eapply readable_ok; eauto.
  - destruct d as [| |[|e rest]| | |]; try reflexivity. unfold z_visit_compact, visit_compact.
    assert (Ee : z_de_bitwidth M false e = de_bitwidth false (narrowed_width M e)) by (destruct e; reflexivity).
    rewrite <- Ee. destruct (z_de_bitwidth M false e) as [w|er] eqn:Ew; cbn [de_bind]; [|reflexivity].
    apply z_bitwidth_compact in Ew as (Hw & W & EW & ->); [|auto].
    destruct rest as [|e2 rest]; [reflexivity|].
    destruct (de_vec e2) as [ds|er] eqn:Ev; cbn [de_bind]; [|reflexivity].
    apply de_vec_inv in Ev as ->. pose proof (Z.mod_pos_bound W M M0).
    apply z_build_limited; auto; [lia|]. eapply (readable_ok false); [|exact Hok]. exists rest. reflexivity.
Qed.

(** A document whose width does not match its digits. *)
Lemma z_deserialize_refuted : forall M checks human, usize_bound M -> M < 2 ^ 64 - 8 ->
  exists d c, data_ok d /\ readable human d (M + 8) [255] /\ z_de_apint M checks human d = Val (DOk c) /\
    is_apint c 8 255 /\ Z.of_nat (List.length [255]) <> (M + 8 + 63) / 64.
Proof.
  intros M checks human HM HL. destruct (usize_bound_64 M HM) as (k & EM & Hk).
  set (d := if human then DMap [(DStr "width", DSeq (DU64 (M + 8) :: [])); (DStr "digits", doc_digits [255])]
            else DSeq (DU64 (M + 8) :: doc_digits [255] :: [])).
  assert (HR : readable human d (M + 8) [255]) by (exists []; destruct human; [left|]; reflexivity).
  assert (Hok : data_ok d) by (destruct human; cbn; repeat split; lia).
  exists d. destruct (z_deserialize M checks human d HM Hok) as [H _]. specialize (H _ _ HR). cbv zeta in H.
  replace (M + 8) with (8 + 1 * M) in H by lia. rewrite Z_mod_plus_full, Z.mod_small in H by lia.
  cbn [andb Z.ltb Z.compare] in H.
  destruct (Z.leb_spec 8 (M - 64)); [|lia]. change (0 <? 8) with true in H.
  change (Z.of_nat (List.length [255]) =? (8 + 63) / 64) with true in H. cbn [andb] in H.
  destruct H as (c & E & Hc). exists c. split; [exact Hok|]. split; [exact HR|]. split; [exact E|].
  split; [exact Hc|]. cbn [List.length]. lia.
Qed.

Lemma z_multiply_refuted : forall M, usize_bound M ->
  exists a b, wf a /\ wf b /\ len a = len b /\ len a <= M - 64 /\
    z_wrapping_mul_assign M true a b = Trap /\
    z_wrapping_mul_assign M false a b = wrapping_mul_assign a b.
Proof.
  intros M HM. assert (256 <= M).
  { destruct HM as (p & Hp & ->). change 256 with (2 ^ 8). apply Z.pow_le_mono_r; lia. }
  destruct (all_set_spec (M - 64) ltac:(lia)) as (a & _ & Ha & La & Ua).
  exists a, a. split; [assumption|]. split; [assumption|]. split; [reflexivity|]. split; [lia|].
  assert (B : 2 ^ 64 <= unsigned a).
  { assert (2 ^ 65 <= 2 ^ (M - 64)) by (apply Z.pow_le_mono_r; lia). lia. }
  assert (L : Z.log2 (unsigned a) = M - 65).
  { assert (0 < 2 ^ (M - 65)) by (apply Z.pow_pos_nonneg; lia).
    apply Z.log2_unique; [lia|]. rewrite Ua.
    replace (M - 64) with (Z.succ (M - 65)) by lia. rewrite Z.pow_succ_r by lia. lia. }
  rewrite !z_multiply by (auto; lia). cbn [andb]. split; [|reflexivity].
  unfold binary_digits. rewrite Z.eqb_refl, L. destruct (Z.eqb_spec (unsigned a) 0); [lia|].
  destruct (Z.leb_spec (2 ^ 64) (unsigned a)); [|lia].
  destruct (Z.leb_spec M (M - 65 + 1 + (M - 65 + 1))); [reflexivity|lia].
Qed.
