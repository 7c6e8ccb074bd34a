(** Serialization and deserialization. *)
From Verif Require Export LFacts LSerial MSerde SpecSerde.

Lemma de_elements_map ds : de_elements (map DU64 ds) = DOk ds.
Proof. induction ds as [|d t IH]; [reflexivity|]. cbn [map de_elements de_digit de_u64]. now rewrite IH. Qed.
Lemma de_elements_inv l ds : de_elements l = DOk ds -> l = map DU64 ds.
Proof.
  revert ds. induction l as [|d t IH]; intros ds H; [injection H as <-; reflexivity|].
  cbn [de_elements] in H. unfold de_digit in H. destruct d; try discriminate H. cbn [de_u64] in H.
  destruct (de_elements t); [|discriminate H]. injection H as <-. cbn [map]. f_equal. now apply IH.
Qed.
Lemma de_vec_inv d ds : de_vec d = DOk ds -> d = doc_digits ds.
Proof.
  destruct d; try discriminate. cbn [de_vec]. intros H. apply de_elements_inv in H. now rewrite H.
Qed.
Lemma try_new_inv v w : 0 <= v -> try_new_bitwidth v = DOk w -> v = w /\ 0 < w.
Proof.
  intros Hv. unfold try_new_bitwidth, bitwidth_new. destruct (Z.eqb_spec v 0); [discriminate|].
  intros H. injection H as <-. lia.
Qed.
Lemma try_new_ok w : 0 < w -> try_new_bitwidth w = DOk w.
Proof. intros H. unfold try_new_bitwidth, bitwidth_new. destruct (Z.eqb_spec w 0); [lia|reflexivity]. Qed.
Lemma de_bitwidth_human d w : data_ok d -> de_bitwidth true d = DOk w ->
  0 < w /\ exists more, d = DSeq (DU64 w :: more).
Proof.
  intros Hd. unfold de_bitwidth. destruct d as [| |l| | |]; try discriminate. destruct l as [|e r]; [discriminate|].
  destruct e; cbn [de_u64]; try discriminate. intros H. destruct Hd as (Hv & _). cbn in Hv.
  apply try_new_inv in H as (-> & Hw); [|lia]. split; [assumption|]. now exists r.
Qed.
Lemma de_bitwidth_compact d w : data_ok d -> de_bitwidth false d = DOk w -> 0 < w /\ d = DU64 w.
Proof.
  intros Hd. unfold de_bitwidth. destruct d; try discriminate. intros H. cbn in Hd.
  apply try_new_inv in H as (-> & Hw); [|lia]. auto.
Qed.

Definition entries_ok (es : list (data * data)) : Prop := Forall (fun e => data_ok (fst e) /\ data_ok (snd e)) es.
Lemma data_ok_map es : data_ok (DMap es) -> entries_ok es.
Proof.
  cbn [data_ok]. induction es as [|[k v] r IH]; [constructor|]. intros (H1 & H2 & H3).
  constructor; [auto|now apply IH].
Qed.

(** After both fields are known any further entry is an error. *)
Lemma visit_full es w ds p : visit_entries es (Some w) (Some ds) = DOk p -> es = [] /\ p = (Some w, Some ds).
Proof.
  destruct es as [|[k v] r]; cbn [visit_entries].
  - intros H. injection H as <-. auto.
  - destruct (de_field k) as [[|]|e]; discriminate.
Qed.
Lemma field_width k : de_field k = DOk FWidth -> k = DStr "width".
Proof.
  destruct k; try discriminate. cbn [de_field]. destruct (String.eqb_spec s "width") as [->|]; [auto|].
  destruct (String.eqb s "digits"); discriminate.
Qed.
Lemma field_digits k : de_field k = DOk FDigits -> k = DStr "digits".
Proof.
  destruct k; try discriminate. cbn [de_field]. destruct (String.eqb s "width"); [discriminate|].
  destruct (String.eqb_spec s "digits") as [->|]; [auto|discriminate].
Qed.

Lemma visit_entries_inv es w ds : entries_ok es -> visit_entries es None None = DOk (Some w, Some ds) ->
  0 < w /\ exists more,
    es = [(DStr "width", DSeq (DU64 w :: more)); (DStr "digits", doc_digits ds)] \/
    es = [(DStr "digits", doc_digits ds); (DStr "width", DSeq (DU64 w :: more))].
Proof.
  intros Hok H. destruct es as [|[k v] r]; [discriminate H|]. apply Forall_cons_iff in Hok as [[_ Hv] Hr].
  cbn [fst snd] in Hv. cbn [visit_entries] in H. destruct (de_field k) as [[|]|] eqn:Ek; [| |discriminate H].
  - apply field_width in Ek as ->. destruct (de_bitwidth true v) as [w'|] eqn:Ew; [|discriminate H].
    apply de_bitwidth_human in Ew as (Hw & more & ->); [|assumption].
    destruct r as [|[k2 v2] r]; [discriminate H|]. cbn [visit_entries] in H.
    destruct (de_field k2) as [[|]|] eqn:Ek2; [discriminate H| |discriminate H]. apply field_digits in Ek2 as ->.
    destruct (de_vec v2) as [ds'|] eqn:Ev; [|discriminate H]. apply de_vec_inv in Ev as ->.
    apply visit_full in H as (-> & H). injection H as -> ->. split; [assumption|]. exists more. now left.
  - apply field_digits in Ek as ->. destruct (de_vec v) as [ds'|] eqn:Ev; [|discriminate H].
    apply de_vec_inv in Ev as ->. destruct r as [|[k2 v2] r]; [discriminate H|].
    apply Forall_cons_iff in Hr as [[_ Hv2] _]. cbn [snd] in Hv2. cbn [visit_entries] in H.
    destruct (de_field k2) as [[|]|] eqn:Ek2; [|discriminate H|discriminate H]. apply field_width in Ek2 as ->.
    destruct (de_bitwidth true v2) as [w'|] eqn:Ew; [|discriminate H].
    apply de_bitwidth_human in Ew as (Hw & more & ->); [|assumption].
    apply visit_full in H as (-> & H). injection H as -> ->. split; [assumption|]. exists more. now right.
Qed.

Lemma data_ok_digits ds : data_ok (doc_digits ds) -> digs ds.
Proof.
  unfold doc_digits. cbn [data_ok]. induction ds as [|d t IH]; [constructor|]. cbn [map data_ok]. intros (H1 & H2).
  constructor; [unfold dok; rewrite B_pow; exact H1|now apply IH].
Qed.

Lemma required_eq w n : 0 < w -> (Nat.eqb (required_digits w) n = true <-> Z.of_nat n = (w + 63) / 64).
Proof.
  intros Hw. rewrite Nat.eqb_eq. unfold required_digits.
  replace (w + 63) with (w - 1 + 1 * 64) by lia. rewrite Z.div_add by lia.
  assert (0 <= (w - 1) / 64) by (apply Z.div_pos; lia). lia.
Qed.

Lemma build_spec w ds : 0 < w -> Z.of_nat (List.length ds) = (w + 63) / 64 -> digs ds ->
  exists c, build w ds = Val (DOk c) /\ is_apint c w (uval ds mod 2 ^ w).
Proof.
  intros Hw Hl Hd. assert (Hne : ds <> []).
  { intros ->. cbn [List.length] in Hl. assert (1 <= (w + 63) / 64) by (apply Z.div_le_lower_bound; lia). lia. }
  destruct (from_iter_is ds Hne Hd) as (a & Ea & Wa & La & Ua). unfold build.
  destruct (from_iter ds) as [r| |]; [|discriminate Ea|discriminate Ea]. cbn [bind] in Ea |- *. rewrite Ea. cbn [bind].
  destruct (truncate_fact a w) as (c & _ & Ec & Hc); [assumption| |].
  { rewrite La, Hl. pose proof (Z.div_mod (w + 63) 64 ltac:(lia)).
    pose proof (Z.mod_pos_bound (w + 63) 64 ltac:(lia)). lia. }
  rewrite Ec. cbn [bind unwrap]. exists c. split; [reflexivity|]. now rewrite <- Ua.
Qed.

Lemma human_fact d : data_ok d ->
  (exists w ds c, human_document d w ds /\ de_apint true d = Val (DOk c) /\ is_apint c w (uval ds mod 2 ^ w)) \/
  ((forall w ds, ~ human_document d w ds) /\ exists e, de_apint true d = Val (DErr e)).
Proof.
  intros Hok. unfold de_apint, visit_human.
  assert (Hn : forall es e, visit_entries es None None = DErr e -> forall w ds, ~ human_document (DMap es) w ds).
  { intros es e H w ds (Hw & _ & more & [E|E]); injection E as ->; cbn [visit_entries de_field] in H;
    rewrite (de_elements_map ds : de_vec (doc_digits ds) = DOk ds) in H; unfold de_bitwidth in H; cbn [de_u64] in H;
    rewrite try_new_ok in H by assumption; discriminate H. }
  assert (Hc : forall es w' ds', visit_entries es None None = DOk (w', ds') ->
    forall w ds, human_document (DMap es) w ds -> w' = Some w /\ ds' = Some ds).
  { intros es w' ds' H w ds (Hw & _ & more & [E|E]); injection E as ->; cbn [visit_entries de_field] in H;
    rewrite (de_elements_map ds : de_vec (doc_digits ds) = DOk ds) in H; unfold de_bitwidth in H; cbn [de_u64] in H;
    rewrite try_new_ok in H by assumption; injection H as <- <-; auto. }
  destruct d as [| | |es| |]; try (right; split; [intros w ds (_ & _ & m & [E|E]); discriminate E|eexists; reflexivity]).
  pose proof (data_ok_map es Hok) as Hes. specialize (Hn es). specialize (Hc es).
  destruct (visit_entries es None None) as [[w' ds']|e] eqn:E; cbn [de_bind].
  2:{ right. split; [now apply (Hn e)|eexists; reflexivity]. }
  specialize (Hc _ _ eq_refl).
  destruct w' as [w|]; [|right; split; [|eexists; reflexivity]; intros w ds Hd; apply Hc in Hd as (Hd & _); discriminate Hd].
  destruct ds' as [ds|]; [|right; split; [|eexists; reflexivity]; intros w' ds Hd; apply Hc in Hd as (_ & Hd); discriminate Hd].
  apply visit_entries_inv in E as (Hw & more & Hm); [|assumption].
  destruct (Nat.eqb (required_digits w) (List.length ds)) eqn:Er.
  - left. apply required_eq in Er; [|assumption].
    assert (Hds : digs ds).
    { apply data_ok_digits. destruct Hm as [-> | ->]; cbn [data_ok] in Hok; intuition. }
    destruct (build_spec w ds Hw Er Hds) as (c & Eb & Hcc). exists w, ds, c.
    split; [|split; [exact Eb|exact Hcc]]. split; [assumption|]. split; [assumption|]. exists more.
    destruct Hm as [-> | ->]; auto.
  - right. split; [|eexists; reflexivity]. intros w2 ds2 Hd. pose proof Hd as (H2 & Hl & _).
    apply Hc in Hd as (Ha & Hb). injection Ha as ->. injection Hb as ->. apply required_eq in Hl; [|assumption]. congruence.
Qed.

Lemma compact_fact d : data_ok d ->
  (exists w ds c, compact_document d w ds /\ de_apint false d = Val (DOk c) /\ is_apint c w (uval ds mod 2 ^ w)) \/
  ((forall w ds, ~ compact_document d w ds) /\ d <> DSeq [] /\ exists e, de_apint false d = Val (DErr e)) \/
  (d = DSeq [] /\ de_apint false d = Panic).
Proof.
  intros Hok. unfold de_apint, visit_compact.
  destruct d as [| |l| | |];
    try (right; left; split; [intros w ds (_ & _ & m & E); discriminate E|split; [discriminate|eexists; reflexivity]]).
  destruct l as [|e rest]; [right; right; auto|]. cbn [data_ok] in Hok. destruct Hok as (He & Hrest).
  destruct (de_bitwidth false e) as [w|er] eqn:Ew; cbn [de_bind].
  2:{ right. left. split; [|split; [discriminate|eexists; reflexivity]]. intros w ds (Hw & _ & m & E).
      injection E as -> _. unfold de_bitwidth in Ew. rewrite try_new_ok in Ew by assumption. discriminate Ew. }
  apply de_bitwidth_compact in Ew as (Hw & ->); [|assumption].
  destruct rest as [|e2 rest].
  { right. left. split; [|split; [discriminate|eexists; reflexivity]]. intros w2 ds (_ & _ & m & E). discriminate E. }
  destruct (de_vec e2) as [ds|er] eqn:Ev; cbn [de_bind].
  2:{ right. left. split; [|split; [discriminate|eexists; reflexivity]]. intros w2 ds (_ & _ & m & E).
      injection E as -> -> _. unfold doc_digits in Ev. cbn [de_vec] in Ev. rewrite de_elements_map in Ev. discriminate Ev. }
  apply de_vec_inv in Ev as ->.
  destruct (Nat.eqb (required_digits w) (List.length ds)) eqn:Er.
  - left. apply required_eq in Er; [|assumption]. destruct Hrest as (Hds & _). apply data_ok_digits in Hds.
    destruct (build_spec w ds Hw Er Hds) as (c & Eb & Hcc). exists w, ds, c.
    split; [|split; [exact Eb|exact Hcc]]. split; [assumption|]. split; [assumption|]. now exists rest.
  - right. left. split; [|split; [discriminate|eexists; reflexivity]]. intros w2 ds2 (H2 & Hl & m & E).
    injection E as -> E _. assert (ds = ds2).
    { apply (f_equal (fun l => de_elements l)) in E. rewrite !de_elements_map in E. now injection E. }
    subst ds2. apply required_eq in Hl; [|assumption]. congruence.
Qed.

Lemma compact_refuted : exists d, data_ok d /\ de_apint false d = Panic.
Proof. exists (DSeq []). split; [exact I|reflexivity]. Qed.

Lemma map_present ds : map present (map ser_digit ds) = map DU64 ds.
Proof. rewrite map_map. reflexivity. Qed.

Lemma serde_round_trip a : wf a -> len a < 2 ^ 64 -> forall human,
  de_apint human (present (ser_apint human a)) = Val (DOk a).
Proof.
  intros H Hb human. pose proof (wf_sh a H) as Sh. pose proof Sh as (_ & _ & Hd).
  pose proof H as (Hp & Hl & _).
  assert (Em : len a mod B = len a) by (rewrite B_pow; apply Z.mod_small; lia).
  destruct (build_spec (len a) (digits a) Hp Hl Hd) as (c & Eb & Hc).
  assert (c = a).
  { apply (is_apint_unique _ _ _ _ Hc). unfold is_apint. rewrite Z.mod_small by (now apply (unsigned_bound a)). auto. }
  subst c.
  assert (Er : Nat.eqb (required_digits (len a)) (List.length (digits a)) = true) by (now apply required_eq).
  destruct human.
  - unfold ser_apint, ser_bitwidth, as_digit_slice. cbn [present map fst snd]. rewrite Em, map_present.
    unfold de_apint, visit_human. cbn [visit_entries].
    change (de_field (DStr "width")) with (@DOk field FWidth). change (de_field (DStr "digits")) with (@DOk field FDigits).
    cbn iota. unfold de_bitwidth. cbn [de_u64 de_vec]. rewrite try_new_ok by assumption.
    rewrite de_elements_map. cbn [de_bind]. rewrite Er. exact Eb.
  - unfold ser_apint, ser_bitwidth, as_digit_slice. cbn [present map fst snd]. rewrite Em, map_present.
    unfold de_apint, visit_compact, de_bitwidth. rewrite try_new_ok by assumption. cbn [de_bind de_vec].
    rewrite de_elements_map. cbn [de_bind]. rewrite Er. exact Eb.
Qed.

(** The errors for incomplete and inconsistent documents. *)
Lemma serde_errors w ds more rest s v : 0 < w < 2 ^ 64 -> Forall digit_ok ds ->
  s <> "width"%string -> s <> "digits"%string ->
  let W := (DStr "width", DSeq (DU64 w :: more)) in let D := (DStr "digits", doc_digits ds) in
  de_apint true (DMap []) = Val (DErr (EMissingField "width")) /\
  de_apint true (DMap [D]) = Val (DErr (EMissingField "width")) /\
  de_apint true (DMap [W]) = Val (DErr (EMissingField "digits")) /\
  de_apint true (DMap (W :: (DStr "width", v) :: rest)) = Val (DErr (EDuplicateField "width")) /\
  de_apint true (DMap (W :: D :: (DStr "width", v) :: rest)) = Val (DErr (EDuplicateField "width")) /\
  de_apint true (DMap (D :: (DStr "digits", v) :: rest)) = Val (DErr (EDuplicateField "digits")) /\
  de_apint true (DMap ((DStr s, v) :: rest)) = Val (DErr (EUnknownField s)) /\
  de_apint true (DMap ((DStr "width", DSeq (DU64 0 :: more)) :: rest)) = Val (DErr EInvalidValue) /\
  (Z.of_nat (List.length ds) <> (w + 63) / 64 -> de_apint true (DMap [W; D]) = Val (DErr EInvalidValue)) /\
  (Z.of_nat (List.length ds) <> (w + 63) / 64 ->
    de_apint false (DSeq (DU64 w :: doc_digits ds :: more)) = Val (DErr EInvalidValue)) /\
  de_apint false (DSeq (DU64 0 :: more)) = Val (DErr EInvalidValue) /\
  de_apint false (DSeq [DU64 w]) = Val (DErr (EInvalidLength 1)) /\
  de_apint true (DMap ((DStr "width", DSeq []) :: rest)) = Val (DErr (EInvalidLength 0)) /\
  de_apint true (DMap ((DStr "width", DU64 w) :: rest)) = Val (DErr EInvalidType) /\
  de_apint true (DMap ((DStr "digits", DU64 w) :: rest)) = Val (DErr EInvalidType) /\
  de_apint false (DSeq (DSeq [DU64 w] :: more)) = Val (DErr EInvalidType) /\
  de_apint false (DSeq [DU64 w; DU64 w]) = Val (DErr EInvalidType).
Proof.
  intros Hw Hds Hs1 Hs2 W D.
  assert (EW : de_bitwidth true (DSeq (DU64 w :: more)) = DOk w).
  { unfold de_bitwidth. cbn [de_u64]. now rewrite try_new_ok by lia. }
  assert (ED : de_vec (doc_digits ds) = DOk ds) by apply de_elements_map.
  assert (FW : de_field (DStr "width") = DOk FWidth) by reflexivity.
  assert (FD : de_field (DStr "digits") = DOk FDigits) by reflexivity.
  assert (FS : de_field (DStr s) = DErr (EUnknownField s)).
  { cbn [de_field]. destruct (String.eqb_spec s "width"); [contradiction|].
    destruct (String.eqb_spec s "digits"); [contradiction|reflexivity]. }
  unfold de_apint, visit_human, W, D.
  repeat split; cbn [visit_entries]; rewrite ?FW, ?FD, ?FS, ?EW, ?ED; cbn [visit_entries];
    rewrite ?FW, ?FD, ?FS, ?EW, ?ED; cbn [visit_entries]; rewrite ?FW, ?FD, ?FS, ?EW, ?ED; try reflexivity.
  - intros Hn. cbn [de_bind]. destruct (Nat.eqb _ _) eqn:Er; [|reflexivity]. apply required_eq in Er; [contradiction|lia].
  - intros Hn. unfold visit_compact, de_bitwidth. rewrite try_new_ok by lia. cbn [de_bind]. rewrite ED. cbn [de_bind].
    destruct (Nat.eqb _ _) eqn:Er; [|reflexivity]. apply required_eq in Er; [contradiction|lia].
  - unfold visit_compact, de_bitwidth. rewrite try_new_ok by lia. reflexivity.
  - unfold visit_compact, de_bitwidth. rewrite try_new_ok by lia. reflexivity.
Qed.
