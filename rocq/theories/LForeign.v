(** Generators that panic and documents of any content. *)
From Coq Require Import Permutation.
From Verif Require Export LUnwind LSerde LRand MForeign.
Open Scope list_scope.
Open Scope Z_scope.

Lemma f_draw_spec {S : Type} (next : S -> drawn S) : generator_ok next -> forall n s,
  exists ds s', f_draw next n s = (ds, s', Nat.eqb (length ds) n) /\ pull next n s = (uval ds, length ds, s') /\ digs ds /\ (length ds <= n)%nat.
Proof.
  intros Hn. induction n as [|n IH]; intros s; cbn [f_draw pull].
  - exists [], s. rewrite uval_nil. split; [reflexivity|]. split; [reflexivity|]. split; [constructor|auto].
  - destruct (next s) as [d s1|s1] eqn:E.
    + destruct (IH s1) as (ds & s2 & -> & -> & Hd & Hl). exists (d :: ds), s2. cbn [length uval Nat.eqb]. split; [reflexivity|].
      split; [reflexivity|]. split; [constructor; [|exact Hd]|lia]. unfold dok. rewrite B_pow. exact (Hn s d s1 E).
    + exists [], s1. rewrite uval_nil. split; [reflexivity|]. split; [reflexivity|]. split; [constructor|cbn; lia].
Qed.

Lemma count_required w : 0 < w -> word_count w = required_digits w.
Proof. intros H. pose proof (required_digits_Z w H). unfold word_count. lia. Qed.

(** * Building an integer from digits *)
Definition pure_build (w : Z) (ds : list Z) : outcome apint :=
  let! a := (let! r := from_iter ds in unwrap r) in let! r := into_truncate a w in unwrap r.
Lemma pure_build_spec w ds : 0 < w -> length ds = required_digits w -> digs ds ->
  exists c, pure_build w ds = Val c /\ is_apint c w (uval ds mod 2 ^ w).
Proof.
  intros Hw Hl Hd. destruct (build_spec w ds Hw) as (c & E & Hc); [rewrite Hl; now apply required_digits_Z|exact Hd|].
  exists c. split; [|exact Hc]. unfold build in E. unfold pure_build.
  destruct (from_iter ds) as [r| |]; cbn [bind] in *; try discriminate E.
  destruct (unwrap r) as [a| |]; cbn [bind] in *; try discriminate E.
  destruct (into_truncate a w) as [r'| |]; cbn [bind] in *; try discriminate E.
  destruct (unwrap r') as [c'| |]; cbn [bind] in *; try discriminate E. congruence.
Qed.
Lemma ref_pure_build w ds : 0 < w ->
  refines (let* a := h_unwrap (h_from_iter ds) in h_unwrap (h_forward (h_truncate a w))) [] (pure_build w ds) repr.
Proof.
  intros Hw. unfold pure_build. eapply ref_bind; [exact (ref_unwrap0 _ _ _ (ref_from_iter ds))|]. intros a x L _ Ha.
  apply ref_unwrap0, ref_into_truncate; auto.
Qed.
Lemma safe_assoc {A B C} (h : HM A) (k : A -> HM B) (l : B -> HM C) post : forall L,
  safe (hbind (hbind h k) l) L post -> safe (hbind h (fun a => hbind (k a) l)) L post.
Proof.
  induction h as [a| | | |ds k' IH|p n k' IH|p n k' IH|p new k' IH|n k' IH]; intros L H; cbn [hbind safe] in *; auto.
  - destruct H as (Hd & H). auto.
  - destruct H as (ds & L1 & P1 & E & H). exists ds, L1. auto.
  - destruct H as (b & ds & K & E & H). exists b, ds. auto.
  - destruct H as (ds & L1 & P1 & E & H). exists ds, L1. auto.
Qed.
Lemma ref_hassoc {A B C D} (h : HM A) (k : A -> HM B) (l : B -> HM C) L (f : outcome D) Q :
  refines (hbind (hbind h k) l) L f Q -> refines (hbind h (fun a => hbind (k a) l)) L f Q.
Proof. intros H F. apply safe_assoc. exact (H F). Qed.

Lemma ref_built {A B} w ds (k : hapint -> HM A) (f : outcome B) Q : 0 < w -> length ds = required_digits w -> digs ds ->
  (forall a c L, repr a c L -> is_apint c w (uval ds mod 2 ^ w) -> refines (k a) L f Q) ->
  refines (let* a := h_unwrap (h_from_iter ds) in let* c := h_unwrap (h_forward (h_truncate a w)) in k c) [] f Q.
Proof.
  intros Hw Hl Hd K. destruct (pure_build_spec w ds Hw Hl Hd) as (c & E & Hc). apply ref_hassoc.
  pose proof (ref_pure_build w ds Hw) as R. rewrite E in R. eapply ref_step; [exact R|]. intros a L Ha. exact (K a c L Ha Hc).
Qed.

(** * Random generation *)
Lemma ref_abandon n ds L : (length ds <= n)%nat -> refines (h_abandon n ds) L (Val tt) (fun _ _ L' => L' = L).
Proof.
  intros Hl. unfold h_abandon. destruct (Nat.leb_spec n 1) as [|Hn]; [now apply ref_ret|].
  eapply ref_step; [apply ref_slack|]. intros e L' ->.
  assert (Hd : ds ++ repeat 0 (n - length ds + e) <> []).
  { intros K. apply (f_equal (@length Z)) in K. rewrite app_length, repeat_length in K. cbn in K. lia. }
  eapply ref_step; [apply (ref_malloc _ _ Hd)|]. intros p L' ->.
  apply ref_free. rewrite app_length, repeat_length. lia.
Qed.

Definition orepr {S : Type} (w v : Z) (p : option hapint * S) (q : bool * S) (L : list cell) : Prop :=
  snd p = snd q /\
  match fst p, fst q with
  | Some a, true => exists c, repr a c L /\ rel c (w, v mod 2 ^ w)
  | None, false => L = []
  | _, _ => False
  end.
Lemma ref_random {S : Type} (next : S -> drawn S) w s : generator_ok next -> 0 < w ->
  let '(v, k, s') := pull next (word_count w) s in
  refines (h_random next w s) [] (Val (Nat.eqb k (word_count w), s')) (orepr w v).
Proof.
  intros Hn Hw. rewrite (count_required w Hw). pose proof (required_digits_pos w Hw) as Hp.
  destruct (f_draw_spec next Hn (required_digits w) s) as (ds & s' & E1 & E2 & Hd & Hl). rewrite E2.
  unfold h_random. cbv zeta. rewrite E1. destruct (Nat.leb_spec 1 (required_digits w)); [|lia].
  destruct (Nat.eqb_spec (length ds) (required_digits w)) as [E|E].
  - apply ref_built; auto. intros a c L Ha Hc. apply ref_ret. split; [reflexivity|]. exists c. split; [exact Ha|exact Hc].
  - eapply ref_step; [now apply ref_abandon|]. intros _ L' ->. apply ref_ret. split; reflexivity.
Qed.

Lemma low_words u v k w : 0 <= u < 2 ^ w -> 0 <= v < 2 ^ (64 * Z.of_nat k) -> 64 * Z.of_nat k <= w ->
  0 <= v + 2 ^ (64 * Z.of_nat k) * (u / 2 ^ (64 * Z.of_nat k)) < 2 ^ w.
Proof.
  intros Hu Hv Hk. set (m := 64 * Z.of_nat k) in *. assert (0 <= m) by (unfold m; lia).
  assert (Hm : 0 < 2 ^ m) by (apply Z.pow_pos_nonneg; lia).
  assert (E : 2 ^ w = 2 ^ m * 2 ^ (w - m)) by (rewrite <- Z.pow_add_r by lia; f_equal; lia).
  assert (u / 2 ^ m < 2 ^ (w - m)) by (apply Z.div_lt_upper_bound; lia).
  assert (0 <= u / 2 ^ m) by (apply Z.div_pos; lia). nia.
Qed.

Lemma ref_randomize {S : Type} (next : S -> drawn S) a x L s w u : generator_ok next -> repr a x L -> rel x (w, u) ->
  let '(v, k, s') := pull next (word_count w) s in
  refines (h_randomize next a s) L (Val (s', Nat.eqb k (word_count w)))
    (fun p q L' => snd p = q /\ exists c, repr (fst p) c L' /\
       rel c (w, if Nat.eqb k (word_count w) then v mod 2 ^ w
                 else v + 2 ^ (64 * Z.of_nat k) * (u / 2 ^ (64 * Z.of_nat k)))).
Proof.
  intros Hn Ha Hx. pose proof Hx as (Hwf & Hlen & Hu). cbn [fst snd] in *. pose proof (wf_sh x Hwf) as (Hw & Hl & Hds).
  rewrite <- Hlen, (count_required (len x) Hw), <- Hl.
  destruct (f_draw_spec next Hn (length (digits x)) s) as (ds & s' & E1 & E2 & Hd & Hle). rewrite E2.
  unfold h_randomize. eapply ref_step; [exact (ref_slice _ a x L Ha)|]. intros es L' [-> ->]. rewrite E1.
  assert (Hlen' : length (ds ++ skipn (length ds) (digits x)) = length (digits x)) by (rewrite app_length, skipn_length; lia).
  eapply ref_step; [exact (ref_write a x L _ Ha Hlen')|]. intros a' L' Ha'.
  assert (Hdd : digs (ds ++ skipn (length ds) (digits x))).
  { apply Forall_app. split; [exact Hd|]. now apply digs_skipn. }
  destruct (Nat.eqb_spec (length ds) (length (digits x))) as [E|E].
  - rewrite E, skipn_all, app_nil_r in *.
    destruct (clear_unused_bits_spec (mk_apint (len x) ds)) as (c & Ec & Hc); [apply shape_mk; [exact Hw|lia|exact Hd]|].
    pose proof (ref_modify_unit clear_unused_bits a' _ L' Ha' (clear_size _)) as R. rewrite Ec in R.
    eapply ref_step; [exact R|]. intros [b t] L1 Hb. cbn [fst] in Hb. apply ref_ret. split; [reflexivity|]. exists c. split; [exact Hb|exact Hc].
  - apply ref_ret. split; [reflexivity|]. cbn [fst]. exists (mk_apint (len x) (ds ++ skipn (length ds) (digits x))). split; [exact Ha'|].
    assert (Hv : uval (ds ++ skipn (length ds) (digits x)) =
      uval ds + 2 ^ (64 * Z.of_nat (length ds)) * (u / 2 ^ (64 * Z.of_nat (length ds)))).
    { rewrite uval_app, uval_skipn_div by (auto; lia). unfold unsigned in Hu. rewrite Hu, P_pow. reflexivity. }
    unfold rel, is_apint. cbn [fst snd len]. unfold unsigned. cbn [digits]. rewrite Hv. split; [|auto].
    apply wf_shape. cbn [len digits]. split; [apply shape_mk; [exact Hw|congruence|exact Hdd]|]. rewrite Hv.
    apply low_words; [pose proof (unsigned_bound x Hwf); lia|pose proof (uval_bound ds Hd) as Hb; rewrite P_pow in Hb; exact Hb|].
    pose proof (required_digits_Z (len x) Hw) as Hz. pose proof (Z.div_mod (len x + 63) 64 ltac:(lia)).
    pose proof (Z.mod_pos_bound (len x + 63) 64 ltac:(lia)). lia.
Qed.

(** * Documents *)
Lemma words_digits ds : digs ds -> words (length ds) (uval ds) = ds.
Proof.
  intros H. unfold words. induction H as [|d r Hd Hr IH]; [reflexivity|]. cbn [length seq map]. f_equal.
  - rewrite uval_cons. cbn. rewrite Z.div_1_r. unfold dok in Hd. rewrite <- B_pow. rewrite Z.mul_comm, Z_mod_plus_full.
    apply Z.mod_small. lia.
  - rewrite <- IH at 2. rewrite <- seq_shift, map_map. apply map_ext. intros i. f_equal.
    replace (64 * Z.of_nat (Datatypes.S i)) with (64 + 64 * Z.of_nat i) by lia. rewrite Z.pow_add_r by lia.
    rewrite <- Z.div_div; [|lia|apply Z.pow_pos_nonneg; lia]. f_equal. rewrite uval_cons, <- B_pow. unfold dok in Hd.
    rewrite Z.mul_comm, Z.div_add by lia. rewrite Z.div_small; lia.
Qed.
Lemma ser_document human x v : rel x v -> ser_apint human x = document human v.
Proof.
  intros (Hwf & Hlen & Hu). destruct v as [w u]. cbn [fst snd] in *. pose proof (wf_sh x Hwf) as (Hw & Hl & Hds).
  assert (E : words (word_count w) u = digits x).
  { rewrite <- Hlen, (count_required _ Hw), <- Hl, <- Hu. now apply words_digits. }
  unfold ser_apint, document, ser_bitwidth, as_digit_slice. rewrite E, <- B_pow, Hlen. destruct human; reflexivity.
Qed.

Lemma numbers_spec l ds : numbers l = Some ds <-> l = map DU64 ds.
Proof.
  revert ds. induction l as [|d l IH]; intros ds; cbn [numbers].
  - destruct ds; split; intros E; try reflexivity; discriminate.
  - destruct d; try (split; [discriminate|destruct ds; discriminate]).
    destruct (numbers l) as [es|] eqn:E; cbn [option_map].
    + pose proof (proj1 (IH es) eq_refl) as ->. split.
      * intros K. injection K as <-. reflexivity.
      * destruct ds as [|d ds]; [discriminate|]. cbn [map]. intros K. injection K as -> K. f_equal. f_equal.
        apply (f_equal de_elements) in K. rewrite !de_elements_map in K. congruence.
    + split; [discriminate|]. destruct ds as [|d ds]; [discriminate|]. cbn [map]. intros K. injection K as _ K.
      apply IH in K. discriminate.
Qed.
Lemma width_and_digits_spec W D v : width_and_digits W D = Some v <->
  exists w ds, W = Some (DU64 w) /\ D = doc_digits ds /\ 0 < w /\ Z.of_nat (length ds) = (w + 63) / 64 /\ v = (w, uval ds mod 2 ^ w).
Proof.
  split.
  - unfold width_and_digits. destruct W as [[w| | | | |]|]; try discriminate. destruct D as [| |l| | |]; try discriminate.
    destruct (numbers l) as [ds|] eqn:E; [|discriminate]. apply numbers_spec in E as ->.
    destruct ((0 <? w) && _) eqn:F; [|discriminate]. apply andb_true_iff in F as (F1 & F2). intros K. injection K as <-.
    exists w, ds. split; [reflexivity|]. split; [reflexivity|]. split; [lia|]. split; [lia|reflexivity].
  - intros (w & ds & -> & -> & Hw & Hl & ->). unfold width_and_digits, doc_digits.
    rewrite (proj2 (numbers_spec (map DU64 ds) ds) eq_refl). destruct (Z.ltb_spec 0 w); [|lia]. rewrite (proj2 (Z.eqb_eq _ _) Hl). reflexivity.
Qed.
Lemma wrapped_spec x d : wrapped x = Some d <-> exists more, x = DSeq (d :: more).
Proof.
  unfold wrapped. split.
  - destruct x as [| |[|y l]| | |]; try discriminate. intros K. injection K as ->. eauto.
  - intros (more & ->). reflexivity.
Qed.
Lemma loaded_human d v : loaded true d = Some v <-> exists w ds, human_document d w ds /\ v = (w, uval ds mod 2 ^ w).
Proof.
  split.
  - unfold loaded. destruct d as [| | |es| |]; try discriminate. destruct es as [|[k1 x] [|[k2 y] [|? ?]]]; try (destruct k1; discriminate); try discriminate.
    2:{ destruct k1; try discriminate; destruct k2; discriminate. }
    destruct k1 as [|a| | | |]; try discriminate. destruct k2 as [|b| | | |]; try discriminate.
    destruct (String.eqb a "width" && String.eqb b "digits") eqn:E1.
    + apply andb_true_iff in E1 as (Ea & Eb). apply String.eqb_eq in Ea as ->, Eb as ->. intros K.
      apply width_and_digits_spec in K as (w & ds & Kw & -> & Hw & Hl & ->). apply wrapped_spec in Kw as (more & ->).
      exists w, ds. split; [|reflexivity]. split; [exact Hw|]. split; [exact Hl|]. exists more. now left.
    + destruct (String.eqb a "digits" && String.eqb b "width") eqn:E2; [|discriminate].
      apply andb_true_iff in E2 as (Ea & Eb). apply String.eqb_eq in Ea as ->, Eb as ->. intros K.
      apply width_and_digits_spec in K as (w & ds & Kw & -> & Hw & Hl & ->). apply wrapped_spec in Kw as (more & ->).
      exists w, ds. split; [|reflexivity]. split; [exact Hw|]. split; [exact Hl|]. exists more. now right.
  - intros (w & ds & (Hw & Hl & more & [-> | ->]) & ->); cbn [loaded]; apply width_and_digits_spec; exists w, ds; auto.
Qed.
Lemma loaded_compact d v : loaded false d = Some v <-> exists w ds, compact_document d w ds /\ v = (w, uval ds mod 2 ^ w).
Proof.
  split.
  - unfold loaded. destruct d as [| |l| | |]; try discriminate. destruct l as [|x [|y more]]; try discriminate. intros K.
    apply width_and_digits_spec in K as (w & ds & Kw & -> & Hw & Hl & ->). injection Kw as ->.
    exists w, ds. split; [|reflexivity]. split; [exact Hw|]. split; [exact Hl|]. now exists more.
  - intros (w & ds & (Hw & Hl & more & ->) & ->). cbn [loaded]. apply width_and_digits_spec. exists w, ds. auto.
Qed.

Lemma build_not_error w ds e : build w ds <> Val (DErr e).
Proof.
  unfold build. repeat match goal with |- context [bind ?m _] => destruct m; cbn [bind]; try discriminate end.
Qed.
Definition loads (v : aval) (p : option (de_result hapint)) (_ : unit) (L : list cell) : Prop :=
  exists a c, p = Some (DOk a) /\ repr a c L /\ rel c v.
Lemma document_digits human d w ds : data_ok d -> (if human : bool then human_document d w ds else compact_document d w ds) ->
  0 < w /\ List.length ds = required_digits w /\ digs ds.
Proof.
  intros Hok Hd. destruct human; destruct Hd as (Hw & Hl & more & Hd); (split; [exact Hw|]).
  - split; [symmetry; apply Nat.eqb_eq; now apply required_eq|]. apply data_ok_digits.
    destruct Hd as [-> | ->]; cbn [data_ok] in Hok; intuition.
  - split; [symmetry; apply Nat.eqb_eq; now apply required_eq|]. apply data_ok_digits. subst d. cbn [data_ok] in Hok; intuition.
Qed.
Lemma ref_h_build w ds : 0 < w -> List.length ds = required_digits w -> digs ds ->
  refines (h_build w ds) [] (Val tt) (fun p _ L => exists a c, p = DOk a /\ repr a c L /\ rel c (w, uval ds mod 2 ^ w)).
Proof. intros Hw Hl Hds. apply ref_built; auto. intros a c L Ha Hc. apply ref_ret. exists a, c. auto. Qed.
Lemma ref_human d : data_ok d ->
  match loaded true d with
  | Some v => refines (h_de_apint true d) [] (Val tt) (loads v)
  | None => refines (h_de_apint true d) [] (Val tt) (fun p _ L => (exists e, p = Some (DErr e)) /\ L = [])
  end.
Proof.
  intros Hok. destruct (human_fact d Hok) as [(w & ds & c & Hd & E & Hc)|(N & e & E)].
  - rewrite (proj2 (loaded_human d (w, uval ds mod 2 ^ w))) by eauto. unfold h_de_apint.
    destruct (document_digits true d w ds Hok Hd) as (Hw & Hl & Hds).
    assert (V : exists es, d = DMap es /\ visit_entries es None None = DOk (Some w, Some ds)).
    { destruct Hd as (_ & _ & more & [-> | ->]); eexists; (split; [reflexivity|]); cbn [visit_entries de_field];
      rewrite (de_elements_map ds : de_vec (doc_digits ds) = DOk ds); unfold de_bitwidth; cbn [de_u64];
      rewrite try_new_ok by assumption; reflexivity. }
    destruct V as (es & -> & V). unfold h_visit_human. rewrite V, Hl, Nat.eqb_refl. eapply ref_step; [exact (ref_h_build w ds Hw Hl Hds)|].
    intros r L (a & c' & -> & Ha & Hc'). apply ref_ret. exists a, c'. auto.
  - destruct (loaded true d) as [[w v]|] eqn:El.
    { apply loaded_human in El as (w' & ds & K & _). exfalso. exact (N _ _ K). }
    unfold de_apint, visit_human in E. unfold h_de_apint, h_visit_human.
    assert (R : forall e, refines (let* r := hret (DErr e) in hret (Some r)) [] (Val tt) (fun (p : option (de_result hapint)) _ L => (exists e, p = Some (DErr e)) /\ L = [])).
    { intros e0. apply ref_ret. eauto. }
    destruct d as [| | |es| |]; try apply R.
    destruct (visit_entries es None None) as [[[w|] [ds|]]|]; try apply R. cbn [de_bind] in E.
    destruct (Nat.eqb (required_digits w) (List.length ds)); [|apply R]. exfalso. exact (build_not_error _ _ _ E).
Qed.
Lemma ref_compact d : data_ok d ->
  match loaded false d with
  | Some v => refines (h_de_apint false d) [] (Val tt) (loads v)
  | None => refines (h_de_apint false d) [] (Val tt)
      (fun p _ L => match d with DSeq [] => p = None | _ => exists e, p = Some (DErr e) end /\ L = [])
  end.
Proof.
  intros Hok. destruct (compact_fact d Hok) as [(w & ds & c & Hd & E & Hc)|[(N & Nn & e & E)|(-> & _)]].
  - rewrite (proj2 (loaded_compact d (w, uval ds mod 2 ^ w))) by eauto. unfold h_de_apint.
    destruct (document_digits false d w ds Hok Hd) as (Hw & Hl & Hds). destruct Hd as (_ & _ & more & ->).
    unfold h_visit_compact. unfold de_bitwidth. rewrite try_new_ok by assumption.
    rewrite (de_elements_map ds : de_vec (doc_digits ds) = DOk ds), Hl, Nat.eqb_refl. eapply ref_step; [exact (ref_h_build w ds Hw Hl Hds)|].
    intros r L (a & c' & -> & Ha & Hc'). apply ref_ret. exists a, c'. auto.
  - destruct (loaded false d) as [[w v]|] eqn:El.
    { apply loaded_compact in El as (w' & ds & K & _). exfalso. exact (N _ _ K). }
    unfold de_apint, visit_compact in E. unfold h_de_apint, h_visit_compact.
    assert (R : forall e, refines (hret (Some (DErr e))) [] (Val tt) (fun (p : option (de_result hapint)) (_ : unit) L => match d with DSeq [] => p = None | _ => exists e, p = Some (DErr e) end /\ L = [])).
    { intros e0. apply ref_ret. split; [|reflexivity]. destruct d as [| |[|? ?]| | |]; eauto. congruence. }
    destruct d as [| |[|x l]| | |]; try apply R; [congruence|].
    destruct (de_bitwidth false x) as [w|]; [|apply R]. destruct l as [|y l]; [apply R|]. cbn [de_bind] in E.
    destruct (de_vec y) as [ds|]; [|apply R]. cbn [de_bind] in E.
    destruct (Nat.eqb (required_digits w) (List.length ds)); [|apply R]. exfalso. exact (build_not_error _ _ _ E).
  - cbn [loaded h_de_apint h_visit_compact]. apply ref_ret. auto.
Qed.

(** * One call *)
Lemma sown_get hs cs L s x : Forall2 holds cs s -> sown all_owned hs cs L ->
  match nth_error hs x with
  | Some (Some a) => exists c v La Lr, nth_error cs x = Some (Some c) /\ nth_error s x = Some (Some v) /\ rel c v /\
      Permutation L (La ++ Lr) /\ repr a c La /\ sown all_owned (update x None hs) (update x None cs) Lr
  | _ => forall v, nth_error s x <> Some (Some v)
  end.
Proof.
  intros H So. pose proof (get_sim cs s x H) as G. destruct (nth_error hs x) as [[a|]|] eqn:Eh.
  - destruct (sown_take _ hs cs L x a So Eh) as (c & La & Lr & Ec & P & Ha & Hr). rewrite Ec in G.
    destruct (nth_error s x) as [[v|]|]; try tauto. exists c, v, La, Lr. auto 10.
  - intros v Ev. rewrite Ev in G. destruct So as (L' & _ & S'). pose proof (srepr_focus all_owned hs cs L' S' x) as F.
    rewrite Eh in F. destruct (nth_error cs x) as [[?|]|]; tauto.
  - intros v Ev. rewrite Ev in G. destruct So as (L' & _ & S'). pose proof (srepr_focus all_owned hs cs L' S' x) as F.
    rewrite Eh in F. destruct (nth_error cs x) as [[?|]|]; tauto.
Qed.
Lemma holds_append cs s c v : Forall2 holds cs s -> rel c v -> Forall2 holds (cs ++ [Some c]) (s ++ [Some v]).
Proof. intros H R. apply Forall2_app; [exact H|]. constructor; [now apply holds_rel|constructor]. Qed.
Lemma sown_put hs cs L x a c La : sown all_owned (update x None hs) (update x None cs) L ->
  (exists b, nth_error hs x = Some b) -> repr a c La -> sown all_owned (update x (Some a) hs) (update x (Some c) cs) (La ++ L).
Proof.
  intros So (b & E) Ha. rewrite <- (update_twice x (Some a) None hs), <- (update_twice x (Some c) None cs).
  apply (sown_fill all_owned _ _ L x a c La So); [|exact Ha]. exact (nth_update_same x None b hs E).
Qed.

Lemma foreign_step {S : Type} (next : S -> drawn S) hs cs L s g c : generator_ok next -> fcmd_ok c ->
  Forall2 holds cs s -> sown all_owned hs cs L ->
  refines (hstep_foreign next hs g c) L (Val (snd (astep_foreign next s g c))) (apost (fst (astep_foreign next s g c))).
Proof.
  intros Hn Hc H So. destruct c as [c|w|x|human x|human d]; cbn [hstep_foreign astep_foreign].
  - destruct (catch_step hs cs L s c Hc H So) as (cs1 & R1 & H1). destruct (acatch s c) as [s1 o1]. cbn [fst snd] in *.
    eapply ref_step; [exact R1|]. intros [hs1 o'] L1 (Eo & S1). cbn [fst snd] in *. subst o'. apply ref_ret.
    split; [reflexivity|]. exists cs1. auto.
  - cbn [fcmd_ok] in Hc. unfold bitwidth_new. destruct (Z.eqb_spec w 0) as [->|N].
    + apply ref_ret. split; [reflexivity|]. exists cs. auto.
    + pose proof (ref_random next w g Hn ltac:(lia)) as R. destruct (pull next (word_count w) g) as [[v k] g'].
      eapply ref_perm; [apply Permutation_refl|]. apply (ref_frame _ [] L) in R.
      eapply ref_step; [exact R|]. intros [r g2] L1 (L2 & -> & Eg & K). cbn [fst snd] in *. subst g2.
      destruct r as [a|], (Nat.eqb k (word_count w)); try tauto.
      * destruct K as (c & Ha & Hc'). apply ref_ret. split; [reflexivity|]. exists (cs ++ [Some c]). split; [now apply holds_append|].
        apply (sown_append all_owned hs cs L a c L2 So Ha).
      * subst L2. apply ref_ret. split; [reflexivity|]. exists cs. auto.
  - pose proof (sown_get hs cs L s x H So) as G. destruct (nth_error hs x) as [[a|]|] eqn:Eh.
    2,3: destruct (nth_error s x) as [[[w u]|]|]; [now destruct (G (w, u))| |]; apply ref_ret; split; [reflexivity|exists cs; auto|reflexivity|exists cs; auto].
    destruct G as (c & v & La & Lr & Ec & Es & Hr & P & Ha & Sr). rewrite Es. destruct v as [w u].
    pose proof (ref_randomize next a c La g w u Hn Ha Hr) as R. destruct (pull next (word_count w) g) as [[v k] g'].
    eapply ref_perm; [exact P|]. apply (ref_frame _ La Lr) in R.
    eapply ref_step; [exact R|]. intros [a' [g2 ok]] L1 (L2 & -> & Eg & c' & Ha' & Hc'). cbn [fst snd] in *. injection Eg as -> ->.
    apply ref_ret. destruct (Nat.eqb k (word_count w)).
    + split; [reflexivity|]. exists (update x (Some c') cs). split; [now apply holds_update|]. cbn [fst]. apply sown_put; eauto.
    + split; [reflexivity|]. exists (update x (Some c') cs). split; [now apply holds_update|]. cbn [fst]. apply sown_put; eauto.
  - pose proof (sown_get hs cs L s x H So) as G. destruct (nth_error hs x) as [[a|]|] eqn:Eh.
    2,3: destruct (nth_error s x) as [[[w u]|]|]; [now destruct (G (w, u))| |]; apply ref_ret; split; [reflexivity|exists cs; auto|reflexivity|exists cs; auto].
    destruct G as (c & v & La & Lr & Ec & Es & Hr & P & Ha & Sr). rewrite Es.
    pose proof (ref_ask (fun a => Val (ser_apint human a)) true a c La Ha) as R. cbv beta in R.
    eapply ref_perm; [exact P|]. apply (ref_frame _ La Lr) in R.
    eapply ref_step; [exact R|]. intros r L1 (L2 & -> & -> & ->). apply ref_ret. cbn [fst snd]. rewrite (ser_document human c v Hr).
    split; [reflexivity|]. exists cs. split; [exact H|]. cbn [fst]. destruct So as (L' & P' & S'). exists L'. split; [|exact S'].
    etransitivity; [symmetry; exact P|exact P'].
  - cbn [fcmd_ok] in Hc. destruct human.
    + pose proof (ref_human d Hc) as R. destruct (loaded true d) as [v|].
      * apply (ref_frame _ [] L) in R. eapply ref_step; [exact R|]. intros r L1 (L2 & -> & a & c & -> & Ha & Hr).
        apply ref_ret. split; [reflexivity|]. exists (cs ++ [Some c]). split; [now apply holds_append|].
        apply (sown_append all_owned hs cs L a c L2 So Ha).
      * apply (ref_frame _ [] L) in R. eapply ref_step; [exact R|]. intros r L1 (L2 & -> & (e & ->) & ->).
        apply ref_ret. split; [reflexivity|]. exists cs. auto.
    + pose proof (ref_compact d Hc) as R. destruct (loaded false d) as [v|].
      * apply (ref_frame _ [] L) in R. eapply ref_step; [exact R|]. intros r L1 (L2 & -> & a & c & -> & Ha & Hr).
        apply ref_ret. split; [reflexivity|]. exists (cs ++ [Some c]). split; [now apply holds_append|].
        apply (sown_append all_owned hs cs L a c L2 So Ha).
      * apply (ref_frame _ [] L) in R. eapply ref_step; [exact R|]. intros r L1 (L2 & -> & K & ->). apply ref_ret.
        destruct d as [| |[|? ?]| | |]; try destruct K as (e & ->); try subst r; (split; [reflexivity|]); exists cs; auto.
Qed.

Lemma foreign_run {S : Type} (next : S -> drawn S) p : generator_ok next -> Forall fcmd_ok p ->
  forall hs cs L s g, Forall2 holds cs s -> sown all_owned hs cs L ->
  refines (hrun_foreign next hs g p) L (Val (snd (arun_foreign next s g p))) (apost (fst (arun_foreign next s g p))).
Proof.
  intros Hn. induction 1 as [|c p Hc Hp IH]; intros hs cs L s g H So; cbn [hrun_foreign arun_foreign].
  - apply ref_ret. split; [reflexivity|]. exists cs. auto.
  - pose proof (foreign_step next hs cs L s g c Hn Hc H So) as R. destruct (astep_foreign next s g c) as [s1 [g1 o1]]. cbn [fst snd] in R.
    eapply ref_step; [exact R|]. intros [hs1 [g1' o']] L1 (Eo & cs1 & H1 & S1). cbn [fst snd] in *. injection Eo as -> ->.
    specialize (IH hs1 cs1 L1 s1 g1 H1 S1). destruct (arun_foreign next s1 g1 p) as [s2 [g2 os]]. cbn [fst snd] in *.
    eapply ref_step; [exact IH|]. intros [hs2 [g2' os']] L2 (Eo & K). cbn [fst snd] in *. injection Eo as -> ->. apply ref_ret. split; [reflexivity|exact K].
Qed.

Lemma foreign_fact {S : Type} (next : S -> drawn S) g p slack : generator_ok next -> Forall fcmd_ok p ->
  exists vs m cs, exec (hrun_foreign next [] g p) (empty_memory slack) = MVal (vs, snd (arun_foreign next [] g p)) m /\
    Forall2 holds cs (fst (arun_foreign next [] g p)) /\ Forall2 (stored m) vs cs /\ owned_once m vs.
Proof.
  intros Hn Hp. pose proof (foreign_run next p Hn Hp [] [] [] [] g ltac:(constructor) (sown_nil _)) as R.
  pose proof (ref_exec _ _ _ _ [] (empty_memory slack) R (live_empty slack)) as (r & m & L & E & K & Hm).
  destruct r as [vs os]. destruct K as (Eo & cs & Hcs & So). cbn [fst snd] in *. subst os. rewrite app_nil_r in Hm.
  exists vs, m, cs. split; [exact E|]. split; [exact Hcs|].
  exact (sown_order _ vs cs L m Hm So ltac:(now exists (fst (arun_foreign next [] g p)))).
Qed.

Lemma arun_foreign_app {S : Type} (next : S -> drawn S) p q : forall s g, arun_foreign next s g (p ++ q) =
  let '(s1, (g1, os)) := arun_foreign next s g p in let '(s2, (g2, os2)) := arun_foreign next s1 g1 q in (s2, (g2, os ++ os2)).
Proof.
  induction p as [|c p IH]; intros s g; cbn [app arun_foreign].
  - now destruct (arun_foreign next s g q) as [? [? ?]].
  - destruct (astep_foreign next s g c) as [s1 [g1 o]]. rewrite IH. destruct (arun_foreign next s1 g1 p) as [s2 [g2 os]].
    destruct (arun_foreign next s2 g2 q) as [? [? ?]]. reflexivity.
Qed.
Lemma arun_foreign_calls {S : Type} (next : S -> drawn S) p : forall s g, fst (arun_foreign next s g (map FCall p)) = fst (acatches s p).
Proof.
  induction p as [|c p IH]; intros s g; cbn [map arun_foreign acatches]; [reflexivity|]. cbn [astep_foreign].
  destruct (acatch s c) as [s1 o]. specialize (IH s1 g). destruct (arun_foreign next s1 g (map FCall p)) as [s2 [g2 os]].
  destruct (acatches s1 p). exact IH.
Qed.
Lemma foreign_no_leak_fact {S : Type} (next : S -> drawn S) g p slack : generator_ok next -> Forall fcmd_ok p ->
  exists vs r m,
    exec (hrun_foreign next [] g (p ++ map (fun i => FCall (Drop i)) (seq 0 (length (fst (arun_foreign next [] g p)))))) (empty_memory slack) = MVal (vs, r) m /\
    all_freed m.
Proof.
  intros Hn Hp. set (n := length (fst (arun_foreign next [] g p))). set (q := map (fun i => FCall (Drop i)) (seq 0 n)).
  assert (Hq : Forall fcmd_ok (p ++ q)).
  { apply Forall_app. split; [exact Hp|]. unfold q. clear. induction (seq 0 n); constructor; [exact Logic.I|exact IHl]. }
  assert (E : fst (arun_foreign next [] g (p ++ q)) = repeat None n).
  { rewrite arun_foreign_app. unfold n, q, n. destruct (arun_foreign next [] g p) as [s [g' os]]. cbn [fst].
    pose proof (acatches_drops s (length s) 0 ltac:(lia) ltac:(intros; lia)) as D.
    pose proof (arun_foreign_calls next (map Drop (seq 0 (length s))) s g') as F. rewrite map_map, D in F.
    destruct (arun_foreign next s g' (map (fun i => FCall (Drop i)) (seq 0 (length s)))) as [s2 [g2 os2]]. exact F. }
  destruct (foreign_fact next g (p ++ q) slack Hn Hq) as (vs & m & cs & X & Hc & S' & O). rewrite E in Hc.
  eexists. eexists. exists m. split; [exact X|]. intros b ds Hb. destruct (O b ds Hb) as (i & (a & Ei & _) & _).
  clear - S' Ei Hc. revert i Ei. remember (repeat (@None aval) n) as l eqn:El.
  assert (A : forall c, In c l -> c = None) by (intros c Hi; rewrite El in Hi; now apply repeat_spec in Hi). clear El.
  revert l A Hc. induction S' as [|v c vs cs Hv S' IH]; intros l A Hc [|i] Ei; cbn in Ei; try discriminate.
  - injection Ei as ->. inversion Hc as [|? z ? l' Hz Hl]; subst. rewrite (A z ltac:(now left)) in Hz. destruct c; [exact Hz|exact Hv].
  - inversion Hc as [|? z ? l' Hz Hl]; subst. apply (IH l' ltac:(intros; apply A; now right) Hl i Ei).
Qed.

(** Every integer that is left is canonical, whatever panicked. *)
Lemma foreign_canonical_fact {S : Type} (next : S -> drawn S) g p slack vs r m i v : generator_ok next -> Forall fcmd_ok p ->
  exec (hrun_foreign next [] g p) (empty_memory slack) = MVal (vs, r) m -> nth_error vs i = Some (Some v) ->
  exists x, stored m (Some v) (Some x) /\ wf x.
Proof.
  intros Hn Hp E Ei. destruct (foreign_fact next g p slack Hn Hp) as (vs' & m' & cs & X & Hc & S' & _). rewrite E in X. injection X as <- _ <-.
  pose proof (forall2_get _ _ _ i S') as G. rewrite Ei in G. pose proof (get_sim cs _ i Hc) as K.
  destruct (nth_error cs i) as [[x|]|]; [|destruct G|destruct G]. exists x. split; [exact G|].
  destruct (nth_error (fst (arun_foreign next [] g p)) i) as [[a|]|]; try tauto. exact (proj1 K).
Qed.

(** A generator that panics in [randomize_using]: nothing but the integer that is refilled changes, and of that
    integer nothing but the words that came. *)
Lemma interrupted_fact {S : Type} (next : S -> drawn S) g p slack vs g1 os m x vs' g2 m' i v a : generator_ok next -> Forall fcmd_ok p ->
  exec (hrun_foreign next [] g p) (empty_memory slack) = MVal (vs, (g1, os)) m ->
  exec (hrun_foreign next [] g (p ++ [FRandomize x])) (empty_memory slack) = MVal (vs', (g2, os ++ [FPanicked])) m' ->
  nth_error vs i = Some v -> stored m v (Some a) ->
  exists v' b, nth_error vs' i = Some v' /\ stored m' v' (Some b) /\
    (i <> x -> b = a) /\
    (i = x -> exists u k, pull next (word_count (len a)) g1 = (u, k, g2) /\ (k < word_count (len a))%nat /\
       is_apint b (len a) (u + 2 ^ (64 * Z.of_nat k) * (unsigned a / 2 ^ (64 * Z.of_nat k)))).
Proof.
  intros Hn Hp E1 E2 Ei Sa.
  destruct (foreign_fact next g p slack Hn Hp) as (vs1 & m1 & cs1 & X1 & H1 & S1 & _). rewrite E1 in X1. injection X1 as <- Eo <-.
  destruct (foreign_fact next g (p ++ [FRandomize x]) slack Hn ltac:(apply Forall_app; split; [exact Hp|constructor; [exact Logic.I|constructor]]))
    as (vs2 & m2 & cs2 & X2 & H2 & S2 & _).
  rewrite E2 in X2. injection X2 as <- Eo2 <-. rewrite arun_foreign_app in H2, Eo2. destruct (arun_foreign next [] g p) as [s [g' os']].
  cbn [fst snd] in *. injection Eo as <- <-. cbn [arun_foreign] in H2, Eo2.
  pose proof (forall2_get _ _ _ i S1) as G1. rewrite Ei in G1. destruct (nth_error cs1 i) as [c1|] eqn:Ec1; [|tauto].
  pose proof (stored_unique m v c1 (Some a) G1 Sa). subst c1.
  pose proof (get_sim cs1 s i H1) as K1. rewrite Ec1 in K1. destruct (nth_error s i) as [[va|]|] eqn:Es; try tauto.
  cbn [astep_foreign] in H2, Eo2.
  destruct (nth_error s x) as [[[w u]|]|] eqn:Ex.
  2,3: cbn [fst snd] in Eo2; apply (f_equal snd) in Eo2; cbn [snd] in Eo2; apply app_inv_head in Eo2; discriminate.
  destruct (pull next (word_count w) g1) as [[u' k] g''] eqn:Ep.
  destruct (Nat.eqb_spec k (word_count w)) as [Ek|Ek].
  { apply (f_equal snd) in Eo2. cbn [fst snd] in Eo2. apply app_inv_head in Eo2. discriminate. }
  cbn [fst snd] in H2, Eo2. apply (f_equal fst) in Eo2. cbn [fst] in Eo2. subst g''.
  pose proof (forall2_get _ _ _ i S2) as G2. pose proof (get_sim cs2 _ i H2) as K2.
  destruct (Nat.eq_dec x i) as [->|D].
  - rewrite Es in Ex. injection Ex as ->. rewrite (nth_update_same i _ _ s Es) in K2.
    destruct (nth_error cs2 i) as [[b|]|]; try tauto. destruct (nth_error vs' i) as [v'|]; [|tauto]. exists v', b.
    split; [reflexivity|]. split; [exact G2|]. split; [congruence|]. intros _. destruct K1 as (Wa & La & Ua). cbn [fst snd] in La, Ua.
    exists u', k. rewrite La, Ua. split; [exact Ep|]. split; [|exact K2].
    destruct (f_draw_spec next Hn (word_count w) g1) as (ds & s' & _ & F & _ & Hle). rewrite F in Ep. injection Ep as _ <- _. lia.
  - rewrite (nth_update_other x i _ s D), Es in K2.
    destruct (nth_error cs2 i) as [[b|]|]; try tauto. destruct (nth_error vs' i) as [v'|]; [|tauto]. exists v', b.
    split; [reflexivity|]. split; [exact G2|]. split; [|congruence]. intros _. exact (is_apint_unique _ _ _ _ K2 K1).
Qed.

Lemma foreign_refused human d e m :
  de_apint human d = Val (DErr e) -> exec (h_de_apint human d) m = MVal (Some (DErr e)) m.
Proof.
  unfold de_apint, h_de_apint. destruct human.
  - unfold visit_human, h_visit_human. destruct d as [| | |es| |]; try (intros E; injection E as <-; reflexivity).
    destruct (visit_entries es None None) as [[[w|] [ds|]]|]; cbn [de_bind]; try (intros E; injection E as <-; reflexivity).
    destruct (Nat.eqb (required_digits w) (List.length ds)); [|intros E; injection E as <-; reflexivity].
    intros E. destruct (build_not_error _ _ _ E).
  - unfold visit_compact, h_visit_compact. destruct d as [| |[|x l]| | |]; try (intros E; injection E as <-; reflexivity); [discriminate|].
    destruct (de_bitwidth false x) as [w|]; cbn [de_bind]; [|intros E; injection E as <-; reflexivity].
    destruct l as [|y l]; [intros E; injection E as <-; reflexivity|].
    destruct (de_vec y) as [ds|]; cbn [de_bind]; [|intros E; injection E as <-; reflexivity].
    destruct (Nat.eqb (required_digits w) (List.length ds)); [|intros E; injection E as <-; reflexivity].
    intros E. destruct (build_not_error _ _ _ E).
Qed.
