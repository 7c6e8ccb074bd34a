(** Lemmas about errors as values (MError.v, SpecError.v). *)
From Verif Require Import LBase LRel LFacts LCast LText LText2 LErrText SpecError.
Open Scope Z_scope.

(** * Laying out *)
Definition opening (s : list Z) : Prop :=
  match s with [] => False | c :: _ => 32 < c /\ c <> 41 /\ c <> 93 /\ c <> 125 end.
Definition leaf (s : list Z) : Prop :=
  opening s /\ Forall (fun c => 32 <= c) s /\ last s 0 <> 44 /\ last s 0 <> 123.
Definition pend (p : place) : list Z := match p with BehindComma => [44] | _ => [] end.
Definition inside (p : place) : Prop := match p with AtStart _ => False | _ => True end.
Definition sep (k : bool) : list Z := if k then [44; 32] else [].

Lemma line_copy s p rest : inside p -> s <> [] -> Forall (fun c => 32 <= c) s -> last s 0 <> 44 -> last s 0 <> 123 ->
  on_one_line p (s ++ rest) = pend p ++ s ++ on_one_line InLine rest.
Proof.
  revert p. induction s as [|c s IH]; intros p Hp H F L1 L2; [congruence|].
  inversion F as [|? ? Hc F']; subst. cbn [app on_one_line].
  assert (N10 : (c =? 10) = false) by (apply Z.eqb_neq; lia). rewrite N10.
  assert (E : (if c =? 44 then on_one_line BehindComma (s ++ rest)
        else if c =? 123 then 123 :: on_one_line BehindBrace (s ++ rest)
        else c :: on_one_line InLine (s ++ rest)) = c :: s ++ on_one_line InLine rest).
  { destruct s as [|d s].
    - cbn [last] in L1, L2. destruct (Z.eqb_spec c 44), (Z.eqb_spec c 123); try congruence. reflexivity.
    - assert (M1 : last (d :: s) 0 <> 44) by exact L1. assert (M2 : last (d :: s) 0 <> 123) by exact L2.
      destruct (Z.eqb_spec c 44) as [->|]; [rewrite IH by (try exact Logic.I; try congruence; assumption); reflexivity|].
      destruct (Z.eqb_spec c 123) as [->|]; rewrite IH by (try exact Logic.I; try congruence; assumption); reflexivity. }
  rewrite E. destruct p; [reflexivity|reflexivity|reflexivity|contradiction].
Qed.
Lemma leaf_copy s rest : leaf s -> on_one_line InLine (s ++ rest) = s ++ on_one_line InLine rest.
Proof.
  intros (H & F & L1 & L2). apply (line_copy s InLine rest); auto; [exact Logic.I|]. intros ->. exact H.
Qed.
Lemma start_copy s rest k : opening s -> on_one_line (AtStart k) (s ++ rest) = sep k ++ on_one_line InLine (s ++ rest).
Proof.
  destruct s as [|c s]; [contradiction|]. intros (H1 & H2 & H3 & H4). cbn [app on_one_line].
  destruct (Z.eqb_spec c 32); [lia|]. destruct (Z.eqb_spec c 10); [lia|]. destruct (Z.eqb_spec c 125); [lia|].
  destruct (Z.eqb_spec c 41); [lia|]. destruct (Z.eqb_spec c 93); [lia|]. reflexivity.
Qed.
Lemma pad_copy s nl p rest : (nl = true -> exists k, p = AtStart k) ->
  on_one_line p (pad_lines nl s ++ rest) = on_one_line p (s ++ rest).
Proof.
  revert nl p. induction s as [|c s IH]; intros nl p H; [reflexivity|].
  cbn [pad_lines].
  assert (D : on_one_line p (((if nl then lit "    " else []) ++ c :: pad_lines (c =? 10) s) ++ rest) =
              on_one_line p (c :: pad_lines (c =? 10) s ++ rest)).
  { destruct nl; [|reflexivity]. destruct (H eq_refl) as (k & ->). reflexivity. }
  rewrite D. cbn [app on_one_line].
  destruct (Z.eqb_spec c 10) as [->|N].
  - assert (I1 : forall k, on_one_line (AtStart k) (pad_lines true s ++ rest) = on_one_line (AtStart k) (s ++ rest))
      by (intros; apply IH; eauto).
    cbn. destruct p; rewrite ?I1; reflexivity.
  - assert (I1 : forall q, on_one_line q (pad_lines false s ++ rest) = on_one_line q (s ++ rest))
      by (intros; apply IH; discriminate).
    rewrite !I1. destruct p; rewrite ?I1; reflexivity.
Qed.

Fixpoint ok_tree (t : dtree) : Prop :=
  match t with
  | DNum n => 0 <= n
  | DUnit s => leaf s
  | DTuple name fs => (name = [] \/ leaf name) /\ fs <> [] /\ fold_right and True (map ok_tree fs)
  | DStruct name fs => leaf name /\ fs <> [] /\
      fold_right and True (map (fun f : list Z * dtree => let (n, x) := f in leaf n /\ ok_tree x) fs)
  | DList ts => ts <> [] /\ fold_right and True (map ok_tree ts)
  end.
Definition reads (x y : list Z) : Prop :=
  opening x /\ forall rest, on_one_line InLine (x ++ rest) = y ++ on_one_line InLine rest.

Lemma line_reads x y k rest : reads x y ->
  on_one_line (AtStart k) (pretty_line x ++ rest) = sep k ++ y ++ on_one_line (AtStart true) rest.
Proof.
  intros (H & R). unfold pretty_line. rewrite pad_copy by eauto. rewrite <- app_assoc, start_copy by exact H. rewrite R. reflexivity.
Qed.
Lemma lines_read xs ys : Forall2 reads xs ys -> xs <> [] -> forall k rest,
  on_one_line (AtStart k) (concat (map pretty_line xs) ++ rest) = sep k ++ join (lit ", ") ys ++ on_one_line (AtStart true) rest.
Proof.
  induction 1 as [|x y xs ys Hx Hs IH]; intros N k rest; [congruence|]. cbn [map concat].
  rewrite <- app_assoc, (line_reads x y) by exact Hx. destruct Hs as [|x' y' xs ys Hx' Hs]; [reflexivity|].
  rewrite IH by discriminate. cbn [join]. rewrite <- !app_assoc. reflexivity.
Qed.
Lemma dec_leaf n : 0 <= n -> leaf (dec_text n).
Proof.
  intros H. pose proof (dec_digits n H) as D. destruct (decimal_dec n H) as (N & _).
  assert (L : isdig (last (dec_text n) 0)).
  { destruct (exists_last N) as (l & c & E). rewrite E in *. rewrite last_last. apply Forall_app in D. destruct D as (_ & D). now inversion D. }
  unfold isdig in *. split; [|split; [eapply Forall_impl; [|exact D]; cbn; intros; lia|lia]].
  destruct (dec_text n) as [|c r]; [congruence|]. inversion D; subst. cbn. lia.
Qed.

Fixpoint dtree_induction (Q : dtree -> Prop)
  (qn : forall n, Q (DNum n)) (qu : forall s, Q (DUnit s))
  (qt : forall name fs, Forall Q fs -> Q (DTuple name fs))
  (qs : forall name fs, Forall (fun f : list Z * dtree => Q (snd f)) fs -> Q (DStruct name fs))
  (ql : forall ts, Forall Q ts -> Q (DList ts)) (t : dtree) : Q t :=
  match t with
  | DNum n => qn n
  | DUnit s => qu s
  | DTuple name fs => qt name fs ((fix go l : Forall Q l :=
      match l with [] => Forall_nil _ | x :: r => Forall_cons x (dtree_induction Q qn qu qt qs ql x) (go r) end) fs)
  | DStruct name fs => qs name fs ((fix go l : Forall (fun f : list Z * dtree => Q (snd f)) l :=
      match l with [] => Forall_nil _ | x :: r => Forall_cons x (dtree_induction Q qn qu qt qs ql (snd x)) (go r) end) fs)
  | DList ts => ql ts ((fix go l : Forall Q l :=
      match l with [] => Forall_nil _ | x :: r => Forall_cons x (dtree_induction Q qn qu qt qs ql x) (go r) end) ts)
  end.

Lemma items_read ts : Forall (fun t => ok_tree t -> reads (render_pretty t) (render t)) ts ->
  fold_right and True (map ok_tree ts) -> Forall2 reads (map render_pretty ts) (map render ts).
Proof.
  induction 1 as [|t ts Ht Hs IH]; cbn [map fold_right]; intros H; constructor; [apply Ht, H|apply IH, H].
Qed.
Lemma field_reads n x y : leaf n -> reads x y -> reads (n ++ lit ": " ++ x) (n ++ lit ": " ++ y).
Proof.
  intros Hn (Ho & H). split; [destruct n as [|c n]; [destruct (proj1 Hn)|exact (proj1 Hn)]|].
  intros rest. rewrite <- !app_assoc, leaf_copy by exact Hn. f_equal. cbn - [on_one_line]. cbn [on_one_line]. cbn. rewrite H. reflexivity.
Qed.
Lemma fields_read fs : Forall (fun f : list Z * dtree => ok_tree (snd f) -> reads (render_pretty (snd f)) (render (snd f))) fs ->
  fold_right and True (map (fun f : list Z * dtree => let (n, x) := f in leaf n /\ ok_tree x) fs) ->
  Forall2 reads (map (fun f : list Z * dtree => let (n, x) := f in n ++ lit ": " ++ render_pretty x) fs)
    (map (fun f : list Z * dtree => let (n, x) := f in n ++ lit ": " ++ render x) fs).
Proof.
  induction 1 as [|[n t] ts Ht Hs IH]; cbn [map fold_right]; intros H; constructor; [|apply IH, H].
  destruct H as ((H1 & H2) & _). apply field_reads; [exact H1|]. apply (Ht H2).
Qed.

Lemma tree_reads t : ok_tree t -> reads (render_pretty t) (render t).
Proof.
  induction t as [n|s|name fs IH|name fs IH|ts IH] using dtree_induction; cbn [ok_tree].
  - intros H. split; [apply (dec_leaf n H)|]. intros rest. apply leaf_copy, dec_leaf, H.
  - intros H. split; [apply H|]. intros rest. apply leaf_copy, H.
  - intros (Hn & N & H). cbn [render_pretty render].
    pose proof (items_read fs IH H) as R.
    assert (M : map render_pretty fs <> []) by (destruct fs; [congruence|discriminate]).
    replace (map (fun x => pretty_line (render_pretty x)) fs) with (map pretty_line (map render_pretty fs)) by (rewrite map_map; reflexivity).
    split.
    + destruct Hn as [-> |Hn]; [cbn; lia|]. destruct name as [|c n]; [destruct (proj1 Hn)|exact (proj1 Hn)].
    + intros rest. rewrite <- !app_assoc.
      assert (E : on_one_line InLine (lit "(" ++ [10] ++ concat (map pretty_line (map render_pretty fs)) ++ lit ")" ++ rest) =
                  lit "(" ++ join (lit ", ") (map render fs) ++ lit ")" ++ on_one_line InLine rest).
      { change (on_one_line InLine (lit "(" ++ [10] ++ concat (map pretty_line (map render_pretty fs)) ++ lit ")" ++ rest)) with
          (40 :: on_one_line (AtStart false) (concat (map pretty_line (map render_pretty fs)) ++ lit ")" ++ rest)).
        rewrite (lines_read _ _ R M). reflexivity. }
      destruct Hn as [-> |Hn]; [exact E|]. rewrite leaf_copy by exact Hn. rewrite E. reflexivity.
  - intros (Hn & N & H). cbn [render_pretty render].
    pose proof (fields_read fs IH H) as R. set (ps := map (fun f : list Z * dtree => let (n, x) := f in n ++ lit ": " ++ render_pretty x) fs) in *.
    assert (M : ps <> []) by (subst ps; destruct fs; [congruence|discriminate]).
    replace (map (fun f : list Z * dtree => let (n, x) := f in pretty_line (n ++ lit ": " ++ render_pretty x)) fs) with (map pretty_line ps)
      by (subst ps; rewrite map_map; apply map_ext; intros [? ?]; reflexivity).
    clearbody ps.
    split.
    + destruct name as [|c n]; [destruct (proj1 Hn)|exact (proj1 Hn)].
    + intros rest. rewrite <- !app_assoc. rewrite leaf_copy by exact Hn. f_equal.
      change (on_one_line InLine (lit " {" ++ [10] ++ concat (map pretty_line ps) ++ lit "}" ++ rest)) with
        (32 :: 123 :: 32 :: on_one_line (AtStart false) (concat (map pretty_line ps) ++ lit "}" ++ rest)).
      rewrite (lines_read _ _ R M). reflexivity.
  - intros (N & H). cbn [render_pretty render].
    pose proof (items_read ts IH H) as R.
    assert (M : map render_pretty ts <> []) by (destruct ts; [congruence|discriminate]).
    replace (map (fun x => pretty_line (render_pretty x)) ts) with (map pretty_line (map render_pretty ts)) by (rewrite map_map; reflexivity).
    split; [cbn; lia|].
    intros rest. rewrite <- !app_assoc.
    change (on_one_line InLine (lit "[" ++ [10] ++ concat (map pretty_line (map render_pretty ts)) ++ lit "]" ++ rest)) with
          (91 :: on_one_line (AtStart false) (concat (map pretty_line (map render_pretty ts)) ++ lit "]" ++ rest)).
    rewrite (lines_read _ _ R M). reflexivity.
Qed.

(** * The trees of errors *)
Definition leafb (s : list Z) : bool :=
  match s with [] => false | c :: _ => (32 <? c) && negb (c =? 41) && negb (c =? 93) && negb (c =? 125) end &&
  forallb (fun c => 32 <=? c) s && negb (last s 0 =? 44) && negb (last s 0 =? 123).
Lemma leafb_ok s : leafb s = true -> leaf s.
Proof.
  unfold leafb, leaf, opening. rewrite !andb_true_iff, !negb_true_iff, forallb_forall, Forall_forall.
  intros (((H & F) & H1) & H2). apply Z.eqb_neq in H1, H2. split; [|split; [|auto]].
  - destruct s; [discriminate|]. rewrite !andb_true_iff, !negb_true_iff, !Z.eqb_neq, Z.ltb_lt in H. tauto.
  - intros x Hx. apply Z.leb_le. auto.
Qed.
Ltac lf := apply leafb_ok; reflexivity.
Lemma str_leaf pr s : text s -> leaf ([34] ++ concat (map (escape_char pr 34) s) ++ [34]).
Proof.
  intros H. pose proof (str_visible pr s H) as V. cbn [render dbg_str] in V.
  split; [cbn; lia|]. split; [|rewrite app_assoc, last_last; lia].
  eapply Forall_impl; [|exact V]. intros c. unfold visible. lia.
Qed.
Lemma chr_leaf pr c : scalar c -> leaf (lit "'" ++ escape_char pr 39 c ++ lit "'").
Proof.
  intros H. pose proof (escaped_visible pr 39 c _ (or_intror eq_refl) (escape_char_spec pr 39 c (or_intror eq_refl) H)) as V.
  change (lit "'") with [39]. split; [cbn; lia|]. split; [|rewrite app_assoc, last_last; lia].
  assert (Q : Forall (fun c => 32 <= c) [39]) by (apply Forall_cons; [lia|apply Forall_nil]).
  apply Forall_app; split; [exact Q|]. apply Forall_app; split; [|exact Q].
  eapply Forall_impl; [|exact V]. intros x. unfold visible. lia.
Qed.
Lemma apint_tree a : wf a -> ok_tree (dbg_apint a).
Proof.
  intros H. cbn [ok_tree dbg_apint dbg_width map fold_right]. repeat split; try lf; try discriminate; try (right; lf).
  - unfold width, wf in *; lia.
  - unfold as_digit_slice. pose proof (wf_nonempty a H). destruct (digits a); [congruence|discriminate].
  - unfold as_digit_slice. induction (wf_nonneg a H) as [|d ds Hd Hs IH]; cbn [map fold_right]; [exact Logic.I|].
    split; [|exact IH]. cbn [dbg_digit ok_tree map fold_right]. repeat split; try discriminate; [right; lf|exact Hd].
Qed.
Lemma num_tree name n : leaf name -> 0 <= n -> ok_tree (DTuple name [DNum n]).
Proof. intros H H'. cbn. repeat split; auto; discriminate. Qed.
Lemma kind_tree pr k : payload_ok k -> strings_ok k -> ok_tree (dbg_error_kind pr k).
Proof.
  intros H H'. destruct k; cbn [payload_ok strings_ok dbg_error_kind ok_tree map fold_right] in *.
  1: { repeat split; [right; lf|discriminate|exact H]. }
  1: { destruct H' as [(cs & Hcs & ->) H']. rewrite utf8_decode by exact Hcs.
       split; [lf|]. split; [discriminate|]. split; [split; [lf|apply str_leaf, Hcs]|].
       split; [split; [lf|apply num_tree; [lf|exact H]]|]. split; [|exact Logic.I]. split; [lf|].
       destruct pos_char as [[p c]|]; cbn [option_map dbg_option ok_tree map fold_right fst snd]; [|lf].
       split; [right; lf|]. split; [discriminate|]. split; [|exact Logic.I]. split; [now left|]. split; [discriminate|].
       split; [apply H'|]. split; [apply chr_leaf, H'|exact Logic.I]. }
  1,2: destruct H as (H1 & H2); split; [lf|]; split; [discriminate|];
       split; [split; [lf|apply num_tree; [lf|exact H1]]|]; split; [|exact Logic.I]; split; [lf|apply num_tree; [lf|exact H2]].
  1: { split; [lf|]. split; [discriminate|]. split; [split; [lf|apply apint_tree, H]|]. split; [|exact Logic.I].
       split; [lf|]. destruct destination_ty; lf. }
  1: { destruct H as (H1 & H2). split; [right; lf|]. split; [discriminate|]. split; [apply num_tree; [lf|exact H1]|].
       split; [|exact Logic.I]. apply num_tree; [lf|exact H2]. }
  1: { repeat split; [right; lf|discriminate|exact H]. }
  1,2: destruct H as (H1 & H2); split; [lf|]; split; [discriminate|];
       split; [split; [lf|apply num_tree; [lf|exact H1]]|]; split; [|exact Logic.I]; split; [lf|apply num_tree; [lf|exact H2]].
  1: { split; [lf|]. split; [discriminate|]. split; [split; [lf|destruct op; lf]|]. split; [|exact Logic.I].
       split; [lf|]. apply apint_tree, H. }
  lf.
Qed.
Lemma error_tree pr e : error_ok e -> ok_tree (dbg_error pr e).
Proof.
  intros (Hk & Hs & Hm & Ha). cbn [dbg_error ok_tree map fold_right].
  split; [lf|]. split; [discriminate|]. split; [split; [lf|apply kind_tree; assumption]|].
  split; [split; [lf|apply str_leaf, Hm]|]. split; [|exact Logic.I]. split; [lf|].
  destruct (e_annotation e) as [t|]; cbn [option_map dbg_option ok_tree map fold_right]; [|lf].
  split; [right; lf|]. split; [discriminate|]. split; [apply str_leaf, Ha|exact Logic.I].
Qed.

Lemma pretty_error_fact printable e :
  error_ok e -> on_one_line InLine (pretty_error printable e) = display_error printable e.
Proof.
  intros H. destruct (tree_reads _ (error_tree printable e H)) as (_ & R). specialize (R []).
  rewrite !app_nil_r in R. exact R.
Qed.
Lemma pretty_identifies_fact printable e e' :
  error_ok e -> error_ok e' -> pretty_error printable e = pretty_error printable e' -> e = e'.
Proof.
  intros H H' E. apply (display_injective_fact printable); [assumption..|]. rewrite <- !pretty_error_fact by assumption. now rewrite E.
Qed.

(** * Clone, equality, hashing *)
Lemma clone_error_fact e : error_ok e -> clone_error e = Val e.
Proof.
  intros (Hk & _). unfold clone_error, clone_kind. destruct e as [k m a]; cbn [e_kind e_message e_annotation] in *.
  destruct k; cbn [payload_ok] in Hk; try reflexivity; rewrite clone_spec by exact Hk; reflexivity.
Qed.

Lemma digits_eqb_iff x y : digits_eqb x y = true <-> x = y.
Proof.
  revert y. induction x as [|c x IH]; intros [|d y]; cbn [digits_eqb]; try (split; [discriminate|discriminate]); [tauto|].
  rewrite andb_true_iff, Z.eqb_eq, IH. split; [intros [-> ->]; reflexivity|]. intros E. injection E. auto.
Qed.
Lemma div_op_index_inj o p : div_op_index o = div_op_index p -> o = p.
Proof. destruct o, p; cbn; intros E; first [reflexivity|discriminate E]. Qed.
Lemma prim_ty_index_inj o p : prim_ty_index o = prim_ty_index p -> o = p.
Proof. destruct o, p; cbn; intros E; first [reflexivity|discriminate E]. Qed.
Lemma pos_char_eqb_iff x y : pos_char_eqb x y = true <-> x = y.
Proof.
  destruct x as [[p c]|], y as [[q d]|]; cbn; try (split; congruence).
  rewrite andb_true_iff, !Z.eqb_eq. split; [intros [-> ->]; reflexivity|]. intros E. injection E. auto.
Qed.
Lemma annotation_eqb_iff x y : annotation_eqb x y = true <-> x = y.
Proof.
  destruct x as [s|], y as [t|]; cbn; try (split; congruence).
  rewrite digits_eqb_iff. split; congruence.
Qed.
Lemma kind_eqb_iff x y : kind_eqb x y = true <-> x = y.
Proof.
  destruct x, y; cbn [kind_eqb]; try (split; discriminate); try tauto;
    rewrite ?andb_true_iff, ?digits_eqb_iff, ?pos_char_eqb_iff, ?apint_eqb_eq, ?Z.eqb_eq; split;
    try (intros; repeat match goal with H : _ /\ _ |- _ => destruct H end;
         repeat match goal with
         | H : prim_ty_index _ = _ |- _ => apply prim_ty_index_inj in H
         | H : div_op_index _ = _ |- _ => apply div_op_index_inj in H
         end; congruence);
    intros E; injection E; intros; subst; auto.
Qed.
Lemma error_eqb_iff e f : error_eqb e f = true <-> e = f.
Proof.
  unfold error_eqb. rewrite !andb_true_iff, kind_eqb_iff, digits_eqb_iff, annotation_eqb_iff. destruct e, f; cbn. split.
  - intros ((-> & ->) & ->). reflexivity.
  - intros E. injection E. auto.
Qed.

Lemma str_bytes_utf8 s : str_bytes s = utf8 s.
Proof. unfold utf8. induction s as [|c s IH]; [reflexivity|]. cbn [str_bytes map concat]. rewrite IH. reflexivity. Qed.
Lemma str_bytes_inj s t : text s -> text t -> str_bytes s = str_bytes t -> s = t.
Proof. intros Hs Ht E. rewrite !str_bytes_utf8 in E. rewrite <- (utf8_decode s), <- (utf8_decode t), E by assumption. reflexivity. Qed.

Lemma map_u64_split x y r r' : length x = length y ->
  map CallOther (map HashU64 x) ++ r = map CallOther (map HashU64 y) ++ r' -> x = y /\ r = r'.
Proof.
  revert y. induction x as [|c x IH]; intros [|d y] L; cbn [length map app] in *; try discriminate; [auto|].
  intros E. injection E as -> E. apply IH in E; [|now injection L]. destruct E as [-> ->]. auto.
Qed.
Lemma feed_split a b r r' :
  map CallOther (hash_feed a) ++ r = map CallOther (hash_feed b) ++ r' -> a = b /\ r = r'.
Proof.
  unfold hash_feed, as_digit_slice. cbn [map app]. intros E. injection E as E1 E2 E. apply Nat2Z.inj in E2.
  apply map_u64_split in E; [|exact E2]. destruct a, b; cbn in *. destruct E as [-> ->]. subst. auto.
Qed.
Lemma hash_kind_split k k' r r' : hash_kind k ++ r = hash_kind k' ++ r' -> k = k' /\ r = r'.
Proof.
  destruct k, k'; cbn [hash_kind app]; intros E; try discriminate E;
    try (cbn in E; injection E as E; intros; subst; auto; fail).
  - unfold hash_str, hash_usize in E. cbn [app] in E. injection E as -> -> E.
    destruct pos_char as [[p c]|], pos_char0 as [[q d]|]; cbn in E; try discriminate E; injection E; intros; subst; auto.
  - rewrite <- !app_assoc in E. apply (f_equal (@tl _)) in E. cbn [tl] in E. apply feed_split in E. destruct E as [-> E]. cbn in E.
    injection E as E1 E2. apply prim_ty_index_inj in E1. subst. auto.
  - pose proof (f_equal (nth 1%nat) E) as E1. apply (f_equal (fun g => g (CallIsize 0))) in E1. cbn [nth] in E1.
    injection E1 as E1. apply div_op_index_inj in E1.
    apply (f_equal (@tl _)) in E. apply (f_equal (@tl _)) in E. cbn [tl] in E. apply feed_split in E. destruct E as [-> ->]. subst. auto.
Qed.
Lemma hash_error_split e f r r' : error_ok e -> error_ok f ->
  hash_error e ++ r = hash_error f ++ r' -> e = f /\ r = r'.
Proof.
  intros (_ & _ & Hm & Ha) (_ & _ & Hm' & Ha'). unfold hash_error. rewrite <- !app_assoc. intros E.
  apply hash_kind_split in E. destruct E as [E1 E]. unfold hash_str at 1 3 in E. cbn [app] in E. injection E as E2 E.
  apply str_bytes_inj in E2; [|assumption..]. destruct e as [k m a], f as [k' m' a']; cbn [e_kind e_message e_annotation] in *. subst.
  destruct a as [t|], a' as [t'|]; cbn in E; try discriminate E.
  - injection E as E2 E. apply str_bytes_inj in E2; [|assumption..]. subst. auto.
  - injection E as E. subst. auto.
Qed.

Lemma error_value_fact e f : error_ok e -> error_ok f ->
  (error_eqb e f = true <->
     get_kind e = get_kind f /\ get_message e = get_message f /\ get_annotation e = get_annotation f) /\
  (error_eqb e f = true <-> e = f) /\
  (forall printable, error_eqb e f = true <-> display_error printable e = display_error printable f) /\
  (forall printable, error_eqb e f = true <-> pretty_error printable e = pretty_error printable f).
Proof.
  intros He Hf. split; [|split; [apply error_eqb_iff|split; intros printable; rewrite error_eqb_iff; split]].
  - rewrite error_eqb_iff. unfold get_kind, get_message, get_annotation. destruct e, f; cbn. split.
    + intros E. injection E. auto.
    + intros (-> & -> & ->). reflexivity.
  - now intros ->.
  - now apply display_injective_fact.
  - now intros ->.
  - now apply pretty_identifies_fact.
Qed.
Lemma error_hash_fact e f : error_ok e -> error_ok f ->
  (error_eqb e f = true <-> hash_error e = hash_error f) /\
  (forall r r', hash_error e ++ r = hash_error f ++ r' -> error_eqb e f = true /\ r = r').
Proof.
  intros He Hf. assert (S : forall r r', hash_error e ++ r = hash_error f ++ r' -> error_eqb e f = true /\ r = r').
  { intros r r' E. rewrite error_eqb_iff. now apply hash_error_split. }
  split; [|exact S]. split; [rewrite error_eqb_iff; now intros ->|].
  intros E. apply (S [] []). now rewrite E.
Qed.
Lemma error_getters_fact e t :
  description e = get_message e /\
  get_kind (with_annotation e t) = get_kind e /\ get_message (with_annotation e t) = get_message e /\
  get_annotation (with_annotation e t) = Some t /\
  (forall A, erase (Val (@error_into_result A e)) = Val (Err (get_kind e))).
Proof. repeat split; reflexivity. Qed.
