(** Proofs about texts. *)
From Coq Require Import Ascii String.
From Verif Require Import LFacts LSerial3 SpecText.
From Verif Require Export MText.

Definition isdig (c : Z) : Prop := 48 <= c <= 57.
Arguments isdig c /.

(** * Decimal numerals *)
Lemma decimal_dec n : 0 <= n -> decimal n (dec_text n).
Proof.
  intros Hn. unfold dec_text.
  destruct (u64_digits_spec 10 (S (Z.to_nat (Z.log2 n))) ltac:(lia) (S (Z.to_nat (Z.log2 n))) n [])
    as (ds & E & Hd & Hv & Hne & _ & Hh); [lia| |].
  - split; [assumption|]. rewrite Nat2Z.inj_succ, Z2Nat.id by apply Z.log2_nonneg.
    destruct (Z.eq_dec n 0) as [->|]; [reflexivity|].
    pose proof (Z.log2_spec n ltac:(lia)) as [_ H]. eapply Z.lt_le_trans; [exact H|].
    apply Z.pow_le_mono_l. lia.
  - rewrite app_nil_r in E. rewrite E.
    assert (Hc : forall d, In d ds -> digit_char 97 d = 48 + d /\ 0 <= d < 10).
    { intros d Hin. unfold below in Hd. rewrite Forall_forall in Hd. specialize (Hd d Hin).
      unfold digit_char. destruct (Z.ltb_spec d 10); lia. }
    assert (Em : map (digit_char 97) ds = map (fun d => 48 + d) ds).
    { apply map_ext_in. intros d Hin. apply Hc, Hin. }
    rewrite Em. split; [destruct ds; [congruence|discriminate]|]. split; [|split].
    + apply Forall_forall. intros c Hin. apply in_map_iff in Hin as (d & <- & Hin). specialize (Hc d Hin). lia.
    + intros H48. destruct ds as [|d t]; [congruence|]. cbn [map hd] in *.
      assert (d = 0) by lia. specialize (Hh H). injection Hh as -> ->. reflexivity.
    + rewrite map_map. rewrite (map_ext _ (fun d => d)) by (intros; lia). now rewrite map_id.
Qed.

Lemma decimal_num s n m : decimal n s -> decimal m s -> n = m.
Proof. intros (_ & _ & _ & <-) (_ & _ & _ & <-). reflexivity. Qed.

Lemma dec_inj n m : 0 <= n -> 0 <= m -> dec_text n = dec_text m -> n = m.
Proof.
  intros Hn Hm E. pose proof (decimal_dec n Hn) as H. rewrite E in H.
  exact (decimal_num _ _ _ H (decimal_dec m Hm)).
Qed.

Lemma dec_digits n : 0 <= n -> Forall isdig (dec_text n).
Proof. intros Hn. exact (proj1 (proj2 (decimal_dec n Hn))). Qed.

(** Digits end where the first other character is. *)
Lemma split_digits s t c r c' r' : Forall isdig s -> Forall isdig t -> ~ isdig c -> ~ isdig c' ->
  s ++ c :: r = t ++ c' :: r' -> s = t /\ c = c' /\ r = r'.
Proof.
  intros Hs. revert t. induction Hs as [|x s Hx Hs IH]; intros t Ht Hc Hc' E.
  - destruct Ht as [|y t Hy Ht]; cbn [app] in E.
    + injection E as -> ->. auto.
    + injection E as -> _. contradiction.
  - destruct Ht as [|y t Hy Ht]; cbn [app] in E.
    + injection E as -> _. contradiction.
    + injection E as -> E. destruct (IH t Ht Hc Hc' E) as (-> & -> & ->). auto.
Qed.

Lemma split_dec n m c r c' r' : 0 <= n -> 0 <= m -> ~ isdig c -> ~ isdig c' ->
  dec_text n ++ c :: r = dec_text m ++ c' :: r' -> n = m /\ c = c' /\ r = r'.
Proof.
  intros Hn Hm Hc Hc' E.
  destruct (split_digits _ _ _ _ _ _ (dec_digits n Hn) (dec_digits m Hm) Hc Hc' E) as (E1 & ? & ?).
  split; [now apply dec_inj|auto].
Qed.

(** * The one-line form *)
Lemma render_tuple1 name n : render (DTuple name [DNum n]) = name ++ lit "(" ++ dec_text n ++ lit ")".
Proof. reflexivity. Qed.

Lemma render_apint a : render (dbg_apint a) =
  lit "ApInt { len: BitWidth(" ++ dec_text (width a) ++ lit "), digits: [" ++
  join (lit ", ") (map (fun d => lit "Digit(" ++ dec_text d ++ lit ")") (digits a)) ++ lit "] }".
Proof.
  unfold dbg_apint, dbg_width, as_digit_slice. cbn [render map join]. rewrite map_map.
  rewrite (map_ext (fun x => render (dbg_digit x)) (fun d => lit "Digit(" ++ dec_text d ++ lit ")"))
    by reflexivity.
  rewrite <- !app_assoc. reflexivity.
Qed.

Lemma join_comma ts : join (lit ", ") ts = comma_separated ts.
Proof.
  induction ts as [|t r IH]; [reflexivity|]. cbn [join comma_separated]. rewrite <- IH.
  destruct r as [|t' r]; [now rewrite app_nil_r|reflexivity].
Qed.

Lemma words_digits a : wf a -> digits a = words (len a) (unsigned a).
Proof.
  intros (Hw & Hl & Hd & _). unfold words. rewrite <- Hl, Nat2Z.id.
  apply (nth_ext _ _ 0 ((fun i => (unsigned a / 2 ^ (64 * Z.of_nat i)) mod 2 ^ 64) 0%nat)).
  - now rewrite map_length, seq_length.
  - intros i Hi. rewrite (map_nth (fun i => (unsigned a / 2 ^ (64 * Z.of_nat i)) mod 2 ^ 64)).
    rewrite seq_nth by assumption. cbn [Nat.add]. rewrite nth_uval_digit by (try assumption; apply digs_iff; assumption).
    unfold unsigned. rewrite P_pow, B_pow. reflexivity.
Qed.

(** Two Debug texts of integers, each followed by something. *)
Lemma split_items ds es r r' : ds <> [] -> es <> [] -> Forall (fun d => 0 <= d) ds -> Forall (fun d => 0 <= d) es ->
  join (lit ", ") (map (fun d => lit "Digit(" ++ dec_text d ++ lit ")") ds) ++ 93 :: r =
  join (lit ", ") (map (fun d => lit "Digit(" ++ dec_text d ++ lit ")") es) ++ 93 :: r' ->
  ds = es /\ r = r'.
Proof.
  intros Hn Hm Hd. revert es Hm. induction Hd as [|d ds Hd0 Hd IH]; intros es Hm He E; [congruence|].
  destruct He as [|e es He0 He]; [congruence|].
  assert (Hs : forall x xs q, exists q',
    join (lit ", ") (map (fun d => lit "Digit(" ++ dec_text d ++ lit ")") (x :: xs)) ++ 93 :: q =
    lit "Digit(" ++ dec_text x ++ 41 :: q' /\
    match xs with [] => q' = 93 :: q
    | _ => q' = lit ", " ++ join (lit ", ") (map (fun d => lit "Digit(" ++ dec_text d ++ lit ")") xs) ++ 93 :: q end).
  { intros x xs q. cbn [map join]. destruct xs as [|y ys].
    - exists (93 :: q). split; [|reflexivity]. cbn [map]. rewrite <- !app_assoc. reflexivity.
    - eexists. split; [|reflexivity]. cbn [map]. rewrite <- !app_assoc. reflexivity. }
  destruct (Hs d ds r) as (q1 & E1 & H1). destruct (Hs e es r') as (q2 & E2 & H2). rewrite E1, E2 in E.
  apply app_inv_head in E. apply split_dec in E as (-> & _ & ->); [|lia|lia|cbn; lia|cbn; lia].
  destruct ds as [|x xs], es as [|y ys].
  - split; congruence.
  - subst q2. discriminate H2.
  - subst q2. discriminate H2.
  - rewrite H1 in H2. apply app_inv_head in H2.
    destruct (IH ltac:(discriminate) (y :: ys) ltac:(discriminate) He H2) as (-> & ->). auto.
Qed.

Lemma wf_nonneg a : wf a -> Forall (fun d => 0 <= d) (digits a).
Proof.
  intros (_ & _ & H & _). eapply Forall_impl; [|exact H]. intros d Hd. unfold digit_ok in Hd. lia.
Qed.
Lemma wf_nonempty a : wf a -> digits a <> [].
Proof.
  intros (Hw & Hl & _) E. rewrite E in Hl. cbn [length Z.of_nat] in Hl.
  assert (1 <= (len a + 63) / 64) by (apply Z.div_le_lower_bound; lia). lia.
Qed.

Lemma split_apint a b r r' : wf a -> wf b ->
  render (dbg_apint a) ++ r = render (dbg_apint b) ++ r' -> a = b /\ r = r'.
Proof.
  intros Ha Hb E. rewrite !render_apint, <- !app_assoc in E. apply app_inv_head in E.
  change (lit "), digits: [") with (41 :: lit ", digits: [") in E. cbn [app] in E.
  apply split_dec in E as (Ew & _ & E); [|unfold width, wf in *; lia|unfold width, wf in *; lia|cbn; lia|cbn; lia].
  apply app_inv_head in E. change (lit "] }") with (93 :: lit " }") in E. cbn [app] in E.
  apply split_items in E as (Ed & E); try (now apply wf_nonempty); try (now apply wf_nonneg).
  split; [|now apply app_inv_head in E]. destruct a as [l ds], b as [l' ds']. unfold width in Ew. cbn in *. congruence.
Qed.

Lemma split_width v w r r' : 0 <= v -> 0 <= w ->
  render (dbg_width v) ++ r = render (dbg_width w) ++ r' -> v = w /\ r = r'.
Proof.
  intros Hv Hw E. unfold dbg_width in E. rewrite !render_tuple1, <- !app_assoc in E.
  apply app_inv_head in E. apply app_inv_head in E.
  apply split_dec in E as (-> & _ & ->); [auto|lia|lia|cbn; lia|cbn; lia].
Qed.

Lemma apint_unique a b w u : is_apint a w u -> is_apint b w u -> a = b.
Proof.
  intros (Ha & <- & <-) (Hb & Hl & Hu). destruct a as [l ds], b as [l' ds']. cbn in Hl. subst l'. f_equal.
  pose proof (words_digits _ Ha) as E1. pose proof (words_digits _ Hb) as E2. rewrite Hu in E2. cbn [len digits] in *. congruence.
Qed.

(** * The form with one item per line *)
Lemma pad_app nl s t : s <> [] -> pad_lines nl (s ++ t) = pad_lines nl s ++ pad_lines (last s 0 =? 10) t.
Proof.
  revert nl. induction s as [|c r IH]; intros nl H; [congruence|].
  destruct r as [|c' r]; [cbn [app pad_lines last]; now rewrite <- app_assoc|].
  change ((c :: c' :: r) ++ t) with (c :: ((c' :: r) ++ t)). cbn [pad_lines] in *.
  rewrite IH by discriminate. change (last (c :: c' :: r) 0) with (last (c' :: r) 0).
  rewrite <- !app_assoc. cbn [app]. rewrite <- !app_assoc. reflexivity.
Qed.
Lemma pad_dec nl n t : 0 <= n ->
  pad_lines nl (dec_text n ++ t) = (if nl then lit "    " else []) ++ dec_text n ++ pad_lines false t.
Proof.
  intros Hn. destruct (decimal_dec n Hn) as (Hne & Hd & _). revert nl. generalize dependent (dec_text n).
  intros s Hne Hd. induction Hd as [|c r Hc Hr IH]; intros nl; [congruence|]. cbn [app pad_lines]. f_equal. f_equal.
  destruct (Z.eqb_spec c 10); [lia|]. destruct r as [|c' r]; [reflexivity|]. now rewrite IH by discriminate.
Qed.

Lemma pad_inj nl s t : pad_lines nl s = pad_lines nl t -> s = t.
Proof.
  revert nl t. induction s as [|c r IH]; intros nl [|c' r'] E; cbn [pad_lines] in E.
  - reflexivity.
  - destruct nl; discriminate E.
  - destruct nl; discriminate E.
  - apply app_inv_head in E. injection E as -> E. f_equal. exact (IH _ _ E).
Qed.
Lemma pad_concat ss t : Forall (fun s => s <> [] /\ last s 0 = 10) ss ->
  pad_lines true (concat ss ++ t) = concat (map (pad_lines true) ss) ++ pad_lines true t.
Proof.
  induction 1 as [|s ss [Hs Hl] _ IH]; [reflexivity|]. cbn [concat map]. rewrite <- !app_assoc.
  rewrite pad_app, Hl by assumption. cbn [Z.eqb Pos.eqb]. now rewrite IH.
Qed.

Definition width_block (w : Z) : list Z :=
  lit "    len: BitWidth(" ++ [10] ++ lit "        " ++ dec_text w ++ lit "," ++ [10] ++ lit "    )," ++ [10].
Definition digit_block (d : Z) : list Z :=
  lit "        Digit(" ++ [10] ++ lit "            " ++ dec_text d ++ lit "," ++ [10] ++ lit "        )," ++ [10].

Lemma pretty_tuple1 name n : 0 <= n -> render_pretty (DTuple name [DNum n]) =
  name ++ lit "(" ++ [10] ++ lit "    " ++ dec_text n ++ lit "," ++ [10] ++ lit ")".
Proof.
  intros Hn. cbn [render_pretty map concat]. unfold pretty_line. rewrite pad_dec by assumption.
  rewrite app_nil_r, <- !app_assoc. reflexivity.
Qed.

Lemma pretty_apint a : wf a -> render_pretty (dbg_apint a) =
  lit "ApInt {" ++ [10] ++ width_block (width a) ++ lit "    digits: [" ++ [10] ++
  concat (map digit_block (digits a)) ++ lit "    ]," ++ [10] ++ lit "}".
Proof.
  intros Hwf. pose proof (wf_nonneg _ Hwf) as Hd. assert (Hw : 0 <= width a) by (unfold width, wf in *; lia).
  unfold dbg_apint, as_digit_slice.
  assert (E1 : pretty_line (lit "len" ++ lit ": " ++ render_pretty (dbg_width (width a))) = width_block (width a)).
  { unfold dbg_width. rewrite pretty_tuple1 by assumption. unfold pretty_line. rewrite <- !app_assoc.
    change (lit "len" ++ lit ": " ++ lit "BitWidth" ++ lit "(" ++ [10] ++ lit "    " ++
            dec_text (width a) ++ lit "," ++ [10] ++ lit ")" ++ lit "," ++ [10])
      with ((lit "len: BitWidth(" ++ [10] ++ lit "    ") ++ dec_text (width a) ++ lit "," ++ [10] ++ lit ")," ++ [10]).
    rewrite pad_app by discriminate. rewrite pad_dec by assumption. reflexivity. }
  assert (E2 : pretty_line (lit "digits" ++ lit ": " ++ render_pretty (DList (map dbg_digit (digits a)))) =
    lit "    digits: [" ++ [10] ++ concat (map digit_block (digits a)) ++ lit "    ]," ++ [10]).
  { cbn [render_pretty]. rewrite map_map. unfold pretty_line at 1. rewrite <- !app_assoc.
    change (lit "digits" ++ lit ": " ++ lit "[" ++ [10] ++
            concat (map (fun x => pretty_line (render_pretty (dbg_digit x))) (digits a)) ++ lit "]" ++ lit "," ++ [10])
      with ((lit "digits: [" ++ [10]) ++
            concat (map (fun x => pretty_line (render_pretty (dbg_digit x))) (digits a)) ++ lit "]," ++ [10]).
    rewrite pad_app by discriminate. change (last (lit "digits: [" ++ [10]) 0 =? 10) with true.
    assert (Eb : forall d, 0 <= d -> pretty_line (render_pretty (dbg_digit d)) =
      (lit "    Digit(" ++ [10] ++ lit "        ") ++ dec_text d ++ lit "," ++ [10] ++ lit "    )," ++ [10]).
    { intros d H0. unfold dbg_digit. rewrite pretty_tuple1 by assumption. unfold pretty_line. rewrite <- !app_assoc.
      change (lit "Digit" ++ lit "(" ++ [10] ++ lit "    " ++ dec_text d ++ lit "," ++ [10] ++ lit ")" ++ lit "," ++ [10])
        with ((lit "Digit(" ++ [10] ++ lit "    ") ++ dec_text d ++ lit "," ++ [10] ++ lit ")," ++ [10]).
      rewrite pad_app by discriminate. rewrite pad_dec by assumption. reflexivity. }
    rewrite pad_concat.
    - rewrite map_map. rewrite (map_ext_in _ digit_block); [reflexivity|].
      intros d Hin. rewrite Forall_forall in Hd. rewrite Eb by (now apply Hd).
      rewrite pad_app by discriminate. rewrite pad_dec by (now apply Hd). reflexivity.
    - apply Forall_forall. intros s Hin. apply in_map_iff in Hin as (d & <- & Hin). rewrite Forall_forall in Hd.
      rewrite Eb by (now apply Hd). split; [discriminate|].
      rewrite !app_assoc, last_last. reflexivity. }
  cbn [render_pretty map concat]. cbn [render_pretty map concat] in E1, E2. rewrite E1, E2.
  rewrite app_nil_r, <- !app_assoc. reflexivity.
Qed.

Lemma split_blocks ds es r r' : Forall (fun d => 0 <= d) ds -> Forall (fun d => 0 <= d) es ->
  concat (map digit_block ds) ++ lit "    ]" ++ r = concat (map digit_block es) ++ lit "    ]" ++ r' ->
  ds = es /\ r = r'.
Proof.
  intros Hd. revert es. induction Hd as [|d ds Hd0 Hd IH]; intros es He E; destruct He as [|e es He0 He].
  - split; [reflexivity|]. cbn [map concat app] in E. now apply app_inv_head in E.
  - discriminate E.
  - discriminate E.
  - cbn [map concat] in E. unfold digit_block at 1 3 in E. rewrite <- !app_assoc in E.
    do 3 apply app_inv_head in E. change (lit ",") with [44] in E. cbn [app] in E.
    apply split_dec in E as (-> & _ & E); [|lia|lia|cbn; lia|cbn; lia].
    injection E as E.
    destruct (IH es He E) as (-> & ->). auto.
Qed.

Lemma pretty_inj a b : wf a -> wf b -> render_pretty (dbg_apint a) = render_pretty (dbg_apint b) -> a = b.
Proof.
  intros Ha Hb E. rewrite !pretty_apint in E by assumption. unfold width_block in E. rewrite <- !app_assoc in E.
  do 5 apply app_inv_head in E. change (lit ",") with [44] in E. cbn [app] in E.
  apply split_dec in E as (Ew & _ & E); [|unfold width, wf in *; lia|unfold width, wf in *; lia|cbn; lia|cbn; lia].
  injection E as E.
  destruct (split_blocks (digits a) (digits b) (lit "," ++ [10] ++ lit "}") (lit "," ++ [10] ++ lit "}")
    (wf_nonneg _ Ha) (wf_nonneg _ Hb) E) as [Ed _].
  destruct a as [l ds], b as [l' ds']. unfold width in Ew. cbn in *. congruence.
Qed.

(** * The facts behind C60 *)
Lemma digit_texts ds : Forall (fun d => 0 <= d) ds -> Forall2 decimal ds (map dec_text ds).
Proof. induction 1; cbn [map]; constructor; auto using decimal_dec. Qed.

Lemma debug_text_fact a w u :
  is_apint a w u ->
  exists dw ds, decimal w dw /\ Forall2 decimal (words w u) ds /\
    render (dbg_apint a) =
      chars "ApInt { len: BitWidth(" ++ dw ++ chars "), digits: [" ++
      comma_separated (map (fun d => chars "Digit(" ++ d ++ chars ")") ds) ++ chars "] }" /\
    render_pretty (dbg_apint a) =
      chars "ApInt {" ++ [10] ++
      chars "    len: BitWidth(" ++ [10] ++
      chars "        " ++ dw ++ chars "," ++ [10] ++
      chars "    )," ++ [10] ++
      chars "    digits: [" ++ [10] ++
      concat (map (fun d =>
        chars "        Digit(" ++ [10] ++
        chars "            " ++ d ++ chars "," ++ [10] ++
        chars "        )," ++ [10]) ds) ++
      chars "    ]," ++ [10] ++
      chars "}" /\
    render (dbg_uint a) = chars "UInt { value: " ++ render (dbg_apint a) ++ chars " }" /\
    render (dbg_int a) = chars "Int { value: " ++ render (dbg_apint a) ++ chars " }".
Proof.
  intros (Ha & <- & <-). exists (dec_text (len a)), (map dec_text (digits a)). rewrite <- words_digits by assumption.
  split; [apply decimal_dec; unfold wf in Ha; lia|]. split; [apply digit_texts, wf_nonneg, Ha|].
  split; [|split; [|split]].
  - rewrite render_apint, join_comma, !map_map. reflexivity.
  - rewrite pretty_apint by assumption. unfold width_block. rewrite <- !app_assoc, !map_map. reflexivity.
  - unfold dbg_uint. cbn [render map join]. rewrite <- !app_assoc. reflexivity.
  - unfold dbg_int. cbn [render map join]. rewrite <- !app_assoc. reflexivity.
Qed.

Lemma debug_injective_fact a w u b v t :
  is_apint a w u -> is_apint b v t ->
  (render (dbg_apint a) = render (dbg_apint b) <-> w = v /\ u = t) /\
  (render (dbg_uint a) = render (dbg_uint b) <-> w = v /\ u = t) /\
  (render (dbg_int a) = render (dbg_int b) <-> w = v /\ u = t) /\
  (render_pretty (dbg_apint a) = render_pretty (dbg_apint b) <-> w = v /\ u = t) /\
  (render_pretty (dbg_uint a) = render_pretty (dbg_uint b) <-> w = v /\ u = t) /\
  (render_pretty (dbg_int a) = render_pretty (dbg_int b) <-> w = v /\ u = t).
Proof.
  intros Ha Hb.
  assert (Heq : w = v /\ u = t -> a = b).
  { intros [-> ->]. eapply apint_unique; eassumption. }
  destruct Ha as (Wa & La & Ua), Hb as (Wb & Lb & Ub).
  assert (Hback : a = b -> w = v /\ u = t) by (intros ->; split; congruence).
  assert (R : render (dbg_apint a) = render (dbg_apint b) -> a = b).
  { intros E. apply (split_apint a b [] []); try assumption. now rewrite E. }
  assert (Q : render_pretty (dbg_apint a) = render_pretty (dbg_apint b) -> a = b) by (now apply pretty_inj).
  assert (RN : forall name, render (DStruct name [(lit "value", dbg_apint a)]) =
                            render (DStruct name [(lit "value", dbg_apint b)]) -> a = b).
  { intros name E. apply R. cbn [render map join] in E. rewrite <- !app_assoc in E.
    do 4 apply app_inv_head in E. now apply app_inv_tail in E. }
  assert (QN : forall name, render_pretty (DStruct name [(lit "value", dbg_apint a)]) =
                            render_pretty (DStruct name [(lit "value", dbg_apint b)]) -> a = b).
  { intros name E. apply Q. cbn [render_pretty map concat] in E. rewrite !app_nil_r in E.
    do 3 apply app_inv_head in E. apply app_inv_tail in E. apply pad_inj in E.
    rewrite <- !app_assoc in E. do 2 apply app_inv_head in E. now apply app_inv_tail in E. }
  assert (fin : forall X : Prop, (X -> a = b) -> (a = b -> X) -> (X <-> w = v /\ u = t)).
  { intros X H1 H2. split; auto. }
  split; [|split; [|split; [|split; [|split]]]]; apply fin; auto; try (intros ->; reflexivity);
    first [apply RN|apply QN].
Qed.
