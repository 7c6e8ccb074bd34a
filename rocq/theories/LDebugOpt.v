(** Proofs about [Debug] output with options. *)
From Coq Require Import Ascii String.
From Verif Require Import LFacts LSerial3 LSerial2 LText LText2 LErrText LMach3.
From Verif Require Export SpecDebugOpt.

(** * Numbers *)
Lemma hex_spec alpha n : alpha = 97 \/ alpha = 65 -> 0 <= n ->
  canonical_numeral 16 alpha (hex_text alpha n) /\ string_value 16 (hex_text alpha n) = n.
Proof.
  intros Ha Hn. unfold hex_text.
  destruct (u64_digits_spec 16 (S (Z.to_nat (Z.log2 n))) ltac:(lia) (S (Z.to_nat (Z.log2 n))) n [])
    as (ds & E & Hd & Hv & Hne & _ & Hh); [lia| |].
  - split; [assumption|]. rewrite Nat2Z.inj_succ, Z2Nat.id by apply Z.log2_nonneg.
    destruct (Z.eq_dec n 0) as [->|]; [reflexivity|].
    pose proof (Z.log2_spec n ltac:(lia)) as [_ H]. eapply Z.lt_le_trans; [exact H|].
    apply Z.pow_le_mono_l. lia.
  - rewrite app_nil_r in E. rewrite E. change (good_alpha alpha) in Ha. split; [split; [|split]|].
    + destruct ds; [congruence|discriminate].
    + destruct ds as [|d t]; [congruence|]. cbn [map hd]. intros K. apply Forall_inv in Hd.
      apply (digit_char_spec 16 alpha d Ha Hd ltac:(lia)) in K. subst d. specialize (Hh eq_refl). injection Hh as ->. reflexivity.
    + apply Forall_map. eapply Forall_impl; [|exact Hd]. intros d H. cbn beta in H |- *. unfold digit_char. destruct Ha as [-> | ->]; destruct (Z.ltb_spec d 10); lia.
    + unfold string_value. rewrite (string_digits_map 16) by (auto; lia). exact Hv.
Qed.

Definition numeral_text (h : hex_flag) (n : Z) : list Z :=
  match h with NoHex => dec_text n | LowerHex => hex_text 97 n | UpperHex => hex_text 65 n end.
Definition hex_prefix (h : hex_flag) : list Z := match h with NoHex => [] | _ => lit "0x" end.
Lemma show_number_eq o h n : show_number o h n = pad_integral o (hex_prefix h) (numeral_text h n).
Proof. destruct h; reflexivity. Qed.

Lemma half_rest n : Nat.div (n + 1) 2 = (n - Nat.div n 2)%nat.
Proof.
  pose proof (Nat.div_mod n 2 ltac:(lia)) as H. pose proof (Nat.mod_upper_bound n 2 ltac:(lia)) as M.
  destruct (Nat.eq_dec (n mod 2) 0) as [Z0|N0].
  - symmetry. apply (Nat.div_unique (n + 1) 2 _ 1); lia.
  - symmetry. apply (Nat.div_unique (n + 1) 2 _ 0); lia.
Qed.

Lemma pad_integral_spec o prefix s :
  pad_integral o prefix s =
  std_integer_text (fo_alternate o) (fo_plus o) (fo_zero o) (fo_width o) (fo_fill o) (side_asked (fo_align o)) prefix s.
Proof.
  unfold pad_integral, std_integer_text. set (sg := if fo_plus o then [43] else []). set (pf := if fo_alternate o then prefix else []).
  clearbody sg pf. rewrite app_length.
  replace (length sg + length pf + length s)%nat with (length s + length sg + length pf)%nat by lia.
  set (n := (length s + length sg + length pf)%nat). clearbody n.
  destruct (fo_width o) as [m|].
  - destruct (Z.leb_spec m (Z.of_nat n)) as [L|L].
    + replace (Z.to_nat m - n)%nat with 0%nat by lia. cbn [repeat Nat.div Nat.divmod fst Nat.sub app].
      destruct (fo_zero o), (fo_align o) as [[]|]; cbn [side_asked]; rewrite <- ?app_assoc, ?app_nil_r; reflexivity.
    + destruct (fo_zero o); [now rewrite <- app_assoc|].
      destruct (fo_align o) as [[]|]; cbn [padding side_asked repeat app]; rewrite ?half_rest, <- ?app_assoc, ?app_nil_r; reflexivity.
  - cbn [repeat Nat.div Nat.divmod fst Nat.sub app].
    destruct (fo_zero o), (fo_align o) as [[]|]; cbn [side_asked]; rewrite <- ?app_assoc, ?app_nil_r; reflexivity.
Qed.

Lemma shown_number o h n : 0 <= n -> shown o h n (show_number o h n).
Proof.
  intros Hn. exists (numeral_text h n). split.
  - destruct h; [apply decimal_dec, Hn|apply hex_spec; auto|apply hex_spec; auto].
  - rewrite show_number_eq, pad_integral_spec. destruct h; reflexivity.
Qed.

Lemma shown_numbers o h ds : Forall (fun d => 0 <= d) ds -> Forall2 (shown o h) ds (map (show_number o h) ds).
Proof. induction 1; cbn [map]; constructor; auto using shown_number. Qed.

(** * The texts of integers *)
Lemma render_with_apint num a : render_with num (dbg_apint a) =
  lit "ApInt { len: BitWidth(" ++ num (width a) ++ lit "), digits: [" ++
  join (lit ", ") (map (fun d => lit "Digit(" ++ num d ++ lit ")") (digits a)) ++ lit "] }".
Proof.
  unfold dbg_apint, dbg_width, as_digit_slice. cbn [render_with map join]. rewrite map_map.
  rewrite (map_ext (fun x => render_with num (dbg_digit x)) (fun d => lit "Digit(" ++ num d ++ lit ")"))
    by reflexivity.
  rewrite <- !app_assoc. reflexivity.
Qed.

Lemma render_one_line num a : render_with num (dbg_apint a) = one_line (num (len a)) (map num (digits a)).
Proof. rewrite render_with_apint, join_comma. unfold one_line. now rewrite map_map. Qed.

(** Texts without line breaks. *)
Definition flat (s : list Z) : Prop := s <> [] /\ Forall (fun c => c <> 10) s.
Lemma pad_flat nl s t : flat s ->
  pad_lines nl (s ++ t) = (if nl then lit "    " else []) ++ s ++ pad_lines false t.
Proof.
  intros [Hne Hd]. revert nl. induction Hd as [|c r Hc Hr IH]; intros nl; [congruence|]. cbn [app pad_lines]. f_equal. f_equal.
  destruct (Z.eqb_spec c 10); [lia|]. destruct r as [|c' r]; [reflexivity|]. now rewrite IH by discriminate.
Qed.

Lemma pretty_tuple1_with num name n : flat (num n) -> pretty_with num (DTuple name [DNum n]) =
  name ++ lit "(" ++ [10] ++ lit "    " ++ num n ++ lit "," ++ [10] ++ lit ")".
Proof.
  intros Hn. cbn [pretty_with map concat]. unfold pretty_line. rewrite pad_flat by assumption.
  rewrite app_nil_r, <- !app_assoc. reflexivity.
Qed.

Definition digit_block_with (num : Z -> list Z) (d : Z) : list Z :=
  lit "        Digit(" ++ [10] ++ lit "            " ++ num d ++ lit "," ++ [10] ++ lit "        )," ++ [10].

Lemma pretty_many_lines num a : flat (num (len a)) -> Forall (fun d => flat (num d)) (digits a) ->
  pretty_with num (dbg_apint a) = many_lines (num (len a)) (map num (digits a)).
Proof.
  intros Hw Hd. unfold dbg_apint, as_digit_slice.
  assert (E1 : pretty_line (lit "len" ++ lit ": " ++ pretty_with num (dbg_width (width a))) =
    lit "    len: BitWidth(" ++ [10] ++ lit "        " ++ num (len a) ++ lit "," ++ [10] ++ lit "    )," ++ [10]).
  { unfold dbg_width. rewrite pretty_tuple1_with by exact Hw. unfold pretty_line. rewrite <- !app_assoc.
    change (lit "len" ++ lit ": " ++ lit "BitWidth" ++ lit "(" ++ [10] ++ lit "    " ++
            num (width a) ++ lit "," ++ [10] ++ lit ")" ++ lit "," ++ [10])
      with ((lit "len: BitWidth(" ++ [10] ++ lit "    ") ++ num (width a) ++ lit "," ++ [10] ++ lit ")," ++ [10]).
    rewrite pad_app by discriminate. rewrite (pad_flat _ (num (width a))) by exact Hw. reflexivity. }
  assert (E2 : pretty_line (lit "digits" ++ lit ": " ++ pretty_with num (DList (map dbg_digit (digits a)))) =
    lit "    digits: [" ++ [10] ++ concat (map (digit_block_with num) (digits a)) ++ lit "    ]," ++ [10]).
  { cbn [pretty_with]. rewrite map_map. unfold pretty_line at 1. rewrite <- !app_assoc.
    change (lit "digits" ++ lit ": " ++ lit "[" ++ [10] ++
            concat (map (fun x => pretty_line (pretty_with num (dbg_digit x))) (digits a)) ++ lit "]" ++ lit "," ++ [10])
      with ((lit "digits: [" ++ [10]) ++
            concat (map (fun x => pretty_line (pretty_with num (dbg_digit x))) (digits a)) ++ lit "]," ++ [10]).
    rewrite pad_app by discriminate. change (last (lit "digits: [" ++ [10]) 0 =? 10) with true.
    assert (Eb : forall d, flat (num d) -> pretty_line (pretty_with num (dbg_digit d)) =
      (lit "    Digit(" ++ [10] ++ lit "        ") ++ num d ++ lit "," ++ [10] ++ lit "    )," ++ [10]).
    { intros d H0. unfold dbg_digit. rewrite pretty_tuple1_with by assumption. unfold pretty_line. rewrite <- !app_assoc.
      change (lit "Digit" ++ lit "(" ++ [10] ++ lit "    " ++ num d ++ lit "," ++ [10] ++ lit ")" ++ lit "," ++ [10])
        with ((lit "Digit(" ++ [10] ++ lit "    ") ++ num d ++ lit "," ++ [10] ++ lit ")," ++ [10]).
      rewrite pad_app by discriminate. rewrite (pad_flat _ (num d)) by assumption. reflexivity. }
    rewrite pad_concat.
    - rewrite map_map. rewrite (map_ext_in _ (digit_block_with num)); [reflexivity|].
      intros d Hin. rewrite Forall_forall in Hd. rewrite Eb by (now apply Hd).
      rewrite pad_app by discriminate. rewrite (pad_flat _ (num d)) by (now apply Hd). reflexivity.
    - apply Forall_forall. intros s Hin. apply in_map_iff in Hin as (d & <- & Hin). rewrite Forall_forall in Hd.
      rewrite Eb by (now apply Hd). split; [discriminate|].
      rewrite !app_assoc, last_last. reflexivity. }
  cbn [pretty_with map concat]. cbn [pretty_with map concat] in E1, E2. rewrite E1, E2.
  unfold many_lines. rewrite app_nil_r, map_map, <- !app_assoc. reflexivity.
Qed.

(** Where the letters and digits of a number are. *)
Lemma repeat_forall {A} (P : A -> Prop) x n : P x -> Forall P (repeat x n).
Proof. intros H. induction n; cbn [repeat]; auto. Qed.

Lemma numeral_alnum h n : 0 <= n -> numeral_text h n <> [] /\ Forall alphanumeric (numeral_text h n).
Proof.
  intros Hn. assert (X : forall alpha, alpha = 97 \/ alpha = 65 -> hex_text alpha n <> [] /\ Forall alphanumeric (hex_text alpha n)).
  { intros alpha Ha. destruct (hex_spec alpha n Ha Hn) as [(H1 & _ & H3) _]. split; [exact H1|]. eapply Forall_impl; [|exact H3].
    intros c Hc. unfold alphanumeric. cbn beta in Hc. destruct Ha; subst alpha; lia. }
  destruct h; cbn [numeral_text]; auto. destruct (decimal_dec n Hn) as (H1 & H2 & _). split; [exact H1|].
  eapply Forall_impl; [|exact H2]. intros c Hc. left. exact Hc.
Qed.

Lemma number_shape o h n : ~ alphanumeric (fo_fill o) ->
  exists pre k post, show_number o h n =
      pre ++ ((if fo_alternate o then hex_prefix h else []) ++ repeat 48 k ++ numeral_text h n) ++ post /\
    Forall (fun c => ~ alphanumeric c) pre /\ Forall (fun c => ~ alphanumeric c) post.
Proof.
  intros Hf. rewrite show_number_eq. unfold pad_integral.
  set (sg := if fo_plus o then [43] else []).
  assert (Hs : Forall (fun c => ~ alphanumeric c) sg).
  { subst sg. destruct (fo_plus o); repeat constructor. unfold alphanumeric. lia. }
  set (pf := if fo_alternate o then hex_prefix h else []). set (s := numeral_text h n). clearbody sg pf s.
  destruct (fo_width o) as [m|]; [|exists sg, 0%nat, []; cbn [repeat app]; rewrite app_nil_r; auto].
  destruct (m <=? _); [exists sg, 0%nat, []; cbn [repeat app]; rewrite app_nil_r; auto|].
  destruct (fo_zero o); [exists sg, (Z.to_nat m - (length s + length sg + length pf))%nat, []; rewrite app_nil_r; auto|].
  destruct (padding _ _) as [p q].
  exists (repeat (fo_fill o) p ++ sg), 0%nat, (repeat (fo_fill o) q). cbn [repeat app]. rewrite <- !app_assoc.
  split; [reflexivity|]. split; [apply Forall_app; split; [now apply repeat_forall|exact Hs]|now apply repeat_forall].
Qed.

(** A run of letters and digits between others is where it is. *)
Lemma split_run pre x r pre' x' r' :
  Forall (fun c => ~ alphanumeric c) pre -> Forall (fun c => ~ alphanumeric c) pre' ->
  x <> [] -> x' <> [] -> Forall alphanumeric x -> Forall alphanumeric x' ->
  (forall c t, r = c :: t -> ~ alphanumeric c) -> (forall c t, r' = c :: t -> ~ alphanumeric c) ->
  pre ++ x ++ r = pre' ++ x' ++ r' -> x = x'.
Proof.
  intros Hp. revert pre'. induction Hp as [|c pre Hc Hp IH]; intros pre' Hp' Hx Hx' Ax Ax' Hr Hr' E.
  - destruct Hp' as [|c' pre' Hc' Hp'].
    + cbn [app] in E. clear Hx Hx'. revert x' Ax' E. induction Ax as [|d x Hd Ax IHx]; intros x' Ax' E; destruct Ax' as [|d' x' Hd' Ax'].
      * reflexivity.
      * cbn [app] in E. destruct (Hr d' (x' ++ r')); assumption.
      * cbn [app] in E. destruct (Hr' d (x ++ r)); [now symmetry|assumption].
      * cbn [app] in E. injection E as -> E. f_equal. now apply IHx.
    + destruct Ax as [|d x Hd Ax]; [congruence|]. cbn [app] in E. injection E as -> _. contradiction.
  - destruct Hp' as [|c' pre' Hc' Hp'].
    + destruct Ax' as [|d x' Hd Ax']; [congruence|]. cbn [app] in E. injection E as -> _. contradiction.
    + cbn [app] in E. injection E as -> E. now apply (IH pre').
Qed.

Lemma string_value_zeros r k s : string_value r (repeat 48 k ++ s) = string_value r s.
Proof.
  induction k as [|k IH]; [reflexivity|]. cbn [repeat app]. rewrite <- IH. reflexivity.
Qed.
Lemma string_value_dec n : 0 <= n -> string_value 10 (dec_text n) = n.
Proof.
  intros Hn. destruct (decimal_dec n Hn) as (_ & Hd & _ & Hv). rewrite <- Hv at 2. unfold string_value. f_equal.
  clear Hv. induction Hd as [|c t Hc _ IH]; [reflexivity|]. cbn [string_digits map]. unfold char_value.
  destruct (Z.leb_spec 48 c); [|lia]. destruct (Z.leb_spec c 57); [|lia]. cbn [andb]. now rewrite IH.
Qed.
Definition base_of (h : hex_flag) : Z := match h with NoHex => 10 | _ => 16 end.
Lemma string_value_numeral h n : 0 <= n -> string_value (base_of h) (numeral_text h n) = n.
Proof. intros Hn. destruct h; [now apply string_value_dec|apply hex_spec; auto|apply hex_spec; auto]. Qed.

Lemma split_number o h n m c r c' r' : ~ alphanumeric (fo_fill o) -> 0 <= n -> 0 <= m -> ~ alphanumeric c -> ~ alphanumeric c' ->
  show_number o h n ++ c :: r = show_number o h m ++ c' :: r' -> n = m /\ c = c' /\ r = r'.
Proof.
  intros Hf Hn Hm Hc Hc' E.
  assert (X : n = m).
  { destruct (number_shape o h n Hf) as (p & k & q & E1 & P1 & Q1). destruct (number_shape o h m Hf) as (p' & k' & q' & E2 & P2 & Q2).
    rewrite E1, E2, <- !(app_assoc p), <- !(app_assoc p') in E. rewrite <- (app_assoc _ q), <- (app_assoc _ q') in E.
    destruct (numeral_alnum h n Hn) as [N1 A1]. destruct (numeral_alnum h m Hm) as [N2 A2].
    assert (AP : Forall alphanumeric (if fo_alternate o then hex_prefix h else [])).
    { destruct (fo_alternate o), h; cbn; repeat constructor; unfold alphanumeric; lia. }
    assert (HQ : forall q0 c0 r0, Forall (fun c => ~ alphanumeric c) q0 -> ~ alphanumeric c0 ->
      forall d t, q0 ++ c0 :: r0 = d :: t -> ~ alphanumeric d).
    { intros q0 c0 r0 H0 H1 d t Ed. destruct H0; cbn [app] in Ed; congruence. }
    apply split_run in E; try assumption; try (eapply HQ; eassumption).
    - apply app_inv_head in E. apply (f_equal (string_value (base_of h))) in E.
      now rewrite !string_value_zeros, !string_value_numeral in E by assumption.
    - intros H. apply app_eq_nil in H as [_ H]. apply app_eq_nil in H as [_ H]. contradiction.
    - intros H. apply app_eq_nil in H as [_ H]. apply app_eq_nil in H as [_ H]. contradiction.
    - repeat (apply Forall_app; split); try assumption. apply repeat_forall. unfold alphanumeric. lia.
    - repeat (apply Forall_app; split); try assumption. apply repeat_forall. unfold alphanumeric. lia. }
  subst m. apply app_inv_head in E. injection E as -> ->. auto.
Qed.

Lemma number_flat o h n : fo_fill o <> 10 -> 0 <= n -> flat (show_number o h n).
Proof.
  intros Hf Hn. rewrite show_number_eq. destruct (numeral_alnum h n Hn) as [N A].
  assert (F : Forall (fun c => c <> 10) (numeral_text h n)).
  { eapply Forall_impl; [|exact A]. unfold alphanumeric. intros; lia. }
  set (s := numeral_text h n) in *. clearbody s. unfold pad_integral.
  set (sg := if fo_plus o then [43] else []).
  assert (Hs : Forall (fun c => c <> 10) sg) by (subst sg; destruct (fo_plus o); repeat constructor; lia).
  set (pf := if fo_alternate o then hex_prefix h else []).
  assert (Hp : Forall (fun c => c <> 10) pf) by (subst pf; destruct (fo_alternate o), h; cbn; repeat constructor; lia).
  clearbody sg pf.
  assert (Z0 : Forall (fun c => c <> 10) (sg ++ pf ++ s)) by (repeat (apply Forall_app; split); assumption).
  assert (Hne : forall p q : list Z, p ++ s ++ q <> []).
  { intros p q H. apply app_eq_nil in H as [_ H]. apply app_eq_nil in H as [H _]. contradiction. }
  assert (B : flat (sg ++ pf ++ s)).
  { split; [|exact Z0]. specialize (Hne (sg ++ pf) []). now rewrite app_nil_r, <- app_assoc in Hne. }
  destruct (fo_width o) as [m|]; [|exact B]. destruct (m <=? _); [exact B|]. destruct (fo_zero o).
  - split.
    + specialize (Hne (sg ++ pf ++ repeat 48 (Z.to_nat m - (length s + length sg + length pf))) []).
      now rewrite app_nil_r, <- !app_assoc in Hne.
    + repeat (apply Forall_app; split); try assumption. apply repeat_forall. lia.
  - destruct (padding _ _) as [p q]. split.
    + specialize (Hne (repeat (fo_fill o) p ++ sg ++ pf) (repeat (fo_fill o) q)). now rewrite <- !app_assoc in Hne.
    + repeat (apply Forall_app; split); try assumption; now apply repeat_forall.
Qed.

Lemma debug_uint_with o h a : debug_with o h (dbg_uint a) =
  if fo_alternate o then chars "UInt {" ++ [10] ++ pretty_line (chars "value: " ++ debug_with o h (dbg_apint a)) ++ chars "}"
  else chars "UInt { value: " ++ debug_with o h (dbg_apint a) ++ chars " }".
Proof.
  unfold debug_with, dbg_uint. destruct (fo_alternate o); cbn [render_with pretty_with map join concat]; rewrite ?app_nil_r, <- ?app_assoc; reflexivity.
Qed.
Lemma debug_int_with o h a : debug_with o h (dbg_int a) =
  if fo_alternate o then chars "Int {" ++ [10] ++ pretty_line (chars "value: " ++ debug_with o h (dbg_apint a)) ++ chars "}"
  else chars "Int { value: " ++ debug_with o h (dbg_apint a) ++ chars " }".
Proof.
  unfold debug_with, dbg_int. destruct (fo_alternate o); cbn [render_with pretty_with map join concat]; rewrite ?app_nil_r, <- ?app_assoc; reflexivity.
Qed.

Lemma debug_options_fact o h a w u :
  is_apint a w u ->
  exists dw ds, shown o h w dw /\ Forall2 (shown o h) (words w u) ds /\
    (fo_alternate o = false -> debug_with o h (dbg_apint a) = one_line dw ds) /\
    (fo_alternate o = true -> fo_fill o <> 10 -> debug_with o h (dbg_apint a) = many_lines dw ds).
Proof.
  intros (Ha & <- & <-). exists (show_number o h (len a)), (map (show_number o h) (digits a)).
  rewrite <- words_digits by assumption. pose proof (wf_nonneg _ Ha) as Hd. assert (Hw : 0 <= len a) by (unfold wf in Ha; lia).
  split; [now apply shown_number|]. split; [now apply shown_numbers|]. unfold debug_with. split.
  - intros ->. apply render_one_line.
  - intros -> Hf. apply pretty_many_lines; [now apply number_flat|]. eapply Forall_impl; [|exact Hd]. intros d H. now apply number_flat.
Qed.

Lemma debug_wrappers_fact o h a :
  fo_alternate o = false ->
  debug_with o h (dbg_uint a) = chars "UInt { value: " ++ debug_with o h (dbg_apint a) ++ chars " }" /\
  debug_with o h (dbg_int a) = chars "Int { value: " ++ debug_with o h (dbg_apint a) ++ chars " }".
Proof. intros E. rewrite debug_uint_with, debug_int_with, E. auto. Qed.

Lemma render_with_dec : forall t, render_with (show_number (no_options false) NoHex) t = render t.
Proof.
  fix IH 1. intros [n|name|name fs|name fs|is]; cbn [render_with render].
  - reflexivity.
  - reflexivity.
  - assert (E : map (render_with (show_number (no_options false) NoHex)) fs = map render fs); [|now rewrite E].
    induction fs as [|x fs IHf]; [reflexivity|]. cbn [map]. now rewrite IH, IHf.
  - assert (E : map (fun f : list Z * dtree => let (n, x) := f in n ++ lit ": " ++ render_with (show_number (no_options false) NoHex) x) fs =
      map (fun f : list Z * dtree => let (n, x) := f in n ++ lit ": " ++ render x) fs); [|now rewrite E].
    induction fs as [|[n x] fs IHf]; [reflexivity|]. cbn [map]. now rewrite IH, IHf.
  - assert (E : map (render_with (show_number (no_options false) NoHex)) is = map render is); [|now rewrite E].
    induction is as [|x fs IHf]; [reflexivity|]. cbn [map]. now rewrite IH, IHf.
Qed.
Lemma pretty_with_dec : forall t, pretty_with (show_number (no_options true) NoHex) t = render_pretty t.
Proof.
  fix IH 1. intros [n|name|name fs|name fs|is]; cbn [pretty_with render_pretty].
  - reflexivity.
  - reflexivity.
  - assert (E : map (fun x => pretty_line (pretty_with (show_number (no_options true) NoHex) x)) fs =
      map (fun x => pretty_line (render_pretty x)) fs); [|now rewrite E].
    induction fs as [|x fs IHf]; [reflexivity|]. cbn [map]. now rewrite IH, IHf.
  - assert (E : map (fun f : list Z * dtree => let (n, x) := f in pretty_line (n ++ lit ": " ++ pretty_with (show_number (no_options true) NoHex) x)) fs =
      map (fun f : list Z * dtree => let (n, x) := f in pretty_line (n ++ lit ": " ++ render_pretty x)) fs); [|now rewrite E].
    induction fs as [|[n x] fs IHf]; [reflexivity|]. cbn [map]. now rewrite IH, IHf.
  - assert (E : map (fun x => pretty_line (pretty_with (show_number (no_options true) NoHex) x)) is =
      map (fun x => pretty_line (render_pretty x)) is); [|now rewrite E].
    induction is as [|x fs IHf]; [reflexivity|]. cbn [map]. now rewrite IH, IHf.
Qed.
Lemma debug_default_fact t :
  debug_with (no_options false) NoHex t = render t /\ debug_with (no_options true) NoHex t = render_pretty t.
Proof. split; [apply render_with_dec|apply pretty_with_dec]. Qed.

(** * The texts identify *)
Lemma split_items_with o h ds es r r' : ~ alphanumeric (fo_fill o) -> length ds = length es -> Forall (fun d => 0 <= d) ds -> Forall (fun d => 0 <= d) es ->
  comma_separated (map (fun d => chars "Digit(" ++ show_number o h d ++ chars ")") ds) ++ r =
  comma_separated (map (fun d => chars "Digit(" ++ show_number o h d ++ chars ")") es) ++ r' ->
  ds = es /\ r = r'.
Proof.
  intros Hf Hl Hd. revert es Hl. induction Hd as [|d ds Hd0 Hd IH]; intros es Hl He E; destruct He as [|e es He0 He]; try discriminate Hl.
  - auto.
  - injection Hl as Hl. cbn [map comma_separated] in E. rewrite <- !app_assoc in E. apply app_inv_head in E.
    change (chars ")") with [41] in E. cbn [app] in E.
    apply split_number in E as (-> & _ & E); try assumption; try (unfold alphanumeric; lia).
    destruct ds as [|x xs], es as [|y ys]; try discriminate Hl.
    + cbn [map app] in E. auto.
    + cbn [map] in E. rewrite <- !app_assoc in E. apply app_inv_head in E.
      destruct (IH (y :: ys) Hl He E) as [-> ->]. auto.
Qed.
Lemma split_blocks_with o h ds es r r' : ~ alphanumeric (fo_fill o) -> length ds = length es -> Forall (fun d => 0 <= d) ds -> Forall (fun d => 0 <= d) es ->
  concat (map (digit_block_with (show_number o h)) ds) ++ r = concat (map (digit_block_with (show_number o h)) es) ++ r' ->
  ds = es /\ r = r'.
Proof.
  intros Hf Hl Hd. revert es Hl. induction Hd as [|d ds Hd0 Hd IH]; intros es Hl He E; destruct He as [|e es He0 He]; try discriminate Hl.
  - auto.
  - injection Hl as Hl. cbn [map concat] in E. unfold digit_block_with at 1 3 in E. rewrite <- !app_assoc in E.
    do 3 apply app_inv_head in E. change (lit ",") with [44] in E. cbn [app] in E.
    apply split_number in E as (-> & _ & E); try assumption; try (unfold alphanumeric; lia).
    injection E as E. destruct (IH es Hl He E) as (-> & ->). auto.
Qed.

Lemma debug_with_inj o h a b : ~ alphanumeric (fo_fill o) -> fo_fill o <> 10 -> wf a -> wf b ->
  debug_with o h (dbg_apint a) = debug_with o h (dbg_apint b) -> a = b.
Proof.
  intros Hf Hf' Ha Hb E.
  assert (Wa : 0 <= len a) by (unfold wf in Ha; lia). assert (Wb : 0 <= len b) by (unfold wf in Hb; lia).
  pose proof (wf_nonneg _ Ha) as Da. pose proof (wf_nonneg _ Hb) as Db.
  assert (Fin : len a = len b -> (length (digits a) = length (digits b) -> digits a = digits b) -> a = b).
  { intros El Ed. destruct a as [l ds], b as [l' ds']. cbn in *. subst l'. f_equal. apply Ed.
    destruct Ha as (_ & H1 & _), Hb as (_ & H2 & _). cbn in H1, H2. lia. }
  unfold debug_with in E. destruct (fo_alternate o) eqn:Alt.
  - rewrite !pretty_many_lines in E; try (now apply number_flat);
      try (eapply Forall_impl; [|eassumption]; intros d H; now apply number_flat).
    unfold many_lines in E. do 5 apply app_inv_head in E. change (chars ",") with [44] in E. cbn [app] in E.
    apply split_number in E as (Ew & _ & E); try assumption; try (unfold alphanumeric; lia).
    injection E as E. apply Fin; [exact Ew|]. intros Hl. rewrite !map_map in E.
    exact (proj1 (split_blocks_with o h _ _ _ _ Hf Hl Da Db E)).
  - rewrite !render_one_line in E. unfold one_line in E. apply app_inv_head in E.
    change (chars "), digits: [") with (41 :: chars ", digits: [") in E. cbn [app] in E.
    apply split_number in E as (Ew & _ & E); try assumption; try (unfold alphanumeric; lia).
    apply app_inv_head in E. apply Fin; [exact Ew|]. intros Hl. rewrite !map_map in E. exact (proj1 (split_items_with o h _ _ _ _ Hf Hl Da Db E)).
Qed.

Lemma debug_options_identify_fact o h a w u b v t :
  ~ alphanumeric (fo_fill o) -> fo_fill o <> 10 -> is_apint a w u -> is_apint b v t ->
  (debug_with o h (dbg_apint a) = debug_with o h (dbg_apint b) <-> w = v /\ u = t) /\
  (debug_with o h (dbg_uint a) = debug_with o h (dbg_uint b) <-> w = v /\ u = t) /\
  (debug_with o h (dbg_int a) = debug_with o h (dbg_int b) <-> w = v /\ u = t).
Proof.
  intros Hf Hf' Ha Hb.
  assert (Heq : w = v /\ u = t -> a = b).
  { intros [-> ->]. eapply apint_unique; eassumption. }
  destruct Ha as (Wa & La & Ua), Hb as (Wb & Lb & Ub).
  assert (Hback : a = b -> w = v /\ u = t) by (intros ->; split; congruence).
  assert (fin : forall X : Prop, (X -> a = b) -> (a = b -> X) -> (X <-> w = v /\ u = t)) by (intros X H1 H2; split; auto).
  pose proof (debug_with_inj o h a b Hf Hf' Wa Wb) as R.
  split; [|split]; apply fin; try (intros ->; reflexivity); [exact R| |]; intros E; apply R.
  - rewrite !debug_uint_with in E. destruct (fo_alternate o).
    + do 2 apply app_inv_head in E. apply app_inv_tail in E. apply pad_inj in E. apply app_inv_tail in E. now apply app_inv_head in E.
    + apply app_inv_head in E. now apply app_inv_tail in E.
  - rewrite !debug_int_with in E. destruct (fo_alternate o).
    + do 2 apply app_inv_head in E. apply app_inv_tail in E. apply pad_inj in E. apply app_inv_tail in E. now apply app_inv_head in E.
    + apply app_inv_head in E. now apply app_inv_tail in E.
Qed.

(** A digit as fill character hides where a number ends. *)
Lemma debug_fill_needed_fact :
  exists o a b, alphanumeric (fo_fill o) /\ wf a /\ wf b /\ unsigned a <> unsigned b /\
    debug_with o NoHex (dbg_apint a) = debug_with o NoHex (dbg_apint b).
Proof.
  exists (mk_fmt_options false false false (Some 3) 48 (Some ALeft)), (mk_apint 8 [1]), (mk_apint 8 [10]).
  split; [unfold alphanumeric; cbn; lia|].
  split; [split; [reflexivity|split; [reflexivity|split; [repeat constructor; discriminate|reflexivity]]]|].
  split; [split; [reflexivity|split; [reflexivity|split; [repeat constructor; discriminate|reflexivity]]]|].
  split; [discriminate|]. vm_compute. reflexivity.
Qed.

(** * Errors *)
Lemma integer_shown o h a : wf a ->
  exists dw ds, shown o h (len a) dw /\ Forall2 (shown o h) (words (len a) (unsigned a)) ds /\
    render_with (show_number o h) (dbg_apint a) = one_line dw ds.
Proof.
  intros H. exists (show_number o h (len a)), (map (show_number o h) (digits a)). rewrite <- words_digits by assumption.
  split; [apply shown_number; unfold wf in H; lia|]. split; [now apply shown_numbers, wf_nonneg|apply render_one_line].
Qed.

Lemma kind_shown_fact o h printable k :
  payload_ok k -> strings_ok k -> kind_shown (shown o h) printable k (render_with (show_number o h) (dbg_error_kind printable k)).
Proof.
  intros H H'. destruct k; unfold kind_shown, payload_ok in *; cbn [dbg_error_kind render_with map join];
    unfold dbg_width, dbg_pos, dbg_shift, dbg_radix; cbn [render_with map join]; rewrite <- ?app_assoc.
  - eexists. split; [apply shown_number; assumption|reflexivity].
  - destruct H' as [(cs & Hs & ->) Hp]. rewrite utf8_decode by exact Hs. exists cs. do 3 eexists. split; [exact Hs|]. split; [reflexivity|]. split; [apply (shows_spec printable cs), Hs|]. split; [apply shown_number; assumption|].
    split; [|reflexivity]. destruct pos_char as [[p c]|]; [|reflexivity].
    do 2 eexists. split; [apply shown_number, Hp|]. split; [apply escape_char_spec; [now right|apply Hp]|].
    cbn [option_map dbg_option render_with map join app fst snd]. rewrite <- !app_assoc. reflexivity.
  - do 2 eexists. split; [apply shown_number; apply H|]. split; [apply shown_number; apply H|]. reflexivity.
  - do 2 eexists. split; [apply shown_number; apply H|]. split; [apply shown_number; apply H|reflexivity].
  - destruct (integer_shown o h value H) as (dw & ds & H1 & H2 & H3). eexists. split; [exists dw, ds; eauto|]. rewrite H3. destruct destination_ty; reflexivity.
  - do 2 eexists. split; [apply shown_number; apply H|]. split; [apply shown_number; apply H|reflexivity].
  - eexists. split; [apply shown_number; assumption|reflexivity].
  - do 2 eexists. split; [apply shown_number; apply H|]. split; [apply shown_number; apply H|reflexivity].
  - do 2 eexists. split; [apply shown_number; apply H|]. split; [apply shown_number; apply H|reflexivity].
  - destruct (integer_shown o h lhs H) as (dw & ds & H1 & H2 & H3). eexists. split; [exists dw, ds; eauto|]. rewrite H3. destruct op; reflexivity.
  - reflexivity.
Qed.

Lemma error_options_fact o h printable e :
  error_ok e -> fo_alternate o = false ->
  exists k m a, kind_shown (shown o h) printable (e_kind e) k /\ shows_string printable (e_message e) m /\
    match e_annotation e with
    | None => a = chars "None"
    | Some t => exists q, shows_string printable t q /\ a = chars "Some(" ++ q ++ chars ")"
    end /\
    debug_with o h (dbg_error printable e) = chars "Error { kind: " ++ k ++ chars ", message: " ++ m ++ chars ", annotation: " ++ a ++ chars " }".
Proof.
  intros (Hk & Hs & Hm & Ha) Alt. unfold debug_with. rewrite Alt.
  exists (render_with (show_number o h) (dbg_error_kind printable (e_kind e))), (render (dbg_str printable (e_message e))),
    (render (dbg_option (option_map (dbg_str printable) (e_annotation e)))).
  split; [apply kind_shown_fact; assumption|]. split; [apply shows_spec, Hm|]. split.
  - destruct (e_annotation e) as [t|]; [|reflexivity].
    eexists. split; [apply shows_spec, Ha|]. reflexivity.
  - unfold dbg_error. set (k := dbg_error_kind printable (e_kind e)). clearbody k. cbn [render_with map join].
    destruct (e_annotation e); cbn [option_map dbg_option render_with render map join dbg_str]; rewrite <- !app_assoc; reflexivity.
Qed.

Lemma display_options_fact o printable e :
  display_error_with o printable e = debug_with o NoHex (dbg_error printable e) /\
  display_error_with (no_options false) printable e = display_error printable e /\
  display_error_with (no_options true) printable e = render_pretty (dbg_error printable e).
Proof. split; [reflexivity|]. apply (debug_default_fact (dbg_error printable e)). Qed.
