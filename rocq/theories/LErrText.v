(** Proofs about the texts of errors. *)
From Verif Require Import LFacts LRel LCast LSerial3 LSerial2 LText LText2.
From Verif Require Export SpecErrText.

Lemma debug_of_spec a : wf a -> debug_of a (render (dbg_apint a)).
Proof.
  intros H. destruct (debug_text_fact a (len a) (unsigned a) ltac:(split; auto)) as (dw & ds & H1 & H2 & H3 & _).
  exists dw, ds. auto.
Qed.

Lemma message_says_fact k : payload_ok k -> says k (message_of k).
Proof.
  intros H. destruct k; unfold says, message_of, payload_ok in *;
    unfold dbg_width, dbg_pos, dbg_shift, dbg_radix; rewrite ?render_tuple1, <- ?app_assoc.
  - eexists. split; [apply decimal_dec; assumption|reflexivity].
  - eexists. split; [apply decimal_dec; assumption|reflexivity].
  - do 2 eexists. split; [apply decimal_dec; apply H|]. split; [apply decimal_dec; apply H|reflexivity].
  - do 2 eexists. split; [apply decimal_dec; apply H|]. split; [apply decimal_dec; apply H|reflexivity].
  - eexists. split; [apply debug_of_spec; assumption|]. destruct destination_ty; reflexivity.
  - do 2 eexists. split; [apply decimal_dec; apply H|]. split; [apply decimal_dec; apply H|reflexivity].
  - eexists. split; [apply decimal_dec; assumption|reflexivity].
  - do 2 eexists. split; [apply decimal_dec; apply H|]. split; [apply decimal_dec; apply H|reflexivity].
  - do 2 eexists. split; [apply decimal_dec; apply H|]. split; [apply decimal_dec; apply H|reflexivity].
  - eexists. split; [apply debug_of_spec; assumption|]. destruct op; reflexivity.
  - reflexivity.
Qed.

(** * Strings *)
Lemma escape_char_spec printable q c : q = 34 \/ q = 39 -> scalar c -> escaped printable q c (escape_char printable q c).
Proof.
  intros Hq Hc. unfold escape_char. destruct (Z.leb_spec c 255); [apply escape_spec; [exact Hq|unfold scalar in Hc; lia]|].
  destruct (printable c) eqn:E; [apply escaped_plain; [right; right; split; [lia|exact E]|lia..]|].
  destruct (hex_spec c ltac:(unfold scalar in Hc; lia)) as [H1 H2].
  apply escaped_other; [|exact H1|exact H2]. do 5 right. split; [lia|exact E].
Qed.
Lemma shows_spec printable s : text s -> shows_string printable s (render (dbg_str printable s)).
Proof.
  intros H. exists (map (escape_char printable 34) s). split; [|reflexivity].
  induction H as [|c s Hc Hs IH]; cbn [map]; constructor; [apply escape_char_spec; auto|exact IH].
Qed.

(** A string and its bytes. *)
Lemma utf8_decode_char c r : scalar c -> str_chars (utf8_char c ++ r) = c :: str_chars r.
Proof.
  intros Hc. assert (Hr : 0 <= c <= 1114111) by (unfold scalar in Hc; lia). clear Hc. unfold utf8_char.
  assert (M : forall x, 0 <= x mod 64 < 64) by (intros; apply Z.mod_pos_bound; lia).
  pose proof (Z.div_mod c 64 ltac:(lia)) as E1. pose proof (Z.div_mod (c / 64) 64 ltac:(lia)) as E2.
  pose proof (Z.div_mod (c / 64 / 64) 64 ltac:(lia)) as E3.
  rewrite !Z.div_div in E2, E3 by lia. rewrite !Z.div_div in E3 by lia.
  change (64 * 64) with 4096 in *. change (4096 * 64) with 262144 in *.
  pose proof (M c). pose proof (M (c / 64)). pose proof (M (c / 4096)).
  destruct (Z.ltb_spec c 128) as [L|L]; cbn [app str_chars].
  { destruct (Z.ltb_spec c 128); [reflexivity|lia]. }
  destruct (Z.ltb_spec c 2048) as [L'|L']; cbn [app str_chars].
  { destruct (Z.ltb_spec (192 + c / 64) 128); [lia|]. destruct (Z.ltb_spec (192 + c / 64) 224); [f_equal; lia|lia]. }
  destruct (Z.ltb_spec c 65536) as [L2|L2]; cbn [app str_chars].
  { destruct (Z.ltb_spec (224 + c / 4096) 128); [lia|]. destruct (Z.ltb_spec (224 + c / 4096) 224); [lia|].
    destruct (Z.ltb_spec (224 + c / 4096) 240); [f_equal; lia|lia]. }
  destruct (Z.ltb_spec (240 + c / 262144) 128); [lia|]. destruct (Z.ltb_spec (240 + c / 262144) 224); [lia|].
  destruct (Z.ltb_spec (240 + c / 262144) 240); [lia|]. f_equal. lia.
Qed.
Lemma utf8_decode s : text s -> str_chars (utf8 s) = s.
Proof.
  unfold utf8. induction 1 as [|c s Hc Hs IH]; [reflexivity|]. cbn [map concat]. rewrite utf8_decode_char, IH by assumption. reflexivity.
Qed.
Lemma utf8_bytes s : text s -> Forall (fun b => 0 <= b <= 255) (utf8 s).
Proof.
  unfold utf8. induction 1 as [|c s Hc Hs IH]; [constructor|]. cbn [map concat]. apply Forall_app; split; [|exact IH].
  assert (Hr : 0 <= c <= 1114111) by (unfold scalar in Hc; lia). clear -Hr. unfold utf8_char.
  assert (M : forall x, 0 <= x mod 64 < 64) by (intros; apply Z.mod_pos_bound; lia).
  pose proof (M c). pose proof (M (c / 64)). pose proof (M (c / 4096)).
  pose proof (Z.div_mod c 64 ltac:(lia)). pose proof (Z.div_mod c 4096 ltac:(lia)). pose proof (Z.div_mod c 262144 ltac:(lia)).
  pose proof (Z.mod_pos_bound c 4096 ltac:(lia)). pose proof (Z.mod_pos_bound c 262144 ltac:(lia)).
  destruct (Z.ltb_spec c 128); [|destruct (Z.ltb_spec c 2048); [|destruct (Z.ltb_spec c 65536)]]; repeat constructor; lia.
Qed.

(** The text is read back one character at a time. *)
Lemma numeral_char (d : list Z) c : canonical_numeral 16 97 d -> In c d -> c <> 125.
Proof. intros (_ & _ & H) Hin ->. rewrite Forall_forall in H. specialize (H 125 Hin). lia. Qed.

Lemma split_at (x : Z) (s t r r' : list Z) : ~ In x s -> ~ In x t -> s ++ x :: r = t ++ x :: r' -> s = t /\ r = r'.
Proof.
  revert t. induction s as [|a s IH]; intros [|b t] H1 H2 E; cbn [app] in E.
  - injection E as ->. auto.
  - injection E as -> _. destruct H2. now left.
  - injection E as -> _. destruct H1. now left.
  - injection E as -> E. destruct (IH t) as [-> ->]; auto; intros Hi; [apply H1|apply H2]; now right.
Qed.

Lemma escaped_head pr q c t : q = 34 \/ q = 39 -> escaped pr q c t ->
  (t = [c] /\ c <> q /\ c <> 92) \/ (exists y t', t = 92 :: y :: t').
Proof. intros Hq H. destruct H; [left; auto|right..]; do 2 eexists; reflexivity. Qed.

Lemma escaped_split pr q c t c' t' r r' : q = 34 \/ q = 39 -> escaped pr q c t -> escaped pr q c' t' ->
  t ++ r = t' ++ r' -> c = c' /\ r = r'.
Proof.
  intros Hq H H' E. assert (Nq : q <> 92 /\ q <> 48 /\ q <> 116 /\ q <> 110 /\ q <> 114 /\ q <> 117) by lia.
  destruct H; destruct H'; cbn in E;
    try (injection E as -> ->; split; [reflexivity|reflexivity]);
    try (injection E as E1 E2; exfalso; (discriminate E1 || discriminate E2 || congruence || lia));
    try (injection E; intros; subst; exfalso; lia);
    try (exfalso; discriminate E); try (injection E as E; auto; fail).
  all: try (injection E; intros; exfalso; lia).
  injection E as E. rewrite <- !app_assoc in E. change (chars "}") with [125] in E. cbn [app] in E.
  apply split_at in E as [-> ->]; [|intros Hi; eapply numeral_char in Hi; eauto..].
  split; [congruence|reflexivity].
Qed.

Lemma escaped_not_quote pr q c t x r : q = 34 \/ q = 39 -> escaped pr q c t -> t ++ r <> q :: x.
Proof.
  intros Hq H E. destruct (escaped_head pr q c t Hq H) as [(-> & H1 & H2)|(y & t' & ->)]; cbn [app] in E.
  - injection E as E _. congruence.
  - injection E as E _. lia.
Qed.

Lemma escapes_split pr s ts s' ts' r r' : Forall2 (escaped pr 34) s ts -> Forall2 (escaped pr 34) s' ts' ->
  concat ts ++ 34 :: r = concat ts' ++ 34 :: r' -> s = s' /\ r = r'.
Proof.
  intros H. revert s' ts'. induction H as [|c t s ts Hc Hs IH]; intros s' ts' H' E; destruct H' as [|c' t' s' ts' Hc' Hs'].
  - injection E as ->. auto.
  - exfalso. cbn [concat app] in E. rewrite <- app_assoc in E. symmetry in E. revert E. apply (escaped_not_quote pr 34 c'); auto.
  - exfalso. cbn [concat app] in E. rewrite <- app_assoc in E. revert E. apply (escaped_not_quote pr 34 c); auto.
  - cbn [concat] in E. rewrite <- !app_assoc in E.
    destruct (escaped_split pr 34 c t c' t' _ _ (or_introl eq_refl) Hc Hc' E) as [-> E'].
    destruct (IH s' ts' Hs' E') as [-> ->]. auto.
Qed.

Lemma string_split pr s q s' q' r r' : shows_string pr s q -> shows_string pr s' q' -> q ++ r = q' ++ r' -> s = s' /\ r = r'.
Proof.
  intros (ts & H & ->) (ts' & H' & ->) E. cbn [app] in E. injection E as E. rewrite <- !app_assoc in E. cbn [app] in E.
  exact (escapes_split _ _ _ _ _ _ _ H H' E).
Qed.

(** * The printed error *)
Lemma prints_kind_fact printable k :
  payload_ok k ->
  match k with
  | InvalidStringRepr s _ pc => (exists cs, text cs /\ s = utf8 cs) /\ match pc with Some (p, c) => 0 <= p /\ scalar c | None => True end
  | _ => True
  end -> prints_kind printable k (render (dbg_error_kind printable k)).
Proof.
  intros H H'. destruct k; unfold prints_kind, payload_ok in *; cbn [dbg_error_kind render map join];
    unfold dbg_width, dbg_pos, dbg_shift, dbg_radix; rewrite ?render_tuple1, <- ?app_assoc.
  - eexists. split; [apply decimal_dec; assumption|reflexivity].
  - destruct H' as [(cs & Hs & ->) Hp]. rewrite utf8_decode by exact Hs. exists cs. do 3 eexists. split; [exact Hs|]. split; [reflexivity|]. split; [apply shows_spec, Hs|]. split; [apply decimal_dec; assumption|].
    split; [|reflexivity]. destruct pos_char as [[p c]|]; [|reflexivity].
    do 2 eexists. split; [apply decimal_dec, Hp|]. split; [apply escape_char_spec; [now right|apply Hp]|].
    cbn [option_map dbg_option render map join app fst snd]. rewrite <- !app_assoc. reflexivity.
  - do 2 eexists. split; [apply decimal_dec; apply H|]. split; [apply decimal_dec; apply H|]. reflexivity.
  - do 2 eexists. split; [apply decimal_dec; apply H|]. split; [apply decimal_dec; apply H|reflexivity].
  - eexists. split; [apply debug_of_spec; assumption|]. destruct destination_ty; reflexivity.
  - do 2 eexists. split; [apply decimal_dec; apply H|]. split; [apply decimal_dec; apply H|reflexivity].
  - eexists. split; [apply decimal_dec; assumption|reflexivity].
  - do 2 eexists. split; [apply decimal_dec; apply H|]. split; [apply decimal_dec; apply H|reflexivity].
  - do 2 eexists. split; [apply decimal_dec; apply H|]. split; [apply decimal_dec; apply H|reflexivity].
  - eexists. split; [apply debug_of_spec; assumption|]. destruct op; reflexivity.
  - reflexivity.
Qed.

Lemma display_fact printable e :
  error_ok e ->
  exists k m a, prints_kind printable (e_kind e) k /\ shows_string printable (e_message e) m /\
    match e_annotation e with
    | None => a = chars "None"
    | Some t => exists q, shows_string printable t q /\ a = chars "Some(" ++ q ++ chars ")"
    end /\
    display_error printable e = chars "Error { kind: " ++ k ++ chars ", message: " ++ m ++ chars ", annotation: " ++ a ++ chars " }".
Proof.
  intros (Hk & Hs & Hm & Ha).
  exists (render (dbg_error_kind printable (e_kind e))), (render (dbg_str printable (e_message e))),
    (render (dbg_option (option_map (dbg_str printable) (e_annotation e)))).
  split; [apply prints_kind_fact; assumption|]. split; [apply shows_spec, Hm|]. split.
  - destruct (e_annotation e) as [t|]; [|reflexivity].
    eexists. split; [apply shows_spec, Ha|]. reflexivity.
  - unfold display_error, dbg_error. set (k := dbg_error_kind printable (e_kind e)). set (m := dbg_str printable (e_message e)).
    set (a := dbg_option _). clearbody k m a. cbn [render map join]. rewrite <- !app_assoc. reflexivity.
Qed.

Lemma op_split o p r r' : render (dbg_div_op o) ++ lit ", " ++ r = render (dbg_div_op p) ++ lit ", " ++ r' -> o = p /\ r = r'.
Proof. destruct o, p; intros E; cbn in E; try discriminate E; injection E as E; auto. Qed.
Lemma ty_split o p r r' : render (dbg_prim_ty o) ++ 32 :: r = render (dbg_prim_ty p) ++ 32 :: r' -> o = p /\ r = r'.
Proof. destruct o, p; intros E; cbn in E; try discriminate E; injection E as E; auto. Qed.

Definition strings_ok (k : error_kind) : Prop :=
  match k with
  | InvalidStringRepr s _ pc => (exists cs, text cs /\ s = utf8 cs) /\ match pc with Some (p, c) => 0 <= p /\ scalar c | None => True end
  | _ => True
  end.

Lemma pos_char_split printable pc pc' r r' :
  match pc with Some (p, c) => 0 <= p /\ scalar c | None => True end ->
  match pc' with Some (p, c) => 0 <= p /\ scalar c | None => True end ->
  render (dbg_option (option_map (fun q : Z * Z => DTuple [] [DNum (fst q); DUnit (lit "'" ++ escape_char printable 39 (snd q) ++ lit "'")]) pc)) ++ r =
  render (dbg_option (option_map (fun q : Z * Z => DTuple [] [DNum (fst q); DUnit (lit "'" ++ escape_char printable 39 (snd q) ++ lit "'")]) pc')) ++ r' ->
  pc = pc' /\ r = r'.
Proof.
  destruct pc as [[p c]|], pc' as [[p' c']|]; intros H H' E; cbn [option_map dbg_option render map join fst snd] in E;
    try (exfalso; discriminate E).
  - rewrite <- !app_assoc in E. do 2 apply app_inv_head in E.
    change (lit ", ") with [44; 32] in E. cbn [app] in E. injection E as E.
    apply split_dec in E as (-> & _ & E); [|apply H|apply H'|cbn; lia|cbn; lia].
    injection E as E. apply (escaped_split printable 39 c _ c') in E as [-> E];
      [|now right|apply escape_char_spec; [now right|apply H]|apply escape_char_spec; [now right|apply H']].
    injection E as ->. auto.
  - apply app_inv_head in E. auto.
Qed.

Lemma struct2 name f x g y r : render (DStruct name [(f, x); (g, y)]) ++ r =
  name ++ lit " { " ++ f ++ lit ": " ++ render x ++ lit ", " ++ g ++ lit ": " ++ render y ++ lit " }" ++ r.
Proof. cbn [render map join]. rewrite <- !app_assoc. reflexivity. Qed.

Lemma kind_split printable k k' r r' :
  payload_ok k -> strings_ok k -> payload_ok k' -> strings_ok k' ->
  render (dbg_error_kind printable k) ++ r = render (dbg_error_kind printable k') ++ r' -> k = k' /\ r = r'.
Proof.
  intros H1 S1 H2 S2 E. destruct k, k'; try (exfalso; discriminate E); unfold payload_ok, strings_ok in *;
    unfold dbg_error_kind in E.
  - apply split_tuple in E as [-> ->]; auto.
  - cbn [render map join] in E. rewrite <- !app_assoc in E. do 4 apply app_inv_head in E.
    destruct S1 as [(cs & Hcs & ->) S1], S2 as [(cs' & Hcs' & ->) S2]. rewrite !utf8_decode in E by assumption.
    apply (string_split printable cs _ cs') in E as [-> E]; [|now apply shows_spec..].
    do 3 apply app_inv_head in E. apply split_tuple in E as [-> E]; auto.
    do 3 apply app_inv_head in E. apply pos_char_split in E as [-> E]; [|apply S1|apply S2].
    apply app_inv_head in E. auto.
  - rewrite !struct2 in E. do 4 apply app_inv_head in E. apply split_tuple in E as [-> E]; try tauto.
    do 3 apply app_inv_head in E. apply split_tuple in E as [-> E]; try tauto. apply app_inv_head in E. auto.
  - rewrite !struct2 in E. do 4 apply app_inv_head in E. apply split_tuple in E as [-> E]; try tauto.
    do 3 apply app_inv_head in E. apply split_tuple in E as [-> E]; try tauto. apply app_inv_head in E. auto.
  - rewrite !struct2 in E. do 4 apply app_inv_head in E. apply split_apint in E as [-> E]; try tauto.
    do 3 apply app_inv_head in E. apply ty_split in E as [-> E]. injection E as E. auto.
  - cbn [render map join] in E. rewrite <- !app_assoc in E. do 2 apply app_inv_head in E.
    apply split_tuple in E as [-> E]; try tauto.
    apply app_inv_head in E. apply split_tuple in E as [-> E]; try tauto. apply app_inv_head in E. auto.
  - apply split_tuple in E as [-> ->]; auto.
  - rewrite !struct2 in E. do 4 apply app_inv_head in E. apply split_tuple in E as [-> E]; try tauto.
    do 3 apply app_inv_head in E. apply split_tuple in E as [-> E]; try tauto. apply app_inv_head in E. auto.
  - rewrite !struct2 in E. do 4 apply app_inv_head in E. apply split_tuple in E as [-> E]; try tauto.
    do 3 apply app_inv_head in E. apply split_tuple in E as [-> E]; try tauto. apply app_inv_head in E. auto.
  - rewrite !struct2 in E. do 4 apply app_inv_head in E. apply op_split in E as [-> E].
    do 2 apply app_inv_head in E. apply split_apint in E as [-> E]; try tauto.
    apply app_inv_head in E. auto.
  - apply app_inv_head in E. auto.
Qed.

Lemma display_injective_fact printable e e' :
  error_ok e -> error_ok e' -> display_error printable e = display_error printable e' -> e = e'.
Proof.
  intros (Hk & Hs & Hm & Ha) (Hk' & Hs' & Hm' & Ha') E. unfold display_error, dbg_error in E.
  destruct e as [k m a], e' as [k' m' a']. cbn [e_kind e_message e_annotation] in *.
  assert (S3 : forall name f x g y h z, render (DStruct name [(f, x); (g, y); (h, z)]) =
    name ++ lit " { " ++ f ++ lit ": " ++ render x ++ lit ", " ++ g ++ lit ": " ++ render y ++ lit ", " ++ h ++ lit ": " ++ render z ++ lit " }").
  { intros. cbn [render map join]. rewrite <- !app_assoc. reflexivity. }
  rewrite !S3 in E. do 4 apply app_inv_head in E. apply kind_split in E as [-> E]; auto.
  do 3 apply app_inv_head in E. apply (string_split printable m _ m') in E as [-> E]; [|now apply shows_spec..].
  do 3 apply app_inv_head in E. f_equal.
  destruct a as [t|], a' as [t'|]; try (exfalso; discriminate E); [|reflexivity].
  cbn [option_map dbg_option] in E.
  assert (S1 : forall x, render (DTuple (lit "Some") [x]) = lit "Some" ++ lit "(" ++ render x ++ lit ")") by reflexivity.
  rewrite !S1, <- !app_assoc in E. do 2 apply app_inv_head in E.
  apply (string_split printable t _ t') in E as [-> _]; [reflexivity|now apply shows_spec..].
Qed.

(** * One line of printable characters *)
Definition visible (printable : Z -> bool) (c : Z) : Prop :=
  32 <= c <= 126 \/ 161 <= c <= 255 \/ 256 <= c /\ printable c = true.
Definition plain_char (c : Z) : Prop := 32 <= c <= 126 /\ c <> 34 /\ c <> 92.
Arguments visible printable c /.

Fixpoint all_plain (s : list Z) : bool :=
  match s with [] => true | c :: r => (32 <=? c) && (c <=? 126) && negb (c =? 34) && negb (c =? 92) && all_plain r end.
Lemma all_plain_ok s : all_plain s = true -> Forall plain_char s.
Proof.
  induction s as [|c r IH]; cbn [all_plain]; intros H; [constructor|].
  destruct (Z.leb_spec 32 c), (Z.leb_spec c 126), (Z.eqb_spec c 34), (Z.eqb_spec c 92); cbn [andb negb] in H; try discriminate H.
  constructor; [repeat split; lia|auto].
Qed.
Lemma dec_plain n : 0 <= n -> Forall plain_char (dec_text n).
Proof.
  intros H. eapply Forall_impl; [|exact (dec_digits n H)]. intros c Hc. cbn in Hc. repeat split; lia.
Qed.
Lemma tuple_plain name n : Forall plain_char name -> 0 <= n -> Forall plain_char (render (DTuple name [DNum n])).
Proof.
  intros Hn H. rewrite render_tuple1. apply Forall_app; split; [exact Hn|]. apply Forall_app; split; [now apply all_plain_ok|].
  apply Forall_app; split; [now apply dec_plain|now apply all_plain_ok].
Qed.
Lemma apint_plain a : wf a -> Forall plain_char (render (dbg_apint a)).
Proof.
  intros H. rewrite render_apint. apply Forall_app; split; [now apply all_plain_ok|].
  apply Forall_app; split; [apply dec_plain; unfold width, wf in *; lia|].
  apply Forall_app; split; [now apply all_plain_ok|]. apply Forall_app; split; [|now apply all_plain_ok].
  pose proof (wf_nonneg a H) as Hd. induction Hd as [|d ds Hd0 Hd IH]; [constructor|]. cbn [map join].
  assert (Hx : Forall plain_char (lit "Digit(" ++ dec_text d ++ lit ")")).
  { apply Forall_app; split; [now apply all_plain_ok|]. apply Forall_app; split; [now apply dec_plain|now apply all_plain_ok]. }
  destruct ds as [|d' ds]; [exact Hx|]. cbn [map] in *. apply Forall_app; split; [exact Hx|].
  apply Forall_app; split; [now apply all_plain_ok|exact IH].
Qed.
Lemma op_plain o : Forall plain_char (render (dbg_div_op o)).
Proof. destruct o; now apply all_plain_ok. Qed.
Lemma ty_plain o : Forall plain_char (render (dbg_prim_ty o)).
Proof. destruct o; now apply all_plain_ok. Qed.

Ltac plain_pieces :=
  repeat match goal with
  | |- Forall plain_char (_ ++ _) => apply Forall_app; split
  | |- Forall plain_char (lit _) => now apply all_plain_ok
  | |- Forall plain_char (dec_text _) => apply dec_plain; tauto || lia
  | |- Forall plain_char (render (dbg_apint _)) => apply apint_plain; assumption
  | |- Forall plain_char (render (dbg_div_op _)) => apply op_plain
  | |- Forall plain_char (render (dbg_prim_ty _)) => apply ty_plain
  | |- Forall plain_char (render _) => apply tuple_plain; [now apply all_plain_ok|tauto || lia]
  end.

Lemma message_plain k : payload_ok k -> Forall plain_char (message_of k).
Proof. intros H. destruct k; unfold message_of, payload_ok in *; plain_pieces. Qed.

Lemma plain_visible printable s : Forall plain_char s -> Forall (visible printable) s.
Proof. apply Forall_impl. intros c (H & _). cbn. lia. Qed.
Lemma plain_text s : Forall plain_char s -> text s.
Proof. apply Forall_impl. intros c (H & _). unfold scalar. lia. Qed.

Lemma escaped_visible pr q c t : q = 34 \/ q = 39 -> escaped pr q c t -> Forall (visible pr) t.
Proof.
  intros Hq H. destruct H; try solve [repeat (apply Forall_cons; [cbn; lia|]); apply Forall_nil].
  { apply Forall_cons; [exact H|apply Forall_nil]. }
  apply Forall_app; split; [repeat (apply Forall_cons; [cbn; lia|]); apply Forall_nil|]. apply Forall_app; split; [|repeat (apply Forall_cons; [cbn; lia|]); apply Forall_nil].
  destruct H0 as (_ & _ & H0). eapply Forall_impl; [|exact H0]. intros x Hx. cbn in *. lia.
Qed.
Lemma str_visible pr s : text s -> Forall (visible pr) (render (dbg_str pr s)).
Proof.
  intros H. cbn [render dbg_str]. apply Forall_app; split; [repeat (apply Forall_cons; [cbn; lia|]); apply Forall_nil|].
  apply Forall_app; split; [|repeat (apply Forall_cons; [cbn; lia|]); apply Forall_nil].
  induction H as [|c s Hc Hs IH]; [constructor|]. cbn [map concat]. apply Forall_app; split; [|exact IH].
  apply (escaped_visible pr 34 c); [now left|]. apply escape_char_spec; auto.
Qed.

Ltac visible_pieces :=
  repeat match goal with
  | |- Forall (visible _) (render (dbg_str _ _)) => apply str_visible; tauto
  | |- Forall (visible _) (dec_text _) => apply plain_visible, dec_plain; tauto || lia
  | |- Forall (visible _) (render (dbg_apint _)) => apply plain_visible, apint_plain; assumption
  | |- Forall (visible _) (render (dbg_div_op _)) => apply plain_visible, op_plain
  | |- Forall (visible _) (render (dbg_prim_ty _)) => apply plain_visible, ty_plain
  | |- Forall (visible _) (render (DTuple (lit _) [DNum _])) => apply plain_visible, tuple_plain; [now apply all_plain_ok|tauto || lia]
  | |- Forall (visible _) (_ ++ _) => apply Forall_app; split
  | |- Forall (visible _) (lit _) => apply plain_visible; now apply all_plain_ok
  end.

Lemma kind_visible pr k : payload_ok k -> strings_ok k -> Forall (visible pr) (render (dbg_error_kind pr k)).
Proof.
  intros H H'. destruct k; unfold payload_ok, strings_ok, dbg_error_kind in *;
    rewrite <- (app_nil_r (render _)), ?struct2, ?app_nil_r.
  all: unfold dbg_width, dbg_pos, dbg_shift, dbg_radix in *; visible_pieces.
  - destruct H' as [(cs & Hcs & ->) H']. rewrite utf8_decode by exact Hcs. cbn [render map join]. visible_pieces.
    destruct pos_char as [[p c]|]; cbn [option_map dbg_option render map join fst snd]; visible_pieces.
    + constructor.
    + visible_pieces. apply (escaped_visible pr 39 c); [now right|]. apply escape_char_spec; [now right|apply H'].
  - cbn [render map join]. visible_pieces.
  - apply plain_visible. now apply all_plain_ok.
Qed.

Lemma one_line_fact printable e :
  error_ok e -> Forall (fun c => 32 <= c <= 126 \/ 161 <= c <= 255 \/ 256 <= c /\ printable c = true) (display_error printable e).
Proof.
  intros (Hk & Hs & Hm & Ha). change (Forall (visible printable) (display_error printable e)). unfold display_error, dbg_error.
  destruct e as [k m a]. cbn [e_kind e_message e_annotation] in *.
  pose proof (kind_visible printable k Hk Hs) as Vk. set (tk := dbg_error_kind printable k) in *. clearbody tk.
  cbn [render map join]. visible_pieces; try assumption.
  destruct a as [t|]; cbn [option_map dbg_option render map join]; visible_pieces.
Qed.

(** * What is printed as it is *)
Lemma escape_plain c : plain_char c -> escape_debug 34 c = [c].
Proof.
  intros (H & H1 & H2). unfold escape_debug.
  repeat match goal with |- context [?x =? ?y] => destruct (Z.eqb_spec x y); [lia|] end.
  destruct (Z.leb_spec 32 c); [|lia]. destruct (Z.leb_spec c 126); [|lia]. reflexivity.
Qed.
Lemma escape_char_plain pr c : plain_char c -> escape_char pr 34 c = [c].
Proof. intros H. unfold escape_char. destruct (Z.leb_spec c 255); [now apply escape_plain|]. destruct H as (H & _). lia. Qed.
Lemma str_plain pr s : Forall plain_char s -> render (dbg_str pr s) = [34] ++ s ++ [34].
Proof.
  intros H. cbn [render dbg_str]. do 2 f_equal. induction H as [|c s Hc Hs IH]; [reflexivity|].
  cbn [map concat]. rewrite escape_char_plain, IH by assumption. reflexivity.
Qed.

Lemma contains_app_l s t sub : contains t sub -> contains (s ++ t) sub.
Proof. intros (a & b & ->). exists (s ++ a), b. now rewrite <- app_assoc. Qed.
Lemma contains_app_r s t sub : contains s sub -> contains (s ++ t) sub.
Proof. intros (a & b & ->). exists a, (b ++ t). now rewrite <- !app_assoc. Qed.

Lemma display_parts pr e : display_error pr e =
  lit "Error { kind: " ++ render (dbg_error_kind pr (e_kind e)) ++ lit ", message: " ++ render (dbg_str pr (e_message e)) ++
  lit ", annotation: " ++ render (dbg_option (option_map (dbg_str pr) (e_annotation e))) ++ lit " }".
Proof.
  unfold display_error, dbg_error. set (k := dbg_error_kind pr (e_kind e)). set (m := dbg_str pr (e_message e)).
  set (a := dbg_option _). clearbody k m a. cbn [render map join]. rewrite <- !app_assoc. reflexivity.
Qed.

Lemma verbatim_fact printable e :
  (Forall (fun c => 32 <= c <= 126 /\ c <> 34 /\ c <> 92) (e_message e) ->
     contains (display_error printable e) (chars "message: """ ++ e_message e ++ chars """")) /\
  (forall t, e_annotation e = Some t -> Forall (fun c => 32 <= c <= 126 /\ c <> 34 /\ c <> 92) t ->
     contains (display_error printable e) (chars "annotation: Some(""" ++ t ++ chars """)")) /\
  (forall k, payload_ok k -> Forall (fun c => 32 <= c <= 126 /\ c <> 34 /\ c <> 92) (e_message (error_of k))).
Proof.
  rewrite display_parts. split; [|split].
  - intros H. rewrite str_plain by exact H. do 2 apply contains_app_l.
    exists [44; 32], (lit ", annotation: " ++ render (dbg_option (option_map (dbg_str printable) (e_annotation e))) ++ lit " }").
    change (lit ", message: ") with ([44; 32] ++ chars "message: "). rewrite <- !app_assoc. reflexivity.
  - intros t Et H. rewrite Et. cbn [option_map dbg_option].
    change (render (DTuple (lit "Some") [dbg_str printable t])) with (lit "Some(" ++ render (dbg_str printable t) ++ lit ")").
    rewrite (str_plain printable t) by exact H. do 4 apply contains_app_l.
    exists [44; 32], (lit " }").
    change (lit ", annotation: ") with ([44; 32] ++ chars "annotation: "). rewrite <- !app_assoc. reflexivity.
  - intros k Hk. exact (message_plain k Hk).
Qed.

Lemma contains_in s sub c : contains s sub -> In c sub -> In c s.
Proof. intros (a & b & ->) H. apply in_or_app. right. apply in_or_app. now left. Qed.

Lemma verbatim_refuted_fact :
  ~ (forall printable a b e t, wf a -> wf b -> explained_ult a b = Val (EErr e) -> e_annotation e = Some t ->
       contains (display_error printable e) t).
Proof.
  intros H. pose proof (H (fun _ => true) (mk_apint 8 [1]) (mk_apint 9 [2])) as G.
  assert (W1 : wf (mk_apint 8 [1])) by (split; [reflexivity|]; split; [reflexivity|]; split; [repeat constructor; discriminate|reflexivity]).
  assert (W2 : wf (mk_apint 9 [2])) by (split; [reflexivity|]; split; [reflexivity|]; split; [repeat constructor; discriminate|reflexivity]).
  destruct (explained_ult (mk_apint 8 [1]) (mk_apint 9 [2])) as [[x|e]| |] eqn:E; try (vm_compute in E; discriminate E).
  destruct (e_annotation e) as [t|] eqn:Ea; [|vm_compute in E; injection E as <-; vm_compute in Ea; discriminate Ea].
  specialize (G e t W1 W2 eq_refl Ea).
  assert (Ht : In 10 t).
  { assert (X : existsb (Z.eqb 10) t = true) by (vm_compute in E; injection E as <-; cbn [e_annotation] in Ea; injection Ea as <-; reflexivity).
    apply existsb_exists in X as (c & Hc & Ec). apply Z.eqb_eq in Ec. now subst c. }
  pose proof (contains_in _ _ _ G Ht) as Hd.
  assert (X : existsb (Z.eqb 10) (display_error (fun _ => true) e) = true) by (apply existsb_exists; exists 10; split; [exact Hd|reflexivity]).
  vm_compute in E. injection E as <-. vm_compute in X. discriminate X.
Qed.

(** * The errors calls return *)
Lemma text_app s t : text s -> text t -> text (s ++ t).
Proof. intros. apply Forall_app; auto. Qed.
Fixpoint all_text (s : list Z) : bool := match s with [] => true | c :: r => (0 <=? c) && (c <=? 255) && all_text r end.
Lemma all_text_ok s : all_text s = true -> text s.
Proof.
  induction s as [|c r IH]; cbn [all_text]; intros H; [constructor|].
  destruct (Z.leb_spec 0 c), (Z.leb_spec c 255); cbn [andb] in H; try discriminate H. constructor; [unfold scalar; lia|exact (IH H)].
Qed.
Ltac text_pieces :=
  repeat match goal with
  | |- text (_ ++ _) => apply text_app
  | |- text (lit _) => now apply all_text_ok
  | |- text [10] => now apply all_text_ok
  | |- text [10; 9] => now apply all_text_ok
  | |- text _ => tauto
  end.
Lemma lines_text a b : wf a -> wf b -> text (operand_lines a b).
Proof.
  intros Ha Hb. pose proof (plain_text _ (apint_plain a Ha)). pose proof (plain_text _ (apint_plain b Hb)).
  unfold operand_lines. text_pieces.
Qed.
Lemma error_of_ok k : payload_ok k -> strings_ok k -> error_ok (error_of k).
Proof. intros H H'. split; [exact H|]. split; [exact H'|]. split; [apply plain_text, message_plain, H|exact I]. Qed.
Lemma annotated_ok e t : error_ok e -> text t -> error_ok (with_annotation e t).
Proof. intros (H1 & H2 & H3 & _) H. split; [exact H1|]. split; [exact H2|]. split; [exact H3|exact H]. Qed.

Lemma ann_ok {A} t (m : outcome (eresult A)) : text t ->
  (forall e, m = Val (EErr e) -> error_ok e) -> forall e, annotated t m = Val (EErr e) -> error_ok e.
Proof.
  intros Ht H e E. destruct m as [[x|e']| |]; cbn in E; try discriminate E. injection E as <-.
  apply annotated_ok; auto.
Qed.
Lemma not_ok m : (forall e, m = Val (EErr e) -> error_ok e) -> forall e, not_result m = Val (EErr e) -> error_ok e.
Proof. intros H e E. destruct m as [[x|e']| |]; cbn in E; try discriminate E. injection E as <-. auto. Qed.
Lemma plain_ok {A} (m : outcome (result A)) :
  (forall k, m = Val (Err k) -> payload_ok k /\ strings_ok k) -> forall e, plain m = Val (EErr e) -> error_ok e.
Proof.
  intros H e E. destruct m as [[x|k]| |]; cbn in E; try discriminate E. injection E as <-.
  destruct (H k eq_refl). now apply error_of_ok.
Qed.
Lemma wf_len a : wf a -> 0 <= len a.
Proof. unfold wf. lia. Qed.
Lemma ult_err a b k : wf a -> wf b -> checked_ult a b = Val (Err k) -> payload_ok k /\ strings_ok k.
Proof.
  intros Ha Hb E. destruct (Z.eq_dec (len a) (len b)) as [L|L].
  - rewrite checked_ult_spec in E by assumption. discriminate E.
  - rewrite ult_unmatching in E by assumption. injection E as <-. split; [|exact I]. split; now apply wf_len.
Qed.
Lemma slt_err a b k : wf a -> wf b -> checked_slt a b = Val (Err k) -> payload_ok k /\ strings_ok k.
Proof.
  intros Ha Hb E. destruct (Z.eq_dec (len a) (len b)) as [L|L].
  - rewrite checked_slt_spec in E by assumption. discriminate E.
  - rewrite slt_unmatching in E by assumption. injection E as <-. split; [|exact I]. split; now apply wf_len.
Qed.

Lemma ult_ok a b e : wf a -> wf b -> explained_ult a b = Val (EErr e) -> error_ok e.
Proof.
  intros Ha Hb. apply ann_ok; [apply text_app; [now apply all_text_ok|now apply lines_text]|].
  apply plain_ok. intros k. now apply ult_err.
Qed.
Lemma slt_ok a b e : wf a -> wf b -> explained_slt a b = Val (EErr e) -> error_ok e.
Proof.
  intros Ha Hb. apply ann_ok; [apply text_app; [now apply all_text_ok|now apply lines_text]|].
  apply plain_ok. intros k. now apply slt_err.
Qed.

Lemma mut_ok t m a e : text t -> (forall x k, m = Val (x, Err k) -> payload_ok k /\ strings_ok k) ->
  explained_mut t m = Val (a, EErr e) -> error_ok e.
Proof.
  intros Ht H E. destruct m as [[x [u|k]]| |]; cbn in E; try discriminate E. injection E as <- <-.
  destruct (H x k eq_refl). apply annotated_ok; [now apply error_of_ok|exact Ht].
Qed.

Lemma errors_ok_fact a b w r s :
  wf a -> wf b -> 0 < w -> 2 <= r <= 36 -> text s ->
  (forall name what formula f e, In (name, what, formula, f) comparisons -> f a b = Val (EErr e) -> error_ok e) /\
  (forall x e, explained_strict_assign a b = Val (x, EErr e) -> error_ok e) /\
  (forall x e, explained_truncate a w = Val (x, EErr e) -> error_ok e) /\
  (forall x e, explained_zero_extend a w = Val (x, EErr e) -> error_ok e) /\
  (forall x e, explained_sign_extend a w = Val (x, EErr e) -> error_ok e) /\
  (forall e, explained_from_str_radix r (utf8 s) = Val (EErr e) -> error_ok e) /\
  (forall k, payload_ok k -> match k with InvalidStringRepr _ _ _ => False | _ => True end -> error_ok (error_of k)).
Proof.
  intros Ha Hb Hw Hr Hs.
  assert (Hl : text (render (dbg_apint a)) /\ text (render (dbg_apint b))) by (split; apply plain_text, apint_plain; assumption).
  assert (Hd : text (dec_text (width a)) /\ text (dec_text w)).
  { split; apply plain_text, dec_plain; [unfold width; now apply wf_len|lia]. }
  assert (Hbw : text (render (dbg_width (width a))) /\ text (render (dbg_width w))).
  { split; apply plain_text, tuple_plain; try (now apply all_plain_ok); [unfold width; now apply wf_len|lia]. }
  split; [|split; [|split; [|split; [|split; [|split]]]]].
  - intros name what formula f e Hin. cbn [comparisons In] in Hin.
    repeat (destruct Hin as [Hin|Hin]; [injection Hin as _ _ _ <-|]); [..|contradiction].
    + now apply ult_ok.
    + apply ann_ok; [apply text_app; [now apply all_text_ok|now apply lines_text]|]. apply not_ok. intros. now apply (ult_ok b a).
    + apply ann_ok; [apply text_app; [now apply all_text_ok|now apply lines_text]|]. intros. now apply (ult_ok b a).
    + apply ann_ok; [apply text_app; [now apply all_text_ok|now apply lines_text]|]. apply not_ok. intros. now apply (ult_ok a b).
    + now apply slt_ok.
    + apply ann_ok; [apply text_app; [now apply all_text_ok|now apply lines_text]|]. apply not_ok. intros. now apply (slt_ok b a).
    + apply ann_ok; [apply text_app; [now apply all_text_ok|now apply lines_text]|]. intros. now apply (slt_ok b a).
    + apply ann_ok; [apply text_app; [now apply all_text_ok|now apply lines_text]|]. apply not_ok. intros. now apply (slt_ok a b).
  - intros x e. apply mut_ok; [text_pieces|].
    intros y k E. unfold strict_assign in E. destruct (negb _); [injection E as _ <-; split; [|exact I]; split; now apply wf_len|].
    exfalso. destruct (copy_from_slice _ _) as [z| |]; cbn in E; discriminate E.
  - intros x e. apply mut_ok; [text_pieces|].
    intros y k E. destruct (Z.leb_spec w (len a)) as [L|L].
    + exfalso. destruct (truncate_spec a w Ha ltac:(lia)) as (z & Ez & _). rewrite Ez in E. discriminate E.
    + rewrite truncate_err in E by assumption. injection E as _ <-. split; [|exact I]. split; [lia|now apply wf_len].
  - intros x e. apply mut_ok; [text_pieces|].
    intros y k E. destruct (Z.leb_spec (len a) w) as [L|L].
    + exfalso. destruct (zero_extend_spec a w) as (z & Ez & _); auto. rewrite Ez in E. discriminate E.
    + rewrite zero_extend_err in E by assumption. injection E as _ <-. split; [|exact I]. split; [lia|now apply wf_len].
  - intros x e. apply mut_ok; [text_pieces|].
    intros y k E. destruct (Z.leb_spec (len a) w) as [L|L].
    + exfalso. destruct (sign_extend_spec a w) as (z & Ez & _); auto. rewrite Ez in E. discriminate E.
    + rewrite sign_extend_err in E by assumption. injection E as _ <-. split; [|exact I]. split; [lia|now apply wf_len].
  - intros e E. assert (Hbad : error_ok (error_of (InvalidStringRepr (utf8 s) r None))).
    { apply error_of_ok; [cbn; lia|]. split; [exists s; auto|exact I]. }
    pose proof (utf8_bytes s Hs) as Hby. assert (Hin : exists cs, text cs /\ utf8 s = utf8 cs) by (exists s; auto).
    clear Hs. destruct (utf8 s) as [|b0 t]; [injection E as <-; apply annotated_ok; [exact Hbad|now apply all_text_ok]|].
    unfold explained_from_str_radix in E. destruct (Z.eqb_spec b0 95).
    { injection E as <-. apply annotated_ok; [exact Hbad|now apply all_text_ok]. }
    destruct (Z.eqb_spec (last (b0 :: t) 0) 95) as [|N2].
    { injection E as <-. apply annotated_ok; [exact Hbad|now apply all_text_ok]. }
    destruct (first_invalid r 0 (b0 :: t)) as [[p c]|] eqn:Ef.
    + injection E as <-. apply first_invalid_spec in Ef as (pre & post & Es & -> & _); [|lia].
      assert (Hc : 0 <= c <= 255).
      { rewrite Forall_forall in Hby. apply Hby. rewrite Es. apply in_or_app. right. now left. }
      split; [cbn; lia|]. split; [split; [exact Hin|exact I]|]. split; [|exact I].
      pose proof (escaped_visible (fun _ => false) 39 c _ (or_intror eq_refl) (escape_spec 39 c (or_intror eq_refl) Hc _)) as Hv.
      assert (text (escape_debug 39 c)) by (eapply Forall_impl; [|exact Hv]; cbn; unfold scalar; intros x Hx; lia).
      assert (text (dec_text (0 + Z.of_nat (List.length pre)))) by (apply plain_text, dec_plain; lia).
      assert (text (render (dbg_radix r))) by (apply plain_text, tuple_plain; [now apply all_plain_ok|lia]).
      unfold invalid_char_in_string_repr, dbg_char. cbn [e_message]. text_pieces.
    + exfalso. pose proof (from_str_no_error r (b0 :: t) b0 t eq_refl ltac:(assumption) N2 Ef) as Hno.
      unfold plain in E. destruct (from_str_radix r (b0 :: t)) as [[y|k]| |]; cbn [bind] in E; try discriminate E.
      exact (Hno k eq_refl).
  - intros k Hk Hn. apply error_of_ok; [exact Hk|]. destruct k; try exact I. contradiction.
Qed.
