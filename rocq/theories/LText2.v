(** Proofs about the texts of errors and about formatter options. *)
From Coq Require Export Ascii String.
From Verif Require Import LFacts LSerial3 LSerial2 SpecText LText.
From Verif Require Export SpecErr.

(** * The message identifies the kind *)

Lemma split_tuple name n m r r' : 0 <= n -> 0 <= m ->
  render (DTuple name [DNum n]) ++ r = render (DTuple name [DNum m]) ++ r' -> n = m /\ r = r'.
Proof.
  intros Hv Hw E. rewrite !render_tuple1, <- !app_assoc in E.
  apply app_inv_head in E. apply app_inv_head in E.
  apply split_dec in E as (-> & _ & ->); [auto|lia|lia|cbn; lia|cbn; lia].
Qed.

Lemma div_op_inj o p r r' : render (dbg_div_op o) ++ 41 :: r = render (dbg_div_op p) ++ 41 :: r' -> o = p /\ r = r'.
Proof.
  destruct o, p; intros E; cbv [dbg_div_op render lit list_ascii_of_string map N_of_ascii] in E; cbn in E;
    try discriminate E; injection E as E; auto.
Qed.
Lemma prim_ty_inj o p r r' : render (dbg_prim_ty o) ++ 46 :: r = render (dbg_prim_ty p) ++ 46 :: r' -> o = p /\ r = r'.
Proof.
  destruct o, p; intros E; cbn in E; try discriminate E; injection E as E; auto.
Qed.

Definition of_string (k : error_kind) : Prop := match k with InvalidStringRepr _ _ _ => True | _ => False end.

Lemma message_identifies k1 k2 :
  payload_ok k1 -> payload_ok k2 -> message_of k1 = message_of k2 ->
  k1 = k2 \/ (exists s t r p q, k1 = InvalidStringRepr s r p /\ k2 = InvalidStringRepr t r q).
Proof.
  intros H1 H2 E. destruct k1, k2; try (exfalso; discriminate E); unfold payload_ok, message_of in *.
  - left. apply app_inv_head in E. change (lit ".") with [46] in E.
    apply split_dec in E as (-> & _); auto; cbn; lia.
  - right. apply app_inv_head in E. apply split_tuple in E as [-> _]; auto. repeat eexists.
  - left. apply app_inv_head in E. apply split_tuple in E as [-> E]; try tauto.
    apply app_inv_head in E. apply split_tuple in E as [-> _]; tauto.
  - left. apply app_inv_head in E. apply split_tuple in E as [-> E]; try tauto.
    apply app_inv_head in E. apply split_tuple in E as [-> _]; tauto.
  - left. apply app_inv_head in E. apply split_apint in E as [-> E]; auto.
    apply app_inv_head in E. apply prim_ty_inj in E as [-> _]. reflexivity.
  - left. apply app_inv_head in E. apply split_tuple in E as [-> E]; try tauto.
    apply app_inv_head in E. apply split_tuple in E as [-> _]; tauto.
  - left. apply app_inv_head in E. change (lit ".") with [46] in E.
    apply split_dec in E as (-> & _); auto; cbn; lia.
  - left. apply app_inv_head in E. apply split_tuple in E as [-> E]; try tauto.
    apply app_inv_head in E. rewrite <- (app_nil_r (render (dbg_width target))), <- (app_nil_r (render (dbg_width target0))) in E.
    apply split_tuple in E as [-> _]; tauto.
  - left. apply app_inv_head in E. apply split_tuple in E as [-> E]; try tauto.
    apply app_inv_head in E. rewrite <- (app_nil_r (render (dbg_width target))), <- (app_nil_r (render (dbg_width target0))) in E.
    apply split_tuple in E as [-> _]; tauto.
  - left. apply app_inv_head in E. change (lit ") with the left hand-side value: (= ") with (41 :: lit " with the left hand-side value: (= ") in E.
    cbn [app] in E. apply div_op_inj in E as [-> E]. apply app_inv_head in E. apply split_apint in E as [-> _]; auto.
  - left. reflexivity.
Qed.

(** * Texts do not change results *)
Lemma erase_plain {A} (m : outcome (result A)) : erase (plain m) = m.
Proof. destruct m as [[a|e]| |]; reflexivity. Qed.
Lemma erase_annotated {A} t (m : outcome (eresult A)) : erase (annotated t m) = erase m.
Proof. destruct m as [[a|e]| |]; reflexivity. Qed.
Lemma erase_not m : erase (not_result m) = let! r := erase m in Val (map_result negb r).
Proof. destruct m as [[a|e]| |]; reflexivity. Qed.
Lemma erase_explained t (m : mut_result) : erase_mut (explained_mut t m) = m.
Proof. destruct m as [[a [u|e]]| |]; reflexivity. Qed.

Lemma normalize_first r input s pos : match normalize r input s with
  | Ok _ => first_invalid r pos s = None
  | Err e => e = InvalidStringRepr input r None /\ exists p, first_invalid r pos s = Some p
  end.
Proof.
  revert pos. induction s as [|b s IH]; intros pos; [reflexivity|]. cbn [normalize first_invalid].
  destruct (normalize_byte b) as [d|]; [|apply IH]. destruct (is_valid_byte r d); cbn [negb]; [|eauto].
  specialize (IH (pos + 1)). destruct (normalize r input s); auto.
Qed.

Lemma erase_parse r s : erase (explained_from_str_radix r s) = from_str_radix r s.
Proof.
  destruct s as [|b t]; [reflexivity|]. unfold explained_from_str_radix. 
  destruct (b =? 95) eqn:E1; [unfold from_str_radix; rewrite E1; reflexivity|].
  destruct (last (b :: t) 0 =? 95) eqn:E2; [unfold from_str_radix; rewrite E1, E2; reflexivity|].
  pose proof (normalize_first r (b :: t) (b :: t) 0) as H.
  destruct (first_invalid r 0 (b :: t)) as [[p c]|] eqn:E3; [|apply erase_plain].
  unfold from_str_radix. rewrite E1, E2. destruct (normalize r (b :: t) (b :: t)); [discriminate|].
  destruct H as [-> _]. reflexivity.
Qed.

Lemma texts_only_fact a b w r s :
  erase (explained_ult a b) = checked_ult a b /\ erase (explained_ule a b) = checked_ule a b /\
  erase (explained_ugt a b) = checked_ugt a b /\ erase (explained_uge a b) = checked_uge a b /\
  erase (explained_slt a b) = checked_slt a b /\ erase (explained_sle a b) = checked_sle a b /\
  erase (explained_sgt a b) = checked_sgt a b /\ erase (explained_sge a b) = checked_sge a b /\
  erase_mut (explained_strict_assign a b) = strict_assign a b /\
  erase_mut (explained_truncate a w) = truncate a w /\
  erase_mut (explained_zero_extend a w) = zero_extend a w /\
  erase_mut (explained_sign_extend a w) = sign_extend a w /\
  erase (explained_from_str_radix r s) = from_str_radix r s.
Proof.
  unfold explained_ule, explained_ugt, explained_uge, explained_ult, explained_sle, explained_sgt, explained_sge,
    explained_slt, explained_strict_assign, explained_truncate, explained_zero_extend, explained_sign_extend.
  rewrite !erase_annotated, !erase_not, !erase_annotated, !erase_plain, !erase_explained, erase_parse.
  repeat split; reflexivity.
Qed.

(** * Comparisons *)
Lemma zip_unmatching a b : len a <> len b -> zip_access_data a b = Val (Err (UnmatchingBitwidth (len a) (len b))).
Proof.
  intros H. unfold zip_access_data, width. destruct (Z.eqb_spec (len a) (len b)); [contradiction|reflexivity].
Qed.
Lemma ult_unmatching a b : len a <> len b -> checked_ult a b = Val (Err (UnmatchingBitwidth (len a) (len b))).
Proof. intros H. unfold checked_ult. now rewrite zip_unmatching. Qed.
Lemma slt_unmatching a b : len a <> len b -> checked_slt a b = Val (Err (UnmatchingBitwidth (len a) (len b))).
Proof. intros H. unfold checked_slt. now rewrite zip_unmatching. Qed.

Lemma comparison_error_fact name what formula f a b :
  len a <> len b -> In (name, what, formula, f) comparisons ->
  exists e short,
    f a b = Val (EErr e) /\
    (e_kind e = UnmatchingBitwidth (len a) (len b) \/ e_kind e = UnmatchingBitwidth (len b) (len a)) /\
    e_message e = message_of (e_kind e) /\
    e_annotation e = Some (
      chars "Error occured on " ++ chars what ++ chars " (" ++ chars short ++ chars ") comparison with " ++
      chars formula ++ chars " where " ++
      [10; 9] ++ chars "lhs = " ++ render (dbg_apint a) ++ [10; 9] ++ chars "rhs = " ++ render (dbg_apint b)) /\
    (short = name <-> In name ["ule"; "ugt"; "slt"]%string).
Proof.
  intros H Hin. assert (H' : len b <> len a) by congruence.
  unfold comparisons in Hin. cbn [In] in Hin.
  repeat (destruct Hin as [E|Hin]; [injection E as <- <- <- <-|]); [..|contradiction];
    unfold explained_ule, explained_ugt, explained_uge, explained_ult, explained_sle, explained_sgt, explained_sge,
      explained_slt; rewrite ?ult_unmatching, ?slt_unmatching by assumption.
  - eexists; exists "slt"%string; (split; [reflexivity|]); cbn [e_kind with_annotation error_of];
    (split; [auto|]); (split; [reflexivity|]); split; [reflexivity|]. cbn [In]. intuition discriminate.
  - eexists; exists "ule"%string; (split; [reflexivity|]); cbn [e_kind with_annotation error_of];
    (split; [auto|]); (split; [reflexivity|]); split; [reflexivity|]. cbn [In]. tauto.
  - eexists; exists "ugt"%string; (split; [reflexivity|]); cbn [e_kind with_annotation error_of];
    (split; [auto|]); (split; [reflexivity|]); split; [reflexivity|]. cbn [In]. tauto.
  - eexists; exists "ule"%string; (split; [reflexivity|]); cbn [e_kind with_annotation error_of];
    (split; [auto|]); (split; [reflexivity|]); split; [reflexivity|]. cbn [In]. intuition discriminate.
  - eexists; exists "slt"%string; (split; [reflexivity|]); cbn [e_kind with_annotation error_of];
    (split; [auto|]); (split; [reflexivity|]); split; [reflexivity|]. cbn [In]. tauto.
  - eexists; exists "ule"%string; (split; [reflexivity|]); cbn [e_kind with_annotation error_of];
    (split; [auto|]); (split; [reflexivity|]); split; [reflexivity|]. cbn [In]. intuition discriminate.
  - eexists; exists "ugt"%string; (split; [reflexivity|]); cbn [e_kind with_annotation error_of];
    (split; [auto|]); (split; [reflexivity|]); split; [reflexivity|]. cbn [In]. intuition discriminate.
  - eexists; exists "ule"%string; (split; [reflexivity|]); cbn [e_kind with_annotation error_of];
    (split; [auto|]); (split; [reflexivity|]); split; [reflexivity|]. cbn [In]. intuition discriminate.
Qed.

Lemma short_name_refuted_fact :
  ~ (forall name what formula f a b e text,
       In (name, what, formula, f) comparisons -> f a b = Val (EErr e) -> e_annotation e = Some text ->
       exists rest, text = chars "Error occured on " ++ chars what ++ chars " (" ++ chars name ++ chars ")" ++ rest).
Proof.
  intros H. specialize (H "ult" "unsigned less-than" "`lhs < rhs`" explained_ult (mk_apint 8 [1]) (mk_apint 16 [2]))%string.
  destruct (H _ _ (or_introl eq_refl) eq_refl eq_refl) as (rest & E). discriminate E.
Qed.

(** * Assignment and resizing *)
Lemma strict_unmatching a b : len a <> len b ->
  strict_assign a b = Val (a, Err (UnmatchingBitwidth (len a) (len b))).
Proof. intros H. unfold strict_assign, width. destruct (Z.eqb_spec (len a) (len b)); [contradiction|reflexivity]. Qed.

Lemma resize_error_fact a w b :
  wf a -> 0 < w ->
  (len a < w -> exists dc dw e, decimal (len a) dc /\ decimal w dw /\
     explained_truncate a w = Val (a, EErr e) /\ e_kind e = TruncationBitWidthTooLarge w (len a) /\
     e_message e = chars "Tried to truncate an `ApInt` with a width of BitWidth(" ++ dc ++
                   chars ") to a larger target width of BitWidth(" ++ dw ++ chars ")" /\
     e_annotation e = Some (chars "Cannot truncate `ApInt` with a width of " ++ dc ++ [10] ++
       chars "                         to an `ApInt` with a width of " ++ dw ++
       chars " bits. Do you mean to extend the instance instead?")) /\
  (w < len a -> exists dc dw e e', decimal (len a) dc /\ decimal w dw /\
     explained_zero_extend a w = Val (a, EErr e) /\ explained_sign_extend a w = Val (a, EErr e') /\
     e_kind e = ExtensionBitWidthTooSmall w (len a) /\ e_kind e' = ExtensionBitWidthTooSmall w (len a) /\
     e_message e = chars "Tried to extend an `ApInt` with a width of BitWidth(" ++ dc ++
                   chars ") to a smaller target width of BitWidth(" ++ dw ++ chars ")" /\
     e_message e' = e_message e /\
     e_annotation e = Some (chars "Cannot zero-extend bit-width of BitWidth(" ++ dc ++ chars ") to BitWidth(" ++ dw ++
       chars ") bits. Do you mean to truncate the instance instead?") /\
     e_annotation e' = Some (chars "Cannot sign-extend bit-width of BitWidth(" ++ dc ++ chars ") to BitWidth(" ++ dw ++
       chars ") bits. Do you mean to truncate the instance instead?")) /\
  (len a <> len b -> exists e,
     explained_strict_assign a b = Val (a, EErr e) /\ e_kind e = UnmatchingBitwidth (len a) (len b) /\
     e_annotation e = Some (chars "Occured while trying to `strict_assign` " ++ render (dbg_apint a) ++
       chars " to " ++ render (dbg_apint b) ++ chars ".")).
Proof.
  intros Ha Hw. assert (Hl : 0 <= len a) by (unfold wf in Ha; lia). split; [|split].
  - intros L. exists (dec_text (len a)), (dec_text w). eexists.
    split; [now apply decimal_dec|]. split; [apply decimal_dec; lia|]. unfold explained_truncate.
    assert (E : truncate a w = Val (a, Err (TruncationBitWidthTooLarge w (len a)))).
    { unfold truncate. cbn [truncate_fuel]. unfold width. destruct (Z.eqb_spec w (len a)); [lia|].
      rewrite (proj2 (Z.ltb_lt (len a) w)) by assumption. reflexivity. }
    rewrite E. split; [reflexivity|]. split; [reflexivity|].
    split; [|reflexivity].
    cbn [e_message with_annotation error_of message_of]. unfold dbg_width. rewrite !render_tuple1, <- !app_assoc. reflexivity.
  - intros L. exists (dec_text (len a)), (dec_text w). eexists. eexists.
    split; [now apply decimal_dec|]. split; [apply decimal_dec; lia|].
    unfold explained_zero_extend, explained_sign_extend.
    assert (E : zero_extend a w = Val (a, Err (ExtensionBitWidthTooSmall w (len a)))).
    { unfold zero_extend, width. cbv zeta. destruct (Z.eqb_spec w (len a)); [lia|].
      rewrite (proj2 (Z.ltb_lt w (len a))) by assumption. reflexivity. }
    assert (E' : sign_extend a w = Val (a, Err (ExtensionBitWidthTooSmall w (len a)))).
    { unfold sign_extend, width. cbv zeta. destruct (Z.eqb_spec w (len a)); [lia|].
      rewrite (proj2 (Z.ltb_lt w (len a))) by assumption. reflexivity. }
    rewrite E, E'. split; [reflexivity|]. split; [reflexivity|]. split; [reflexivity|]. split; [reflexivity|].
    split; [|split; [reflexivity|]].
    + cbn [e_message with_annotation error_of message_of]. unfold dbg_width. rewrite !render_tuple1, <- !app_assoc. reflexivity.
    + unfold dbg_width. rewrite !render_tuple1, <- !app_assoc. split; reflexivity.
  - intros L. eexists. unfold explained_strict_assign. rewrite strict_unmatching by assumption.
    split; [reflexivity|]. split; reflexivity.
Qed.

(** * Parsing *)
Lemma first_invalid_spec r s pos p b : r <= 36 -> first_invalid r pos s = Some (p, b) ->
  exists pre post, s = pre ++ b :: post /\ p = pos + Z.of_nat (List.length pre) /\
    Forall (acceptable r) pre /\ ~ acceptable r b.
Proof.
  intros Hr. revert pos. induction s as [|c s IH]; intros pos E; [discriminate|]. cbn [first_invalid] in E.
  assert (Hn : forall x, match normalize_byte x with
    | None => x = 95
    | Some d => x <> 95 /\ (char_value x = Some d \/ (char_value x = None /\ d = 255)) end).
  { intros x. unfold normalize_byte, char_value.
    destruct (Z.leb_spec 48 x), (Z.leb_spec x 57); cbn [andb]; try (split; [lia|left; f_equal; lia]);
    destruct (Z.leb_spec 97 x), (Z.leb_spec x 122); cbn [andb]; try (split; [lia|left; f_equal; lia]);
    destruct (Z.leb_spec 65 x), (Z.leb_spec x 90); cbn [andb]; try (split; [lia|left; f_equal; lia]);
    destruct (Z.eqb_spec x 95); try assumption; auto. }
  specialize (Hn c). destruct (normalize_byte c) as [d|].
  - unfold is_valid_byte in E. destruct (Z.ltb_spec d r) as [L|L].
    + apply IH in E as (pre & post & -> & -> & Hp & Hb). exists (c :: pre), post. split; [reflexivity|].
      split; [cbn [List.length]; lia|]. split; [|assumption]. constructor; [|assumption]. right. exists d.
      destruct Hn as [_ [Hn|[_ ->]]]; [auto|lia].
    + injection E as <- <-. exists [], s. split; [reflexivity|]. split; [cbn; lia|]. split; [constructor|].
      intros [H|(d' & H & Hd')]; [tauto|]. destruct Hn as [_ [Hn|[Hn ->]]]; [|congruence]. rewrite Hn in H. injection H as ->. lia.
  - apply IH in E as (pre & post & -> & -> & Hp & Hb). exists (c :: pre), post. split; [reflexivity|].
    split; [cbn [List.length]; lia|]. split; [|assumption]. constructor; [|assumption]. left. assumption.
Qed.

Lemma from_str_no_error r s b t : s = b :: t -> b <> 95 -> last s 0 <> 95 -> first_invalid r 0 s = None ->
  forall e, from_str_radix r s <> Val (Err e).
Proof.
  intros Es H1 H2 H3 e. subst s. unfold from_str_radix.
  destruct (Z.eqb_spec b 95); [contradiction|]. destruct (Z.eqb_spec (last (b :: t) 0) 95); [contradiction|].
  pose proof (normalize_first r (b :: t) (b :: t) 0) as H. destruct (normalize r (b :: t) (b :: t)).
  - destruct (exact_bits_per_digit r) as [[bits|]| |]; cbn [bind]; try discriminate.
    + match goal with |- bind ?m _ <> _ => destruct m; discriminate end.
    + match goal with |- bind ?m _ <> _ => destruct m; discriminate end.
  - rewrite H3 in H. destruct H as [_ [p H]]. discriminate.
Qed.

Lemma hex_spec b : 1 <= b <= 1114111 -> canonical_numeral 16 97 (u64_fmt 16 97 b) /\ string_value 16 (u64_fmt 16 97 b) = b.
Proof.
  intros Hb. destruct (fmt_word 16 16 97 b) as (Hg & Hv & _ & Hne & _ & Hh);
    [now left|lia|lia|reflexivity|unfold dok; rewrite B_pow; lia|].
  split; [|exact Hv]. split; [exact Hne|]. split; [|exact Hg]. intros H. exfalso. apply Hh; [lia|exact H].
Qed.

Lemma escape_spec q b : q = 34 \/ q = 39 -> 0 <= b <= 255 -> forall printable, escaped printable q b (escape_debug q b).
Proof.
  intros Hq Hb printable. unfold escape_debug.
  destruct (Z.eqb_spec b 0) as [->|]; [apply escaped_nul|].
  destruct (Z.eqb_spec b 9) as [->|]; [apply escaped_tab|].
  destruct (Z.eqb_spec b 10) as [->|]; [apply escaped_newline|].
  destruct (Z.eqb_spec b 13) as [->|]; [apply escaped_return|].
  destruct (Z.eqb_spec b 92) as [->|]; [apply escaped_backslash|].
  destruct (Z.eqb_spec b q) as [->|]; [apply escaped_quote|].
  destruct (hex_spec b ltac:(lia)) as [H1 H2].
  destruct (Z.leb_spec 32 b), (Z.leb_spec b 126), (Z.leb_spec 161 b), (Z.eqb_spec b 173);
    cbn [andb orb negb]; (apply escaped_plain; lia) || (apply escaped_other; [lia|exact H1|exact H2]).
Qed.

Lemma parse_error_fact r s e :
  2 <= r <= 36 -> explained_from_str_radix r s = Val (EErr e) ->
  e_kind e = InvalidStringRepr s r None /\
  ((s = [] /\ e_annotation e = Some (chars "Cannot parse an empty string into an ApInt.")) \/
   (hd 0 s = 95 /\ e_annotation e = Some (chars "The input string starts with an underscore ('_') instead of a number. The use of underscores is explicitely for separation of digits.")) \/
   (last s 0 = 95 /\ e_annotation e = Some (chars "The input string ends with an underscore ('_') instead of a number. The use of underscores is explicitely for separation of digits.")) \/
   (e_annotation e = None /\ exists pre b post dp dr shown,
      s = pre ++ b :: post /\ Forall (acceptable r) pre /\ ~ acceptable r b /\
      decimal (Z.of_nat (List.length pre)) dp /\ decimal r dr /\
      (0 <= b <= 255 -> forall printable, escaped printable 39 b shown) /\
      e_message e = chars "Encountered an invalid character (= ''" ++ shown ++ chars "'') at position " ++ dp ++
        chars " within the given string representation for the given radix (= Radix(" ++ dr ++ chars "))." )).
Proof.
  intros Hr E. destruct s as [|b t].
  - injection E as <-. split; [reflexivity|]. left. auto.
  - unfold explained_from_str_radix in E. destruct (Z.eqb_spec b 95) as [->|N1].
    { injection E as <-. split; [reflexivity|]. right; left. auto. }
    destruct (Z.eqb_spec (last (b :: t) 0) 95) as [L|N2].
    { injection E as <-. split; [reflexivity|]. right; right; left. auto. }
    destruct (first_invalid r 0 (b :: t)) as [[p c]|] eqn:Ef.
    + injection E as <-. split; [reflexivity|]. right; right; right. split; [reflexivity|].
      apply first_invalid_spec in Ef as (pre & post & Es & -> & Hp & Hb); [|lia].
      exists pre, c, post, (dec_text (0 + Z.of_nat (List.length pre))), (dec_text r).
      exists (escape_debug 39 c).
      split; [assumption|]. split; [assumption|]. split; [assumption|].
      split; [rewrite Z.add_0_l; apply decimal_dec; lia|]. split; [apply decimal_dec; lia|]. split.
      * intros H printable. apply escape_spec; [now right|assumption].
      * unfold invalid_char_in_string_repr, dbg_char. cbn [e_message]. unfold dbg_radix. rewrite render_tuple1, <- !app_assoc. reflexivity.
    + exfalso. pose proof (from_str_no_error r (b :: t) b t eq_refl N1 N2 Ef) as Hno.
      unfold plain in E. destruct (from_str_radix r (b :: t)) as [[x|k]| |]; cbn [bind] in E; try discriminate E.
      exact (Hno k eq_refl).
Qed.

Lemma position_refuted_fact :
  ~ (forall r s pre b post e, 2 <= r <= 36 -> s = pre ++ b :: post -> Forall (acceptable r) pre -> ~ acceptable r b ->
       from_str_radix r s = Val (Err e) ->
       e = InvalidStringRepr s r (Some (Z.of_nat (List.length pre), b))).
Proof.
  intros H. specialize (H 10 [49; 33] [49] 33 [] (InvalidStringRepr [49; 33] 10 None)).
  discriminate H; [lia|reflexivity| | |reflexivity].
  - constructor; [right; exists 1; split; [reflexivity|lia]|constructor].
  - intros [H0|(d & H0 & _)]; discriminate H0.
Qed.

(** * Formatter options *)
Lemma std_text_length al pl z w fill ali prefix s :
  List.length (std_integer_text al pl z w fill ali prefix s) =
  ((if pl then 1 else 0) + (if al then List.length prefix else 0) + List.length s +
   match w with Some w => Z.to_nat w - ((if pl then 1 else 0) + (if al then List.length prefix else 0) + List.length s) | None => 0 end)%nat.
Proof.
  unfold std_integer_text. cbv zeta.
  assert (Ef : List.length ((if pl then [43] else []) ++ (if al then prefix else [])) =
    ((if pl then 1 else 0) + (if al then List.length prefix else 0))%nat).
  { rewrite app_length. destruct pl, al; reflexivity. }
  rewrite Ef. set (n := match w with Some _ => _ | None => _ end). set (f := (_ ++ _)) in *.
  pose proof (Nat.div_le_upper_bound n 2 n ltac:(lia) ltac:(lia)) as Hd.
  destruct z; [rewrite !app_length, repeat_length; lia|].
  destruct ali as [[| |]|]; rewrite !app_length, ?repeat_length; lia.
Qed.

Lemma std_text_same al pl z w fill ali prefix s : prefix <> [] ->
  (std_integer_text al pl z w fill ali prefix s = s <->
   al = false /\ pl = false /\ match w with Some w => w <= Z.of_nat (List.length s) | None => True end).
Proof.
  intros Hp. assert (Hl : (0 < List.length prefix)%nat) by (destruct prefix; [congruence|cbn; lia]). split.
  - intros E. pose proof (std_text_length al pl z w fill ali prefix s) as L. rewrite E in L.
    destruct al, pl; try (exfalso; lia). split; [reflexivity|]. split; [reflexivity|]. destruct w; [|exact I]. lia.
  - intros (-> & -> & Hw). unfold std_integer_text. cbv zeta. cbn [app List.length Nat.add].
    assert (En : match w with Some w => Z.to_nat w - List.length s | None => 0 end%nat = 0%nat) by (destruct w; lia).
    rewrite En. cbn [repeat app Nat.div Nat.divmod fst Nat.sub].
    destruct z; [reflexivity|]. destruct ali as [[| |]|]; cbn [repeat app]; rewrite ?app_nil_r; reflexivity.
Qed.

Lemma options_fact o a :
  wf a ->
  exists b l u,
    (canonical_numeral 2 97 b /\ string_value 2 b = unsigned a) /\
    (canonical_numeral 16 97 l /\ string_value 16 l = unsigned a) /\
    (canonical_numeral 16 65 u /\ string_value 16 u = unsigned a) /\
    let rust prefix s := std_integer_text (fo_alternate o) (fo_plus o) (fo_zero o) (fo_width o) (fo_fill o)
                           (option_map side_of (fo_align o)) (chars prefix) s in
    let nothing_asked s := fo_alternate o = false /\ fo_plus o = false /\
      match fo_width o with Some w => w <= Z.of_nat (List.length s) | None => True end in
    (format_binary o a = Val (rust "0b"%string b) <-> nothing_asked b) /\
    (format_lower_hex o a = Val (rust "0x"%string l) <-> nothing_asked l) /\
    (format_upper_hex o a = Val (rust "0x"%string u) <-> nothing_asked u) /\
    format_binary o a = Val b /\ format_lower_hex o a = Val l /\ format_upper_hex o a = Val u.
Proof.
  intros Ha. destruct (format_fact a Ha) as ((b & _ & Eb & Cb & Vb & _) & (l & _ & El & Cl & Vl & _) & (u & _ & Eu & Cu & Vu & _)).
  exists b, l, u. split; [auto|]. split; [auto|]. split; [auto|]. cbv zeta.
  unfold format_binary, format_lower_hex, format_upper_hex. rewrite Eb, El, Eu.
  assert (H : forall p s, chars p <> [] ->
    (Val s = Val (std_integer_text (fo_alternate o) (fo_plus o) (fo_zero o) (fo_width o) (fo_fill o)
                    (option_map side_of (fo_align o)) (chars p) s) <->
     fo_alternate o = false /\ fo_plus o = false /\
     match fo_width o with Some w => w <= Z.of_nat (List.length s) | None => True end)).
  { intros p s Hp. rewrite <- (std_text_same _ _ (fo_zero o) (fo_width o) (fo_fill o) (option_map side_of (fo_align o)) (chars p) s Hp).
    split; [intros E; injection E as E; now symmetry|intros ->; reflexivity]. }
  split; [apply H; discriminate|]. split; [apply H; discriminate|]. split; [apply H; discriminate|]. auto.
Qed.

Lemma options_refuted_fact :
  ~ (forall o a s, wf a -> canonical_numeral 16 97 s -> string_value 16 s = unsigned a ->
       format_lower_hex o a = Val (std_integer_text (fo_alternate o) (fo_plus o) (fo_zero o) (fo_width o) (fo_fill o)
                                     (option_map side_of (fo_align o)) (chars "0x") s)).
Proof.
  intros H. specialize (H (mk_fmt_options true false false None 32 None) (mk_apint 8 [255]) [102; 102]).
  discriminate H.
  - split; [reflexivity|]. split; [reflexivity|]. split; [repeat constructor; discriminate|reflexivity].
  - split; [discriminate|]. split; [discriminate|]. constructor; [right; lia|constructor; [right; lia|constructor]].
  - reflexivity.
Qed.
