(** Properties C60-C63: the texts users see.  [chars], [decimal], [words] and
    [std_integer_text] are in SpecText.v, [payload_ok], [erase], [comparisons] and
    [acceptable] in SpecErr.v; [render] is "{:?}", [render_pretty] is "{:#?}". *)
From Verif Require Import LEx LText LText2.

(** C60: what Debug prints, on one line and on several. *)
Theorem C60_debug_text a w u :
  is_apint a w u ->
  exists dw ds, decimal w dw /\ Forall2 decimal (words w u) ds /\
    render (dbg_apint a) =
      chars "ApInt { len: BitWidth(" ++ dw ++ chars "), digits: [" ++
      comma_separated (map (fun d => chars "Digit(" ++ d ++ chars ")") ds) ++ chars "] }" /\
    render_pretty (dbg_apint a) =
      chars "ApInt {" ++ [10] ++
      chars "    len: BitWidth(" ++ [10] ++
      chars "        " ++ dw ++ chars "," ++ [10] ++
      chars "    )," ++ [10] ++
      chars "    digits: [" ++ [10] ++
      concat (map (fun d =>
        chars "        Digit(" ++ [10] ++
        chars "            " ++ d ++ chars "," ++ [10] ++
        chars "        )," ++ [10]) ds) ++
      chars "    ]," ++ [10] ++
      chars "}" /\
    render (dbg_uint a) = chars "UInt { value: " ++ render (dbg_apint a) ++ chars " }" /\
    render (dbg_int a) = chars "Int { value: " ++ render (dbg_apint a) ++ chars " }".
Proof. exact (debug_text_fact a w u). Qed.
Print Assumptions C60_debug_text.
Example C60_debug_text_ex : is_apint (mk_apint 65 [0; 1]) 65 (2 ^ 64) /\ render (dbg_apint (mk_apint 65 [0; 1])) =
  chars "ApInt { len: BitWidth(65), digits: [Digit(0), Digit(1)] }".
Proof.
  split; [|vm_compute; reflexivity]. split; [|split; reflexivity]. split; [reflexivity|]. split; [reflexivity|].
  split; [repeat constructor; discriminate|reflexivity].
Qed.

(** C60: equal Debug texts mean equal width and value, for all three types. *)
Theorem C60_debug_identifies a w u b v t :
  is_apint a w u -> is_apint b v t ->
  (render (dbg_apint a) = render (dbg_apint b) <-> w = v /\ u = t) /\
  (render (dbg_uint a) = render (dbg_uint b) <-> w = v /\ u = t) /\
  (render (dbg_int a) = render (dbg_int b) <-> w = v /\ u = t) /\
  (render_pretty (dbg_apint a) = render_pretty (dbg_apint b) <-> w = v /\ u = t) /\
  (render_pretty (dbg_uint a) = render_pretty (dbg_uint b) <-> w = v /\ u = t) /\
  (render_pretty (dbg_int a) = render_pretty (dbg_int b) <-> w = v /\ u = t).
Proof. exact (debug_injective_fact a w u b v t). Qed.
Print Assumptions C60_debug_identifies.
Example C60_debug_identifies_ex : is_apint (mk_apint 8 [1]) 8 1 /\ is_apint (mk_apint 9 [1]) 9 1 /\
  render (dbg_int (mk_apint 8 [1])) <> render (dbg_int (mk_apint 9 [1])) /\
  render_pretty (dbg_uint (mk_apint 8 [1])) <> render_pretty (dbg_uint (mk_apint 9 [1])).
Proof.
  split; [|split; [|split; discriminate]].
  all: split; [|split; reflexivity]; split; [reflexivity|]; split; [reflexivity|];
    split; [repeat constructor; discriminate|reflexivity].
Qed.

(** C61: the message of an error determines its kind and all it carries, except
    the rejected input string (of which it tells the radix). *)
Theorem C61_message_identifies k1 k2 :
  payload_ok k1 -> payload_ok k2 -> message_of k1 = message_of k2 ->
  k1 = k2 \/ (exists s t r p q, k1 = InvalidStringRepr s r p /\ k2 = InvalidStringRepr t r q).
Proof. exact (message_identifies k1 k2). Qed.
Print Assumptions C61_message_identifies.
Example C61_message_identifies_ex : payload_ok (UnmatchingBitwidth 8 16) /\ payload_ok (UnmatchingBitwidth 16 8) /\
  message_of (UnmatchingBitwidth 8 16) <> message_of (UnmatchingBitwidth 16 8).
Proof. split; [cbn; lia|]. split; [cbn; lia|discriminate]. Qed.

(** C61: the texts are all that the calls with annotated errors add; results and
    kinds are those of the functions the other theorems are about. *)
Theorem C61_texts_only a b w r s :
  erase (explained_ult a b) = checked_ult a b /\ erase (explained_ule a b) = checked_ule a b /\
  erase (explained_ugt a b) = checked_ugt a b /\ erase (explained_uge a b) = checked_uge a b /\
  erase (explained_slt a b) = checked_slt a b /\ erase (explained_sle a b) = checked_sle a b /\
  erase (explained_sgt a b) = checked_sgt a b /\ erase (explained_sge a b) = checked_sge a b /\
  erase_mut (explained_strict_assign a b) = strict_assign a b /\
  erase_mut (explained_truncate a w) = truncate a w /\
  erase_mut (explained_zero_extend a w) = zero_extend a w /\
  erase_mut (explained_sign_extend a w) = sign_extend a w /\
  erase (explained_from_str_radix r s) = from_str_radix r s.
Proof. exact (texts_only_fact a b w r s). Qed.
Print Assumptions C61_texts_only.
Example C61_texts_only_ex : exists e, explained_ule (mk_apint 8 [1]) (mk_apint 9 [1]) = Val (EErr e) /\
  e_kind e = UnmatchingBitwidth 9 8 /\ checked_ule (mk_apint 8 [1]) (mk_apint 9 [1]) = Val (Err (UnmatchingBitwidth 9 8)).
Proof. eexists. split; [reflexivity|]. split; reflexivity. Qed.

(** C61: a comparison of unequal widths says which comparison it was, with the
    operands in the order of the call, however it was computed.  The short name in
    parentheses is right for three of the eight only: see C62. *)
Theorem C61_comparison_errors name what formula f a b :
  len a <> len b -> In (name, what, formula, f) comparisons ->
  exists e short,
    f a b = Val (EErr e) /\
    (e_kind e = UnmatchingBitwidth (len a) (len b) \/ e_kind e = UnmatchingBitwidth (len b) (len a)) /\
    e_message e = message_of (e_kind e) /\
    e_annotation e = Some (
      chars "Error occured on " ++ chars what ++ chars " (" ++ chars short ++ chars ") comparison with " ++
      chars formula ++ chars " where " ++
      [10; 9] ++ chars "lhs = " ++ render (dbg_apint a) ++ [10; 9] ++ chars "rhs = " ++ render (dbg_apint b)) /\
    (short = name <-> In name ["ule"; "ugt"; "slt"]%string).
Proof. exact (comparison_error_fact name what formula f a b). Qed.
Print Assumptions C61_comparison_errors.
Example C61_comparison_errors_ex : In ("sge", "signed greater-than or equals", "`lhs >= rhs`", explained_sge)%string comparisons /\
  len (mk_apint 8 [1]) <> len (mk_apint 9 [1]).
Proof. split; [cbn; tauto|discriminate]. Qed.

(** C61: truncation, extension and assignment: which widths the texts name, and
    that the integer is untouched.  The text for assignment has target and source
    in the places of source and target. *)
Theorem C61_resize_errors a w b :
  wf a -> 0 < w ->
  (len a < w -> exists dc dw e, decimal (len a) dc /\ decimal w dw /\
     explained_truncate a w = Val (a, EErr e) /\ e_kind e = TruncationBitWidthTooLarge w (len a) /\
     e_message e = chars "Tried to truncate an `ApInt` with a width of BitWidth(" ++ dc ++
                   chars ") to a larger target width of BitWidth(" ++ dw ++ chars ")" /\
     e_annotation e = Some (chars "Cannot truncate `ApInt` with a width of " ++ dc ++ [10] ++
       chars "                         to an `ApInt` with a width of " ++ dw ++
       chars " bits. Do you mean to extend the instance instead?")) /\
  (w < len a -> exists dc dw e e', decimal (len a) dc /\ decimal w dw /\
     explained_zero_extend a w = Val (a, EErr e) /\ explained_sign_extend a w = Val (a, EErr e') /\
     e_kind e = ExtensionBitWidthTooSmall w (len a) /\ e_kind e' = ExtensionBitWidthTooSmall w (len a) /\
     e_message e = chars "Tried to extend an `ApInt` with a width of BitWidth(" ++ dc ++
                   chars ") to a smaller target width of BitWidth(" ++ dw ++ chars ")" /\
     e_message e' = e_message e /\
     e_annotation e = Some (chars "Cannot zero-extend bit-width of BitWidth(" ++ dc ++ chars ") to BitWidth(" ++ dw ++
       chars ") bits. Do you mean to truncate the instance instead?") /\
     e_annotation e' = Some (chars "Cannot sign-extend bit-width of BitWidth(" ++ dc ++ chars ") to BitWidth(" ++ dw ++
       chars ") bits. Do you mean to truncate the instance instead?")) /\
  (len a <> len b -> exists e,
     explained_strict_assign a b = Val (a, EErr e) /\ e_kind e = UnmatchingBitwidth (len a) (len b) /\
     e_annotation e = Some (chars "Occured while trying to `strict_assign` " ++ render (dbg_apint a) ++
       chars " to " ++ render (dbg_apint b) ++ chars ".")).
Proof. exact (resize_error_fact a w b). Qed.
Print Assumptions C61_resize_errors.
Example C61_resize_errors_ex : wf (mk_apint 8 [1]) /\ len (mk_apint 8 [1]) < 9 /\ 7 < len (mk_apint 8 [1]).
Proof.
  split; [|split; reflexivity]. split; [reflexivity|]. split; [reflexivity|].
  split; [repeat constructor; discriminate|reflexivity].
Qed.

(** C61: a rejected string: which of the four texts it gets; the last one names
    the first unacceptable byte and its position. *)
Theorem C61_parse_errors r s e :
  2 <= r <= 36 -> explained_from_str_radix r s = Val (EErr e) ->
  e_kind e = InvalidStringRepr s r None /\
  ((s = [] /\ e_annotation e = Some (chars "Cannot parse an empty string into an ApInt.")) \/
   (hd 0 s = 95 /\ e_annotation e = Some (chars "The input string starts with an underscore ('_') instead of a number. The use of underscores is explicitely for separation of digits.")) \/
   (last s 0 = 95 /\ e_annotation e = Some (chars "The input string ends with an underscore ('_') instead of a number. The use of underscores is explicitely for separation of digits.")) \/
   (e_annotation e = None /\ exists pre b post dp dr shown,
      s = pre ++ b :: post /\ Forall (acceptable r) pre /\ ~ acceptable r b /\
      decimal (Z.of_nat (List.length pre)) dp /\ decimal r dr /\
      (0 <= b <= 255 -> forall printable, escaped printable 39 b shown) /\
      e_message e = chars "Encountered an invalid character (= ''" ++ shown ++ chars "'') at position " ++ dp ++
        chars " within the given string representation for the given radix (= Radix(" ++ dr ++ chars "))." )).
Proof. exact (parse_error_fact r s e). Qed.
Print Assumptions C61_parse_errors.
Example C61_parse_errors_ex : exists e, explained_from_str_radix 10 [49; 95; 102] = Val (EErr e) /\
  e_message e = chars "Encountered an invalid character (= ''f'') at position 2 within the given string representation for the given radix (= Radix(10)).".
Proof. eexists. split; [reflexivity|]. vm_compute. reflexivity. Qed.

(** C62 is false: the annotation of an unsigned less-than says "(slt)".  For which
    comparisons the short name is right is the last line of C61_comparison_errors. *)
Theorem C62_short_name_refuted :
  ~ (forall name what formula f a b e text,
       In (name, what, formula, f) comparisons -> f a b = Val (EErr e) -> e_annotation e = Some text ->
       exists rest, text = chars "Error occured on " ++ chars what ++ chars " (" ++ chars name ++ chars ")" ++ rest).
Proof. exact short_name_refuted_fact. Qed.
Print Assumptions C62_short_name_refuted.
Example C62_short_name_ex : exists e rest, explained_ult (mk_apint 8 [1]) (mk_apint 16 [2]) = Val (EErr e) /\
  e_annotation e = Some (chars "Error occured on unsigned less-than (slt) comparison" ++ rest).
Proof. eexists. eexists. split; [reflexivity|]. cbn [e_annotation with_annotation]. reflexivity. Qed.

(** C62 is false: the error for an invalid character has no index and character in
    its kind. *)
Theorem C62_position_refuted :
  ~ (forall r s pre b post e, 2 <= r <= 36 -> s = pre ++ b :: post -> Forall (acceptable r) pre -> ~ acceptable r b ->
       from_str_radix r s = Val (Err e) ->
       e = InvalidStringRepr s r (Some (Z.of_nat (List.length pre), b))).
Proof. exact position_refuted_fact. Qed.
Print Assumptions C62_position_refuted.
Example C62_position_ex : from_str_radix 10 [49; 33] = Val (Err (InvalidStringRepr [49; 33] 10 None)).
Proof. reflexivity. Qed.

(** C63 is false: "{:#x}" prints no prefix. *)
Theorem C63_options_refuted :
  ~ (forall o a s, wf a -> canonical_numeral 16 97 s -> string_value 16 s = unsigned a ->
       format_lower_hex o a = Val (std_integer_text (fo_alternate o) (fo_plus o) (fo_zero o) (fo_width o) (fo_fill o)
                                     (option_map side_of (fo_align o)) (chars "0x") s)).
Proof. exact options_refuted_fact. Qed.
Print Assumptions C63_options_refuted.
Example C63_refuted_ex : format_lower_hex (mk_fmt_options true false false (Some 10) 32 None) (mk_apint 8 [255]) = Val (chars "ff") /\
  std_integer_text true false false (Some 10) 32 None (chars "0x") (chars "ff") = chars "      0xff".
Proof. split; reflexivity. Qed.

(** C63: the output is the bare numeral whatever the options; it is what Rust's
    own integers print exactly when no prefix, no sign and no wider field is asked for. *)
Theorem C63_options_exact o a :
  wf a ->
  exists b l u,
    (canonical_numeral 2 97 b /\ string_value 2 b = unsigned a) /\
    (canonical_numeral 16 97 l /\ string_value 16 l = unsigned a) /\
    (canonical_numeral 16 65 u /\ string_value 16 u = unsigned a) /\
    let rust prefix s := std_integer_text (fo_alternate o) (fo_plus o) (fo_zero o) (fo_width o) (fo_fill o)
                           (option_map side_of (fo_align o)) (chars prefix) s in
    let nothing_asked s := fo_alternate o = false /\ fo_plus o = false /\
      match fo_width o with Some w => w <= Z.of_nat (List.length s) | None => True end in
    (format_binary o a = Val (rust "0b"%string b) <-> nothing_asked b) /\
    (format_lower_hex o a = Val (rust "0x"%string l) <-> nothing_asked l) /\
    (format_upper_hex o a = Val (rust "0x"%string u) <-> nothing_asked u) /\
    format_binary o a = Val b /\ format_lower_hex o a = Val l /\ format_upper_hex o a = Val u.
Proof. exact (options_fact o a). Qed.
Print Assumptions C63_options_exact.
Example C63_exact_ex : wf (mk_apint 100 [10; 255]) /\
  format_binary (mk_fmt_options false false true (Some 4) 48 (Some ALeft)) (mk_apint 8 [21]) = Val (chars "10101").
Proof.
  split; [|reflexivity]. split; [reflexivity|]. split; [reflexivity|].
  split; [repeat constructor; discriminate|reflexivity].
Qed.
