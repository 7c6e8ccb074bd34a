(** Properties C61 (continued), C65 and C66: the texts of errors and how errors are
    printed.  [says], [prints_kind], [error_ok] are in SpecErrText.v,
    [escaped], [shows_string], [contains] in SpecText.v. *)
From Verif Require Import LEx LErrText.

(** C61: what the message for each kind of error says, word for word. *)
Theorem C61_messages k :
  payload_ok k -> says k (message_of k).
Proof. exact (message_says_fact k). Qed.
Print Assumptions C61_messages.
Example C61_messages_ex : message_of (InvalidShiftAmount 70 64) =
  chars "Encountered invalid shift amount of ShiftAmount(70) on bit-width with BitWidth(64) bits." /\
  message_of (DivisionByZero SignedRem (mk_apint 8 [5])) =
  chars "Encountered a division-by-zero for operation (= SignedRem) with the left hand-side value: (= ApInt { len: BitWidth(8), digits: [Digit(5)] })" /\
  payload_ok (DivisionByZero SignedRem (mk_apint 8 [5])).
Proof.
  split; [vm_compute; reflexivity|]. split; [vm_compute; reflexivity|].
  split; [reflexivity|]. split; [reflexivity|]. split; [repeat constructor; discriminate|reflexivity].
Qed.

(** C65: an error printed with "{}" shows its kind with everything it carries, its
    message and its annotation. *)
Theorem C65_display printable e :
  error_ok e ->
  exists k m a, prints_kind printable (e_kind e) k /\ shows_string printable (e_message e) m /\
    match e_annotation e with
    | None => a = chars "None"
    | Some t => exists q, shows_string printable t q /\ a = chars "Some(" ++ q ++ chars ")"
    end /\
    display_error printable e = chars "Error { kind: " ++ k ++ chars ", message: " ++ m ++ chars ", annotation: " ++ a ++ chars " }".
Proof. exact (display_fact printable e). Qed.
Print Assumptions C65_display.
Example C65_display_ex : exists e, explained_ule (mk_apint 8 [1]) (mk_apint 9 [2]) = Val (EErr e) /\
  display_error (fun _ => true) e = chars "Error { kind: UnmatchingBitwidth(BitWidth(9), BitWidth(8)), message: ""Encountered invalid operation on entities with non-matching bit-widths of BitWidth(9) and BitWidth(8)."", annotation: Some(""Error occured on unsigned less-than or equals (ule) comparison with `lhs <= rhs` where \n\tlhs = ApInt { len: BitWidth(8), digits: [Digit(1)] }\n\trhs = ApInt { len: BitWidth(9), digits: [Digit(2)] }"") }".
Proof. eexists. split; [reflexivity|]. vm_compute. reflexivity. Qed.

(** C65: errors that print the same are the same. *)
Theorem C65_identifies printable e e' :
  error_ok e -> error_ok e' -> display_error printable e = display_error printable e' -> e = e'.
Proof. exact (display_injective_fact printable e e'). Qed.
Print Assumptions C65_identifies.
Example C65_identifies_ex :
  error_ok (mk_error (InvalidStringRepr [34; 44] 10 None) [92; 34] (Some [9])) /\
  error_ok (mk_error (InvalidStringRepr [34; 44] 10 None) [92; 34] None) /\
  display_error (fun _ => true) (mk_error (InvalidStringRepr [34; 44] 10 None) [92; 34] (Some [9])) =
    chars "Error { kind: InvalidStringRepr { input: ""\"","", radix: Radix(10), pos_char: None }, message: ""\\\"""", annotation: Some(""\t"") }".
Proof.
  split; [|split; [|vm_compute; reflexivity]]; (split; [cbn; lia|]; split; [split; [exists [34; 44]; split; [repeat constructor; unfold scalar; lia|reflexivity]|exact I]|]; split; [repeat constructor; unfold scalar; lia|]).
  - repeat constructor; unfold scalar; lia.
  - exact I.
Qed.

(** C65: an error is printed on one line of visible characters, whatever the rejected
    input contains. *)
Theorem C65_one_line printable e :
  error_ok e -> Forall (fun c => 32 <= c <= 126 \/ 161 <= c <= 255 \/ 256 <= c /\ printable c = true) (display_error printable e).
Proof. exact (one_line_fact printable e). Qed.
Print Assumptions C65_one_line.
Example C65_one_line_ex : exists e, explained_from_str_radix 10 [49; 10; 50] = Val (EErr e) /\
  contains (display_error (fun _ => true) e) (chars "input: ""1\n2""") /\ contains (e_message e) (chars "'\n'").
Proof.
  eexists. split; [reflexivity|].
  split; [exists (firstn 34 (display_error (fun _ => true) (invalid_char_in_string_repr [49; 10; 50] 10 1 10))), (skipn 47 (display_error (fun _ => true) (invalid_char_in_string_repr [49; 10; 50] 10 1 10)))
         |exists (firstn 37 (e_message (invalid_char_in_string_repr [49; 10; 50] 10 1 10))), (skipn 41 (e_message (invalid_char_in_string_repr [49; 10; 50] 10 1 10)))];
    vm_compute; reflexivity.
Qed.

(** C65: the errors of the calls modelled with their texts meet the hypothesis of the
    theorems above; a string is given to the parser as its bytes. *)
Theorem C65_errors_of_calls a b w r s :
  wf a -> wf b -> 0 < w -> 2 <= r <= 36 -> text s ->
  (forall name what formula f e, In (name, what, formula, f) comparisons -> f a b = Val (EErr e) -> error_ok e) /\
  (forall x e, explained_strict_assign a b = Val (x, EErr e) -> error_ok e) /\
  (forall x e, explained_truncate a w = Val (x, EErr e) -> error_ok e) /\
  (forall x e, explained_zero_extend a w = Val (x, EErr e) -> error_ok e) /\
  (forall x e, explained_sign_extend a w = Val (x, EErr e) -> error_ok e) /\
  (forall e, explained_from_str_radix r (utf8 s) = Val (EErr e) -> error_ok e) /\
  (forall k, payload_ok k -> match k with InvalidStringRepr _ _ _ => False | _ => True end -> error_ok (error_of k)).
Proof. exact (errors_ok_fact a b w r s). Qed.
Print Assumptions C65_errors_of_calls.
Example C65_errors_of_calls_utf8_ex : exists e,
  explained_from_str_radix 10 (utf8 [233; 8364; 128512]) = Val (EErr e) /\
  utf8 [233; 8364; 128512] = [195; 169; 226; 130; 172; 240; 159; 152; 128] /\
  display_error (fun c => c =? 8364) e =
    chars "Error { kind: InvalidStringRepr { input: """ ++ [233; 8364] ++ chars "\u{1f600}"", radix: Radix(10), pos_char: None }, message: ""Encountered an invalid character (= ''" ++
    [195] ++ chars "'') at position 0 within the given string representation for the given radix (= Radix(10))."", annotation: None }".
Proof. eexists. split; [reflexivity|]. split; [reflexivity|]. vm_compute. reflexivity. Qed.
Example C65_errors_of_calls_ex : exists e, explained_from_str_radix 16 [33] = Val (EErr e) /\
  e_message e = chars "Encountered an invalid character (= ''!'') at position 0 within the given string representation for the given radix (= Radix(16)).".
Proof. eexists. split; [reflexivity|]. vm_compute. reflexivity. Qed.

(** C66 is false: the line breaks and tabs in the annotation of a comparison are
    printed as "\n" and "\t". *)
Theorem C66_verbatim_refuted :
  ~ (forall printable a b e t, wf a -> wf b -> explained_ult a b = Val (EErr e) -> e_annotation e = Some t ->
       contains (display_error printable e) t).
Proof. exact verbatim_refuted_fact. Qed.
Print Assumptions C66_verbatim_refuted.
Example C66_verbatim_refuted_ex : exists e t, explained_ult (mk_apint 8 [1]) (mk_apint 9 [2]) = Val (EErr e) /\
  e_annotation e = Some t /\ In 10 t /\ ~ In 10 (display_error (fun _ => true) e).
Proof.
  do 2 eexists. split; [reflexivity|]. split; [reflexivity|]. split.
  - apply (in_or_app _ _ 10). right. now left.
  - intros H. assert (X : existsb (Z.eqb 10) (display_error (fun _ => true) (mk_error (UnmatchingBitwidth 8 9) (message_of (UnmatchingBitwidth 8 9))
      (Some (lit "Error occured on unsigned less-than (slt) comparison with `lhs < rhs` where " ++ operand_lines (mk_apint 8 [1]) (mk_apint 9 [2]))))) = true)
      by (apply existsb_exists; exists 10; split; [exact H|reflexivity]).
    vm_compute in X. discriminate X.
Qed.

(** C66: messages and annotations of visible ASCII characters without quotes and
    backslashes are printed as they are; the messages of all kinds of errors are
    such, apart from the one for an invalid character.  What is missing is in
    C66_verbatim_refuted. *)
Theorem C66_verbatim_partial printable e :
  (Forall (fun c => 32 <= c <= 126 /\ c <> 34 /\ c <> 92) (e_message e) ->
     contains (display_error printable e) (chars "message: """ ++ e_message e ++ chars """")) /\
  (forall t, e_annotation e = Some t -> Forall (fun c => 32 <= c <= 126 /\ c <> 34 /\ c <> 92) t ->
     contains (display_error printable e) (chars "annotation: Some(""" ++ t ++ chars """)")) /\
  (forall k, payload_ok k -> Forall (fun c => 32 <= c <= 126 /\ c <> 34 /\ c <> 92) (e_message (error_of k))).
Proof. exact (verbatim_fact printable e). Qed.
Print Assumptions C66_verbatim_partial.
Example C66_verbatim_partial_ex :
  Forall (fun c => 32 <= c <= 126 /\ c <> 34 /\ c <> 92) (chars "Cannot parse an empty string into an ApInt.") /\
  exists e, explained_from_str_radix 10 [] = Val (EErr e) /\ e_annotation e = Some (chars "Cannot parse an empty string into an ApInt.").
Proof.
  split; [apply all_plain_ok; reflexivity|]. eexists. split; reflexivity.
Qed.
