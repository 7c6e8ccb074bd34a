(** Property C98: what the options of a format string do to Debug output, as in "{:08?}", "{:x?}" or "{:#X?}".  [debug_with o h t] is the output for the
    options [o] and the flag [x?] or [X?] in [h]; [shown], [one_line], [many_lines], [kind_shown], [no_options] are in SpecDebugOpt.v, [std_integer_text] in SpecText.v. *)
From Verif Require Import LDebugOpt LEx.

(** C98: the width and each word of an integer are shown as Rust's own integers are with the same options; the rest of the text takes no notice of them. *)
Theorem C98_integers o h a w u :
  is_apint a w u ->
  exists dw ds, shown o h w dw /\ Forall2 (shown o h) (words w u) ds /\
    (fo_alternate o = false -> debug_with o h (dbg_apint a) = one_line dw ds) /\
    (fo_alternate o = true -> fo_fill o <> 10 -> debug_with o h (dbg_apint a) = many_lines dw ds).
Proof. exact (debug_options_fact o h a w u). Qed.
Print Assumptions C98_integers.
Example C98_integers_ex : is_apint (mk_apint 72 [10; 255]) 72 (255 * 2 ^ 64 + 10) /\
  debug_with (mk_fmt_options false false true (Some 4) 32 None) LowerHex (dbg_apint (mk_apint 72 [10; 255])) =
    chars "ApInt { len: BitWidth(0048), digits: [Digit(000a), Digit(00ff)] }" /\
  debug_with (mk_fmt_options false true false (Some 5) 42 (Some ACenter)) NoHex (dbg_apint (mk_apint 8 [10])) =
    chars "ApInt { len: BitWidth(*+8**), digits: [Digit(*+10*)] }" /\
  debug_with (mk_fmt_options true false false None 32 None) UpperHex (dbg_apint (mk_apint 8 [10])) =
    chars "ApInt {" ++ [10] ++ chars "    len: BitWidth(" ++ [10] ++ chars "        0x8," ++ [10] ++ chars "    )," ++ [10] ++
    chars "    digits: [" ++ [10] ++ chars "        Digit(" ++ [10] ++ chars "            0xA," ++ [10] ++ chars "        )," ++ [10] ++
    chars "    ]," ++ [10] ++ chars "}".
Proof. split; [split; [wf_now|split; reflexivity]|]. vm_compute. repeat split; reflexivity. Qed.

(** C98: the same for unsigned and signed integers. *)
Theorem C98_wrappers o h a :
  fo_alternate o = false ->
  debug_with o h (dbg_uint a) = chars "UInt { value: " ++ debug_with o h (dbg_apint a) ++ chars " }" /\
  debug_with o h (dbg_int a) = chars "Int { value: " ++ debug_with o h (dbg_apint a) ++ chars " }".
Proof. exact (debug_wrappers_fact o h a). Qed.
Print Assumptions C98_wrappers.
Example C98_wrappers_ex : debug_with (mk_fmt_options false false false (Some 3) 32 None) NoHex (dbg_int (mk_apint 8 [10])) =
  chars "Int { value: ApInt { len: BitWidth(  8), digits: [Digit( 10)] } }".
Proof. vm_compute. reflexivity. Qed.

(** C98: without options these are the texts of C60 and C65. *)
Theorem C98_default t :
  debug_with (no_options false) NoHex t = render t /\ debug_with (no_options true) NoHex t = render_pretty t.
Proof. exact (debug_default_fact t). Qed.
Print Assumptions C98_default.
Example C98_default_ex : debug_with (no_options false) NoHex (dbg_width 8) = chars "BitWidth(8)".
Proof. vm_compute. reflexivity. Qed.

(** C98: whatever the options, equal texts mean equal width and value, as long as the fill character is neither a letter nor a digit nor a line break. *)
Theorem C98_identifies o h a w u b v t :
  ~ alphanumeric (fo_fill o) -> fo_fill o <> 10 -> is_apint a w u -> is_apint b v t ->
  (debug_with o h (dbg_apint a) = debug_with o h (dbg_apint b) <-> w = v /\ u = t) /\
  (debug_with o h (dbg_uint a) = debug_with o h (dbg_uint b) <-> w = v /\ u = t) /\
  (debug_with o h (dbg_int a) = debug_with o h (dbg_int b) <-> w = v /\ u = t).
Proof. exact (debug_options_identify_fact o h a w u b v t). Qed.
Print Assumptions C98_identifies.
Example C98_identifies_ex : ~ alphanumeric 41 /\
  debug_with (mk_fmt_options false false false (Some 3) 41 (Some ALeft)) NoHex (dbg_apint (mk_apint 8 [1])) = chars "ApInt { len: BitWidth(8))), digits: [Digit(1)))] }" /\
  debug_with (mk_fmt_options false false true (Some 3) 41 (Some ALeft)) NoHex (dbg_apint (mk_apint 8 [1])) = chars "ApInt { len: BitWidth(008), digits: [Digit(001)] }".
Proof. split; [unfold alphanumeric; lia|]. vm_compute. repeat split; reflexivity. Qed.

(** C98: with a digit as fill character different integers can look the same. *)
Theorem C98_fill_needed :
  exists o a b, alphanumeric (fo_fill o) /\ wf a /\ wf b /\ unsigned a <> unsigned b /\
    debug_with o NoHex (dbg_apint a) = debug_with o NoHex (dbg_apint b).
Proof. exact debug_fill_needed_fact. Qed.
Print Assumptions C98_fill_needed.
Example C98_fill_needed_ex : debug_with (mk_fmt_options false false false (Some 3) 48 (Some ALeft)) NoHex (dbg_apint (mk_apint 8 [1])) =
  chars "ApInt { len: BitWidth(800), digits: [Digit(100)] }".
Proof. vm_compute. reflexivity. Qed.

(** C98: in the text of an error the options reach the numbers its kind carries; message and annotation are as without options. *)
Theorem C98_errors o h printable e :
  error_ok e -> fo_alternate o = false ->
  exists k m a, kind_shown (shown o h) printable (e_kind e) k /\ shows_string printable (e_message e) m /\
    match e_annotation e with
    | None => a = chars "None"
    | Some t => exists q, shows_string printable t q /\ a = chars "Some(" ++ q ++ chars ")"
    end /\
    debug_with o h (dbg_error printable e) = chars "Error { kind: " ++ k ++ chars ", message: " ++ m ++ chars ", annotation: " ++ a ++ chars " }".
Proof. exact (error_options_fact o h printable e). Qed.
Print Assumptions C98_errors.
Example C98_errors_ex : debug_with (mk_fmt_options false false true (Some 3) 32 None) LowerHex (dbg_error (fun _ => true) (error_of (UnmatchingBitwidth 8 16))) =
  chars "Error { kind: UnmatchingBitwidth(BitWidth(008), BitWidth(010)), message: ""Encountered invalid operation on entities with non-matching bit-widths of BitWidth(8) and BitWidth(16)."", annotation: None }" /\
  error_ok (error_of (UnmatchingBitwidth 8 16)).
Proof.
  split; [vm_compute; reflexivity|]. split; [cbn; lia|]. split; [exact I|]. split; [|exact I].
  apply Forall_forall. intros c Hc. left. assert (F : forallb (fun c => (0 <=? c) && (c <=? 55295)) (e_message (error_of (UnmatchingBitwidth 8 16))) = true) by reflexivity.
  rewrite forallb_forall in F. specialize (F c Hc). apply andb_prop in F as [F1 F2]. apply Z.leb_le in F1. apply Z.leb_le in F2. lia.
Qed.

(** C98: "{}" of an error takes the same options and does the same with them. *)
Theorem C98_display o printable e :
  display_error_with o printable e = debug_with o NoHex (dbg_error printable e) /\
  display_error_with (no_options false) printable e = display_error printable e /\
  display_error_with (no_options true) printable e = render_pretty (dbg_error printable e).
Proof. exact (display_options_fact o printable e). Qed.
Print Assumptions C98_display.
Example C98_display_ex : display_error_with (mk_fmt_options false false false (Some 60) 46 None) (fun _ => true) (error_of (InvalidRadix 37)) =
  chars "Error { kind: InvalidRadix(..........................................................37), message: ""Encountered an invalid parsing radix of 37."", annotation: None }".
Proof. vm_compute. reflexivity. Qed.
