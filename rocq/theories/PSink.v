(** Property C83: sinks that refuse.  [hand], [keeps], [holds], [calls_of] and [calls] are in
    SpecSink.v.  [pieces] is how Rust's standard library cuts the text of a number into the
    pieces that it hands to the sink. *)
From Verif Require Import SpecSink LSink LEx.

(** C83: formatting hands the pieces of the text to the sink in order until one is refused, whatever
    the sink does, and reports whether all were accepted.  The text is the numeral of the value.
    Octal formatting does so for zero only and panics otherwise, before it writes anything (C37). *)
Theorem C83_text pieces a :
  wf a -> (forall t, concat (pieces t) = t) ->
  (exists ps, canonical_numeral 2 97 (concat ps) /\ string_value 2 (concat ps) = unsigned a /\
    fmt_binary a = Val (concat ps) /\
    forall (S : Type) (w : S -> list Z -> S * bool) s, write_binary pieces w a s = Val (hand w ps s) /\
      uint_write_binary pieces w (mk_uint a) s = Val (hand w ps s) /\ int_write_binary pieces w (mk_int a) s = Val (hand w ps s)) /\
  (exists ps, canonical_numeral 16 97 (concat ps) /\ string_value 16 (concat ps) = unsigned a /\
    fmt_lower_hex a = Val (concat ps) /\
    forall (S : Type) (w : S -> list Z -> S * bool) s, write_lower_hex pieces w a s = Val (hand w ps s) /\
      uint_write_lower_hex pieces w (mk_uint a) s = Val (hand w ps s) /\ int_write_lower_hex pieces w (mk_int a) s = Val (hand w ps s)) /\
  (exists ps, canonical_numeral 16 65 (concat ps) /\ string_value 16 (concat ps) = unsigned a /\
    fmt_upper_hex a = Val (concat ps) /\
    forall (S : Type) (w : S -> list Z -> S * bool) s, write_upper_hex pieces w a s = Val (hand w ps s) /\
      uint_write_upper_hex pieces w (mk_uint a) s = Val (hand w ps s) /\ int_write_upper_hex pieces w (mk_int a) s = Val (hand w ps s)) /\
  (forall (S : Type) (w : S -> list Z -> S * bool) s,
    write_octal w a s = (if unsigned a =? 0 then Val (hand w [[48]] s) else Panic) /\
    uint_write_octal w (mk_uint a) s = write_octal w a s /\ int_write_octal w (mk_int a) s = write_octal w a s).
Proof. exact (sink_text_fact pieces a). Qed.
Print Assumptions C83_text.
Example C83_text_ex : wf f100 /\
  write_binary (fun t => [firstn 1 t; skipn 1 t]) (fun (s : list (list Z)) p => (s ++ [p], (length s <? 2)%nat))
    (mk_apint 65 [3; 1]) [] = Val ([[49]; []; [48]], false).
Proof. split; [apply wf_f100|vm_compute; reflexivity]. Qed.

(** C83: a sink that keeps what it accepts, and of what it refuses at most a first part, holds after
    formatting a first part of the text behind what it held before; if success is reported it is
    the whole text; if the sink never refuses, success is reported. *)
Theorem C83_prefix pieces a room held :
  wf a -> (forall t, concat (pieces t) = t) ->
  forall write format,
    In (write, format) [(write_binary pieces (keeps room), fmt_binary); (write_lower_hex pieces (keeps room), fmt_lower_hex);
                        (write_upper_hex pieces (keeps room), fmt_upper_hex)] ->
  exists text n ok, format a = Val text /\ write a held = Val (held ++ firstn n text, ok) /\
    (ok = true -> firstn n text = text) /\ ((forall h p, room h p = None) -> ok = true).
Proof. exact (sink_prefix_fact pieces a room held). Qed.
Print Assumptions C83_prefix.
Example C83_prefix_ex : wf f100 /\ (forall t : list Z, concat [t] = t) /\
  write_lower_hex (fun t => [t]) (keeps (fun h _ => if (length h <? 2)%nat then None else Some 1%nat))
    (mk_apint 128 [10; 255]) [120] = Val ([120; 102; 102; 48], false).
Proof. split; [apply wf_f100|split; [intros t; cbn; apply app_nil_r|vm_compute; reflexivity]]. Qed.

(** C83: into a buffer of bounded size formatting writes the first bytes of the text, as many as
    there is room for, and reports success exactly if all of them fit. *)
Theorem C83_buffer pieces a capacity held :
  wf a -> (forall t, concat (pieces t) = t) -> (length held <= capacity)%nat ->
  forall write format,
    In (write, format) [(write_binary pieces (holds capacity), fmt_binary); (write_lower_hex pieces (holds capacity), fmt_lower_hex);
                        (write_upper_hex pieces (holds capacity), fmt_upper_hex)] ->
  exists text, format a = Val text /\
    write a held = Val (firstn capacity (held ++ text), (length held + length text <=? capacity)%nat).
Proof. exact (sink_buffer_fact pieces a capacity held). Qed.
Print Assumptions C83_buffer.
Example C83_buffer_ex :
  write_upper_hex (fun t => [t]) (holds 3) (mk_apint 100 [10; 255]) [120] = Val ([120; 70; 70], false) /\
  write_upper_hex (fun t => [t]) (holds 19) (mk_apint 100 [10; 255]) [120] =
    Val ([120;70;70;48;48;48;48;48;48;48;48;48;48;48;48;48;48;48;65], true).
Proof. vm_compute. auto. Qed.

(** C83: serializing makes the calls of the document (C38) in order until the serializer refuses one,
    and reports whether it accepted all. *)
Theorem C83_serialize human a :
  wf a -> len a < 2 ^ 64 ->
  calls (ser_apint human a) = calls_of human (len a) (unsigned a) /\
  forall (S : Type) (w : S -> call -> S * bool) s,
    put_apint w human a s = hand w (calls_of human (len a) (unsigned a)) s.
Proof. exact (serialize_fact human a). Qed.
Print Assumptions C83_serialize.
Example C83_serialize_ex : wf f100 /\ len f100 < 2 ^ 64 /\
  put_apint (fun (s : list call) c => (s ++ [c], negb (length s =? 5)%nat)) true (mk_apint 128 [1; 2]) [] =
    ([CStruct "ApInt" 2; CField "width"; CTupleStruct "BitWidth" 1; CU64 128; CTupleStructEnd; CField "digits"], false) /\
  put_apint (fun (s : list call) c => (s ++ [c], true)) false (mk_apint 128 [1; 2]) [] =
    ([CTuple 2; CU64 128; CSeq 2; CU64 1; CU64 2; CSeqEnd; CTupleEnd], true).
Proof. split; [apply wf_f100|split; [cbn; lia|]]. vm_compute. auto. Qed.
