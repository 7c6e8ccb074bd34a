(** Properties C38, C39: serialization.  [present], [data_ok], [human_document]
    and [compact_document] are in SpecSerde.v; [ser], [data] and [de_error] are
    the data types of MSerde.v. *)
From Verif Require Import LSerde LEx.

(** C38: what was serialized deserializes to the same integer, in both formats.
    Every width of a 64-bit target is below 2^64. *)
Theorem C38_serde_round_trip a :
  wf a -> len a < 2 ^ 64 -> forall human,
  de_apint human (present (ser_apint human a)) = Val (DOk a).
Proof. exact (serde_round_trip a). Qed.
Print Assumptions C38_serde_round_trip.
Example C38_ex : wf f100 /\ len f100 < 2 ^ 64 /\
  ser_apint true (mk_apint 64 [42]) =
    SStruct "ApInt" [("width"%string, STupleStruct "BitWidth" [SU64 64]); ("digits"%string, SSeq [SU64 42])] /\
  ser_apint false (mk_apint 128 [1; 2]) = STuple [SU64 128; SSeq [SU64 1; SU64 2]].
Proof. split; [apply wf_f100|split; [cbn; lia|]]. vm_compute. auto. Qed.

(** C39: the human-readable format.  Either the data are a complete document and
    the result is the canonical integer with the digits truncated to the width,
    or they are not and an error is returned. *)
Theorem C39_human_readable d :
  data_ok d ->
  (exists w ds c, human_document d w ds /\ de_apint true d = Val (DOk c) /\ is_apint c w (uval ds mod 2 ^ w)) \/
  ((forall w ds, ~ human_document d w ds) /\ exists e, de_apint true d = Val (DErr e)).
Proof. exact (human_fact d). Qed.
Print Assumptions C39_human_readable.
Example C39_human_ex :
  human_document (DMap [(DStr "digits", doc_digits [300]); (DStr "width", DSeq [DU64 8])]) 8 [300] /\
  de_apint true (DMap [(DStr "digits", doc_digits [300]); (DStr "width", DSeq [DU64 8])]) = Val (DOk (mk_apint 8 [44])).
Proof.
  split; [|vm_compute; reflexivity]. split; [lia|]. split; [reflexivity|]. exists []. right. reflexivity.
Qed.

(** C39: the compact format.  Missing: an error for the sequence without elements,
    for which the code panics. *)
Theorem C39_compact_partial d :
  data_ok d ->
  (exists w ds c, compact_document d w ds /\ de_apint false d = Val (DOk c) /\ is_apint c w (uval ds mod 2 ^ w)) \/
  ((forall w ds, ~ compact_document d w ds) /\ d <> DSeq [] /\ exists e, de_apint false d = Val (DErr e)) \/
  (d = DSeq [] /\ de_apint false d = Panic).
Proof. exact (compact_fact d). Qed.
Print Assumptions C39_compact_partial.
Example C39_compact_ex : compact_document (DSeq [DU64 65; doc_digits [1; 3]]) 65 [1; 3] /\
  de_apint false (DSeq [DU64 65; doc_digits [1; 3]]) = Val (DOk (mk_apint 65 [1; 1])).
Proof.
  split; [|vm_compute; reflexivity]. split; [lia|]. split; [reflexivity|]. exists []. reflexivity.
Qed.

(** C39 is false of the code in one case: deserializing a compact sequence
    without elements panics. *)
Theorem C39_no_panic_refuted :
  exists d, data_ok d /\ de_apint false d = Panic.
Proof. exact compact_refuted. Qed.
Print Assumptions C39_no_panic_refuted.
Example C39_refuted_ex : de_apint false (DSeq []) = Panic.
Proof. reflexivity. Qed.

(** C39: which error is reported. *)
Theorem C39_errors w ds more rest s v :
  0 < w < 2 ^ 64 -> Forall digit_ok ds ->
  s <> "width"%string -> s <> "digits"%string ->
  let W := (DStr "width", DSeq (DU64 w :: more)) in let D := (DStr "digits", doc_digits ds) in
  de_apint true (DMap []) = Val (DErr (EMissingField "width")) /\
  de_apint true (DMap [D]) = Val (DErr (EMissingField "width")) /\
  de_apint true (DMap [W]) = Val (DErr (EMissingField "digits")) /\
  de_apint true (DMap (W :: (DStr "width", v) :: rest)) = Val (DErr (EDuplicateField "width")) /\
  de_apint true (DMap (W :: D :: (DStr "width", v) :: rest)) = Val (DErr (EDuplicateField "width")) /\
  de_apint true (DMap (D :: (DStr "digits", v) :: rest)) = Val (DErr (EDuplicateField "digits")) /\
  de_apint true (DMap ((DStr s, v) :: rest)) = Val (DErr (EUnknownField s)) /\
  de_apint true (DMap ((DStr "width", DSeq (DU64 0 :: more)) :: rest)) = Val (DErr EInvalidValue) /\
  (Z.of_nat (List.length ds) <> (w + 63) / 64 -> de_apint true (DMap [W; D]) = Val (DErr EInvalidValue)) /\
  (Z.of_nat (List.length ds) <> (w + 63) / 64 ->
    de_apint false (DSeq (DU64 w :: doc_digits ds :: more)) = Val (DErr EInvalidValue)) /\
  de_apint false (DSeq (DU64 0 :: more)) = Val (DErr EInvalidValue) /\
  de_apint false (DSeq [DU64 w]) = Val (DErr (EInvalidLength 1)) /\
  de_apint true (DMap ((DStr "width", DSeq []) :: rest)) = Val (DErr (EInvalidLength 0)) /\
  de_apint true (DMap ((DStr "width", DU64 w) :: rest)) = Val (DErr EInvalidType) /\
  de_apint true (DMap ((DStr "digits", DU64 w) :: rest)) = Val (DErr EInvalidType) /\
  de_apint false (DSeq (DSeq [DU64 w] :: more)) = Val (DErr EInvalidType) /\
  de_apint false (DSeq [DU64 w; DU64 w]) = Val (DErr EInvalidType).
Proof. exact (serde_errors w ds more rest s v). Qed.
Print Assumptions C39_errors.
Example C39_errors_ex : de_apint true (DMap [(DStr "x", DOther)]) = Val (DErr (EUnknownField "x")) /\
  Forall digit_ok [1; 2] /\ Z.of_nat (List.length [1; 2]) <> (64 + 63) / 64.
Proof.
  split; [reflexivity|]. split; [|discriminate].
  constructor; [unfold digit_ok; lia|constructor; [unfold digit_ok; lia|constructor]].
Qed.
