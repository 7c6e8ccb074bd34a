(** Property C82: errors are values.  [error_ok] is in SpecErrText.v (every error the crate makes
    is [error_ok], C65_errors_of_calls), [on_one_line] in SpecError.v. *)
From Verif Require Import SpecError LErrText LError LEx.

(** C82: two errors are equal exactly if their kinds with what they carry, their messages and their
    annotations agree, and exactly if they print the same, on one line or on several. *)
Theorem C82_equality e f :
  error_ok e -> error_ok f ->
  (error_eqb e f = true <->
     get_kind e = get_kind f /\ get_message e = get_message f /\ get_annotation e = get_annotation f) /\
  (error_eqb e f = true <-> e = f) /\
  (forall printable, error_eqb e f = true <-> display_error printable e = display_error printable f) /\
  (forall printable, error_eqb e f = true <-> pretty_error printable e = pretty_error printable f).
Proof. exact (error_value_fact e f). Qed.
Print Assumptions C82_equality.
Definition C82_a : error := error_of (ValueUnrepresentable (mk_apint 100 [5; 7]) PU8).
Definition C82_b : error := with_annotation C82_a (chars "x").
Lemma C82_ok : error_ok C82_a /\ error_ok C82_b.
Proof.
  assert (H : error_ok C82_a).
  { apply error_of_ok; [|exact Logic.I]. repeat split; repeat constructor; cbv; discriminate. }
  split; [exact H|]. apply annotated_ok; [exact H|]. now apply all_text_ok.
Qed.
Example C82_equality_ex : error_eqb C82_a C82_a = true /\ error_eqb C82_a C82_b = false /\
  error_eqb C82_a (error_of (ValueUnrepresentable (mk_apint 101 [5; 7]) PU8)) = false.
Proof. vm_compute. repeat split. Qed.

(** C82: cloning an error gives an equal error and does not fail. *)
Theorem C82_clone e :
  error_ok e -> clone_error e = Val e.
Proof. exact (clone_error_fact e). Qed.
Print Assumptions C82_clone.
Example C82_clone_ex : error_ok C82_b /\ clone_error C82_b = Val C82_b.
Proof. split; [apply C82_ok|vm_compute; reflexivity]. Qed.

(** C82: equal errors hand the same data to a hasher and different ones different data, also when
    more data follows. *)
Theorem C82_hash e f :
  error_ok e -> error_ok f ->
  (error_eqb e f = true <-> hash_error e = hash_error f) /\
  (forall r r', hash_error e ++ r = hash_error f ++ r' -> error_eqb e f = true /\ r = r').
Proof. exact (error_hash_fact e f). Qed.
Print Assumptions C82_hash.
Example C82_hash_ex : hash_error C82_a <> hash_error C82_b /\ firstn 3 (hash_error C82_a) =
  [CallIsize 4; CallOther (HashUsize 100); CallOther (HashUsize 2)].
Proof. split; [vm_compute; discriminate|vm_compute; reflexivity]. Qed.

(** C82: the description is the message; an annotation changes nothing else; an error turned into
    a result is that error. *)
Theorem C82_getters e t :
  description e = get_message e /\
  get_kind (with_annotation e t) = get_kind e /\ get_message (with_annotation e t) = get_message e /\
  get_annotation (with_annotation e t) = Some t /\
  (forall A, erase (Val (@error_into_result A e)) = Val (Err (get_kind e))).
Proof. exact (error_getters_fact e t). Qed.
Print Assumptions C82_getters.
Example C82_getters_ex : get_annotation C82_a = None /\ get_annotation C82_b = Some [120] /\
  firstn 11 (description C82_b) = chars "Encountered".
Proof. vm_compute. repeat split. Qed.

(** C82: the text over several lines ("{:#?}" and "{:#}") read on one line is the text on one line. *)
Theorem C82_pretty printable e :
  error_ok e -> on_one_line InLine (pretty_error printable e) = display_error printable e.
Proof. exact (pretty_error_fact printable e). Qed.
Print Assumptions C82_pretty.
Example C82_pretty_ex :
  pretty_error (fun _ => false) (error_of (InvalidRadix 40)) =
    chars "Error {" ++ [10] ++ chars "    kind: InvalidRadix(" ++ [10] ++ chars "        40," ++ [10] ++
    chars "    )," ++ [10] ++ chars "    message: ""Encountered an invalid parsing radix of 40.""," ++ [10] ++
    chars "    annotation: None," ++ [10] ++ chars "}" /\
  display_error (fun _ => false) (error_of (InvalidRadix 40)) =
    chars "Error { kind: InvalidRadix(40), message: ""Encountered an invalid parsing radix of 40."", annotation: None }".
Proof. vm_compute. split; reflexivity. Qed.
