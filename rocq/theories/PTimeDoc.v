(** Property C100: reading a document takes time linear in the document, whatever it says, and writing documents, hashing and random integers take time linear in
    the width.  MTimeDoc.v repeats the definitions of MSerde.v, MUtils.v and MRand.v and counts one step for each digit (of 64 bits) that is read, written or passed over, each
    value a document presents, each character of a key, each item fed to a hasher and each number drawn.  [size] is in SpecTimeDoc.v, [takes] and [words] in SpecTime.v. *)
From Verif Require Import LTimeDoc LEx.

(** C100: reading any document, in either form, also one that is refused or makes the reader panic, takes time linear in its size. *)
Theorem C100_read h d :
  takes (c_de_apint h d) (de_apint h d) (16 * size d + 5).
Proof. exact (time_read_fact h d). Qed.
Print Assumptions C100_read.
Definition C100_d : data := DMap [(DStr "digits", DSeq [DU64 5; DU64 7; DU64 9]); (DStr "width", DSeq [DU64 130])].
Definition C100_wrong : data := DMap [(DStr "width", DSeq [DU64 1000]); (DStr "digits", DSeq [DU64 5])].
Example C100_read_ex : size C100_d = 20 /\ c_de_apint true C100_d = (65, Val (DOk (mk_apint 130 [5; 7; 1]))) /\
  size C100_wrong = 18 /\ c_de_apint true C100_wrong = (43, Val (DErr EInvalidValue)) /\ fst (c_de_apint false C100_d) = 1 /\ c_de_apint false (DSeq []) = (1, Panic).
Proof. vm_compute. repeat split; reflexivity. Qed.

(** C100: the integer read has fewer digits than the document has values: a small document with a large width is refused, not filled up. *)
Theorem C100_fits h d a :
  data_ok d -> de_apint h d = Val (DOk a) -> words (len a) < size d.
Proof. exact (document_fits_fact h d a). Qed.
Print Assumptions C100_fits.
Example C100_fits_ex : data_ok C100_d /\ de_apint true C100_d = Val (DOk (mk_apint 130 [5; 7; 1])) /\ words 130 = 3 /\
  de_apint true (DMap [(DStr "width", DSeq [DU64 1000]); (DStr "digits", DSeq [DU64 5])]) = Val (DErr EInvalidValue).
Proof. split; [repeat split; discriminate|]. vm_compute. repeat split; reflexivity. Qed.

(** C100: writing. *)
Theorem C100_write h a :
  wf a -> takes (c_ser_apint h a) (Val (ser_apint h a)) (2 * words (len a) + 3).
Proof. exact (time_write_fact h a). Qed.
Print Assumptions C100_write.
Example C100_write_ex : wf (mk_apint 130 [5; 7; 1]) /\ c_ser_apint false (mk_apint 130 [5; 7; 1]) = (9, Val (STuple [SU64 130; SSeq [SU64 5; SU64 7; SU64 1]])).
Proof. split; [wf_now|]. vm_compute. reflexivity. Qed.

(** C100: hashing. *)
Theorem C100_hash a :
  wf a -> takes (c_hash_feed a) (Val (hash_feed a)) (2 * words (len a) + 2).
Proof. exact (time_hash_fact a). Qed.
Print Assumptions C100_hash.
Example C100_hash_ex : c_hash_feed (mk_apint 130 [5; 7; 1]) = (8, Val [HashUsize 130; HashUsize 3; HashU64 5; HashU64 7; HashU64 1]).
Proof. vm_compute. reflexivity. Qed.

(** C100: making a random integer and filling one with random bits, from any generator. *)
Theorem C100_random (S : Type) (next : S -> Z * S) w a s :
  0 < w -> wf a ->
  takes (c_random_with_width_using next w s) (random_with_width_using next w s) (13 * words w + 4) /\
  takes (c_randomize_using next a s) (randomize_using next a s) (2 * words (len a) + 2).
Proof. exact (time_random_fact S  next  w a s). Qed.
Print Assumptions C100_random.
Example C100_random_ex : let next := fun s => (s, s + 1) in
  c_random_with_width_using next 130 5 = (17, Val (mk_apint 130 [5; 6; 3], 8)) /\
  c_randomize_using next (mk_apint 130 [0; 0; 0]) 5 = (8, Val (mk_apint 130 [5; 6; 3], 8)).
Proof. vm_compute. repeat split; reflexivity. Qed.
