(** The time of documents, hashing and random integers. *)
From Coq Require Import String.
From Verif Require Export LTimeLinearFacts MTimeDoc SpecTimeDoc.
From Verif Require Import LRand LSerde.
From Verif Require Export SpecSerde.
From Coq Require Import Lia ZArith.
Open Scope list_scope.
Open Scope Z_scope.
Notation length := List.length.

(** * The results are those of the definitions repeated *)
Lemma e_de_elements l : snd (c_de_elements l) = Val (de_elements l).
Proof.
  induction l as [|d r IH]; [reflexivity|]. cbn [c_de_elements de_elements]. apply erase_pay. destruct (de_digit d); [|reflexivity].
  eapply bind_then; [exact IH|]. destruct (de_elements r); reflexivity.
Qed.
Lemma e_de_vec d : snd (c_de_vec d) = Val (de_vec d).
Proof. destruct d; try reflexivity. unfold c_de_vec. apply erase_pay. apply e_de_elements. Qed.
Lemma e_visit_entries es : forall w ds, snd (c_visit_entries es w ds) = Val (visit_entries es w ds).
Proof.
  induction es as [|[k v] r IH]; intros w ds; [reflexivity|]. cbn [c_visit_entries visit_entries].
  eapply bind_then; [reflexivity|]. destruct (de_field k) as [[]|e]; [| |reflexivity].
  - destruct w; [reflexivity|]. eapply bind_then; [reflexivity|]. destruct (de_bitwidth true v); [apply IH|reflexivity].
  - destruct ds; [reflexivity|]. eapply bind_then; [apply e_de_vec|]. destruct (de_vec v); [apply IH|reflexivity].
Qed.
Lemma e_build w ds : snd (c_build w ds) = build w ds.
Proof.
  unfold c_build, build. apply erase_bind; [apply e_from_iter|]. intros r. apply erase_bind; [reflexivity|]. intros a.
  apply erase_bind; [apply e_into_truncate|]. intros r'. apply erase_bind; reflexivity.
Qed.
Lemma e_visit_human d : snd (c_visit_human d) = visit_human d.
Proof.
  destruct d; try reflexivity. unfold c_visit_human, visit_human. eapply bind_then; [apply e_visit_entries|].
  destruct (visit_entries entries None None) as [[[w|] [ds|]]|e]; try reflexivity. cbn [de_bind]. destruct (Nat.eqb _ _); [apply e_build|reflexivity].
Qed.
Lemma e_visit_compact d : snd (c_visit_compact d) = visit_compact d.
Proof.
  destruct d as [| |[|e rest]| | |]; try reflexivity. unfold c_visit_compact, visit_compact. eapply bind_then; [reflexivity|].
  destruct (de_bitwidth false e) as [w|er]; [|reflexivity]. cbn [de_bind]. destruct rest as [|e2 rest]; [reflexivity|].
  eapply bind_then; [apply e_de_vec|]. destruct (de_vec e2) as [ds|er]; [|reflexivity]. cbn [de_bind]. destruct (Nat.eqb _ _); [apply e_build|reflexivity].
Qed.
Lemma e_de_apint h d : snd (c_de_apint h d) = de_apint h d.
Proof. unfold c_de_apint, de_apint. apply erase_pay. destruct h; [apply e_visit_human|apply e_visit_compact]. Qed.
Lemma e_ser_digits ds : snd (c_ser_digits ds) = Val (map ser_digit ds).
Proof. induction ds as [|d r IH]; [reflexivity|]. cbn [c_ser_digits map]. apply erase_pay. eapply bind_then; [exact IH|reflexivity]. Qed.
Lemma e_ser_apint h a : snd (c_ser_apint h a) = Val (ser_apint h a).
Proof. unfold c_ser_apint, ser_apint. apply erase_pay. eapply bind_then; [apply e_ser_digits|]. destruct h; reflexivity. Qed.
Lemma e_hash_digits ds : snd (c_hash_digits ds) = Val (map HashU64 ds).
Proof. induction ds as [|d r IH]; [reflexivity|]. cbn [c_hash_digits map]. apply erase_pay. eapply bind_then; [exact IH|reflexivity]. Qed.
Lemma e_hash_feed a : snd (c_hash_feed a) = Val (hash_feed a).
Proof. unfold c_hash_feed, hash_feed. apply erase_pay. eapply bind_then; [apply e_hash_digits|reflexivity]. Qed.
Lemma e_draw {S} (next : S -> Z * S) n : forall s, snd (c_draw next n s) = Val (draw next n s).
Proof.
  induction n as [|n IH]; intros s; [reflexivity|]. cbn [c_draw draw]. apply erase_pay. destruct (next s) as [d s1].
  eapply bind_then; [apply IH|]. destruct (draw next n s1); reflexivity.
Qed.
Lemma e_overwrite {S} (next : S -> Z * S) ds : forall s, snd (c_overwrite next ds s) = Val (overwrite next ds s).
Proof.
  induction ds as [|d r IH]; intros s; [reflexivity|]. cbn [c_overwrite overwrite]. apply erase_pay. destruct (next s) as [x s1].
  eapply bind_then; [apply IH|]. destruct (overwrite next r s1); reflexivity.
Qed.
Lemma e_random {S} (next : S -> Z * S) w s : snd (c_random_with_width_using next w s) = random_with_width_using next w s.
Proof.
  unfold c_random_with_width_using, random_with_width_using. cbv zeta. destruct (Nat.leb _ _); [|reflexivity].
  eapply bind_then; [apply e_draw|]. destruct (draw _ _ _) as [ds s1]. apply erase_bind; [apply e_from_iter|]. intros r. apply erase_bind; [reflexivity|]. intros a.
  apply erase_bind; [apply e_into_truncate|]. intros r'. apply erase_bind; reflexivity.
Qed.
Lemma e_randomize {S} (next : S -> Z * S) a s : snd (c_randomize_using next a s) = randomize_using next a s.
Proof.
  unfold c_randomize_using, randomize_using. eapply bind_then; [apply e_overwrite|]. destruct (overwrite _ _ _) as [ds s1]. apply erase_bind; reflexivity.
Qed.

(** * Steps *)
Lemma size_pos d : 1 <= size d.
Proof.
  revert d. fix IH 1. intros [v|s|l|es| |]; cbn [size]; try lia.
  - enough (0 <= fold_right (fun x n => size x + n) 0 l) by lia. induction l as [|x r IHr]; cbn [fold_right]; [lia|]. pose proof (IH x). lia.
  - enough (0 <= fold_right (fun (e : data * data) n => (let (k, v) := e in size k + size v) + n) 0 es) by lia.
    induction es as [|[k v] r IHr]; cbn [fold_right]; [lia|]. pose proof (IH k). pose proof (IH v). lia.
Qed.
Definition sizes (l : list data) : Z := fold_right (fun x n => size x + n) 0 l.
Lemma sizes_length l : Z.of_nat (length l) <= sizes l.
Proof. induction l as [|x r IH]; cbn [sizes fold_right length]; [lia|]. pose proof (size_pos x). unfold sizes in IH. lia. Qed.
Lemma k_elements l : costs (c_de_elements l) (4 * Z.of_nat (length l)).
Proof.
  induction l as [|d r IH]; cbn [c_de_elements length]; [apply costs_val; lia|]. eapply costs_bind; [apply costs_pay| |lia]. intros _ _.
  destruct (de_digit d); [|apply costs_val; lia]. eapply costs_bind; [exact IH| |lia]. intros [xs|e] _; apply costs_val; lia.
Qed.
Lemma k_vec d : costs (c_de_vec d) (4 * size d).
Proof.
  pose proof (size_pos d) as P. unfold c_de_vec. eapply costs_bind; [apply costs_pay| |lia]. intros _ _. destruct d; try (apply costs_val; lia).
  eapply costs_le; [apply k_elements|]. pose proof (sizes_length elements). cbn [size]. unfold sizes in H. lia.
Qed.
Lemma elements_length l : forall ds, de_elements l = DOk ds -> length ds = length l.
Proof.
  induction l as [|d r IH]; intros ds; cbn [de_elements]; [now intros [= <-]|]. destruct (de_digit d); [|discriminate].
  destruct (de_elements r) as [xs|]; [|discriminate]. intros [= <-]. cbn [length]. f_equal. now apply IH.
Qed.
Lemma vec_length d ds : de_vec d = DOk ds -> Z.of_nat (length ds) <= size d.
Proof.
  destruct d; try discriminate. cbn [de_vec]. intros H. apply elements_length in H. rewrite H. pose proof (sizes_length elements) as L. cbn [size]. unfold sizes in L. lia.
Qed.
Lemma k_field d : costs (c_de_field d) (3 * size d).
Proof.
  pose proof (size_pos d) as P. unfold c_de_field. eapply costs_bind; [apply costs_pay|intros; apply costs_val|]; destruct d; cbn [size] in *; lia.
Qed.
Definition entries_size (es : list (data * data)) : Z := fold_right (fun (e : data * data) n => (let (k, v) := e in size k + size v) + n) 0 es.
Lemma entries_nonneg es : 0 <= entries_size es.
Proof. induction es as [|[k v] r IH]; cbn [entries_size fold_right]; [lia|]. pose proof (size_pos k). pose proof (size_pos v). unfold entries_size in IH. lia. Qed.
Lemma k_entries es : forall w ds, costs (c_visit_entries es w ds) (4 * entries_size es).
Proof.
  induction es as [|[k v] r IH]; intros w ds; cbn [c_visit_entries]; [apply costs_val; cbn; lia|].
  pose proof (size_pos k). pose proof (size_pos v). pose proof (entries_nonneg r) as N. change (entries_size ((k, v) :: r)) with (size k + size v + entries_size r).
  eapply costs_bind; [apply k_field| |lia]. intros [[]|e] _; [| |apply costs_val; lia].
  - destruct w; [apply costs_val; lia|]. eapply costs_bind with 2; [unfold costs; cbn; lia| |lia]. intros [x|e] _; [|apply costs_val; lia].
    eapply costs_le; [apply IH|lia].
  - destruct ds; [apply costs_val; lia|]. eapply costs_bind; [apply k_vec| |lia]. intros [x|e] _; [|apply costs_val; lia].
    eapply costs_le; [apply IH|lia].
Qed.
Lemma entries_digits es : forall w ds w' ds', visit_entries es w ds = DOk (w', Some ds') -> Z.of_nat (length ds') <= entries_size es \/ ds = Some ds'.
Proof.
  induction es as [|[k v] r IH]; intros w ds w' ds'; cbn [visit_entries]; [intros [= _ ->]; now right|].
  pose proof (size_pos k). pose proof (size_pos v). pose proof (entries_nonneg r) as N. change (entries_size ((k, v) :: r)) with (size k + size v + entries_size r).
  destruct (de_field k) as [[]|e]; [| |discriminate].
  - destruct w; [discriminate|]. destruct (de_bitwidth true v); [|discriminate]. intros E. apply IH in E as [E|E]; [left; lia|now right].
  - destruct ds; [discriminate|]. destruct (de_vec v) as [x|] eqn:V; [|discriminate]. intros E. apply vec_length in V. apply IH in E as [E|[= <-]]; left; lia.
Qed.
Lemma k_build w ds : required_digits w = length ds -> costs (c_build w ds) (12 * Z.of_nat (length ds) + 4).
Proof.
  intros R. unfold c_build. eapply costs_bind; [apply k_from_iter| |lia]. intros r _. eapply costs_bind; [apply costs_lift0| |lia]. intros a _.
  eapply costs_bind; [apply k_into_truncate| |unfold rd; rewrite R; lia]. intros r' _. eapply costs_bind; [apply costs_lift0|intros; apply costs_val|]; unfold rd; rewrite R; lia.
Qed.
Lemma k_de_apint h d : costs (c_de_apint h d) (16 * size d + 5).
Proof.
  pose proof (size_pos d) as P. unfold c_de_apint. eapply costs_bind; [apply costs_pay| |lia]. intros _ _. destruct h.
  - destruct d; try (apply costs_val; lia). unfold c_visit_human. cbn [size] in *. fold (entries_size entries) in *. pose proof (entries_nonneg entries) as N.
    eapply costs_bind; [apply k_entries| |lia]. intros v E. rewrite e_visit_entries in E. injection E as E.
    destruct v as [[[w|] [ds|]]|e]; try (apply costs_val; lia). destruct (Nat.eqb_spec (required_digits w) (length ds)); [|apply costs_val; lia].
    apply entries_digits in E as [E|E]; [|discriminate]. eapply costs_le; [now apply k_build|]. lia.
  - destruct d as [| |[|e rest]| | |]; try (apply costs_val; lia); [apply costs_lift; lia|]. unfold c_visit_compact. cbn [size fold_right] in *. pose proof (size_pos e).
    fold (sizes rest) in *. pose proof (sizes_length rest).
    eapply costs_bind with 2; [unfold costs; cbn; lia| |lia]. intros [w|er] _; [|apply costs_val; lia].
    destruct rest as [|e2 rest]; [apply costs_val; lia|]. change (sizes (e2 :: rest)) with (size e2 + sizes rest) in *. pose proof (sizes_length rest).
    eapply costs_bind; [apply k_vec| |lia]. intros v E. rewrite e_de_vec in E. injection E as E. destruct v as [ds|er]; [|apply costs_val; lia].
    destruct (Nat.eqb_spec (required_digits w) (length ds)); [|apply costs_val; lia]. apply vec_length in E. eapply costs_le; [now apply k_build|]. lia.
Qed.
Lemma k_ser_digits ds : costs (c_ser_digits ds) (2 * Z.of_nat (length ds)).
Proof.
  induction ds as [|d r IH]; cbn [c_ser_digits length]; [apply costs_val; lia|]. eapply costs_bind; [apply costs_pay| |lia]. intros _ _.
  eapply costs_bind; [exact IH|intros; apply costs_val|]; lia.
Qed.
Lemma k_hash_digits ds : costs (c_hash_digits ds) (2 * Z.of_nat (length ds)).
Proof.
  induction ds as [|d r IH]; cbn [c_hash_digits length]; [apply costs_val; lia|]. eapply costs_bind; [apply costs_pay| |lia]. intros _ _.
  eapply costs_bind; [exact IH|intros; apply costs_val|]; lia.
Qed.
Lemma k_draw {S} (next : S -> Z * S) n : forall s, costs (c_draw next n s) (Z.of_nat n).
Proof.
  induction n as [|n IH]; intros s; cbn [c_draw]; [apply costs_val; lia|]. eapply costs_bind; [apply costs_pay| |lia]. intros _ _. destruct (next s) as [d s1].
  eapply costs_bind; [apply IH| |lia]. intros [ds s2] _. apply costs_val. lia.
Qed.
Lemma k_overwrite {S} (next : S -> Z * S) ds : forall s, costs (c_overwrite next ds s) (2 * Z.of_nat (length ds)).
Proof.
  induction ds as [|d r IH]; intros s; cbn [c_overwrite length]; [apply costs_val; lia|]. eapply costs_bind; [apply costs_pay| |lia]. intros _ _. destruct (next s) as [x s1].
  eapply costs_bind; [apply IH| |lia]. intros [rs s2] _. apply costs_val. lia.
Qed.
Lemma draw_length {S} (next : S -> Z * S) n : forall s, length (fst (draw next n s)) = n.
Proof.
  induction n as [|n IH]; intros s; [reflexivity|]. cbn [draw]. destruct (next s) as [d s1]. specialize (IH s1). destruct (draw next n s1). cbn [fst length] in *. now f_equal.
Qed.

(** * Facts *)
Lemma time_read_fact h d : takes (c_de_apint h d) (de_apint h d) (16 * size d + 5).
Proof. apply takes_intro; [apply e_de_apint|apply k_de_apint]. Qed.
Lemma time_write_fact h a : wf a -> takes (c_ser_apint h a) (Val (ser_apint h a)) (2 * words (len a) + 3).
Proof.
  intros W. apply takes_intro; [apply e_ser_apint|]. rewrite <- (nd_words a W). unfold c_ser_apint, nd. eapply costs_bind; [apply costs_pay| |lia]. intros _ _.
  eapply costs_bind; [apply k_ser_digits|intros; apply costs_val|]; unfold as_digit_slice; lia.
Qed.
Lemma time_hash_fact a : wf a -> takes (c_hash_feed a) (Val (hash_feed a)) (2 * words (len a) + 2).
Proof.
  intros W. apply takes_intro; [apply e_hash_feed|]. rewrite <- (nd_words a W). unfold c_hash_feed, nd. eapply costs_bind; [apply costs_pay| |lia]. intros _ _.
  eapply costs_bind; [apply k_hash_digits|intros; apply costs_val|]; unfold as_digit_slice; lia.
Qed.
Lemma time_random_fact (S : Type) (next : S -> Z * S) w a s : 0 < w -> wf a ->
  takes (c_random_with_width_using next w s) (random_with_width_using next w s) (13 * words w + 4) /\
  takes (c_randomize_using next a s) (randomize_using next a s) (2 * words (len a) + 2).
Proof.
  intros Hw W. split; (apply takes_intro; [apply e_random || apply e_randomize|]).
  - rewrite <- (rd_words w Hw). unfold c_random_with_width_using, rd. cbv zeta. destruct (Nat.leb _ _); [|apply costs_lift; lia].
    eapply costs_bind; [apply k_draw| |lia]. intros [ds s1] E. rewrite e_draw in E. injection E as E. pose proof (draw_length next (required_digits w) s) as L. rewrite E in L. cbn [fst] in L.
    eapply costs_bind; [apply k_from_iter| |rewrite L; lia]. rewrite L. intros r _. eapply costs_bind; [apply costs_lift0| |lia]. intros x _.
    eapply costs_bind; [apply k_into_truncate| |unfold rd; lia]. intros r' _. eapply costs_bind; [apply costs_lift0|intros; apply costs_val|]; unfold rd; lia.
  - rewrite <- (nd_words a W). unfold c_randomize_using, nd. eapply costs_bind; [apply k_overwrite| |unfold as_digit_slice; lia]. intros [ds s1] _.
    eapply costs_bind; [apply costs_clear|intros; apply costs_val|]; unfold as_digit_slice; lia.
Qed.
(** No document makes the reader build more than it contains. *)
Lemma size_digits ds : size (doc_digits ds) = 1 + Z.of_nat (length ds).
Proof. unfold doc_digits. cbn [size]. induction ds as [|d r IH]; cbn [map fold_right length size]; lia. Qed.
Lemma document_fits_fact h d a : data_ok d -> de_apint h d = Val (DOk a) -> words (len a) < size d.
Proof.
  intros Hd E. unfold words. destruct h.
  - destruct (human_fact d Hd) as [(w & ds & c & (Hw & Hl & more & D) & E' & _ & L & _)|(_ & e & E')]; rewrite E' in E; [|discriminate]. injection E as <-. rewrite L, <- Hl.
    destruct D as [-> | ->]; cbn [size fold_right]; rewrite size_digits; fold (sizes more); pose proof (sizes_length more); lia.
  - destruct (compact_fact d Hd) as [(w & ds & c & (Hw & Hl & more & D) & E' & _ & L & _)|[(_ & _ & e & E')|(_ & E')]]; rewrite E' in E; try discriminate. injection E as <-. rewrite L, <- Hl.
    subst d. cbn [size fold_right]. rewrite size_digits. fold (sizes more). pose proof (sizes_length more). lia.
Qed.
