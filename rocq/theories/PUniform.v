(** Property C85: random integers are uniform.  [exactly], [word_list], [give], [words_for],
    [total] and [in_turn] are in SpecUniform.v. *)
From Verif Require Import SpecUniform LUniform LEx.

(** C85: of the lists of words that a generator can give, equally many lead to each value: if all
    lists are equally likely, so are all integers of the width. *)
Theorem C85_uniform w u :
  0 < w -> 0 <= u < 2 ^ w ->
  exactly (2 ^ (64 * words_for w - w)) (fun ws => word_list (words_for w) ws /\
    exists c, random_with_width_using give w ws = Val (c, []) /\ wf c /\ len c = w /\ unsigned c = u).
Proof. exact (random_uniform w u). Qed.
Print Assumptions C85_uniform.
Example C85_uniform_ex : 0 < 100 /\ 0 <= 5 < 2 ^ 100 /\ word_list (words_for 100) [5; 2 ^ 36 * 9] /\
  random_with_width_using give 100 [5; 2 ^ 36 * 9] = Val (mk_apint 100 [5; 0], []).
Proof. split; [lia|]. split; [lia|]. split; [split; [reflexivity|repeat constructor; lia]|]. vm_compute. reflexivity. Qed.

(** C85: the same for randomizing in place, whatever the integer was before. *)
Theorem C85_randomize a u :
  wf a -> 0 <= u < 2 ^ len a ->
  exactly (2 ^ (64 * words_for (len a) - len a)) (fun ws => word_list (words_for (len a)) ws /\
    exists c, randomize_using give a ws = Val (c, []) /\ wf c /\ len c = len a /\ unsigned c = u).
Proof. exact (randomize_uniform a u). Qed.
Print Assumptions C85_randomize.
Example C85_randomize_ex : wf f100 /\ 0 <= 7 < 2 ^ len f100 /\
  randomize_using give f100 [7; 2 ^ 63] = Val (mk_apint 100 [7; 0], []).
Proof. split; [apply wf_f100|]. split; [cbn; lia|]. vm_compute. reflexivity. Qed.

(** C85: integers made one after the other from one generator are independent: each combination of
    values comes out of equally many lists of words. *)
Theorem C85_independent ws :
  Forall (fun w => 0 < w) ws -> forall us, Forall2 (fun w u => 0 <= u < 2 ^ w) ws us ->
  exactly (2 ^ total (map (fun w => 64 * words_for w - w) ws))
    (fun s => word_list (total (map words_for ws)) s /\
       exists cs, in_turn (random_with_width_using give) ws s = Val (cs, []) /\
         Forall wf cs /\ map len cs = ws /\ map unsigned cs = us).
Proof. exact (in_turn_app ws). Qed.
Print Assumptions C85_independent.
Example C85_independent_ex : Forall (fun w => 0 < w) [8; 100] /\ Forall2 (fun w u => 0 <= u < 2 ^ w) [8; 100] [200; 5] /\
  in_turn (random_with_width_using give) [8; 100] [456; 5; 0] = Val ([mk_apint 8 [200]; mk_apint 100 [5; 0]], []).
Proof. split; [repeat constructor; lia|]. split; [repeat constructor; lia|]. vm_compute. reflexivity. Qed.

(** C85: the same for UInt, by its unsigned value. *)
Theorem C85_uint w u :
  0 < w -> 0 <= u < 2 ^ w ->
  exactly (2 ^ (64 * words_for w - w)) (fun ws => word_list (words_for w) ws /\
    exists x, uint_random_with_width_using give w ws = Val (x, []) /\ len (uapint x) = w /\ unsigned (uapint x) = u).
Proof. exact (uint_random_uniform w u). Qed.
Print Assumptions C85_uint.
Example C85_uint_ex : 0 < 8 /\ 0 <= 200 < 2 ^ 8 /\ uint_random_with_width_using give 8 [456] = Val (mk_uint (mk_apint 8 [200]), []).
Proof. split; [lia|]. split; [lia|]. vm_compute. reflexivity. Qed.

(** C85: the same for Int, by its signed value. *)
Theorem C85_int w v :
  0 < w -> - 2 ^ (w - 1) <= v < 2 ^ (w - 1) ->
  exactly (2 ^ (64 * words_for w - w)) (fun ws => word_list (words_for w) ws /\
    exists x, int_random_with_width_using give w ws = Val (x, []) /\ len (iapint x) = w /\ signed (iapint x) = v).
Proof. exact (int_random_uniform w v). Qed.
Print Assumptions C85_int.
Example C85_int_ex : 0 < 8 /\ - 2 ^ (8 - 1) <= -56 < 2 ^ (8 - 1) /\
  int_random_with_width_using give 8 [456] = Val (mk_int (mk_apint 8 [200]), []) /\ signed (mk_apint 8 [200]) = -56.
Proof. split; [lia|]. split; [lia|]. vm_compute. auto. Qed.

(** C85: random integers from the entropy of the system have the width asked for, whatever the
    entropy; randomizing in place gives what making a new integer of the same width gives. *)
Theorem C85_system :
  forall (E S : Type) (seeded : E -> S) (next : S -> Z * S) w a x y e,
  (forall s, digit_ok (fst (next s))) -> 0 < w -> wf a -> wf (uapint x) -> wf (iapint y) ->
  (exists c, random_with_width seeded next w e = Val c /\ wf c /\ len c = w) /\
  (exists c, uint_random_with_width seeded next w e = Val c /\ wf (uapint c) /\ len (uapint c) = w) /\
  (exists c, int_random_with_width seeded next w e = Val c /\ wf (iapint c) /\ len (iapint c) = w) /\
  (exists c, randomize seeded next a e = Val c /\ random_with_width seeded next (len a) e = Val c) /\
  (exists c, uint_randomize seeded next x e = Val c /\ uint_random_with_width seeded next (len (uapint x)) e = Val c) /\
  (exists c, int_randomize seeded next y e = Val c /\ int_random_with_width seeded next (len (iapint y)) e = Val c).
Proof. exact system_fact. Qed.
Print Assumptions C85_system.
Example C85_system_ex : (forall s, digit_ok (fst (play s))) /\ wf f100 /\
  random_with_width (fun e => [e; e + 1]) play 65 2 = Val (mk_apint 65 [2; 1]) /\
  int_randomize (fun e => [e; e + 1]) play (mk_int f100) 2 = Val (mk_int (mk_apint 100 [2; 3])).
Proof. split; [apply play_ok|]. split; [apply wf_f100|]. vm_compute. auto. Qed.
