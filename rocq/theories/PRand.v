(** Property C40: random generation.  A generator is any type of states with any
    function to the next word and state; [state_after] and [words_value] are in
    SpecRand.v. *)
From Verif Require Import LRand LEx.

(** C40: the value is made of the next ceil(w/64) words, truncated to w bits, and
    no further word is drawn. *)
Theorem C40_random :
  forall (S : Type) (next : S -> Z * S) w s, (forall s, digit_ok (fst (next s))) -> 0 < w ->
  let n := Z.to_nat ((w + 63) / 64) in
  exists c, random_with_width_using next w s = Val (c, state_after next n s) /\
    is_apint c w (words_value next n s mod 2 ^ w).
Proof. exact random_fact. Qed.
Print Assumptions C40_random.
Example C40_ex : (forall s, digit_ok (fst (play s))) /\
  random_with_width_using play 8 [511; 7] = Val (mk_apint 8 [255], [7]).
Proof. split; [apply play_ok|vm_compute; reflexivity]. Qed.

(** C40: randomizing in place keeps the width and gives the same value. *)
Theorem C40_randomize :
  forall (S : Type) (next : S -> Z * S) a s, (forall s, digit_ok (fst (next s))) -> wf a ->
  let n := Z.to_nat ((len a + 63) / 64) in
  exists c, randomize_using next a s = Val (c, state_after next n s) /\
    random_with_width_using next (len a) s = Val (c, state_after next n s) /\
    is_apint c (len a) (words_value next n s mod 2 ^ len a).
Proof. exact randomize_fact. Qed.
Print Assumptions C40_randomize.
Example C40_randomize_ex : wf e100 /\ randomize_using play e100 [5; 6; 7] = Val (mk_apint 100 [5; 6], [7]).
Proof. split; [apply wf_e100|vm_compute; reflexivity]. Qed.

(** C40: every value is attainable. *)
Theorem C40_every_value c :
  wf c -> exists (S : Type) (next : S -> Z * S) (s s' : S),
  (forall s, digit_ok (fst (next s))) /\ random_with_width_using next (len c) s = Val (c, s').
Proof. exact (random_onto c). Qed.
Print Assumptions C40_every_value.
Example C40_every_ex : wf f192.
Proof. apply wf_f192. Qed.
