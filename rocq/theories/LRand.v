(** Random generation. *)
From Verif Require Export LFacts LSerial MRand SpecRand.

Definition good_rng {S : Type} (next : S -> Z * S) : Prop := forall s, digit_ok (fst (next s)).

Lemma draw_spec {S : Type} (next : S -> Z * S) n : (forall s, digit_ok (fst (next s))) -> forall s,
  exists ds, draw next n s = (ds, state_after next n s) /\ length ds = n /\ digs ds /\ uval ds = words_value next n s.
Proof.
  intros Hn. induction n as [|n IH]; intros s.
  - exists []. cbn. rewrite uval_nil. split; [reflexivity|split; [reflexivity|split; [constructor|reflexivity]]].
  - cbn [draw state_after words_value]. specialize (Hn s). destruct (next s) as [d s'] eqn:E. cbn [fst snd] in *.
    destruct (IH s') as (ds & -> & Hl & Hd & Hu). exists (d :: ds). split; [reflexivity|].
    split; [cbn; lia|]. split; [constructor; [unfold dok; rewrite B_pow; exact Hn|exact Hd]|].
    cbn [uval]. now rewrite Hu.
Qed.
Lemma overwrite_draw {S : Type} (next : S -> Z * S) ds : forall s, overwrite next ds s = draw next (length ds) s.
Proof.
  induction ds as [|d t IH]; intros s; [reflexivity|]. cbn [overwrite length draw]. destruct (next s) as [x s'].
  now rewrite IH.
Qed.

Lemma required_pos w : 0 < w -> Z.of_nat (required_digits w) = (w + 63) / 64 /\ (1 <= required_digits w)%nat.
Proof.
  intros Hw. unfold required_digits. replace (w + 63) with (w - 1 + 1 * 64) by lia. rewrite Z.div_add by lia.
  assert (0 <= (w - 1) / 64) by (apply Z.div_pos; lia). lia.
Qed.

Lemma random_fact : forall (S : Type) (next : S -> Z * S) w s, (forall s, digit_ok (fst (next s))) -> 0 < w ->
  let n := Z.to_nat ((w + 63) / 64) in
  exists c, random_with_width_using next w s = Val (c, state_after next n s) /\
    is_apint c w (words_value next n s mod 2 ^ w).
Proof.
  intros S next w s Hn Hw n. destruct (required_pos w Hw) as (Hr & H1).
  assert (En : required_digits w = n) by (unfold n; lia). unfold random_with_width_using. rewrite En in *.
  destruct (Nat.leb_spec 1 n); [|lia]. destruct (draw_spec next n Hn s) as (ds & -> & Hl & Hd & Hu).
  assert (Hne : ds <> []) by (intros ->; cbn in Hl; lia).
  destruct (from_iter_is ds Hne Hd) as (a & Ea & Wa & La & Ua).
  destruct (from_iter ds) as [r| |]; [|discriminate Ea|discriminate Ea]. cbn [bind] in Ea |- *. rewrite Ea. cbn [bind].
  destruct (truncate_fact a w) as (c & _ & Ec & Hc); [assumption| |].
  { rewrite La, Hl, Hr. pose proof (Z.div_mod (w + 63) 64 ltac:(lia)).
    pose proof (Z.mod_pos_bound (w + 63) 64 ltac:(lia)). lia. }
  rewrite Ec. cbn [bind unwrap]. exists c. split; [reflexivity|]. now rewrite <- Hu, <- Ua.
Qed.

Lemma randomize_fact : forall (S : Type) (next : S -> Z * S) a s, (forall s, digit_ok (fst (next s))) -> wf a ->
  let n := Z.to_nat ((len a + 63) / 64) in
  exists c, randomize_using next a s = Val (c, state_after next n s) /\
    random_with_width_using next (len a) s = Val (c, state_after next n s) /\
    is_apint c (len a) (words_value next n s mod 2 ^ len a).
Proof.
  intros S next a s Hn H n. pose proof H as (Hp & Hl & _).
  destruct (random_fact _ next (len a) s Hn Hp) as (c & Ec & Hc). exists c.
  unfold randomize_using, as_digit_slice. rewrite overwrite_draw.
  assert (En : length (digits a) = n) by (unfold n; lia). rewrite En.
  destruct (draw_spec next n Hn s) as (ds & -> & Hlds & Hd & Hu).
  destruct (clear_unused_bits_spec (mk_apint (len a) ds)) as (c' & Ec' & Hc').
  { apply shape_mk; auto. rewrite Hlds. rewrite <- En. apply (wf_sh a H). }
  cbn [len digits] in Hc'. rewrite Hu in Hc'. rewrite Ec'. cbn [bind].
  assert (c' = c) by (apply (is_apint_unique _ _ _ _ Hc' Hc)). subst c'. split; [reflexivity|]. split; assumption.
Qed.

(** A generator that plays back a list. *)
Definition play (l : list Z) : Z * list Z :=
  match l with [] => (0, []) | d :: r => (d mod 2 ^ 64, r) end.
Lemma play_ok : forall s, digit_ok (fst (play s)).
Proof.
  intros [|d r]; cbn [play fst]; unfold digit_ok; [lia|]. apply Z.mod_pos_bound. lia.
Qed.
Lemma play_value ds : digs ds -> words_value play (length ds) ds = uval ds.
Proof.
  intros H. induction H as [|d t Hd Ht IH]; [rewrite uval_nil; reflexivity|].
  cbn [length words_value play fst snd uval]. unfold dok in Hd. rewrite B_pow in Hd. rewrite IH, Z.mod_small by lia. reflexivity.
Qed.

Lemma random_onto c : wf c -> exists (S : Type) (next : S -> Z * S) (s s' : S),
  (forall s, digit_ok (fst (next s))) /\ random_with_width_using next (len c) s = Val (c, s').
Proof.
  intros H. pose proof H as (Hp & Hl & _). pose proof (wf_sh c H) as (_ & _ & Hd).
  exists (list Z), play, (digits c), (state_after play (Z.to_nat ((len c + 63) / 64)) (digits c)).
  split; [apply play_ok|].
  destruct (random_fact _ play (len c) (digits c) play_ok Hp) as (d & -> & Hc). f_equal. f_equal.
  replace (Z.to_nat ((len c + 63) / 64)) with (length (digits c)) in Hc by lia.
  rewrite play_value in Hc by assumption. change (uval (digits c)) with (unsigned c) in Hc.
  rewrite Z.mod_small in Hc by (now apply unsigned_bound).
  apply (is_apint_unique _ _ _ _ Hc). unfold is_apint. auto.
Qed.
