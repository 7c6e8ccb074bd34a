(** The machine over the code simulates the abstract machine: queries, steps and whole programs. *)
From Verif Require Export LMach2.

Lemma digits_of_spec r n : 2 <= r -> forall u, 0 <= u -> u < r ^ Z.of_nat n -> n <> O ->
  below r (digits_of n r u) /\ radix_value r (digits_of n r u) = u /\
  ((digits_of n r u = [0] /\ u = 0) \/ exists d t, digits_of n r u = d :: t /\ 0 < d).
Proof.
  intros Hr. induction n as [|n IH]; intros u Hu Hb Hn; [congruence|]. cbn [digits_of].
  destruct (Z.ltb_spec u r) as [L|L].
  - split; [repeat constructor; lia|]. split; [unfold radix_value; cbn [fold_left]; lia|].
    destruct (Z.eq_dec u 0) as [->|N]; [auto|]. right. exists u, []. split; [reflexivity|lia].
  - pose proof (Z.div_mod u r ltac:(lia)) as DM. pose proof (Z.mod_pos_bound u r ltac:(lia)) as MB.
    assert (Hq : 0 < u / r) by (apply Z.div_str_pos; lia).
    destruct n as [|n']; [cbn in Hb; lia|]. set (n := S n') in *.
    assert (Hb' : u / r < r ^ Z.of_nat n).
    { apply Z.div_lt_upper_bound; [lia|]. rewrite Nat2Z.inj_succ, Z.pow_succ_r in Hb by lia. lia. }
    destruct (IH (u / r) ltac:(lia) Hb' ltac:(discriminate)) as (I1 & I2 & I3).
    split; [apply Forall_app; split; [exact I1|repeat constructor; lia]|].
    split; [rewrite radix_value_snoc, I2; lia|].
    right. destruct I3 as [[_ E]|(d & t & E & Hd)]; [lia|]. rewrite E. exists d, (t ++ [u mod r]). auto.
Qed.

Lemma numeral_of_spec r alpha u : alpha = 97 \/ alpha = 65 -> 2 <= r <= 36 -> 0 <= u ->
  canonical_numeral r alpha (numeral_of r alpha u) /\ string_value r (numeral_of r alpha u) = u.
Proof.
  intros Ha Hr Hu. unfold numeral_of. set (n := S (Z.to_nat (Z.log2 u))).
  assert (Hb : u < r ^ Z.of_nat n).
  { unfold n. rewrite Nat2Z.inj_succ, Z2Nat.id by apply Z.log2_nonneg.
    apply Z.lt_le_trans with (2 ^ Z.succ (Z.log2 u)).
    - destruct (Z.eq_dec u 0) as [->|N]; [reflexivity|]. apply Z.log2_spec. lia.
    - apply Z.pow_le_mono_l. lia. }
  destruct (digits_of_spec r n ltac:(lia) u Hu Hb ltac:(discriminate)) as (B1 & B2 & B3).
  assert (M : map (digit_byte alpha) (digits_of n r u) = map (digit_char alpha) (digits_of n r u)).
  { apply map_ext. intros d. unfold digit_byte, digit_char. destruct (d <? 10); lia. }
  rewrite M. change (good_alpha alpha) in Ha. split.
  - split; [|split].
    + destruct B3 as [[-> _]|(d & t & -> & _)]; discriminate.
    + destruct B3 as [[-> _]|(d & t & E & Hd)]; [reflexivity|]. rewrite E in *. cbn [map hd]. intros K.
      apply Forall_inv in B1. apply (digit_char_spec r alpha d Ha B1 ltac:(lia)) in K. lia.
    + apply Forall_map. eapply Forall_impl; [|exact B1]. intros d Hd.
      exact (proj1 (proj2 (digit_char_spec r alpha d Ha Hd ltac:(lia)))).
  - unfold string_value. rewrite (string_digits_map r) by (auto; lia). exact B2.
Qed.

Lemma leading_sim a : wf a -> leading_zeros a = Val (leading (len a) (unsigned a)).
Proof.
  intros Ha. destruct (leading_zeros_spec a Ha) as (k & -> & Hk & H1 & H2). f_equal. unfold leading.
  pose proof (unsigned_bound a Ha). destruct (Z.eqb_spec (unsigned a) 0) as [E|E].
  - destruct (Z.eq_dec k (len a)); [auto|]. specialize (H2 ltac:(lia)).
    pose proof (Z.pow_pos_nonneg 2 (len a - k - 1) ltac:(lia) ltac:(lia)). lia.
  - destruct (Z.eq_dec k (len a)) as [->|N].
    + rewrite Z.sub_diag in H1. cbn in H1. lia.
    + specialize (H2 ltac:(lia)). assert (Z.log2 (unsigned a) = len a - k - 1); [|lia].
      apply Z.log2_unique; [lia|]. split; [exact H2|]. replace (Z.succ (len a - k - 1)) with (len a - k) by lia. exact H1.
Qed.

Lemma lowest_bit u k : 0 <= k -> Z.testbit u k = true -> (forall i, 0 <= i < k -> Z.testbit u i = false) ->
  Z.land u (- u) = 2 ^ k.
Proof.
  intros Hk Hb Hz. pose proof (Z.pow_pos_nonneg 2 k ltac:(lia) Hk) as Pk.
  assert (E : u = 2 ^ k * (2 * (u / 2 ^ (k + 1)) + 1)).
  { assert (D : u mod 2 ^ k = 0).
    { apply Z.bits_inj'. intros i Hi. rewrite Z.bits_0. destruct (Z.ltb_spec i k).
      - rewrite Z.mod_pow2_bits_low by lia. apply Hz. lia.
      - apply Z.mod_pow2_bits_high. lia. }
    assert (O : Z.odd (u / 2 ^ k) = true).
    { rewrite <- Z.bit0_odd, <- Z.shiftr_div_pow2, Z.shiftr_spec by lia. exact Hb. }
    pose proof (Z.div_mod u (2 ^ k) ltac:(lia)). pose proof (Z.div_mod (u / 2 ^ k) 2 ltac:(lia)) as DM.
    rewrite Zmod_odd, O in DM. rewrite Z.div_div in DM by lia.
    rewrite Z.pow_add_r, Z.pow_1_r by lia. rewrite <- DM. lia. }
  set (q := u / 2 ^ (k + 1)) in *. clearbody q.
  apply Z.bits_inj'. intros i Hi. rewrite Z.land_spec, Z.pow2_bits_eqb by lia.
  assert (N : - u = Z.lnot (u - 1)) by (unfold Z.lnot; lia). rewrite N, Z.lnot_spec by lia.
  assert (U1 : u - 1 = 2 ^ (k + 1) * q + (2 ^ k - 1)) by (rewrite E, Z.pow_add_r, Z.pow_1_r by lia; ring).
  destruct (Z.eqb_spec k i) as [->|Hik].
  - rewrite Hb. assert (Z.testbit (u - 1) i = false); [|now rewrite H].
    rewrite U1, Z.add_comm, Z.mul_comm. rewrite Z.testbit_eqb by lia.
    rewrite Z.pow_add_r, Z.pow_1_r by lia.
    replace (2 ^ i - 1 + q * (2 ^ i * 2)) with (2 ^ i - 1 + (q * 2) * 2 ^ i) by ring.
    rewrite Z.div_add by lia. rewrite (Z.div_small (2 ^ i - 1)) by lia. rewrite Z.add_0_l, Z.mod_mul by lia. reflexivity.
  - destruct (Z.ltb_spec i k) as [L|L]; [rewrite Hz by lia; reflexivity|].
    assert (Z.testbit (u - 1) i = Z.testbit u i); [|rewrite H; destruct (Z.testbit u i); reflexivity].
    replace i with ((i - (k + 1)) + (k + 1)) by lia.
    rewrite <- !(Z.shiftr_spec _ (k + 1)) by lia. rewrite !Z.shiftr_div_pow2 by lia. f_equal.
    pose proof (Z.pow_pos_nonneg 2 (k + 1) ltac:(lia) ltac:(lia)) as Pk1.
    assert (P2 : 2 ^ (k + 1) = 2 * 2 ^ k) by (rewrite Z.pow_add_r, Z.pow_1_r by lia; ring).
    transitivity q.
    + rewrite U1, Z.add_comm, Z.mul_comm, Z.div_add by lia. rewrite Z.div_small by lia. lia.
    + symmetry. rewrite E, Z.mul_add_distr_l, Z.mul_assoc, (Z.mul_comm (2 ^ k) 2), <- P2, Z.mul_1_r.
      rewrite Z.add_comm, Z.mul_comm, Z.div_add by lia. rewrite Z.div_small by lia. lia.
Qed.

Lemma trailing_sim a : wf a -> trailing_zeros a = Val (trailing (len a) (unsigned a)).
Proof.
  intros Ha. destruct (trailing_zeros_spec a Ha) as (k & -> & H1 & H2). f_equal. unfold trailing.
  destruct (Z.eqb_spec (unsigned a) 0) as [E|E]; [auto|].
  destruct (H2 E) as (Hk & Hb & Hz). rewrite (lowest_bit (unsigned a) k) by (auto; lia). now rewrite Z.log2_pow2 by lia.
Qed.

Lemma ask_sim q a x : match q with QBit p => 0 <= p | _ => True end -> rel a x -> cask q a = Val (ask q x).
Proof.
  intros Hq Hx. destruct (rel_open a x Hx) as (Ha & L & U & S). pose proof (wf_len a Ha) as Hw.
  pose proof (unsigned_bound a Ha) as Hu.
  assert (V : x = (len a, unsigned a)) by (destruct x; cbn in *; congruence). subst x. clear L U Hx.
  change (asigned (len a, unsigned a) = signed a) in S.
  destruct (predicates_fact a Ha) as (P1 & P2 & P3 & P4 & P5 & P6 & P7).
  destruct (count_fact a Ha) as (o & z & C1 & C2 & C3 & C4).
  destruct (format_fact a Ha) as ((s1 & _ & F1 & G1 & V1 & _) & (s2 & _ & F2 & G2 & V2 & _) & (s3 & _ & F3 & G3 & V3 & _)).
  assert (NU : forall r alpha s, alpha = 97 \/ alpha = 65 -> 2 <= r <= 36 -> canonical_numeral r alpha s ->
    string_value r s = unsigned a -> s = numeral_of r alpha (unsigned a)).
  { intros r alpha s Hal Hr Hc Hv. destruct (numeral_of_spec r alpha (unsigned a) Hal Hr ltac:(lia)) as (N1 & N2).
    apply (canonical_unique r alpha); auto. congruence. }
  destruct q as [| | | | | | | | | | | | |p|ty|ty| | |]; unfold ask; cbn [cask];
    rewrite ?P2, ?P3, ?P4, ?P5, ?P6, ?P7, ?C1, ?C2, ?leading_sim, ?trailing_sim by auto; try reflexivity.
  - unfold obs_bool. rewrite is_one_char by auto. cbn [bind]. do 4 f_equal. f_equal. f_equal.
    destruct (bitwidth_fact (len a) ltac:(lia)) as (_ & _ & -> & _). reflexivity.
  - unfold obs_bool. rewrite is_all_set_char by auto. reflexivity.
  - unfold obs_bool. cbn [bind]. do 2 f_equal. unfold signed, to_signed.
    destruct (Z.leb_spec (2 ^ (len a - 1)) (unsigned a)) as [G|G].
    + destruct (Z.ltb_spec (unsigned a) (2 ^ (len a - 1))); [lia|]. apply Z.ltb_lt. lia.
    + destruct (Z.ltb_spec (unsigned a) (2 ^ (len a - 1))); [|lia]. apply Z.ltb_ge. lia.
  - unfold obs_int. cbn [bind]. do 2 f_equal. lia.
  - unfold obs_int. cbn [bind]. do 2 f_equal. lia.
  - unfold obs_rbool. destruct (Z.ltb_spec p (len a)).
    + rewrite get_bit_at_fact by (auto; lia). reflexivity.
    + destruct (bit_oob_fact a p ltac:(lia)) as (-> & _). reflexivity.
  - destruct (resize_prim_fact a Ha) as (R0 & R1 & R2 & R3 & R4 & R5 & R6 & R7 & R8 & R9 & R10).
    unfold cresize, resized. rewrite S. destruct ty; cbn [type_signed type_width show snd];
      unfold obs_bool, obs_int; rewrite ?R0, ?R1, ?R2, ?R3, ?R4, ?R5, ?R6, ?R7, ?R8, ?R9, ?R10; cbn [bind]; try reflexivity.
    do 2 f_equal. change (2 ^ 1) with 2. rewrite Zmod_odd. destruct (Z.odd (unsigned a)); reflexivity.
  - destruct (try_unsigned_fact a Ha) as (R0 & R1 & R2 & R3 & R4 & R5).
    destruct (try_signed_exact a Ha) as (R6 & R7 & R8 & R9 & R10).
    unfold ctry, tried. rewrite S. destruct ty; cbn [type_signed type_width show snd fst];
      unfold obs_rbool, obs_rint; rewrite ?R0, ?R1, ?R2, ?R3, ?R4, ?R5, ?R6, ?R7, ?R8, ?R9, ?R10; cbn [bind].
    1: { change (2 ^ 1) with 2. destruct (Z.eqb_spec (unsigned a) 0) as [->|N0]; [reflexivity|].
         destruct (Z.eqb_spec (unsigned a) 1) as [->|N1]; [reflexivity|].
         destruct (Z.ltb_spec (unsigned a) 2); [lia|reflexivity]. }
    all: repeat match goal with |- context [if ?c then _ else _] => destruct c end; reflexivity.
  - unfold obs_string. rewrite F1. cbn [bind]. do 2 f_equal. apply NU; auto; lia.
  - unfold obs_string. rewrite F2. cbn [bind]. do 2 f_equal. apply NU; auto; lia.
  - unfold obs_string. rewrite F3. cbn [bind]. do 2 f_equal. apply NU; auto; lia.
Qed.

(** * Stores *)
Lemma get_sim cs s x : Forall2 holds cs s ->
  match nth_error cs x, nth_error s x with
  | Some (Some a), Some (Some v) => rel a v
  | Some None, Some None => True
  | None, None => True
  | _, _ => False
  end.
Proof.
  intros H. revert x. induction H as [|a v cs s Hav H IH]; intros [|x]; cbn [nth_error]; auto; [|apply IH].
  destruct a as [a|], v as [[w u]|]; auto.
Qed.

Lemma holds_rel a v : rel a v -> holds (Some a) (Some v).
Proof. destruct v as [w u]. auto. Qed.

Lemma update_sim cs s x a v : Forall2 holds cs s -> holds a v -> Forall2 holds (update x a cs) (update x v s).
Proof.
  intros H Hav. revert x. induction H as [|a' v' cs s Hav' H IH]; intros [|x]; cbn [update]; constructor; auto.
Qed.

Lemma update_id {A} x (a : A) s : nth_error s x = Some a -> update x a s = s.
Proof.
  revert x. induction s as [|b s IH]; intros [|x] E; cbn in *; try congruence. now rewrite IH.
Qed.

Definition step_rel (m : outcome (vars * obs)) (r : option (store * obs)) : Prop :=
  match r with
  | None => m = Panic
  | Some (s, o) => exists cs, m = Val (cs, o) /\ Forall2 holds cs s
  end.

Lemma create_sim cs s m r : Forall2 holds cs s -> rel_res m r -> step_rel (ccreate cs m) (option_map (create s) r).
Proof.
  intros H Hr. unfold ccreate. destruct r as [[v|e]|]; cbn [option_map create step_rel].
  - destruct Hr as (a & -> & Hav). cbn [bind]. exists (cs ++ [Some a]). split; [reflexivity|]. apply Forall2_app; auto using holds_rel.
  - destruct Hr as (k & -> & <-). exists cs. auto.
  - cbn in Hr. rewrite Hr. reflexivity.
Qed.

Lemma change_sim cs s x a m r : Forall2 holds cs s -> nth_error cs x = Some (Some a) -> rel_mut a m r ->
  step_rel (cchange cs x m) (option_map (change s x) r).
Proof.
  intros H Hx Hr. unfold cchange. destruct r as [[v|e]|]; cbn [option_map change step_rel].
  - destruct Hr as (c & -> & Hcv). cbn [bind done]. exists (update x (Some c) cs). split; [reflexivity|]. auto using update_sim, holds_rel.
  - destruct Hr as (k & -> & <-). cbn [bind done]. exists (update x (Some a) cs). split; [reflexivity|]. now rewrite update_id.
  - cbn in Hr. rewrite Hr. reflexivity.
Qed.

Lemma get1_sim cs s x k k' : Forall2 holds cs s ->
  (forall a v, nth_error cs x = Some (Some a) -> rel a v -> step_rel (k a) (k' v)) -> step_rel (cget1 cs x k) (get1 s x k').
Proof.
  intros H Hk. pose proof (get_sim cs s x H) as G. unfold cget1, get1.
  destruct (nth_error cs x) as [[a|]|], (nth_error s x) as [[v|]|]; try easy.
  - apply Hk; auto.
  - exists cs. auto.
  - exists cs. auto.
Qed.

Lemma get2_sim cs s x y k k' : Forall2 holds cs s ->
  (forall a b v u, nth_error cs x = Some (Some a) -> nth_error cs y = Some (Some b) -> rel a v -> rel b u -> step_rel (k a b) (k' v u)) ->
  step_rel (cget2 cs x y k) (get2 s x y k').
Proof.
  intros H Hk. unfold cget2, get2. apply get1_sim; [exact H|]. intros a v Ea Hav.
  apply get1_sim; [exact H|]. intros b u Eb Hbu. auto.
Qed.

Lemma step_sim cs s c : cmd_ok c -> Forall2 holds cs s -> step_rel (cstep cs c) (astep s c).
Proof.
  intros Hc H. assert (RJ : step_rel (Val (cs, ORejected)) (Some (s, ORejected))) by (exists cs; auto).
  destruct c as [n|x|x|m x|m x|m x|o x y|o x y|o x y|x y|x y|o x y|x y|q x]; cbn [cstep astep cmd_ok] in *.
  - apply create_sim; [exact H|]. now apply new_sim.
  - apply get1_sim; [exact H|]. intros a v _ Hav. change (Some (create s (inl v))) with (option_map (create s) (Some (inl v))).
    apply create_sim; [exact H|]. destruct (rel_open a v Hav) as (Ha & _). destruct (assign_fact a a Ha Ha) as (-> & _).
    exists a. auto.
  - apply get1_sim; [exact H|]. intros a v _ _. exists (update x None cs). split; [reflexivity|]. apply update_sim; [exact H|exact I].
  - apply get1_sim; [exact H|]. intros a v Ea Hav. change (Some (change s x (amut m v))) with (option_map (change s x) (Some (amut m v))).
    apply (change_sim cs s x a); auto. now apply mut_sim.
  - apply get1_sim; [exact H|]. intros a v _ Hav.
    change (Some (create (update x None s) (amut m v))) with (option_map (create (update x None s)) (Some (amut m v))).
    apply create_sim; [apply update_sim; [exact H|exact I]|]. now apply mut_sim.
  - apply get1_sim; [exact H|]. intros a v Ea Hav. change (Some (change s x (aput m v))) with (option_map (change s x) (Some (aput m v))).
    apply (change_sim cs s x a); auto. now apply put_sim.
  - destruct (Nat.eqb x y); [exact RJ|]. apply get2_sim; [exact H|]. intros a b v u Ea Eb Hav Hbu.
    apply (change_sim cs s x a); auto. now apply bin_sim.
  - destruct (Nat.eqb x y); [exact RJ|]. apply get2_sim; [exact H|]. intros a b v u Ea Eb Hav Hbu.
    apply create_sim; [apply update_sim; [exact H|exact I]|]. now apply bin_sim.
  - destruct (Nat.eqb_spec x y) as [|N]; [exact RJ|]. apply get2_sim; [exact H|]. intros a b v u Ea Eb Hav Hbu.
    pose proof (pair_sim o a b v u Hav Hbu) as P. destruct (apair o v u) as [[[v' u']|e]|]; cbn [option_map step_rel].
    + destruct P as (a' & b' & -> & R1 & R2). cbn [bind done]. exists (update y (Some b') (update x (Some a') cs)).
      split; [reflexivity|]. auto using update_sim, holds_rel.
    + destruct P as (k & -> & <-). cbn [bind done]. exists (update y (Some b) (update x (Some a) cs)). split; [reflexivity|].
      rewrite (update_id x) by auto. now rewrite update_id.
    + rewrite P. reflexivity.
  - destruct (Nat.eqb x y); [exact RJ|]. apply get2_sim; [exact H|]. intros a b v u Ea Eb Hav Hbu.
    destruct (rel_open a v Hav) as (Ha & _). destruct (rel_open b u Hbu) as (Hb & _).
    destruct (assign_fact a b Ha Hb) as (_ & -> & _). cbn [bind]. exists (update x (Some b) cs). split; [reflexivity|].
    auto using update_sim, holds_rel.
  - destruct (Nat.eqb x y); [exact RJ|]. apply get2_sim; [exact H|]. intros a b v u Ea Eb Hav Hbu.
    match goal with |- step_rel _ (Some (change s x ?r)) => change (Some (change s x r)) with (option_map (change s x) (Some r)) end.
    apply (change_sim cs s x a); auto.
    destruct (rel_open a v Hav) as (Ha & Lv & _). destruct (rel_open b u Hbu) as (Hb & Lu & _).
    destruct (assign_fact a b Ha Hb) as (_ & _ & A1 & A2). rewrite Lv, Lu. destruct (Z.eqb_spec (len a) (len b)) as [E|E].
    + exists b. rewrite A1 by auto. auto.
    + exists (UnmatchingBitwidth (len a) (len b)). rewrite A2 by auto. auto.
  - apply get2_sim; [exact H|]. intros a b v u Ea Eb Hav Hbu. rewrite (cmp_sim o a b v u Hav Hbu). cbn [bind].
    exists cs. auto.
  - apply get2_sim; [exact H|]. intros a b v u Ea Eb Hav Hbu. exists cs. split; [|exact H]. do 3 f_equal.
    destruct (rel_open a v Hav) as (Ha & -> & -> & _). destruct (rel_open b u Hbu) as (Hb & -> & -> & _).
    destruct (eq_hash_fact a b Ha Hb) as (E & _). apply eq_true_iff_eq. rewrite E, andb_true_iff, !Z.eqb_eq. reflexivity.
  - apply get1_sim; [exact H|]. intros a v _ Hav. rewrite (ask_sim q a v); [|destruct q; auto|exact Hav].
    cbn [bind]. exists cs. auto.
Qed.

Lemma run_sim p : Forall cmd_ok p -> forall cs s, Forall2 holds cs s ->
  match arun s p with
  | None => crun cs p = Panic
  | Some (s', os) => exists cs', crun cs p = Val (cs', os) /\ Forall2 holds cs' s'
  end.
Proof.
  induction 1 as [|c p Hc Hp IH]; intros cs s H; cbn [arun crun].
  - exists cs. auto.
  - pose proof (step_sim cs s c Hc H) as St. destruct (astep s c) as [[s1 o]|]; cbn [step_rel] in St.
    + destruct St as (cs1 & -> & H1). cbn [bind]. specialize (IH cs1 s1 H1). destruct (arun s1 p) as [[s2 os]|].
      * destruct IH as (cs2 & -> & H2). cbn [bind]. exists cs2. auto.
      * rewrite IH. reflexivity.
    + rewrite St. reflexivity.
Qed.
