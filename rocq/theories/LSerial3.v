(** Formatting, and parsing what was formatted. *)
From Verif Require Export LSerial2.

(** * Digits of one word *)
Lemma u64_digits_spec base m : 2 <= base -> forall fuel x acc, (1 <= m <= fuel)%nat -> 0 <= x < base ^ Z.of_nat m ->
  exists ds, u64_digits fuel base x acc = ds ++ acc /\ below base ds /\ radix_value base ds = x /\
    ds <> [] /\ (length ds <= m)%nat /\ (hd 0 ds = 0 -> ds = [0]).
Proof.
  intros Hb. induction m as [|m IH]; intros fuel x acc Hf Hx; [lia|].
  destruct fuel as [|fuel]; [lia|]. cbn [u64_digits]. destruct (Z.ltb_spec x base) as [L|L].
  - exists [x]. rewrite Z.mod_small by lia. split; [reflexivity|]. split; [constructor; [lia|constructor]|].
    split; [unfold radix_value; cbn [fold_left]; lia|]. split; [discriminate|]. split; [cbn; lia|]. cbn [hd]. intros ->. reflexivity.
  - rewrite Nat2Z.inj_succ, Z.pow_succ_r in Hx by lia.
    assert (Hq : 1 <= x / base).
    { apply Z.div_le_lower_bound; lia. }
    assert (Hqm : x / base < base ^ Z.of_nat m) by (apply Z.div_lt_upper_bound; lia).
    assert (1 <= m)%nat. { destruct m; [|lia]. cbn in Hqm. lia. }
    pose proof (Z.mod_pos_bound x base ltac:(lia)) as Hr.
    destruct (IH fuel (x / base) ((x mod base) :: acc)) as (ds & E & Hd & Hv & Hne & Hl & Hh); [lia|lia|].
    exists (ds ++ [x mod base]). rewrite E, <- app_assoc. split; [reflexivity|].
    split; [apply below_app; split; [assumption|constructor; [lia|constructor]]|].
    split; [rewrite radix_value_snoc, Hv; pose proof (Z.div_mod x base ltac:(lia)); lia|].
    split; [destruct ds; discriminate|]. split; [rewrite app_length; cbn; lia|].
    destruct ds as [|d t]; [congruence|]. cbn [app hd] in *. intros H0. specialize (Hh H0). rewrite Hh in Hv.
    unfold radix_value in Hv. cbn [fold_left] in Hv. lia.
Qed.

Definition good_alpha (alpha : Z) : Prop := alpha = 97 \/ alpha = 65.
Definition good_char (r alpha b : Z) : Prop :=
  (48 <= b <= 57 /\ b - 48 < r) \/ (alpha <= b < alpha + 26 /\ b - alpha + 10 < r).

Lemma digit_char_spec r alpha d : good_alpha alpha -> 0 <= d < r -> r <= 36 ->
  char_value (digit_char alpha d) = Some d /\ good_char r alpha (digit_char alpha d) /\
  (digit_char alpha d = 48 <-> d = 0).
Proof.
  intros Ha Hd Hr. unfold digit_char. destruct (Z.ltb_spec d 10).
  - split; [|split; [left; lia|lia]]. unfold char_value.
    destruct (Z.leb_spec 48 (48 + d)); [|lia]. destruct (Z.leb_spec (48 + d) 57); [|lia]. cbn [andb]. f_equal. lia.
  - split; [|split; [right; destruct Ha; lia|destruct Ha; lia]]. unfold char_value. destruct Ha as [->| ->].
    + destruct (Z.leb_spec (97 + d - 10) 57); [lia|]. rewrite andb_false_r.
      destruct (Z.leb_spec 97 (97 + d - 10)); [|lia]. destruct (Z.leb_spec (97 + d - 10) 122); [|lia]. cbn [andb]. f_equal. lia.
    + destruct (Z.leb_spec (65 + d - 10) 57); [lia|]. rewrite andb_false_r.
      destruct (Z.leb_spec 97 (65 + d - 10)); [lia|]. cbn [andb].
      destruct (Z.leb_spec 65 (65 + d - 10)); [|lia]. destruct (Z.leb_spec (65 + d - 10) 90); [|lia]. cbn [andb]. f_equal. lia.
Qed.

Lemma string_digits_app s t : string_digits (s ++ t) = string_digits s ++ string_digits t.
Proof.
  induction s as [|b s IH]; [reflexivity|]. cbn [app string_digits]. rewrite IH. destruct (char_value b); reflexivity.
Qed.
Lemma string_digits_map r alpha ds : good_alpha alpha -> r <= 36 -> below r ds ->
  string_digits (map (digit_char alpha) ds) = ds.
Proof.
  intros Ha Hr H. induction H as [|d t Hd Ht IH]; [reflexivity|]. cbn [map string_digits].
  destruct (digit_char_spec r alpha d Ha Hd Hr) as (-> & _). now rewrite IH.
Qed.
Lemma good_map r alpha ds : good_alpha alpha -> r <= 36 -> below r ds ->
  Forall (good_char r alpha) (map (digit_char alpha) ds).
Proof.
  intros Ha Hr H. apply Forall_forall. intros b Hb. apply in_map_iff in Hb as (d & <- & Hin).
  unfold below in H. rewrite Forall_forall in H. apply (digit_char_spec r alpha d Ha (H d Hin) Hr).
Qed.

(** One word in base [base] with [base ^ width = 2^64]. *)
Lemma fmt_word width base alpha x : good_alpha alpha -> 2 <= base <= 36 -> (1 <= width <= 64)%nat ->
  base ^ Z.of_nat width = 2 ^ 64 -> dok x ->
  Forall (good_char base alpha) (u64_fmt base alpha x) /\
  radix_value base (string_digits (u64_fmt base alpha x)) = x /\
  (length (u64_fmt base alpha x) <= width)%nat /\ u64_fmt base alpha x <> [] /\
  length (string_digits (u64_fmt base alpha x)) = length (u64_fmt base alpha x) /\
  (x <> 0 -> hd 0 (u64_fmt base alpha x) <> 48).
Proof.
  intros Ha Hb Hw Hp Hx. unfold dok in Hx. rewrite B_pow in Hx.
  destruct (u64_digits_spec base width ltac:(lia) 64 x []) as (ds & E & Hd & Hv & Hne & Hl & Hh); [lia|lia|].
  rewrite app_nil_r in E. unfold u64_fmt. rewrite E. rewrite (string_digits_map base) by (auto; lia).
  split; [apply good_map; auto; lia|]. split; [assumption|]. rewrite map_length. split; [assumption|].
  split; [destruct ds; [congruence|discriminate]|]. split; [reflexivity|].
  intros Hx0 H48. destruct ds as [|d t]; [congruence|]. cbn [map hd] in *.
  apply Forall_cons_iff in Hd as [Hd0 _].
  apply (digit_char_spec base alpha d Ha Hd0 ltac:(lia)) in H48. apply Hh in H48. rewrite H48 in Hv. cbn in Hv. lia.
Qed.

Lemma string_digits_zeros n : string_digits (repeat 48 n) = repeat 0 n.
Proof. induction n as [|n IH]; [reflexivity|]. cbn [repeat string_digits]. now rewrite IH. Qed.
Lemma radix_value_zeros r n ds : radix_value r (repeat 0 n ++ ds) = radix_value r ds.
Proof.
  induction n as [|n IH]; [reflexivity|]. cbn [repeat app]. rewrite radix_value_cons, IH. lia.
Qed.

Lemma fmt_padded_word width base alpha x : good_alpha alpha -> 2 <= base <= 36 -> (1 <= width <= 64)%nat ->
  base ^ Z.of_nat width = 2 ^ 64 -> dok x ->
  Forall (good_char base alpha) (u64_fmt_padded width base alpha x) /\
  radix_value base (string_digits (u64_fmt_padded width base alpha x)) = x /\
  length (string_digits (u64_fmt_padded width base alpha x)) = width.
Proof.
  intros Ha Hb Hw Hp Hx. destruct (fmt_word width base alpha x Ha Hb Hw Hp Hx) as (H1 & H2 & H3 & H4 & H5 & _).
  unfold u64_fmt_padded. cbv zeta. split; [|split].
  - apply Forall_app. split; [|assumption]. apply Forall_forall. intros b Hin. apply repeat_spec in Hin. subst b. left. lia.
  - rewrite string_digits_app, string_digits_zeros, radix_value_zeros. assumption.
  - rewrite string_digits_app, string_digits_zeros, app_length, repeat_length, H5. lia.
Qed.

(** * Sequences of words, most significant one first *)
Lemma fmt_tail width base alpha ds : good_alpha alpha -> 2 <= base <= 36 -> (1 <= width <= 64)%nat ->
  base ^ Z.of_nat width = 2 ^ 64 -> digs ds ->
  Forall (good_char base alpha) (concat (map (u64_fmt_padded width base alpha) ds)) /\
  radix_value base (string_digits (concat (map (u64_fmt_padded width base alpha) ds))) = uval (rev ds) /\
  length (string_digits (concat (map (u64_fmt_padded width base alpha) ds))) = (width * length ds)%nat.
Proof.
  intros Ha Hb Hw Hp H. induction H as [|d t Hd Ht IH].
  - cbn [map concat string_digits rev length]. rewrite uval_nil. split; [constructor|split; [reflexivity|lia]].
  - destruct IH as (I1 & I2 & I3). destruct (fmt_padded_word width base alpha d Ha Hb Hw Hp Hd) as (W1 & W2 & W3).
    cbn [map concat rev]. rewrite string_digits_app. split; [apply Forall_app; auto|]. split.
    + rewrite radix_value_app, W2, I2, I3. rewrite snoc_value, rev_length.
      rewrite Nat2Z.inj_mul, Z.pow_mul_r, Hp by lia. rewrite <- Z.pow_mul_r by lia. rewrite P_pow. lia.
    + rewrite app_length, W3, I3. cbn [length]. lia.
Qed.

Lemma fmt_digits_spec width base alpha ds : good_alpha alpha -> 2 <= base <= 36 -> (1 <= width <= 64)%nat ->
  base ^ Z.of_nat width = 2 ^ 64 -> digs ds -> uval (rev ds) <> 0 ->
  let s := fmt_digits width base alpha ds in
  Forall (good_char base alpha) s /\ s <> [] /\ hd 0 s <> 48 /\ radix_value base (string_digits s) = uval (rev ds).
Proof.
  intros Ha Hb Hw Hp H. cbv zeta. induction H as [|d t Hd Ht IH]; intros Hnz.
  - cbn [rev] in Hnz. rewrite uval_nil in Hnz. congruence.
  - cbn [fmt_digits rev] in *. rewrite snoc_value, rev_length in *. unfold d_is_zero, ZERO.
    destruct (Z.eqb_spec d 0) as [->|Hd0].
    + destruct IH as (I1 & I2 & I3 & I4); [lia|]. split; [assumption|]. split; [assumption|]. split; [assumption|]. rewrite I4. lia.
    + destruct (fmt_tail width base alpha t Ha Hb Hw Hp Ht) as (T1 & T2 & T3).
      destruct (fmt_word width base alpha d Ha Hb Hw Hp Hd) as (W1 & W2 & W3 & W4 & W5 & W6).
      split; [apply Forall_app; auto|]. destruct (u64_fmt base alpha d) as [|b u] eqn:Eu; [congruence|].
      split; [discriminate|]. split; [cbn [app hd]; apply W6, Hd0|].
      rewrite string_digits_app, radix_value_app, W2, T2, T3.
      rewrite Nat2Z.inj_mul, Z.pow_mul_r, Hp by lia. rewrite <- Z.pow_mul_r by lia. rewrite P_pow. lia.
Qed.

Lemma fmt_radix_spec width base alpha a : good_alpha alpha -> 2 <= base <= 36 -> (1 <= width <= 64)%nat ->
  base ^ Z.of_nat width = 2 ^ 64 -> wf a ->
  exists s, fmt_radix width base alpha a = Val s /\ canonical_numeral base alpha s /\ string_value base s = unsigned a.
Proof.
  intros Ha Hb Hw Hp H. pose proof (wf_sh a H) as Sh. pose proof Sh as (_ & _ & Hd).
  unfold fmt_radix. rewrite is_zero_spec by auto. cbn [bind]. destruct (Z.eqb_spec (unsigned a) 0) as [E|E].
  - exists [48]. split; [reflexivity|]. split; [|rewrite E; reflexivity].
    split; [discriminate|]. split; [reflexivity|]. constructor; [left; lia|constructor].
  - eexists. split; [reflexivity|]. unfold as_digit_slice.
    destruct (fmt_digits_spec width base alpha (rev (digits a))) as (F1 & F2 & F3 & F4); auto.
    { now apply Forall_rev. } { rewrite rev_involutive. exact E. }
    rewrite rev_involutive in F4. split; [|exact F4].
    split; [exact F2|]. split; [intros H48; contradiction|]. exact F1.
Qed.

(** * Round trip *)
Lemma last_in {A} (l : list A) x : l <> [] -> In (last l x) l.
Proof.
  induction l as [|b t IH]; [congruence|]. intros _. destruct t as [|c u]; [left; reflexivity|].
  right. apply IH. discriminate.
Qed.
Lemma good_char_value r alpha b : good_alpha alpha -> 2 <= r <= 36 -> good_char r alpha b ->
  b <> 95 /\ exists d, char_value b = Some d /\ d < r.
Proof.
  intros Ha Hr [[H1 H2]|[H1 H2]].
  - split; [lia|]. exists (b - 48). split; [|lia]. unfold char_value.
    destruct (Z.leb_spec 48 b); [|lia]. destruct (Z.leb_spec b 57); [|lia]. reflexivity.
  - split; [destruct Ha; lia|]. exists (b - alpha + 10). split; [|lia]. unfold char_value.
    destruct (Z.leb_spec b 57); [destruct Ha; lia|]. rewrite andb_false_r. destruct Ha as [->| ->].
    + destruct (Z.leb_spec 97 b); [|lia]. destruct (Z.leb_spec b 122); [|lia]. cbn [andb]. f_equal. lia.
    + destruct (Z.leb_spec 97 b); [lia|]. cbn [andb]. destruct (Z.leb_spec 65 b); [|lia].
      destruct (Z.leb_spec b 90); [|lia]. cbn [andb]. f_equal. lia.
Qed.
Lemma canonical_is_numeral r alpha s : good_alpha alpha -> 2 <= r <= 36 -> canonical_numeral r alpha s -> numeral r s.
Proof.
  intros Ha Hr (Hne & _ & Hf). unfold numeral. change (Forall (good_char r alpha) s) in Hf. rewrite Forall_forall in Hf.
  split; [assumption|]. split.
  { destruct s as [|b t]; [congruence|]. cbn [hd]. apply (good_char_value r alpha b Ha Hr). apply Hf. left. reflexivity. }
  split. { apply (good_char_value r alpha _ Ha Hr). apply Hf. now apply last_in. }
  apply Forall_forall. intros b Hb. right. apply (good_char_value r alpha b Ha Hr). auto.
Qed.

Lemma string_digits_len s : (length (string_digits s) <= length s)%nat.
Proof. induction s as [|b t IH]; [cbn; lia|]. cbn [string_digits]. destruct (char_value b); cbn [length]; lia. Qed.

Lemma round_trip width k alpha a : good_alpha alpha -> 1 <= k <= 5 -> (1 <= width <= 64)%nat ->
  (2 ^ k) ^ Z.of_nat width = 2 ^ 64 -> wf a ->
  exists s c, fmt_radix width (2 ^ k) alpha a = Val s /\ canonical_numeral (2 ^ k) alpha s /\
    string_value (2 ^ k) s = unsigned a /\
    from_str_radix (2 ^ k) s = Val (Ok c) /\ unsigned c = unsigned a /\ zero_resize c (len a) = Val a.
Proof.
  intros Ha Hk Hw Hp H. assert (Hr : 2 <= 2 ^ k <= 36).
  { assert (k = 1 \/ k = 2 \/ k = 3 \/ k = 4 \/ k = 5) as [->|[->|[->|[->| ->]]]] by lia; cbn; lia. }
  destruct (fmt_radix_spec width (2 ^ k) alpha a Ha Hr Hw Hp H) as (s & E & Hc & Hv).
  destruct (parse_pow2 k s Hk) as (c & Ec & Wc & _ & Uc); [now apply (canonical_is_numeral _ alpha)|].
  exists s, c. rewrite Hv in Uc. do 5 (split; [assumption|]).
  destruct (resize_fact c (len a) Wc (wf_len a H)) as (d & _ & Ed & _ & Hd & _). rewrite Ed. f_equal.
  rewrite Uc, Z.mod_small in Hd by (now apply unsigned_bound).
  apply (is_apint_unique _ _ _ _ Hd). unfold is_apint. auto.
Qed.

Lemma format_fact a : wf a ->
  (exists s c, fmt_binary a = Val s /\ canonical_numeral 2 97 s /\ string_value 2 s = unsigned a /\
    from_str_radix 2 s = Val (Ok c) /\ unsigned c = unsigned a /\ zero_resize c (len a) = Val a) /\
  (exists s c, fmt_lower_hex a = Val s /\ canonical_numeral 16 97 s /\ string_value 16 s = unsigned a /\
    from_str_radix 16 s = Val (Ok c) /\ unsigned c = unsigned a /\ zero_resize c (len a) = Val a) /\
  (exists s c, fmt_upper_hex a = Val s /\ canonical_numeral 16 65 s /\ string_value 16 s = unsigned a /\
    from_str_radix 16 s = Val (Ok c) /\ unsigned c = unsigned a /\ zero_resize c (len a) = Val a).
Proof.
  intros H. split; [|split].
  - apply (round_trip 64 1 97 a); auto; [left; reflexivity|lia|lia].
  - apply (round_trip 16 4 97 a); auto; [left; reflexivity|lia|lia].
  - apply (round_trip 16 4 65 a); auto; [right; reflexivity|lia|lia].
Qed.

(** The canonical numeral of a value is unique, so the formatted strings are
    determined by the theorem above. *)
Lemma digits_unique r : 2 <= r -> forall n xs ys, length xs = n -> length ys = n -> below r xs -> below r ys ->
  radix_value r xs = radix_value r ys -> xs = ys.
Proof.
  intros Hr. induction n as [|n IH]; intros xs ys Lx Ly Bx By E.
  - destruct xs, ys; try discriminate. reflexivity.
  - destruct xs as [|x xs], ys as [|y ys]; try discriminate. rewrite !radix_value_cons in E.
    apply Forall_cons_iff in Bx as [Bx Bxs]. apply Forall_cons_iff in By as [By Bys]. cbn [length] in *.
    pose proof (radix_value_bound r xs ltac:(lia) Bxs) as Vx. pose proof (radix_value_bound r ys ltac:(lia) Bys) as Vy.
    assert (El : length ys = length xs) by lia. rewrite El in Vy, E.
    assert (Q : 0 < r ^ Z.of_nat (length xs)) by (apply Z.pow_pos_nonneg; lia).
    assert (Hxy : x = y) by (clear IH; nia). subst y. f_equal. apply IH; [lia|lia|exact Bxs|exact Bys|lia].
Qed.

(** A string without a leading zero has at least [r ^ (length - 1)] as value. *)
Lemma lead_bound r x xs : 2 <= r -> 1 <= x -> below r xs -> r ^ Z.of_nat (length xs) <= radix_value r (x :: xs).
Proof.
  intros Hr Hx H. rewrite radix_value_cons. pose proof (radix_value_bound r xs ltac:(lia) H).
  assert (0 < r ^ Z.of_nat (length xs)) by (apply Z.pow_pos_nonneg; lia). nia.
Qed.
Lemma length_le r x xs ys : 2 <= r -> 1 <= x -> below r xs -> below r ys ->
  radix_value r (x :: xs) = radix_value r ys -> (S (length xs) <= length ys)%nat.
Proof.
  intros Hr Hx H1 H2 E. pose proof (lead_bound r x xs Hr Hx H1). pose proof (radix_value_bound r ys ltac:(lia) H2).
  assert (L : r ^ Z.of_nat (length xs) < r ^ Z.of_nat (length ys)) by lia.
  apply Z.pow_lt_mono_r_iff in L; lia.
Qed.

Lemma good_string r alpha s : good_alpha alpha -> 2 <= r <= 36 -> Forall (good_char r alpha) s ->
  s = map (digit_char alpha) (string_digits s) /\ below r (string_digits s) /\
  length (string_digits s) = length s.
Proof.
  intros Ha Hr H. induction H as [|b t Hb Ht (I1 & I2 & I3)]; [repeat split; constructor|].
  destruct (good_char_value r alpha b Ha Hr Hb) as (_ & d & Ed & Hd). cbn [string_digits]. rewrite Ed.
  assert (D : 0 <= d /\ digit_char alpha d = b).
  { assert (Hv : d = if b <=? 57 then b - 48 else b - alpha + 10).
    { unfold char_value in Ed. destruct (Z.leb_spec b 57) as [L|L].
      - destruct (Z.leb_spec 48 b); [|destruct Hb as [Hb|Hb]; destruct Ha; lia]. cbn [andb] in Ed. congruence.
      - rewrite andb_false_r in Ed. destruct Hb as [Hb|Hb]; [lia|]. destruct Ha as [->| ->].
        + destruct (Z.leb_spec 97 b); [|lia]. destruct (Z.leb_spec b 122); [|lia]. cbn [andb] in Ed.
          assert (b - 87 = d) by congruence. lia.
        + destruct (Z.leb_spec 97 b); [lia|]. destruct (Z.leb_spec 65 b); [|lia].
          destruct (Z.leb_spec b 90); [|lia]. cbn [andb] in Ed. assert (b - 55 = d) by congruence. lia. }
    unfold digit_char. destruct (Z.leb_spec b 57) as [L|L]; destruct Hb as [Hb|Hb]; destruct Ha; subst d alpha; try lia.
    - destruct (Z.ltb_spec (b - 48) 10); lia.
    - destruct (Z.ltb_spec (b - 48) 10); lia.
    - destruct (Z.ltb_spec (b - 97 + 10) 10); lia.
    - destruct (Z.ltb_spec (b - 65 + 10) 10); lia. }
  destruct D as (D1 & D2). cbn [map length]. rewrite D2, <- I1, I3. split; [reflexivity|].
  split; [constructor; [lia|exact I2]|reflexivity].
Qed.

Lemma canonical_unique r alpha s t : alpha = 97 \/ alpha = 65 -> 2 <= r <= 36 ->
  canonical_numeral r alpha s -> canonical_numeral r alpha t -> string_value r s = string_value r t -> s = t.
Proof.
  intros Ha Hr (Ns & Zs & Fs) (Nt & Zt & Ft) E. change (good_alpha alpha) in Ha.
  destruct (good_string r alpha s Ha Hr Fs) as (S1 & S2 & S3).
  destruct (good_string r alpha t Ha Hr Ft) as (T1 & T2 & T3). unfold string_value in E.
  assert (G : forall s', good_alpha alpha -> s' <> [] -> (hd 0 s' = 48 -> s' = [48]) ->
     s' = map (digit_char alpha) (string_digits s') -> below r (string_digits s') ->
     string_digits s' = [0] \/ exists x xs, string_digits s' = x :: xs /\ 1 <= x /\ below r xs).
  { intros s' _ N Z0 M Bw. destruct (string_digits s') as [|x xs] eqn:Es; [cbn in M; congruence|].
    apply Forall_cons_iff in Bw as [Bx Bxs]. destruct (Z.eq_dec x 0) as [->|Hx].
    - left. rewrite M in Z0. assert (Hh : map (digit_char alpha) (0 :: xs) = [48]) by (apply Z0; reflexivity).
      destruct xs; [reflexivity|discriminate].
    - right. exists x, xs. split; [reflexivity|]. split; [lia|assumption]. }
  assert (D : string_digits s = string_digits t).
  { destruct (G s Ha Ns Zs S1 S2) as [Gs|(x & xs & Gs & Hx & Bx)];
    destruct (G t Ha Nt Zt T1 T2) as [Gt|(y & ys & Gt & Hy & By)].
    - congruence.
    - exfalso. rewrite Gs, Gt in E. pose proof (lead_bound r y ys ltac:(lia) Hy By).
      assert (0 < r ^ Z.of_nat (length ys)) by (apply Z.pow_pos_nonneg; lia). change (radix_value r [0]) with 0 in E. lia.
    - exfalso. rewrite Gs, Gt in E. pose proof (lead_bound r x xs ltac:(lia) Hx Bx).
      assert (0 < r ^ Z.of_nat (length xs)) by (apply Z.pow_pos_nonneg; lia). change (radix_value r [0]) with 0 in E. lia.
    - rewrite Gs, Gt in *. pose proof (length_le r x xs (y :: ys) ltac:(lia) Hx Bx T2 E).
      pose proof (length_le r y ys (x :: xs) ltac:(lia) Hy By S2 (eq_sym E)). cbn [length] in *.
      apply (digits_unique r ltac:(lia) (S (length xs))); auto. cbn [length]. lia. }
  rewrite S1, T1, D. reflexivity.
Qed.

Lemma octal_fact a : wf a -> fmt_octal a = (if unsigned a =? 0 then Val [48] else Panic) /\
  forall r, to_string_radix a r = Panic.
Proof.
  intros H. split; [|reflexivity]. unfold fmt_octal. rewrite is_zero_spec by (now apply wf_sh). cbn [bind].
  destruct (unsigned a =? 0); reflexivity.
Qed.
Lemma octal_refuted : exists a, wf a /\ (forall s, fmt_octal a <> Val s) /\ (forall r s, to_string_radix a r <> Val s).
Proof.
  exists e8. split; [apply wf_e8|]. split; [|discriminate]. intros s. vm_compute. discriminate.
Qed.
