(** Proofs about raw construction, assignment, truncation, extension and
    resizing. *)
From Verif Require Export LCount LRel MCasting.

Lemma from_iter_spec ds :
  ds <> [] -> from_iter ds = Val (Ok (mk_apint (64 * Z.of_nat (length ds)) ds)).
Proof.
  intros Hne. unfold from_iter. destruct ds as [|d [|e r]]; [congruence| |].
  - cbn [length idx nth_error unwrap_opt bind]. unfold idx. cbn. unfold new_inl. cbn. reflexivity.
  - cbn [length]. unfold bitwidth_new.
    set (n := S (S (length r))). assert (2 <= Z.of_nat n) by (unfold n; lia).
    destruct (Z.eqb_spec (Z.of_nat n * 64) 0); [lia|]. cbn [unwrap bind].
    assert (required_digits (Z.of_nat n * 64) = n) as -> by (unfold required_digits; lia).
    rewrite Nat.eqb_refl. unfold new_ext. rewrite storage_ext by lia. cbn [bind].
    do 3 f_equal. lia.
Qed.
Lemma from_iter_nil : from_iter [] = Val (Err ExpectedNonEmptyDigits).
Proof. reflexivity. Qed.
Lemma required_digits_full n : (0 < n)%nat -> required_digits (64 * Z.of_nat n) = n.
Proof. intros. unfold required_digits. lia. Qed.
Lemma full_wf ds : ds <> [] -> digs ds ->
  is_apint (mk_apint (64 * Z.of_nat (length ds)) ds) (64 * Z.of_nat (length ds)) (uval ds).
Proof.
  intros Hne Hd. assert (0 < length ds)%nat by (destruct ds; [congruence | cbn; lia]).
  unfold is_apint. rewrite wf_shape. cbn [len digits]. split; [|split; auto].
  split; [apply shape_mk; auto; [lia | now rewrite required_digits_full]|].
  rewrite <- P_pow. now apply uval_bound.
Qed.

Lemma clone_spec a : wf a -> clone a = Val a.
Proof.
  intros Hwf. pose proof (wf_sh _ Hwf) as Ha. pose proof Ha as (H0 & H1 & H2). unfold clone.
  destruct (shape_viewP a Ha) as [d Hw Ea Hd Hs Hacc|Hw Hl Hs Hacc]; rewrite Hs.
  - rewrite Ea at 1. unfold read_inl, new_inl. cbn [digits bind]. rewrite Hs. now rewrite <- Ea.
  - unfold as_digit_slice, len_digits. rewrite H1, Nat.eqb_refl. unfold new_ext. rewrite Hs.
    destruct a; reflexivity.
Qed.

Lemma copy_from_slice_spec dst src : length dst = length src -> copy_from_slice dst src = Val src.
Proof. intros E. unfold copy_from_slice. now rewrite E, Nat.eqb_refl. Qed.

Lemma assign_spec a b : wf a -> wf b -> assign a b = Val b.
Proof.
  intros Ha Hb. pose proof (wf_sh _ Ha) as Sa. pose proof (wf_sh _ Hb) as Sb.
  pose proof Sa as (Ha0 & Ha1 & Ha2). pose proof Sb as (Hb0 & Hb1 & Hb2).
  unfold assign, len_digits, as_digit_slice.
  destruct (Nat.eqb_spec (required_digits (len a)) (required_digits (len b))) as [E|N].
  - rewrite copy_from_slice_spec by congruence. cbn [bind]. destruct b; reflexivity.
  - destruct (shape_viewP b Sb) as [d Hw Eb Hd Hs Hacc|Hw Hl Hs Hacc]; rewrite Hs.
    + rewrite Eb at 1. unfold read_inl. cbn [digits bind]. now rewrite <- Eb.
    + rewrite clone_spec by auto. cbn [bind]. destruct b; reflexivity.
Qed.
Lemma strict_assign_spec a b : wf a -> wf b -> len a = len b -> strict_assign a b = Val (b, Ok tt).
Proof.
  intros Ha Hb Hl. pose proof (wf_sh _ Ha) as (Ha0 & Ha1 & Ha2). pose proof (wf_sh _ Hb) as (Hb0 & Hb1 & Hb2).
  unfold strict_assign, width, as_digit_slice. rewrite Hl, Z.eqb_refl. cbn [negb].
  rewrite copy_from_slice_spec by congruence. cbn [bind]. destruct b; reflexivity.
Qed.
Lemma strict_assign_err a b :
  len a <> len b -> strict_assign a b = Val (a, Err (UnmatchingBitwidth (len a) (len b))).
Proof.
  intros H. unfold strict_assign, width. destruct (Z.eqb_spec (len a) (len b)); [lia|reflexivity].
Qed.

(** * Writing the most significant digit *)
Lemma modify_msd_spec a init d d' f :
  shape a -> digits a = init ++ [d] -> f d = Val d' ->
  modify_most_significant_digit f a = Val (mk_apint (len a) (init ++ [d'])).
Proof.
  intros Ha E Hf. unfold modify_most_significant_digit.
  destruct (shape_viewP a Ha) as [x Hw Ea Hd Hs ->|Hw Hl Hs ->]; cbn [bind].
  - rewrite Ea in E. cbn in E. destruct init as [|? [|]]; try discriminate. injection E as <-.
    rewrite Hf. reflexivity.
  - rewrite E, modify_last_app, Hf. reflexivity.
Qed.

(** * Truncation *)
Lemma truncate_same fuel a t :
  wf a -> 0 < t < len a -> required_digits (len a) = required_digits t ->
  exists c, truncate_fuel (S fuel) a t = Val (c, Ok tt) /\ is_apint c t (unsigned a mod 2 ^ t).
Proof.
  intros Hwf Ht Er. pose proof (wf_sh _ Hwf) as Ha. pose proof Ha as (H0 & H1 & H2).
  cbn [truncate_fuel]. unfold width. cbv zeta.
  destruct (Z.eqb_spec t (len a)); [lia|]. destruct (Z.ltb_spec (len a) t); [lia|].
  rewrite Er, Nat.eqb_refl. unfold excess_bits.
  assert (Z.of_nat (required_digits t) = Z.of_nat (required_digits (len a))) as Ez by congruence.
  rewrite !required_digits_Z in Ez by lia.
  assert (t mod 64 <> 0) by lia.
  destruct (Z.eqb_spec (t mod 64) 0); [lia|]. cbn [unwrap_opt bind].
  destruct (digits_snoc a Ha) as (init & d & E & Hi & Hd & Li).
  rewrite (modify_msd_spec a init d (d mod 2 ^ (t mod 64))); auto.
  2:{ rewrite d_truncate_to_spec by lia. reflexivity. }
  cbn [bind digits]. eexists; split; [reflexivity|].
  assert (Z.of_nat (length init) = t / 64) as Lz.
  { rewrite Li. pose proof (required_digits_Z _ H0). pose proof (required_digits_pos _ H0). lia. }
  assert (0 < 2 ^ (t mod 64)) by (apply Z.pow_pos_nonneg; lia).
  assert (2 ^ (t mod 64) <= B) by (rewrite B_pow; apply Z.pow_le_mono_r; lia).
  assert (Ev : uval (init ++ [d mod 2 ^ (t mod 64)]) = unsigned a mod 2 ^ t).
  { unfold unsigned. rewrite E. assert (t = 64 * Z.of_nat (length init) + t mod 64) as El by lia.
    transitivity (uval (init ++ [d]) mod 2 ^ (64 * Z.of_nat (length init) + t mod 64));
        [|now rewrite <- El].
    rewrite uval_snoc_mod by (auto; lia). now rewrite uval_app, uval_one. }
  unfold is_apint. rewrite wf_shape. unfold unsigned at 1. cbn [len digits]. rewrite Ev.
  split; [|split; auto]. split.
  - apply shape_mk; [lia | |].
    + rewrite <- Er, <- H1, E, !app_length. reflexivity.
    + apply digs_app; split; auto. apply digs_cons; split; [|apply digs_nil].
      pose proof (Z.mod_pos_bound d (2 ^ (t mod 64))). unfold dok. lia.
  - apply Z.mod_pos_bound. apply Z.pow_pos_nonneg; lia.
Qed.

Lemma truncate_spec a t :
  wf a -> 0 < t <= len a ->
  exists c, truncate a t = Val (c, Ok tt) /\ is_apint c t (unsigned a mod 2 ^ t).
Proof.
  intros Hwf Ht. pose proof (wf_sh _ Hwf) as Ha. pose proof Ha as (H0 & H1 & H2).
  pose proof (unsigned_bound _ Hwf) as Hu. unfold truncate.
  destruct (Z.eq_dec t (len a)) as [->|N].
  - cbn [truncate_fuel]. unfold width. cbv zeta. rewrite Z.eqb_refl. exists a; split; auto.
    rewrite Z.mod_small by lia. now apply wf_is_apint.
  - destruct (Nat.eq_dec (required_digits (len a)) (required_digits t)) as [Er|Nr].
    { apply truncate_same; auto; lia. }
    remember 1%nat as k eqn:Ek. cbn [truncate_fuel]. unfold width. cbv zeta.
    destruct (Z.eqb_spec t (len a)); [lia|]. destruct (Z.ltb_spec (len a) t); [lia|].
    destruct (Nat.eqb_spec (required_digits (len a)) (required_digits t)); [lia|].
    assert (required_digits t < required_digits (len a))%nat as Hlt.
    { unfold required_digits in *. lia. }
    pose proof (required_digits_pos t ltac:(lia)) as Hp.
    unfold as_digit_slice. set (fs := firstn (required_digits t) (digits a)).
    assert (length fs = required_digits t) as Lf by (unfold fs; rewrite firstn_length_le; lia).
    assert (fs <> []) as Hne by (intros E; rewrite E in Lf; cbn in Lf; lia).
    assert (digs fs) as Hfs by now apply digs_firstn.
    assert (uval fs = unsigned a mod P (required_digits t)) as Ef by (apply uval_firstn_mod; auto; lia).
    rewrite from_iter_spec by auto. cbn [bind unwrap len].
    destruct (full_wf fs) as (Wf & Wl & Wu); auto.
    rewrite Lf in *. set (tc := mk_apint (64 * Z.of_nat (required_digits t)) fs) in *.
    destruct (Z.eqb_spec (64 * Z.of_nat (required_digits t)) t) as [Et|Nt]; cbn [negb].
    + exists tc; split; auto. rewrite P_pow, Et in Ef. rewrite <- Ef, <- Wu, <- Et.
      split; auto.
    + pose proof (required_digits_bound t ltac:(lia)).
      rewrite Ek. destruct (truncate_same 0 tc t) as (c & -> & Hc); auto.
      * cbn. lia.
      * cbn. apply required_digits_full. lia.
      * cbn [bind]. exists c; split; auto. rewrite Wu, Ef, mod_pow2_P in Hc by lia. exact Hc.
Qed.
Lemma truncate_err a t : len a < t -> truncate a t = Val (a, Err (TruncationBitWidthTooLarge t (len a))).
Proof.
  intros H. unfold truncate. cbn [truncate_fuel]. unfold width. cbv zeta.
  destruct (Z.eqb_spec t (len a)); [lia|]. destruct (Z.ltb_spec (len a) t); [reflexivity|lia].
Qed.

Lemma try_forward_ok {R : Type} (op : apint -> R -> mut_result) a r c :
  op a r = Val (c, Ok tt) -> try_forward_bin_mut_impl op a r = Val (Ok c).
Proof. intros E. unfold try_forward_bin_mut_impl. now rewrite E. Qed.
Lemma try_forward_err {R : Type} (op : apint -> R -> mut_result) a r a' e :
  op a r = Val (a', Err e) -> try_forward_bin_mut_impl op a r = Val (Err e).
Proof. intros E. unfold try_forward_bin_mut_impl. now rewrite E. Qed.

Lemma into_truncate_spec a t :
  wf a -> 0 < t <= len a ->
  exists c, into_truncate a t = Val (Ok c) /\ is_apint c t (unsigned a mod 2 ^ t).
Proof.
  intros Ha Ht. destruct (truncate_spec a t Ha Ht) as (c & E & Hc). exists c; split; auto.
  now apply try_forward_ok.
Qed.

(** Padding with digits and truncating, as both extensions do. *)
Lemma pad_truncate ds pad t :
  digs ds -> digs pad -> ds <> [] -> 0 < t <= 64 * Z.of_nat (length ds + length pad) ->
  exists c, (let? apint := from_iter (ds ++ pad) in into_truncate apint t) = Val (Ok c) /\
    is_apint c t ((uval ds + P (length ds) * uval pad) mod 2 ^ t).
Proof.
  intros Hd Hp Hne Ht. assert (ds ++ pad <> []) as Hne' by (destruct ds; [congruence | discriminate]).
  assert (digs (ds ++ pad)) by (now apply digs_app).
  unfold bindr. rewrite from_iter_spec by auto. cbn [bind].
  destruct (full_wf (ds ++ pad)) as (Wf & Wl & Wu); auto.
  destruct (into_truncate_spec (mk_apint (64 * Z.of_nat (length (ds ++ pad))) (ds ++ pad)) t) as (c & -> & Hc); auto.
  - cbn. rewrite app_length. lia.
  - exists c; split; auto. rewrite Wu, uval_app in Hc. exact Hc.
Qed.

(** * Zero extension *)
Lemma required_digits_mono w t : 0 < w <= t -> (required_digits w <= required_digits t)%nat.
Proof. intros. unfold required_digits. lia. Qed.
Lemma pow2_mono w t : 0 <= w <= t -> 2 ^ w <= 2 ^ t.
Proof. intros. apply Z.pow_le_mono_r; lia. Qed.

Lemma zero_extend_spec a t :
  wf a -> len a <= t ->
  exists c, zero_extend a t = Val (c, Ok tt) /\ is_apint c t (unsigned a).
Proof.
  intros Hwf Ht. pose proof (wf_sh _ Hwf) as Ha. pose proof Ha as (H0 & H1 & H2).
  pose proof (unsigned_bound _ Hwf) as Hu. unfold zero_extend, width. cbv zeta.
  destruct (Z.eqb_spec t (len a)) as [->|N].
  { exists a; split; auto. now apply wf_is_apint. }
  destruct (Z.ltb_spec t (len a)); [lia|].
  pose proof (pow2_mono (len a) t ltac:(lia)).
  pose proof (required_digits_mono (len a) t ltac:(lia)).
  destruct (Nat.eqb_spec (required_digits (len a)) (required_digits t)) as [Er|Nr].
  - eexists; split; [reflexivity|]. unfold is_apint. rewrite wf_shape. unfold unsigned in *. cbn [len digits].
    split; [|auto]. split; [apply shape_mk; auto; [lia|congruence] | lia].
  - destruct (Nat.ltb_spec (required_digits (len a)) (required_digits t)); [|lia]. cbn [negb].
    unfold as_digit_slice.
    destruct (pad_truncate (digits a) (repeat ZERO (required_digits t - required_digits (len a))) t)
      as (c & -> & Hc).
    + auto.
    + apply digs_repeat, dok_0.
    + now apply digits_nonempty.
    + rewrite repeat_length, H1. pose proof (required_digits_bound t ltac:(lia)). lia.
    + cbn [bind]. exists c; split; auto. unfold ZERO in Hc. rewrite uval_repeat_0 in Hc.
      replace (uval (digits a) + P (length (digits a)) * 0) with (unsigned a) in Hc by (unfold unsigned; lia).
      rewrite Z.mod_small in Hc by lia. exact Hc.
Qed.
Lemma zero_extend_err a t : t < len a -> zero_extend a t = Val (a, Err (ExtensionBitWidthTooSmall t (len a))).
Proof.
  intros H. unfold zero_extend, width. cbv zeta.
  destruct (Z.eqb_spec t (len a)); [lia|]. destruct (Z.ltb_spec t (len a)); [reflexivity|lia].
Qed.

(** * Sign extension *)
Lemma as_i64_mod x : dok x -> u64_as_i64 x mod B = x.
Proof.
  unfold dok, u64_as_i64. intros H. destruct (x <? 9223372036854775808).
  - now apply Z.mod_small.
  - replace (x - B) with (x + (-1) * B) by lia. rewrite Z_mod_plus_full. now apply Z.mod_small.
Qed.
Lemma lxor_mod_B x y x' y' : x mod B = x' mod B -> y mod B = y' mod B ->
  Z.lxor x y mod B = Z.lxor x' y' mod B.
Proof.
  rewrite B_pow. intros Ex Ey. apply Z.bits_inj'. intros i Hi.
  destruct (Z.ltb_spec i 64).
  - rewrite !Z.mod_pow2_bits_low, !Z.lxor_spec by lia.
    rewrite <- (Z.mod_pow2_bits_low x 64), <- (Z.mod_pow2_bits_low y 64) by lia.
    rewrite Ex, Ey. now rewrite !Z.mod_pow2_bits_low by lia.
  - now rewrite !Z.mod_pow2_bits_high by lia.
Qed.
Lemma lxor_pow2 x k : 0 <= k -> Z.lxor x (2 ^ k) = if Z.testbit x k then x - 2 ^ k else x + 2 ^ k.
Proof.
  intros Hk. assert (0 < 2 ^ k) by (apply Z.pow_pos_nonneg; lia).
  destruct (Z.testbit x k) eqn:E.
  - assert (Z.land (Z.lxor x (2 ^ k)) (2 ^ k) = 0) as D.
    { apply Z.bits_inj'. intros i Hi. rewrite Z.land_spec, Z.lxor_spec, Z.pow2_bits_eqb, Z.bits_0 by lia.
      destruct (Z.eqb_spec k i) as [->|]; [now rewrite E | apply andb_false_r]. }
    pose proof (Z.add_nocarry_lxor _ _ D) as A. rewrite Z.lxor_assoc, Z.lxor_nilpotent, Z.lxor_0_r in A. lia.
  - assert (Z.land x (2 ^ k) = 0) as D.
    { apply Z.bits_inj'. intros i Hi. rewrite Z.land_spec, Z.pow2_bits_eqb, Z.bits_0 by lia.
      destruct (Z.eqb_spec k i) as [->|]; [now rewrite E | apply andb_false_r]. }
    symmetry. now apply Z.add_nocarry_lxor.
Qed.
Lemma d_sign_extend_from_spec x n :
  0 < n <= 64 -> 0 <= x < 2 ^ n ->
  d_sign_extend_from x n = Val (Ok (to_signed n x mod B)).
Proof.
  intros Hn Hx. unfold d_sign_extend_from, d_verify_valid_bitwidth.
  destruct (Z.ltb_spec 64 n); [lia|]. cbv zeta. unfold usize_sub.
  destruct (Z.leb_spec 1 n); [|lia]. cbn [bind]. rewrite u64_shl_1 by lia. cbn [bind].
  do 2 f_equal. unfold i64_wsub, i64_as_u64.
  assert (dok x) as Hdx.
  { unfold dok. rewrite B_pow. pose proof (pow2_mono n 64 ltac:(lia)). lia. }
  rewrite as_i64_mod by apply dok_mod.
  rewrite Zminus_mod. rewrite (lxor_mod_B _ _ x (2 ^ (n - 1))).
  - rewrite as_i64_mod by (apply pow2_dok; lia).
    rewrite <- (Z.mod_small (2 ^ (n - 1)) B) at 2 by (apply pow2_dok; lia).
    rewrite <- Zminus_mod. f_equal. rewrite lxor_pow2 by lia.
    rewrite to_signed_msb by lia. pose proof (pow2_double n ltac:(lia)).
    destruct (Z.testbit x (n - 1)); lia.
  - rewrite as_i64_mod by auto. symmetry. now apply Z.mod_small.
  - rewrite as_i64_mod by (apply pow2_dok; lia). symmetry. apply Z.mod_small. apply pow2_dok; lia.
Qed.

(** The most significant digit of an [aw]-bit value. *)
Lemma top_digit_bound aw init d :
  0 < aw -> digs init -> dok d -> length init = (required_digits aw - 1)%nat ->
  uval (init ++ [d]) < 2 ^ aw ->
  let e := aw - 64 * Z.of_nat (length init) in 0 < e <= 64 /\ 0 <= d < 2 ^ e.
Proof.
  intros Haw Hi Hd Li Hu. cbv zeta. pose proof (required_digits_bound _ Haw). pose proof (required_digits_pos _ Haw).
  split; [lia|]. unfold dok in Hd. split; [lia|].
  rewrite uval_app, uval_one in Hu.
  replace aw with (64 * Z.of_nat (length init) + (aw - 64 * Z.of_nat (length init))) in Hu at 1 by lia.
  rewrite Z.pow_add_r, <- P_pow in Hu by lia.
  pose proof (uval_bound _ Hi). pose proof (P_pos (length init)). nia.
Qed.

Lemma fill_msd_spec a aw init d :
  shape a -> 0 < aw -> length (digits a) = required_digits aw -> digits a = init ++ [d] ->
  uval (digits a) < 2 ^ aw ->
  let e := aw - 64 * Z.of_nat (length init) in
  fill_most_significant_digit a aw = Val (mk_apint (len a) (init ++ [to_signed e d mod B]), Ok tt).
Proof.
  intros Ha Haw Hl E Hu. cbv zeta. pose proof Ha as (H0 & H1 & H2).
  assert (digs init /\ dok d) as [Hi Hd].
  { rewrite E in H2. apply digs_app in H2 as [? H2]. now apply digs_cons in H2 as []. }
  assert (length init = required_digits aw - 1)%nat as Li.
  { rewrite E, app_length in Hl. cbn in Hl. lia. }
  rewrite E in Hu. destruct (top_digit_bound aw init d) as [He Hde]; auto.
  set (e := aw - 64 * Z.of_nat (length init)) in *.
  unfold fill_most_significant_digit, excess_width. cbv zeta.
  pose proof (required_digits_Z _ Haw). pose proof (required_digits_pos _ Haw).
  destruct (Z.eqb_spec (aw mod 64) 0) as [Em|Nm].
  - assert (e = 64) as -> by (unfold e; lia). rewrite B_pow, to_signed_mod by lia. rewrite <- E.
    destruct a; reflexivity.
  - assert (aw mod 64 = e) as -> by (unfold e; lia).
    rewrite most_significant_digit_spec by auto. cbn [bind].
    rewrite E, app_length. cbn [length]. rewrite nth_last_app by lia.
    rewrite d_sign_extend_from_spec by (auto; lia). cbn [bind].
    rewrite (modify_msd_spec a init d (to_signed e d mod B)) by auto. reflexivity.
Qed.

Lemma to_signed_top aw init d :
  0 < aw -> digs init -> dok d -> length init = (required_digits aw - 1)%nat ->
  uval (init ++ [d]) < 2 ^ aw ->
  to_signed aw (uval (init ++ [d])) = uval init + P (length init) * to_signed (aw - 64 * Z.of_nat (length init)) d.
Proof.
  intros Haw Hi Hd Li Hu. destruct (top_digit_bound aw init d) as [He Hde]; auto.
  set (e := aw - 64 * Z.of_nat (length init)) in *.
  assert (forall k, 0 <= k -> 2 ^ (64 * Z.of_nat (length init) + k) = P (length init) * 2 ^ k) as EP.
  { intros k Hk. rewrite Z.pow_add_r, <- P_pow by lia. reflexivity. }
  unfold to_signed. rewrite uval_app, uval_one in *.
  replace aw with (64 * Z.of_nat (length init) + e) by (unfold e; lia).
  replace (64 * Z.of_nat (length init) + e - 1) with (64 * Z.of_nat (length init) + (e - 1)) by lia.
  rewrite !EP by lia. pose proof (uval_bound _ Hi). pose proof (P_pos (length init)).
  destruct (Z.ltb_spec d (2 ^ (e - 1))),
    (Z.ltb_spec (uval init + P (length init) * d) (P (length init) * 2 ^ (e - 1))); nia.
Qed.

Lemma sign_extend_spec a t :
  wf a -> len a <= t ->
  exists c, sign_extend a t = Val (c, Ok tt) /\ is_apint c t (signed a mod 2 ^ t).
Proof.
  intros Hwf Ht. pose proof (wf_sh _ Hwf) as Ha. pose proof Ha as (H0 & H1 & H2).
  pose proof (unsigned_bound _ Hwf) as Hu. unfold sign_extend, width. cbv zeta.
  destruct (Z.eqb_spec t (len a)) as [->|N].
  { exists a; split; auto. rewrite signed_mod by auto. now apply wf_is_apint. }
  destruct (Z.ltb_spec t (len a)); [lia|].
  pose proof (pow2_mono (len a) t ltac:(lia)).
  pose proof (required_digits_mono (len a) t ltac:(lia)).
  rewrite msb_spec by auto. cbn [bind]. rewrite signed_msb by auto.
  pose proof (signed_msb a Hwf) as Hsig.
  destruct (bit a (len a - 1)) eqn:Hm; cbn [negb].
  2:{ rewrite Z.mod_small by lia. now apply zero_extend_spec. }
  destruct (digits_snoc a Ha) as (init & d & E & Hi & Hd & Li).
  set (e := len a - 64 * Z.of_nat (length init)).
  set (ds' := init ++ [to_signed e d mod B]).
  assert (Hds' : digs ds').
  { apply digs_app; split; auto. apply digs_cons; split; auto using digs_nil, dok_mod. }
  assert (Lds' : length ds' = required_digits (len a)).
  { unfold ds'. rewrite <- H1, E, !app_length. reflexivity. }
  assert (Hu' : uval (init ++ [d]) < 2 ^ len a) by (rewrite <- E; apply Hu).
  destruct (top_digit_bound (len a) init d) as [He Hde]; auto. fold e in He, Hde.
  assert (Hq : exists q, uval ds' = signed a + q * P (required_digits (len a))).
  { unfold signed, unsigned. rewrite E. rewrite to_signed_top by auto. fold e.
    unfold ds'. rewrite uval_app, uval_one. exists (- (to_signed e d / B)).
    replace (required_digits (len a)) with (S (length init)) by (pose proof (required_digits_pos _ H0); lia).
    rewrite P_S. pose proof (Z.div_mod (to_signed e d) B). pose proof B_pos.
    replace (to_signed e d mod B) with (to_signed e d - B * (to_signed e d / B)) by lia. ring. }
  destruct (Nat.eqb_spec (required_digits (len a)) (required_digits t)) as [Er|Nr].
  - rewrite (fill_msd_spec (mk_apint t (digits a)) (len a) init d); auto.
    2:{ apply shape_mk; auto; [lia | congruence]. }
    2:{ apply Hu. }
    cbn [len bind]. fold e. fold ds'. destruct Hq as [q Eq].
    destruct (clear_finish t ds' (signed a) q) as (c & -> & Hc); auto; [lia | congruence | now rewrite <- Er |].
    cbn [bind]. exists c; split; auto. rewrite Hsig in Hc. exact Hc.
  - destruct (Nat.ltb_spec (required_digits (len a)) (required_digits t)); [|lia]. cbn [negb].
    rewrite (fill_msd_spec a (len a) init d); auto; [|apply Hu]. cbn [bind]. fold e. fold ds'.
    unfold as_digit_slice. cbn [digits].
    destruct (pad_truncate ds' (repeat ONES (required_digits t - required_digits (len a))) t) as (c & -> & Hc).
    + auto.
    + apply digs_repeat, dok_ONES.
    + unfold ds'. destruct init; discriminate.
    + rewrite repeat_length, Lds'. pose proof (required_digits_bound t ltac:(lia)). lia.
    + cbn [bind].
      destruct (clear_unused_bits_spec (mk_apint (len a) ds')) as (? & -> & _); [now apply shape_mk|].
      cbn [bind]. exists c; split; auto. rewrite uval_repeat_ONES, Lds' in Hc.
      assert (uval ds' = signed a + P (required_digits (len a))) as Eds.
      { destruct Hq as [q Eq]. assert (q = 1); [|subst; lia].
        pose proof (uval_bound _ Hds') as Hb. rewrite Lds' in Hb.
        pose proof (P_required_ge _ H0). pose proof (bit_msb_neg a Hwf) as Hneg. rewrite Hm in Hneg.
        pose proof (signed_range a Hwf). pose proof (pow2_double _ H0).
        assert (0 < 2 ^ (len a - 1)) by (apply Z.pow_pos_nonneg; lia). nia. }
      rewrite Eds in Hc.
      replace (signed a + P (required_digits (len a)) + P (required_digits (len a)) * (P (required_digits t - required_digits (len a)) - 1))
        with (signed a + P (required_digits (len a)) * P (required_digits t - required_digits (len a))) in Hc by lia.
      rewrite <- P_add in Hc.
      replace (required_digits (len a) + (required_digits t - required_digits (len a)))%nat with (required_digits t) in Hc by lia.
      rewrite <- (mod_pow2_P t) in Hc by lia.
      replace (signed a + P (required_digits t)) with (signed a + 1 * P (required_digits t)) in Hc by lia.
      rewrite Z_mod_plus_full, mod_pow2_P in Hc by lia.
      rewrite Hsig in Hc. exact Hc.
Qed.
Lemma sign_extend_err a t : t < len a -> sign_extend a t = Val (a, Err (ExtensionBitWidthTooSmall t (len a))).
Proof.
  intros H. unfold sign_extend, width. cbv zeta.
  destruct (Z.eqb_spec t (len a)); [lia|]. destruct (Z.ltb_spec t (len a)); [reflexivity|lia].
Qed.
Lemma sign_extend_signed a t c :
  wf a -> len a <= t -> is_apint c t (signed a mod 2 ^ t) -> signed c = signed a.
Proof.
  intros Ha Ht Hc. pose proof (wf_len _ Ha). rewrite (is_apint_signed c t (signed a)) by (auto; lia).
  apply wrap_signed_small; [lia|]. pose proof (signed_range a Ha).
  pose proof (pow2_mono (len a - 1) (t - 1) ltac:(lia)). lia.
Qed.

(** * Resizing *)
Lemma zero_resize_spec a t :
  wf a -> 0 < t -> exists c, zero_resize a t = Val c /\ is_apint c t (unsigned a mod 2 ^ t).
Proof.
  intros Ha Ht. unfold zero_resize, width. pose proof (unsigned_bound _ Ha). pose proof (wf_len _ Ha).
  destruct (Z.leb_spec t (len a)).
  - destruct (truncate_spec a t) as (c & E & Hc); [auto | lia |]. exists c; split; auto. now apply expect_mut_ok.
  - destruct (zero_extend_spec a t) as (c & E & Hc); [auto | lia |]. exists c. split; [now apply expect_mut_ok|].
    pose proof (pow2_mono (len a) t ltac:(lia)). rewrite Z.mod_small by lia. exact Hc.
Qed.
Lemma sign_resize_spec a t :
  wf a -> 0 < t -> exists c, sign_resize a t = Val c /\ is_apint c t (signed a mod 2 ^ t).
Proof.
  intros Ha Ht. unfold sign_resize, width. pose proof (unsigned_bound _ Ha). pose proof (wf_len _ Ha).
  destruct (Z.leb_spec t (len a)).
  - destruct (truncate_spec a t) as (c & E & Hc); [auto | lia |]. exists c. split; [now apply expect_mut_ok|].
    destruct (signed_congr a Ha) as (k & ->). rewrite (pow2_split (len a) t) by lia.
    replace (unsigned a + k * (2 ^ t * 2 ^ (len a - t))) with (unsigned a + k * 2 ^ (len a - t) * 2 ^ t) by ring.
    rewrite Z_mod_plus_full. exact Hc.
  - destruct (sign_extend_spec a t) as (c & E & Hc); [auto | lia |]. exists c. split; [now apply expect_mut_ok|]. exact Hc.
Qed.
