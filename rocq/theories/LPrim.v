(** Conversion to primitive integers. *)
From Verif Require Export LFacts MPrim LEx.
Ltac Zify.zify_post_hook ::= idtac.

Lemma as_int_wrap n x : as_int n x = wrap_signed n x.
Proof. reflexivity. Qed.
Lemma as_uint_mod n x : as_uint n x = x mod 2 ^ n.
Proof. reflexivity. Qed.

Lemma any_nonzero_spec ds : digs ds -> any_nonzero ds = negb (uval ds =? 0).
Proof.
  intros H. pose proof (uval_zero_iff ds H) as Z. unfold any_nonzero.
  destruct (existsb (fun d => negb (d =? 0)) ds) eqn:E.
  - apply existsb_exists in E as (d & Hin & Hd). destruct (Z.eqb_spec (uval ds) 0) as [E0|]; [|reflexivity].
    apply Z in E0. rewrite Forall_forall in E0. rewrite (E0 d Hin) in Hd. discriminate.
  - destruct (Z.eqb_spec (uval ds) 0) as [|N]; [reflexivity|]. exfalso. apply N, Z. apply Forall_forall. intros d Hin.
    destruct (Z.eq_dec d 0); [assumption|]. exfalso.
    assert (existsb (fun d => negb (d =? 0)) ds = true); [|congruence].
    apply existsb_exists. exists d. split; [assumption|]. apply Bool.negb_true_iff. now apply Z.eqb_neq.
Qed.

Lemma split_lsd a : wf a -> exists d rest,
  digits a = d :: rest /\ dok d /\ digs rest /\
  split_least_significant_digit a = Val (d, rest) /\ least_significant_digit a = Val d.
Proof.
  intros H. pose proof (wf_sh a H) as S. pose proof S as (Hw & Hl & Hd).
  unfold split_least_significant_digit, least_significant_digit, access_data, read_inl, as_digit_slice.
  destruct (storage (len a)) eqn:St.
  - unfold storage in St. destruct (Z.leb_spec (len a) 64); [|discriminate].
    rewrite required_digits_1 in Hl by lia. destruct (digits a) as [|d [|]]; try discriminate.
    apply digs_cons in Hd as [Hd _]. exists d, []. cbn [bind]. assert (digs []) by constructor. auto 10.
  - destruct (digits a) as [|d rest] eqn:E.
    + exfalso. cbn [length] in Hl. unfold required_digits in Hl. assert (0 <= (len a - 1) / 64) by (apply Z.div_pos; lia). lia.
    + apply digs_cons in Hd as [Hd Hr]. exists d, rest. cbn [bind]. auto 10.
Qed.

Lemma lsd_value a d rest : digits a = d :: rest -> unsigned a = d + 2 ^ 64 * uval rest.
Proof. intros E. unfold unsigned. rewrite E, uval_cons, B_pow. reflexivity. Qed.

Lemma lsd_mod u d r n : u = d + 2 ^ 64 * r -> 0 <= n <= 64 -> u mod 2 ^ n = d mod 2 ^ n.
Proof.
  intros -> Hn. replace (2 ^ 64) with (2 ^ n * 2 ^ (64 - n)) by (rewrite <- Z.pow_add_r by lia; f_equal; lia).
  replace (d + 2 ^ n * 2 ^ (64 - n) * r) with (d + (2 ^ (64 - n) * r) * 2 ^ n) by lia. apply Z_mod_plus_full.
Qed.

Lemma mod_mod_pow x n m : 0 <= n <= m -> (x mod 2 ^ m) mod 2 ^ n = x mod 2 ^ n.
Proof.
  intros Hn. assert (0 < 2 ^ m) by (apply Z.pow_pos_nonneg; lia).
  rewrite (Z.mod_eq x (2 ^ m)) by lia.
  replace (2 ^ m) with (2 ^ (m - n) * 2 ^ n) by (rewrite <- Z.pow_add_r by lia; f_equal; lia).
  replace (x - 2 ^ (m - n) * 2 ^ n * (x / (2 ^ (m - n) * 2 ^ n)))
    with (x + (- (2 ^ (m - n) * (x / (2 ^ (m - n) * 2 ^ n)))) * 2 ^ n) by lia. apply Z_mod_plus_full.
Qed.

Lemma signed_low a n : wf a -> 0 <= n <= len a -> signed a mod 2 ^ n = unsigned a mod 2 ^ n.
Proof. intros H Hn. rewrite <- (signed_mod a H). symmetry. now apply mod_mod_pow. Qed.

Lemma B_low x n : 0 <= n <= 64 -> (x mod B) mod 2 ^ n = x mod 2 ^ n.
Proof. intros. rewrite B_pow. now apply mod_mod_pow. Qed.

Lemma width_pos ty : 0 < associated_width ty.
Proof. destruct ty; cbn; lia. Qed.
Lemma width_64 ty : is_128 ty = false -> associated_width ty <= 64.
Proof. destruct ty; cbn; intros; discriminate || lia. Qed.

Lemma resize_prim_spec a ty : wf a -> is_128 ty = false ->
  exists d, resize_to_primitive_ty a ty = Val d /\ dok d /\
    d mod 2 ^ associated_width ty = (if is_signed ty then signed a else unsigned a) mod 2 ^ associated_width ty.
Proof.
  intros H Hty. destruct (split_lsd a H) as (d & rest & Ed & Hd & Hr & _ & El).
  pose proof (lsd_value a d rest Ed) as U. pose proof (width_pos ty). pose proof (width_64 ty Hty).
  unfold resize_to_primitive_ty. rewrite Hty, El. cbn [bind]. unfold width.
  set (n := associated_width ty) in *.
  assert (G : exists e, (if is_signed ty && (len a <? n) then let! r := d_sign_extend_from d (len a) in unwrap r
    else Val d) = Val e /\ dok e /\ e mod 2 ^ n = (if is_signed ty then signed a else unsigned a) mod 2 ^ n).
  { destruct (is_signed ty); cbn [andb].
    - destruct (Z.ltb_spec (len a) n) as [Hlt|Hge].
      + pose proof (unsigned_bound a H) as Ub. pose proof (wf_len a H) as Hw.
        assert (unsigned a = d).
        { rewrite <- (Z.mod_small (unsigned a) (2 ^ 64)).
          - rewrite (lsd_mod _ d (uval rest) 64) by (auto; lia). apply Z.mod_small. unfold dok in Hd. now rewrite B_pow in Hd.
          - pose proof (pow2_mono (len a) 64 ltac:(lia)). lia. }
        rewrite d_sign_extend_from_spec by lia. cbn [bind unwrap].
        exists (to_signed (len a) d mod B). split; [reflexivity|split; [apply dok_mod|]].
        rewrite B_low by lia. unfold signed. congruence.
      + exists d. split; [reflexivity|split; [assumption|]]. rewrite signed_low by (auto; lia).
        symmetry. eapply lsd_mod; eauto; lia.
    - exists d. split; [reflexivity|split; [assumption|]]. symmetry. eapply lsd_mod; eauto; lia. }
  destruct G as (e & Ee & He & Me). rewrite Ee. cbn [bind].
  destruct (Z.ltb_spec n 64).
  - rewrite d_truncate_to_spec by lia. cbn [bind unwrap]. exists (e mod 2 ^ n).
    assert (0 < 2 ^ n) by (apply Z.pow_pos_nonneg; lia).
    split; [reflexivity|split; [|rewrite Z.mod_mod by lia; assumption]].
    pose proof (Z.mod_pos_bound e (2 ^ n)). pose proof (pow2_mono n 64 ltac:(lia)). unfold dok. rewrite B_pow. lia.
  - exists e. auto.
Qed.

Lemma wrap_of_mod n x y : x mod 2 ^ n = y mod 2 ^ n -> as_int n x = wrap_signed n y.
Proof. intros E. rewrite as_int_wrap. now apply wrap_signed_mod. Qed.

Lemma small_prims_fact a : wf a ->
  resize_to_u8 a = Val (unsigned a mod 2 ^ 8) /\ resize_to_u16 a = Val (unsigned a mod 2 ^ 16) /\
  resize_to_u32 a = Val (unsigned a mod 2 ^ 32) /\ resize_to_u64 a = Val (unsigned a mod 2 ^ 64) /\
  resize_to_i8 a = Val (wrap_signed 8 (signed a)) /\ resize_to_i16 a = Val (wrap_signed 16 (signed a)) /\
  resize_to_i32 a = Val (wrap_signed 32 (signed a)) /\ resize_to_i64 a = Val (wrap_signed 64 (signed a)).
Proof.
  intros H.
  unfold resize_to_u8, resize_to_u16, resize_to_u32, resize_to_u64, resize_to_i8, resize_to_i16, resize_to_i32, resize_to_i64.
  repeat match goal with |- context [resize_to_primitive_ty a ?ty] =>
    let d := fresh "d" in let E := fresh "E" in let M := fresh "M" in
    destruct (resize_prim_spec a ty H eq_refl) as (d & E & _ & M); rewrite E; clear E; cbn [bind];
    cbn [associated_width is_signed] in M end.
  rewrite !as_uint_mod.
  do 4 (split; [f_equal; assumption|]).
  do 3 (split; [f_equal; apply wrap_of_mod; assumption|]). f_equal. apply wrap_of_mod; assumption.
Qed.

(** * 128 bits *)
Lemma two_digits_mod u d0 d1 r : u = d0 + 2 ^ 64 * (d1 + 2 ^ 64 * r) -> dok d0 -> dok d1 ->
  d0 + 2 ^ 64 * d1 = u mod 2 ^ 128.
Proof.
  intros -> H0 H1. unfold dok in *. rewrite B_pow in *.
  replace (d0 + 2 ^ 64 * (d1 + 2 ^ 64 * r)) with (d0 + 2 ^ 64 * d1 + r * 2 ^ 128) by (change (2 ^ 128) with (2 ^ 64 * 2 ^ 64); lia).
  rewrite Z_mod_plus_full. symmetry. apply Z.mod_small. change (2 ^ 128) with (2 ^ 64 * 2 ^ 64). nia.
Qed.

Lemma split_second rest : digs rest -> exists d1 r, split_first_or_zero rest = (d1, r) /\ dok d1 /\ digs r /\
  uval rest = d1 + 2 ^ 64 * uval r.
Proof.
  intros H. destruct rest as [|d r]; cbn [split_first_or_zero].
  - exists 0, []. split; [reflexivity|]. split; [split; reflexivity || discriminate|]. split; [constructor|]. rewrite uval_nil. reflexivity.
  - apply digs_cons in H as [Hd Hr]. exists d, r. rewrite uval_cons, B_pow. auto.
Qed.

Lemma u128_join d0 d1 : dok d0 -> dok d1 ->
  (let! hi := u128_shl d1 64 in u128_add hi d0) = Val (d0 + 2 ^ 64 * d1).
Proof.
  intros H0 H1. unfold dok in *. unfold u128_shl. change (64 <? 128) with true. cbn [bind].
  rewrite Z.shiftl_mul_pow2 by lia. change (2 ^ 64) with B. rewrite Z.mod_small by (change BB with (B * B); nia).
  unfold u128_add. destruct (Z.ltb_spec (d1 * B + d0) BB) as [_|C]; [f_equal; lia|].
  exfalso. change BB with (B * B) in C. nia.
Qed.

Lemma i128_join d0 d1 : dok d0 -> dok d1 ->
  (let! hi := i128_shl d1 64 in i128_add hi d0) = Val (wrap_signed 128 (d0 + 2 ^ 64 * d1)).
Proof.
  intros H0 H1. unfold dok in *. unfold i128_shl. change (64 <? 128) with true. cbn [bind].
  rewrite Z.shiftl_mul_pow2 by lia. unfold i128_add, i128_check.
  assert (E : as_int 128 (d1 * 2 ^ 64) + d0 = wrap_signed 128 (d0 + 2 ^ 64 * d1) /\
    - 2 ^ 127 <= wrap_signed 128 (d0 + 2 ^ 64 * d1) < 2 ^ 127).
  { unfold as_int, wrap_signed, to_signed. change (2 ^ 128) with (B * B). change (2 ^ 64) with B.
    change (2 ^ (128 - 1)) with (9223372036854775808 * B). change (2 ^ 127) with (9223372036854775808 * B).
    rewrite !Z.mod_small by nia. rewrite B_pow in *. change (2 ^ 64) with 18446744073709551616 in *.
    destruct (Z.ltb_spec (d1 * 18446744073709551616) (9223372036854775808 * 18446744073709551616)) as [L|L];
    destruct (Z.ltb_spec (d0 + 18446744073709551616 * d1) (9223372036854775808 * 18446744073709551616)) as [L'|L']; lia. }
  destruct E as [-> E]. destruct (Z.leb_spec (- 2 ^ 127) (wrap_signed 128 (d0 + 2 ^ 64 * d1))); [|lia].
  destruct (Z.ltb_spec (wrap_signed 128 (d0 + 2 ^ 64 * d1)) (2 ^ 127)); [|lia]. reflexivity.
Qed.

Lemma i128_sign w u : 0 < w < 128 -> 0 <= u < 2 ^ w ->
  i128_shl 1 (w - 1) = Val (2 ^ (w - 1)) /\
  Z.lxor (wrap_signed 128 u) (2 ^ (w - 1)) - 2 ^ (w - 1) = to_signed w u /\
  - 2 ^ 127 <= to_signed w u < 2 ^ 127.
Proof.
  intros Hw Hu. pose proof (pow2_mono w 127 ltac:(lia)) as M. pose proof (pow2_mono (w - 1) 126 ltac:(lia)) as M1.
  assert (0 < 2 ^ (w - 1)) by (apply Z.pow_pos_nonneg; lia).
  assert (2 ^ 126 < 2 ^ 127) by reflexivity. pose proof (pow2_double w ltac:(lia)) as D.
  assert (E127 : 2 ^ (128 - 1) = 2 ^ 127) by reflexivity.
  split; [|split].
  - unfold i128_shl. destruct (Z.ltb_spec (w - 1) 128); [|lia]. rewrite Z.shiftl_mul_pow2, Z.mul_1_l by lia.
    f_equal. rewrite as_int_wrap. apply wrap_signed_small; rewrite ?E127; lia.
  - rewrite wrap_signed_small by (rewrite ?E127; lia). rewrite lxor_pow2 by lia. rewrite to_signed_msb by lia.
    destruct (Z.testbit u (w - 1)); lia.
  - unfold to_signed. destruct (u <? 2 ^ (w - 1)) eqn:E; [apply Z.ltb_lt in E|apply Z.ltb_ge in E]; lia.
Qed.

Lemma value_128 a d0 rest d1 r : wf a -> digits a = d0 :: rest -> dok d0 -> dok d1 ->
  uval rest = d1 + 2 ^ 64 * uval r -> d0 + 2 ^ 64 * d1 = unsigned a mod 2 ^ 128.
Proof.
  intros H E H0 H1 U. apply (two_digits_mod (unsigned a) d0 d1 (uval r)); auto.
  rewrite (lsd_value a d0 rest E), U. reflexivity.
Qed.

Lemma i128_extend a : wf a ->
  wrap_signed 128 (signed a) = if len a <? 128 then to_signed (len a) (unsigned a) else wrap_signed 128 (unsigned a mod 2 ^ 128).
Proof.
  intros H. pose proof (wf_len a H) as Hw. pose proof (signed_range a H) as R.
  destruct (Z.ltb_spec (len a) 128).
  - apply wrap_signed_small; [lia|]. pose proof (pow2_mono (len a - 1) 127 ltac:(lia)).
    change (2 ^ (128 - 1)) with (2 ^ 127). fold (signed a). lia.
  - apply wrap_signed_mod. rewrite signed_low by (auto; lia). symmetry. apply Z.mod_mod.
    apply Z.pow_nonzero; lia.
Qed.

Lemma resize_128_fact a : wf a ->
  resize_to_u128 a = Val (unsigned a mod 2 ^ 128) /\
  resize_to_i128 a = Val (wrap_signed 128 (signed a)).
Proof.
  intros H. destruct (split_lsd a H) as (d0 & rest & Ed & H0 & Hr & Es & _).
  destruct (split_second rest Hr) as (d1 & r & E1 & H1 & Hr' & U).
  pose proof (value_128 a d0 rest d1 r H Ed H0 H1 U) as V.
  unfold resize_to_u128, resize_to_i128. rewrite Es. cbn [bind]. rewrite E1.
  rewrite u128_join by auto. split; [now rewrite V|].
  pose proof (i128_join d0 d1 H0 H1) as J. destruct (i128_shl d1 64) as [hi| |]; cbn [bind] in *; try discriminate.
  rewrite J. cbn [bind]. rewrite V, (i128_extend a H). unfold width.
  pose proof (wf_len a H) as Hw. destruct (Z.ltb_spec (len a) 128); [|reflexivity].
  unfold usize_sub. destruct (Z.leb_spec 1 (len a)); [|lia]. cbn [bind].
  pose proof (unsigned_bound a H) as Ub. pose proof (pow2_mono (len a) 128 ltac:(lia)).
  rewrite Z.mod_small by lia.
  destruct (i128_sign (len a) (unsigned a)) as (-> & E & R); [lia|lia|]. cbn [bind].
  unfold i128_sub, i128_check. rewrite E.
  destruct (Z.leb_spec (- 2 ^ 127) (to_signed (len a) (unsigned a))); [|lia].
  destruct (Z.ltb_spec (to_signed (len a) (unsigned a)) (2 ^ 127)); [|lia]. reflexivity.
Qed.

Lemma lsb_fact a : wf a -> resize_to_bool a = Val (Z.odd (unsigned a)).
Proof.
  intros H. destruct (split_lsd a H) as (d & rest & Ed & H0 & Hr & _ & El).
  unfold resize_to_bool, lsb. rewrite El. cbn [bind]. f_equal. unfold d_lsb.
  rewrite (lsd_value a d rest Ed). rewrite Z.odd_add, Z.odd_mul. change (Z.odd (2 ^ 64)) with false.
  rewrite andb_false_l, xorb_false_r. change 1 with (Z.ones 1) at 1. rewrite Z.land_ones by lia. change (2 ^ 1) with 2.
  rewrite Zmod_odd. destruct (Z.odd d); reflexivity.
Qed.

Lemma resize_prim_fact a : wf a ->
  resize_to_bool a = Val (Z.odd (unsigned a)) /\
  resize_to_u8 a = Val (unsigned a mod 2 ^ 8) /\ resize_to_u16 a = Val (unsigned a mod 2 ^ 16) /\
  resize_to_u32 a = Val (unsigned a mod 2 ^ 32) /\ resize_to_u64 a = Val (unsigned a mod 2 ^ 64) /\
  resize_to_u128 a = Val (unsigned a mod 2 ^ 128) /\
  resize_to_i8 a = Val (wrap_signed 8 (signed a)) /\ resize_to_i16 a = Val (wrap_signed 16 (signed a)) /\
  resize_to_i32 a = Val (wrap_signed 32 (signed a)) /\ resize_to_i64 a = Val (wrap_signed 64 (signed a)) /\
  resize_to_i128 a = Val (wrap_signed 128 (signed a)).
Proof.
  intros H. pose proof (small_prims_fact a H) as (A1 & A2 & A3 & A4 & A5 & A6 & A7 & A8).
  pose proof (resize_128_fact a H) as (A9 & A10). pose proof (lsb_fact a H) as A11. auto 12.
Qed.

(** * Checked conversion *)
Lemma valid_repr_spec ty d : is_128 ty = false -> dok d ->
  is_valid_repr ty d = (d <? 2 ^ associated_width ty).
Proof.
  intros Hty Hd. unfold dok in Hd.
  destruct ty; cbn [is_valid_repr associated_width]; try discriminate; try reflexivity;
    try (symmetry; apply Z.ltb_lt; change (2 ^ 64) with B; lia).
  change (2 ^ 1) with 2.
  destruct (Z.eqb_spec d 0), (Z.eqb_spec d 1), (Z.ltb_spec d 2); cbn [orb]; lia || reflexivity.
Qed.

Lemma fits u d r n : u = d + 2 ^ 64 * r -> 0 <= n <= 64 -> 0 <= d -> 0 <= r ->
  (negb (d <? 2 ^ n) || negb (r =? 0)) = negb (u <? 2 ^ n).
Proof.
  intros -> Hn Hd Hr. pose proof (pow2_mono n 64 ltac:(lia)).
  destruct (Z.ltb_spec d (2 ^ n)), (Z.eqb_spec r 0), (Z.ltb_spec (d + 2 ^ 64 * r) (2 ^ n)); cbn [negb orb]; nia || reflexivity.
Qed.

Lemma try_cast_spec a ty : wf a -> is_128 ty = false ->
  let n := associated_width ty in
  if unsigned a <? 2 ^ n then
    exists d, try_cast_to_primitive_ty a ty = Val (Ok d) /\ dok d /\
      d mod 2 ^ n = (if is_signed ty && (len a <? n) then signed a else unsigned a) mod 2 ^ n /\
      (is_signed ty = false -> d = unsigned a)
  else try_cast_to_primitive_ty a ty = Val (Err (ValueUnrepresentable a ty)).
Proof.
  intros H Hty n. destruct (split_lsd a H) as (d & rest & Ed & Hd & Hr & Es & _).
  pose proof (lsd_value a d rest Ed) as U. pose proof (width_pos ty) as Hn0. pose proof (width_64 ty Hty) as Hn1. fold n in Hn0, Hn1.
  unfold try_cast_to_primitive_ty. rewrite Hty, Es. cbn [bind].
  rewrite valid_repr_spec, any_nonzero_spec by auto. fold n.
  rewrite (fits (unsigned a) d (uval rest) n) by (auto; try apply uval_nonneg; auto; try apply Hd; lia).
  destruct (Z.ltb_spec (unsigned a) (2 ^ n)) as [Hlt|Hge]; cbn [negb].
  2:{ unfold unrepresentable. rewrite clone_spec by auto. reflexivity. }
  assert (Hu : unsigned a = d).
  { pose proof (pow2_mono n 64 ltac:(lia)). pose proof (uval_nonneg rest Hr). destruct Hd. nia. }
  unfold width. fold n. destruct (is_signed ty); cbn [andb].
  2:{ exists d. split; [reflexivity|]. rewrite Hu. auto. }
  destruct (Z.ltb_spec (len a) n).
  2:{ exists d. split; [reflexivity|]. rewrite Hu. split; [auto|split; [auto|discriminate]]. }
  pose proof (unsigned_bound a H) as Ub. pose proof (wf_len a H) as Hw.
  rewrite d_sign_extend_from_spec by lia. cbn [bind unwrap].
  destruct (Z.ltb_spec n 64).
  - rewrite d_truncate_to_spec by lia. cbn [bind unwrap].
    exists ((to_signed (len a) d mod B) mod 2 ^ n). assert (0 < 2 ^ n) by (apply Z.pow_pos_nonneg; lia).
    split; [reflexivity|]. split.
    + pose proof (Z.mod_pos_bound (to_signed (len a) d mod B) (2 ^ n)). pose proof (pow2_mono n 64 ltac:(lia)).
      unfold dok. rewrite B_pow. rewrite B_pow in *. lia.
    + split; [|discriminate]. rewrite Z.mod_mod by lia. rewrite B_low by lia. unfold signed. congruence.
  - exists (to_signed (len a) d mod B). split; [reflexivity|]. split; [apply dok_mod|]. split; [|discriminate].
    rewrite B_low by lia. unfold signed. congruence.
Qed.

Lemma try_u_small a ty : wf a -> is_128 ty = false -> is_signed ty = false ->
  try_cast_map a ty (as_uint (associated_width ty)) =
  Val (if unsigned a <? 2 ^ associated_width ty then Ok (unsigned a) else Err (ValueUnrepresentable a ty)).
Proof.
  intros H Hty Hs. pose proof (try_cast_spec a ty H Hty) as S. cbv zeta in S. unfold try_cast_map.
  pose proof (unsigned_bound a H). destruct (Z.ltb_spec (unsigned a) (2 ^ associated_width ty)).
  - destruct S as (d & -> & _ & _ & E). cbn [bind map_result]. rewrite as_uint_mod, (E Hs), Z.mod_small by lia. reflexivity.
  - rewrite S. reflexivity.
Qed.

Lemma try_i_small a ty : wf a -> is_128 ty = false -> is_signed ty = true ->
  let n := associated_width ty in
  try_cast_map a ty (as_int n) =
  Val (if len a <=? n then Ok (signed a)
       else if unsigned a <? 2 ^ n then Ok (wrap_signed n (unsigned a)) else Err (ValueUnrepresentable a ty)).
Proof.
  intros H Hty Hs n. pose proof (try_cast_spec a ty H Hty) as S. cbv zeta in S. fold n in S. unfold try_cast_map.
  pose proof (unsigned_bound a H) as Ub. pose proof (signed_range a H) as R. pose proof (wf_len a H) as Hw.
  rewrite Hs in S. cbn [andb] in S.
  destruct (Z.leb_spec (len a) n).
  - pose proof (pow2_mono (len a) n ltac:(lia)). pose proof (pow2_mono (len a - 1) (n - 1) ltac:(lia)).
    destruct (Z.ltb_spec (unsigned a) (2 ^ n)); [|lia].
    destruct S as (d & -> & _ & M & _). cbn [bind map_result]. do 2 f_equal.
    destruct (Z.ltb_spec (len a) n).
    + rewrite (wrap_of_mod n d (signed a)) by auto. apply wrap_signed_small; lia.
    + rewrite (wrap_of_mod n d (unsigned a)) by auto. assert (len a = n) as <- by lia. symmetry. now apply signed_wrap.
  - destruct (Z.ltb_spec (len a) n); [lia|].
    destruct (Z.ltb_spec (unsigned a) (2 ^ n)); [|rewrite S; reflexivity].
    destruct S as (d & -> & _ & M & _). cbn [bind map_result]. do 2 f_equal. now apply wrap_of_mod.
Qed.

Lemma try_128_fact a : wf a ->
  try_to_u128 a = Val (if unsigned a <? 2 ^ 128 then Ok (unsigned a) else Err (ValueUnrepresentable a PU128)) /\
  try_to_i128 a = Val (if len a <=? 128 then Ok (signed a)
       else if unsigned a <? 2 ^ 128 then Ok (wrap_signed 128 (unsigned a)) else Err (ValueUnrepresentable a PI128)).
Proof.
  intros H. destruct (split_lsd a H) as (d0 & rest & Ed & H0 & Hr & Es & _).
  destruct (split_second rest Hr) as (d1 & r & E1 & H1 & Hr' & U).
  pose proof (value_128 a d0 rest d1 r H Ed H0 H1 U) as V.
  assert (Any : any_nonzero r = negb (unsigned a <? 2 ^ 128)).
  { rewrite any_nonzero_spec by auto. pose proof (uval_nonneg r Hr').
    assert (U' : unsigned a = d0 + 2 ^ 64 * d1 + 2 ^ 128 * uval r).
    { rewrite (lsd_value a d0 rest Ed), U. change (2 ^ 128) with (2 ^ 64 * 2 ^ 64). lia. }
    assert (0 <= d0 + 2 ^ 64 * d1 < 2 ^ 128) by (rewrite V; apply Z.mod_pos_bound; reflexivity).
    destruct (Z.eqb_spec (uval r) 0), (Z.ltb_spec (unsigned a) (2 ^ 128)); cbn [negb]; nia || reflexivity. }
  pose proof (unsigned_bound a H) as Ub. pose proof (wf_len a H) as Hw.
  unfold try_to_u128, try_to_i128. rewrite Es. cbn [bind]. rewrite E1, Any.
  unfold unrepresentable. rewrite clone_spec by auto. cbn [bind].
  pose proof (i128_extend a H) as X. pose proof (signed_range a H) as R.
  destruct (Z.ltb_spec (unsigned a) (2 ^ 128)) as [Hlt|Hge]; cbn [negb].
  - pose proof (u128_join d0 d1 H0 H1) as Ju. destruct (u128_shl d1 64) as [hu| |]; cbn [bind] in *; try discriminate.
    rewrite Ju. cbn [bind]. rewrite V. rewrite Z.mod_small by lia. split; [reflexivity|].
    pose proof (i128_join d0 d1 H0 H1) as J. destruct (i128_shl d1 64) as [hi| |]; cbn [bind] in *; try discriminate.
    rewrite J. cbn [bind]. rewrite V. rewrite Z.mod_small by lia. unfold width.
    destruct (Z.ltb_spec (len a) 128).
    + unfold usize_sub. destruct (Z.leb_spec 1 (len a)); [|lia]. cbn [bind].
      destruct (i128_sign (len a) (unsigned a)) as (-> & E & _); [lia|lia|]. cbn [bind]. rewrite E.
      destruct (Z.leb_spec (len a) 128); [|lia]. do 2 f_equal. fold (signed a). rewrite as_int_wrap, X. reflexivity.
    + destruct (Z.leb_spec (len a) 128); [|reflexivity]. assert (len a = 128) as E by lia.
      do 2 f_equal. rewrite (signed_wrap a H), E. reflexivity.
  - split; [reflexivity|]. destruct (Z.leb_spec (len a) 128) as [L|L]; [|reflexivity].
    pose proof (pow2_mono (len a) 128 ltac:(lia)). lia.
Qed.

Lemma try_bool_fact a : wf a ->
  try_to_bool a = Val (if unsigned a =? 0 then Ok false else if unsigned a =? 1 then Ok true
    else Err (ValueUnrepresentable a PBool)).
Proof.
  intros H. pose proof (try_cast_spec a PBool H eq_refl) as S. cbv zeta in S. unfold try_to_bool, bindr.
  cbn [associated_width is_signed andb] in S. change (2 ^ 1) with 2 in S. pose proof (unsigned_bound a H).
  destruct (Z.ltb_spec (unsigned a) 2).
  - destruct S as (d & -> & _ & _ & E). cbn [bind]. rewrite (E eq_refl).
    destruct (Z.eqb_spec (unsigned a) 0); [reflexivity|]. destruct (Z.eqb_spec (unsigned a) 1); [reflexivity|lia].
  - rewrite S. cbn [bind]. destruct (Z.eqb_spec (unsigned a) 0); [lia|]. destruct (Z.eqb_spec (unsigned a) 1); [lia|reflexivity].
Qed.

Lemma try_unsigned_fact a : wf a ->
  try_to_bool a = Val (if unsigned a =? 0 then Ok false else if unsigned a =? 1 then Ok true
    else Err (ValueUnrepresentable a PBool)) /\
  try_to_u8 a = Val (if unsigned a <? 2 ^ 8 then Ok (unsigned a) else Err (ValueUnrepresentable a PU8)) /\
  try_to_u16 a = Val (if unsigned a <? 2 ^ 16 then Ok (unsigned a) else Err (ValueUnrepresentable a PU16)) /\
  try_to_u32 a = Val (if unsigned a <? 2 ^ 32 then Ok (unsigned a) else Err (ValueUnrepresentable a PU32)) /\
  try_to_u64 a = Val (if unsigned a <? 2 ^ 64 then Ok (unsigned a) else Err (ValueUnrepresentable a PU64)) /\
  try_to_u128 a = Val (if unsigned a <? 2 ^ 128 then Ok (unsigned a) else Err (ValueUnrepresentable a PU128)).
Proof.
  intros H. pose proof (try_u_small a PU8 H eq_refl eq_refl). pose proof (try_u_small a PU16 H eq_refl eq_refl).
  pose proof (try_u_small a PU32 H eq_refl eq_refl). pose proof (try_u_small a PU64 H eq_refl eq_refl).
  pose proof (try_128_fact a H) as (? & _). pose proof (try_bool_fact a H). auto 10.
Qed.

Lemma try_signed_exact a : wf a ->
  try_to_i8 a = Val (if len a <=? 8 then Ok (signed a) else
    if unsigned a <? 2 ^ 8 then Ok (wrap_signed 8 (unsigned a)) else Err (ValueUnrepresentable a PI8)) /\
  try_to_i16 a = Val (if len a <=? 16 then Ok (signed a) else
    if unsigned a <? 2 ^ 16 then Ok (wrap_signed 16 (unsigned a)) else Err (ValueUnrepresentable a PI16)) /\
  try_to_i32 a = Val (if len a <=? 32 then Ok (signed a) else
    if unsigned a <? 2 ^ 32 then Ok (wrap_signed 32 (unsigned a)) else Err (ValueUnrepresentable a PI32)) /\
  try_to_i64 a = Val (if len a <=? 64 then Ok (signed a) else
    if unsigned a <? 2 ^ 64 then Ok (wrap_signed 64 (unsigned a)) else Err (ValueUnrepresentable a PI64)) /\
  try_to_i128 a = Val (if len a <=? 128 then Ok (signed a) else
    if unsigned a <? 2 ^ 128 then Ok (wrap_signed 128 (unsigned a)) else Err (ValueUnrepresentable a PI128)).
Proof.
  intros H. pose proof (try_i_small a PI8 H eq_refl eq_refl). pose proof (try_i_small a PI16 H eq_refl eq_refl).
  pose proof (try_i_small a PI32 H eq_refl eq_refl). pose proof (try_i_small a PI64 H eq_refl eq_refl).
  pose proof (try_128_fact a H) as (_ & ?). auto 10.
Qed.

Lemma pick_signed a n : wf a -> 0 < n -> len a <= n \/ 0 <= signed a < 2 ^ (n - 1) -> forall e : error_kind,
  (if len a <=? n then Ok (signed a) else if unsigned a <? 2 ^ n then Ok (wrap_signed n (unsigned a)) else Err e)
  = Ok (signed a).
Proof.
  intros H Hn D e. destruct (Z.leb_spec (len a) n); [reflexivity|]. destruct D as [|D]; [lia|].
  pose proof (unsigned_bound a H) as Ub. assert (0 < 2 ^ (n - 1)) by (apply Z.pow_pos_nonneg; lia).
  assert (E : unsigned a = signed a).
  { unfold signed, to_signed in *. destruct (unsigned a <? 2 ^ (len a - 1)); lia. }
  pose proof (pow2_double n Hn). rewrite E. destruct (Z.ltb_spec (signed a) (2 ^ n)); [|lia].
  f_equal. apply wrap_signed_small; lia.
Qed.

Lemma try_signed_partial a : wf a ->
  (len a <= 8 \/ 0 <= signed a < 2 ^ 7 -> try_to_i8 a = Val (Ok (signed a))) /\
  (len a <= 16 \/ 0 <= signed a < 2 ^ 15 -> try_to_i16 a = Val (Ok (signed a))) /\
  (len a <= 32 \/ 0 <= signed a < 2 ^ 31 -> try_to_i32 a = Val (Ok (signed a))) /\
  (len a <= 64 \/ 0 <= signed a < 2 ^ 63 -> try_to_i64 a = Val (Ok (signed a))) /\
  (len a <= 128 \/ 0 <= signed a < 2 ^ 127 -> try_to_i128 a = Val (Ok (signed a))).
Proof.
  intros H. destruct (try_signed_exact a H) as (-> & -> & -> & -> & ->).
  do 4 (split; [intros D; f_equal; apply pick_signed; auto; lia|]). intros D; f_equal; apply pick_signed; auto; lia.
Qed.

Lemma try_signed_refuted :
  (exists a v, wf a /\ try_to_i8 a = Val (Ok v) /\ v <> signed a) /\
  (exists a v, wf a /\ try_to_i128 a = Val (Ok v) /\ v <> signed a) /\
  (exists a e, wf a /\ -128 <= signed a < 128 /\ try_to_i8 a = Val (Err e)).
Proof.
  split; [|split].
  - exists (mk_apint 16 [200]), (-56). split; [wf_now|]. split; [vm_compute; reflexivity|vm_compute; discriminate].
  - exists (mk_apint 129 [0; 9223372036854775808; 0]), (- 2 ^ 127).
    split; [wf_now|]. split; [vm_compute; reflexivity|vm_compute; discriminate].
  - exists (mk_apint 16 [65535]), (ValueUnrepresentable (mk_apint 16 [65535]) PI8).
    split; [wf_now|]. split; [vm_compute; split; [discriminate|reflexivity]|vm_compute; reflexivity].
Qed.
