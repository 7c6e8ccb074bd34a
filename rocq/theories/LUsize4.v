(** Proofs about parsing on a machine whose [usize] is small. *)
From Verif Require Export LUsize3 SpecParse LSerial LSerial2.

Lemma z_from_iter_eq M checks ds : usize_bound M ->
  z_from_iter M checks ds = if 64 * Z.of_nat (length ds) <? M then from_iter ds else Stop (too_wide checks).
Proof.
  intros HM. destruct (Z.ltb_spec (64 * Z.of_nat (length ds)) M); [now apply z_from_iter_fit|now apply z_from_iter_stop].
Qed.

Lemma fill_iff M n x : usize_bound M -> 64 * (n - 1) < x <= 64 * n -> (64 * n < M <-> x <= M - 64).
Proof. intros HM H. destruct (usize_bound_64 M HM) as (k & -> & Hk). lia. Qed.

Lemma z_bitwise M checks v bits : usize_bound M -> v <> [] -> 0 < bits < 64 -> bits <= 8 -> 64 mod bits = 0 ->
  below (2 ^ bits) v ->
  z_from_bitwise_digits M checks v bits =
  if bits * Z.of_nat (length v) <=? M - 64 then from_bitwise_digits v bits else Stop (too_wide checks).
Proof.
  intros HM Hne Hb Hb8 Hm Hc. unfold z_from_bitwise_digits, from_bitwise_digits. rewrite (nonempty_eqb v Hne).
  destruct (Z.leb_spec bits 8); [|lia]. rewrite Hm. cbn [negb andb Z.eqb].
  rewrite forallb_below by (auto; lia). cbn [negb].
  assert (Hdiv : bits * (64 / bits) = 64) by (pose proof (Z.div_mod 64 bits); lia).
  assert (Hq : 0 < 64 / bits) by nia.
  unfold chunks. destruct (Nat.eqb_spec (Z.to_nat (64 / bits)) 0); [lia|]. cbn [bind].
  destruct (chunks_value bits (Z.to_nat (64 / bits)) (length v) v) as (data & E & Hd & Hu & Hl); auto; [lia|].
  rewrite E. cbn [bind]. rewrite z_from_iter_eq by auto.
  pose proof (fill_iff M (Z.of_nat (length data)) _ HM Hl) as F.
  destruct (Z.ltb_spec (64 * Z.of_nat (length data)) M), (Z.leb_spec (bits * Z.of_nat (length v)) (M - 64)); try reflexivity; lia.
Qed.

Lemma z_inexact M checks v bits : usize_bound M -> v <> [] -> 0 < bits <= 8 -> 64 mod bits <> 0 ->
  below (2 ^ bits) v ->
  z_from_inexact_bitwise_digits M checks v bits =
  if bits * Z.of_nat (length v) <=? M - 64 - (if checks then 1 else 0)
  then from_inexact_bitwise_digits v bits else Stop (too_wide checks).
Proof.
  intros HM Hne Hb Hm Hc. unfold z_from_inexact_bitwise_digits, from_inexact_bitwise_digits. rewrite (nonempty_eqb v Hne).
  destruct (Z.leb_spec bits 8); [|lia]. destruct (Z.eqb_spec (64 mod bits) 0); [contradiction|]. cbn [negb andb].
  rewrite forallb_below by (auto; lia). cbn [negb].
  destruct (inexact_fold bits v Hb Hc [] ([], 0, 0)) as ([[data d] dbits] & E & Hi).
  { cbn [inexact_inv]. change (2 ^ 0) with 1. cbn [length app le_value]. rewrite uval_one.
    repeat split; try constructor; lia. }
  rewrite E. cbn [bind]. rewrite app_nil_l in Hi. destruct Hi as (Hd & Hdb & Hd0 & Hlen & Hu).
  pose proof (nonempty_len v Hne) as Lv.
  assert (R : forall x y,
    (let! p := usz M checks x in let! _ := usz M checks (p + 64) in (y : outcome apint)) =
    if checks && (M <=? x + 64) then Trap else y).
  { intros x y. destruct (usize_bound_64 M HM) as (k & EM & Hk). unfold usz. destruct checks; cbn [andb].
    - destruct (Z.ltb_spec x M); cbn [bind].
      + destruct (Z.ltb_spec (x + 64) M), (Z.leb_spec M (x + 64)); try reflexivity; lia.
      + destruct (Z.leb_spec M (x + 64)); [reflexivity|lia].
    - destruct (x <? M); cbn [bind]; destruct (_ <? M); reflexivity. }
  rewrite R. rewrite (Z.mul_comm _ bits).
  assert (T : forall ds, 64 * (Z.of_nat (length ds) - 1) < bits * Z.of_nat (length v) <= 64 * Z.of_nat (length ds) ->
    (if checks && (M <=? bits * Z.of_nat (length v) + 64) then Trap
     else (let! r := z_from_iter M checks ds in unwrap r)) =
    if bits * Z.of_nat (length v) <=? M - 64 - (if checks then 1 else 0)
    then (let! r := from_iter ds in unwrap r) else Stop (too_wide checks)).
  { intros ds Hl. pose proof (fill_iff M _ _ HM Hl) as F. rewrite z_from_iter_eq by auto.
    set (x := bits * Z.of_nat (length v)) in *. destruct checks; cbn [andb too_wide].
    - destruct (Z.leb_spec M (x + 64)), (Z.leb_spec x (M - 64 - 1)); try lia; [reflexivity|].
      destruct (Z.ltb_spec (64 * Z.of_nat (length ds)) M); [reflexivity|lia].
    - rewrite Z.sub_0_r. destruct (Z.ltb_spec (64 * Z.of_nat (length ds)) M), (Z.leb_spec x (M - 64)); try lia; reflexivity. }
  destruct (Z.ltb_spec 0 dbits) as [Hpos|Hz].
  - destruct (Z.ltb_spec dbits 64); [|lia]. cbn [bind]. apply T. rewrite app_length. cbn [length]. lia.
  - cbn [bind]. apply T. lia.
Qed.

Lemma logarithm_nonneg r g : 0 < r -> rounded_logarithm r g -> 0 <= g.
Proof.
  intros Hr [_ Hg]. destruct (Z.leb_spec 0 g) as [L|L]; auto. rewrite (Z.pow_neg_r 2 g) in Hg by exact L.
  assert (X : 0 < r ^ 8192) by (apply Z.pow_pos_nonneg; clear -Hr; lia).
  revert X Hg. generalize (r ^ 8192). clear. intros x. lia.
Qed.
Lemma z_radix M checks v r g : usize_bound M -> 2 <= r <= 36 -> radix_is_power_of_two r = false -> v <> [] -> below r v ->
  2 * Z.of_nat (length v) < M -> rounded_logarithm r g ->
  z_from_radix_digits M checks v r = if g * (Z.of_nat (length v) + 1) <? M then from_radix_digits v r else Panic.
Proof.
  intros HM Hr Hpow Hne Hc Hlen Hg. unfold z_from_radix_digits, from_radix_digits. rewrite (nonempty_eqb v Hne), Hpow. cbn [negb andb].
  assert (Fb : forallb (is_valid_byte r) v = true).
  { apply forallb_forall. intros c Hin. unfold is_valid_byte. apply Z.ltb_lt. unfold below in Hc.
    rewrite Forall_forall in Hc. specialize (Hc c Hin). lia. }
  rewrite Fb. cbn [negb]. unfold usize_sub. destruct (Z.leb_spec 2 r); [|lia]. cbn [bind].
  destruct (table_spec r Hr) as (h & E & Hh & Hb). rewrite E. cbn [bind].
  assert (Hg0 : 0 <= g) by (apply (logarithm_nonneg r); [clear - Hr; lia|exact Hg]).
  pose proof (logarithm_unique r h g Hh Hg ltac:(clear - Hb; lia) Hg0) as Eh. subst h. clear Hg Hh.
  pose proof (nonempty_len v Hne) as Lv. rewrite usz_fit by lia. cbn [bind].
  destruct (Z.ltb_spec (g * (Z.of_nat (length v) + 1)) M) as [L|L]; cbn [negb]; [|reflexivity].
  destruct (radix_cases r Hr) as [(k & Hk & -> & _)|(_ & _ & base & p & Hgb & Hp & Eb & Hpp & _)].
  { exfalso. assert (k = 1 \/ k = 2 \/ k = 3 \/ k = 4 \/ k = 5) as [->|[->|[->|[->| ->]]]] by lia; discriminate Hpow. }
  rewrite Hgb. cbn [bind]. destruct (p =? 0); [reflexivity|].
  destruct (_ <? _); [reflexivity|]. set (i := Z.to_nat _).
  destruct (fold_radix r (firstn i v)) as [f| |]; cbn [bind]; [|reflexivity|reflexivity].
  destruct (negb _); [reflexivity|].
  destruct (chunks (Z.to_nat p) (skipn i v)) as [cs| |] eqn:Ec; cbn [bind]; [|reflexivity|reflexivity].
  assert (Hcs : Forall (fun c => Z.of_nat (length c) <= p /\ below r c) cs).
  { unfold chunks in Ec. destruct (Nat.eqb_spec (Z.to_nat p) 0); [lia|]. apply Val_inj in Ec. subst cs.
    apply Forall_forall. intros c Hcin. apply chunks_fuel_len in Hcin as [H1 H2]. split; [lia|].
    apply Forall_forall. intros x Hx. unfold below in Hc. rewrite Forall_forall in Hc. apply Hc.
    rewrite <- (firstn_skipn i v). apply in_or_app. right. apply H2, Hx. }
  rewrite (chunk_loop_spec r p) by (auto; lia). cbn [bind].
  rewrite z_from_iter_fit; auto. destruct (usize_bound_64 M HM) as (k & EM & Hk).
  unfold tail_data. destruct cs; [cbn; lia|]. destruct (f =? 0); cbn; lia.
Qed.

Lemma pow2_small k : 2 <= 2 ^ k <= 36 -> 1 <= k <= 5.
Proof.
  intros Hr. destruct (Z.ltb_spec k 1).
  - destruct (Z.ltb_spec k 0); [rewrite Z.pow_neg_r in Hr by lia; lia|]. assert (k = 0) by lia. subst. cbn in Hr. lia.
  - destruct (Z.ltb_spec k 6); [lia|]. pose proof (Z.pow_le_mono_r 2 6 k). lia.
Qed.

Lemma z_parse M checks r s : usize_bound M -> 2 <= r <= 36 -> 2 * Z.of_nat (length s) < M ->
  (~ numeral r s -> z_from_str_radix M checks r s = from_str_radix r s) /\
  (numeral r s -> forall k, r = 2 ^ k ->
     z_from_str_radix M checks r s =
     if k * digits_in s <=? M - 64 - (if checks && ((k =? 3) || (k =? 5)) then 1 else 0)
     then from_str_radix r s else Stop (too_wide checks)) /\
  (numeral r s -> (forall k, r <> 2 ^ k) -> forall g, rounded_logarithm r g ->
     z_from_str_radix M checks r s =
     if g * (digits_in s + 1) <? M then from_str_radix r s else Panic).
Proof.
  intros HM Hr Hs.
  assert (A : numeral r s -> string_digits s <> [] /\ below r (string_digits s) /\
    Z.of_nat (length (string_digits s)) = digits_in s /\
    z_from_str_radix M checks r s =
    (let v := string_digits s in
     let! b := exact_bits_per_digit r in
     let! result :=
       match b with
       | Some bits => if 64 mod bits =? 0 then z_from_bitwise_digits M checks (rev v) bits
                      else z_from_inexact_bitwise_digits M checks (rev v) bits
       | None => z_from_radix_digits M checks v r
       end in
     Val (Ok result))).
  { intros Hn. destruct (parse_accept r s Hr Hn) as (Hne & Hb & _). split; [auto|]. split; [auto|].
    destruct Hn as (Hsne & Hh & Hl & Hf). apply forallb_valid in Hf.
    pose proof (normalize_spec r s s Hr) as Es. rewrite Hf in Es.
    split; [now apply normalize_length in Es|].
    unfold z_from_str_radix. destruct s as [|b t]; [congruence|]. cbn [hd] in Hh.
    destruct (Z.eqb_spec b 95); [contradiction|].
    rewrite (last_default (b :: t) 0 95) by discriminate.
    destruct (Z.eqb_spec (last (b :: t) 95) 95); [contradiction|]. rewrite Es. reflexivity. }
  split; [|split].
  - intros Hn. rewrite parse_reject by auto. assert (Nb : numeralb r s = false).
    { destruct (numeralb r s) eqn:E; [|reflexivity]. apply numeralb_iff in E. contradiction. }
    unfold z_from_str_radix. destruct s as [|b t]; [reflexivity|]. cbn [numeralb] in Nb.
    destruct (b =? 95); [reflexivity|]. destruct (last (b :: t) 0 =? 95); [reflexivity|]. cbn [negb andb] in Nb.
    rewrite normalize_spec by auto. rewrite Nb. reflexivity.
  - intros Hn k Ek. destruct (A Hn) as (Hne & Hb & Hd & ->).
    destruct (parse_accept r s Hr Hn) as (_ & _ & ->). cbv zeta.
    pose proof (pow2_small k ltac:(rewrite <- Ek; exact Hr)) as Hk.
    assert (E : exact_bits_per_digit r = Val (Some k)).
    { rewrite Ek. assert (k = 1 \/ k = 2 \/ k = 3 \/ k = 4 \/ k = 5) as [->|[->|[->|[->| ->]]]] by lia; reflexivity. }
    rewrite E. cbn [bind]. set (v := string_digits s) in *. rewrite Ek in Hb.
    assert (Hbr : below (2 ^ k) (rev v)) by (now apply Forall_rev). pose proof (rev_nonempty v Hne) as Hner.
    destruct (Z.eqb_spec (64 mod k) 0) as [E0|E0].
    + assert (X : (k =? 3) || (k =? 5) = false).
      { assert (k = 1 \/ k = 2 \/ k = 3 \/ k = 4 \/ k = 5) as [->|[->|[->|[->| ->]]]] by lia; try reflexivity; discriminate E0. }
      rewrite X, andb_false_r, Z.sub_0_r.
      rewrite z_bitwise by (auto; lia). rewrite rev_length, Hd. destruct (_ <=? _); reflexivity.
    + assert (X : (k =? 3) || (k =? 5) = true).
      { assert (k = 1 \/ k = 2 \/ k = 3 \/ k = 4 \/ k = 5) as [->|[->|[->|[->| ->]]]] by lia; try reflexivity;
        exfalso; apply E0; reflexivity. }
      rewrite X, andb_true_r. rewrite z_inexact by (auto; lia). rewrite rev_length, Hd. destruct (_ <=? _); reflexivity.
  - intros Hn Hk g Hg. destruct (A Hn) as (Hne & Hb & Hd & ->).
    destruct (parse_accept r s Hr Hn) as (_ & _ & ->). cbv zeta.
    destruct (radix_cases r Hr) as [(k & _ & E & _)|(E & Hp2 & _)]. { exfalso. exact (Hk k E). }
    rewrite E. cbn [bind]. pose proof (digits_in_le s).
    rewrite (z_radix M checks _ r g) by (auto; lia). rewrite Hd. destruct (_ <? M); reflexivity.
Qed.
