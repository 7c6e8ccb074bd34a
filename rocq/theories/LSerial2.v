(** Parsing, continued: characters, other radices, the entry point. *)
From Verif Require Export LSerial.

(** * Characters *)
Lemma char_value_range b d : char_value b = Some d -> 0 <= d < 36.
Proof.
  unfold char_value.
  destruct (Z.leb_spec 48 b), (Z.leb_spec b 57), (Z.leb_spec 97 b), (Z.leb_spec b 122), (Z.leb_spec 65 b), (Z.leb_spec b 90);
    cbn [andb]; intros E; try discriminate; injection E as <-; lia.
Qed.
Lemma normalize_byte_spec b : normalize_byte b =
  match char_value b with Some d => Some d | None => if b =? 95 then None else Some 255 end.
Proof.
  unfold normalize_byte, char_value.
  destruct ((48 <=? b) && (b <=? 57)); [reflexivity|]. destruct ((97 <=? b) && (b <=? 122)); [f_equal; lia|].
  destruct ((65 <=? b) && (b <=? 90)); [f_equal; lia|reflexivity].
Qed.
Lemma char_value_underscore : char_value 95 = None.
Proof. reflexivity. Qed.

Definition valid_byte (r b : Z) : bool :=
  match char_value b with Some d => d <? r | None => b =? 95 end.

Lemma normalize_spec r input bs : 2 <= r <= 36 ->
  normalize r input bs =
  if forallb (valid_byte r) bs then Ok (string_digits bs) else Err (InvalidStringRepr input r None).
Proof.
  intros Hr. induction bs as [|b t IH]; [reflexivity|]. cbn [normalize forallb string_digits].
  rewrite normalize_byte_spec. unfold valid_byte at 1. unfold is_valid_byte.
  destruct (char_value b) as [d|].
  - destruct (Z.ltb_spec d r); cbn [negb andb]; [|reflexivity]. rewrite IH. destruct (forallb (valid_byte r) t); reflexivity.
  - destruct (Z.eqb_spec b 95); cbn [andb]; [exact IH|]. destruct (Z.ltb_spec 255 r); [lia|reflexivity].
Qed.

Lemma valid_byte_iff r b : valid_byte r b = true <-> (b = 95 \/ exists d, char_value b = Some d /\ d < r).
Proof.
  unfold valid_byte. destruct (char_value b) as [d|] eqn:E.
  - rewrite Z.ltb_lt. split; [intros H; right; exists d; auto|]. intros [->|(d' & Hd & Hlt)].
    + rewrite char_value_underscore in E. discriminate.
    + injection Hd as <-. assumption.
  - rewrite Z.eqb_eq. split; [auto|]. intros [->|(d' & Hd & _)]; [reflexivity|discriminate].
Qed.
Lemma forallb_valid r s :
  forallb (valid_byte r) s = true <-> Forall (fun b => b = 95 \/ exists d, char_value b = Some d /\ d < r) s.
Proof.
  rewrite forallb_forall, Forall_forall. split; intros H b Hin; [apply valid_byte_iff; auto|apply valid_byte_iff; auto].
Qed.

Lemma string_digits_below r s : forallb (valid_byte r) s = true -> below r (string_digits s).
Proof.
  induction s as [|b t IH]; cbn [forallb string_digits]; intros H; [constructor|].
  apply andb_true_iff in H as [Hb Ht]. unfold valid_byte in Hb. destruct (char_value b) as [d|] eqn:E; [|auto].
  constructor; [|exact (IH Ht)]. apply char_value_range in E. apply Z.ltb_lt in Hb. lia.
Qed.
Lemma string_digits_nonempty r s : forallb (valid_byte r) s = true -> s <> [] -> hd 95 s <> 95 -> string_digits s <> [].
Proof.
  destruct s as [|b t]; [congruence|]. cbn [forallb string_digits hd]. intros H _ Hb.
  apply andb_true_iff in H as [Hv _]. unfold valid_byte in Hv. destruct (char_value b); [discriminate|].
  apply Z.eqb_eq in Hv. contradiction.
Qed.

Definition numeralb (r : Z) (s : list Z) : bool :=
  match s with
  | [] => false
  | b :: _ => negb (b =? 95) && negb (last s 0 =? 95) && forallb (valid_byte r) s
  end.
Lemma last_default {A} (s : list A) x y : s <> [] -> last s x = last s y.
Proof.
  induction s as [|b t IH]; [congruence|]. intros _. destruct t as [|c u]; [reflexivity|].
  cbn [last] in *. apply IH. discriminate.
Qed.
Lemma numeralb_iff r s : numeralb r s = true <-> numeral r s.
Proof.
  unfold numeralb, numeral. destruct s as [|b t].
  - split; [discriminate|intros (H & _); congruence].
  - rewrite !andb_true_iff, !negb_true_iff, !Z.eqb_neq, forallb_valid. cbn [hd].
    rewrite (last_default (b :: t) 95 0) by discriminate. split.
    + intros ((H1 & H2) & H3). split; [discriminate|auto].
    + intros (_ & H1 & H2 & H3). auto.
Qed.

(** * Radices *)
Lemma radix_cases r : 2 <= r <= 36 ->
  (exists k, 1 <= k <= 5 /\ r = 2 ^ k /\ exact_bits_per_digit r = Val (Some k)) \/
  (exact_bits_per_digit r = Val None /\ radix_is_power_of_two r = false /\
   exists base p, get_radix_base r = Val (base, p) /\ 0 < p /\ base = r ^ p /\ base <= 2 ^ 64 < base * r).
Proof.
  intros Hr.
  assert (C : In r (map Z.of_nat (seq 2 35))).
  { apply in_map_iff. exists (Z.to_nat r). split; [lia|]. apply in_seq. lia. }
  cbn [seq map] in C. repeat rewrite Nat2Z.inj_succ in C. cbn [Z.of_nat] in C.
  repeat (destruct C as [<-|C]; [
    first [ left;
            first [ exists 1; split; [lia|split; reflexivity] | exists 2; split; [lia|split; reflexivity]
                  | exists 3; split; [lia|split; reflexivity] | exists 4; split; [lia|split; reflexivity]
                  | exists 5; split; [lia|split; reflexivity]]
          | right; split; [reflexivity|split; [reflexivity|]]; eexists; eexists; split; [reflexivity|];
            split; [reflexivity|]; split; [reflexivity|]; split; [vm_compute; discriminate|reflexivity] ] |]).
  destruct C.
Qed.

(** * Other radices *)
Lemma fold_radix_gen r p l k acc : 2 <= r -> r ^ p <= 2 ^ 64 -> 0 <= k -> k + Z.of_nat (length l) <= p ->
  0 <= acc < r ^ k -> below r l ->
  fold_o (fun acc d => let! m := u64_mul acc r in u64_add m d) l acc =
  Val (acc * r ^ Z.of_nat (length l) + radix_value r l).
Proof.
  intros Hr Hp. revert k acc. induction l as [|c t IH]; intros k acc Hk Hl Ha Hc.
  - cbn [fold_o length]. unfold radix_value. cbn [fold_left]. change (r ^ Z.of_nat 0) with 1. f_equal. lia.
  - apply Forall_cons_iff in Hc as [Hc0 Ht]. cbn [fold_o]. cbn [length] in Hl. rewrite Nat2Z.inj_succ in Hl.
    assert (Pk : 0 < r ^ k) by (apply Z.pow_pos_nonneg; lia).
    assert (Hlt : 0 <= acc * r + c < r ^ (k + 1)) by (rewrite Z.pow_add_r, Z.pow_1_r by lia; nia).
    assert (r ^ (k + 1) <= B).
    { rewrite B_pow. eapply Z.le_trans; [|exact Hp]. apply Z.pow_le_mono_r; lia. }
    unfold u64_mul. destruct (Z.ltb_spec (acc * r) B); [|lia]. cbn [bind].
    unfold u64_add. destruct (Z.ltb_spec (acc * r + c) B); [|lia]. cbn [bind].
    rewrite (IH (k + 1)); [|lia|lia|lia|assumption].
    f_equal. rewrite radix_value_cons. cbn [length]. rewrite Nat2Z.inj_succ, Z.pow_succ_r by lia. lia.
Qed.
Lemma fold_radix_spec r p l : 2 <= r -> r ^ p <= 2 ^ 64 -> Z.of_nat (length l) <= p -> below r l ->
  fold_radix r l = Val (radix_value r l) /\ dok (radix_value r l).
Proof.
  intros Hr Hp Hl Hc. split.
  - unfold fold_radix. rewrite (fold_radix_gen r p l 0 0); auto; try lia.
  - pose proof (radix_value_bound r l ltac:(lia) Hc) as [H0 H1]. unfold dok. split; [assumption|].
    rewrite B_pow. eapply Z.lt_le_trans; [exact H1|]. eapply Z.le_trans; [|exact Hp]. apply Z.pow_le_mono_r; lia.
Qed.

Lemma chunks_fuel_len fuel n v c : In c (chunks_fuel fuel n v) -> (length c <= n)%nat /\ incl c v.
Proof.
  revert v. induction fuel as [|f IH]; intros v Hin.
  - destruct v; destruct Hin.
  - destruct v as [|x t]; [destruct Hin|]. cbn [chunks_fuel] in Hin. destruct Hin as [<-|Hin].
    + split; [apply firstn_le_length|]. intros y Hy. rewrite <- (firstn_skipn n (x :: t)). apply in_or_app. auto.
    + destruct (IH _ Hin) as [H1 H2]. split; [assumption|]. intros y Hy.
      rewrite <- (firstn_skipn n (x :: t)). apply in_or_app. right. auto.
Qed.

Definition tail_data (first : Z) (cs : list (list Z)) : list Z :=
  match cs with [] => [first] | _ => if first =? 0 then [first] else [first; 0] end.

Lemma chunk_loop_done r p cs data : 2 <= r -> r ^ p <= 2 ^ 64 -> last_is_not_zero data = false ->
  Forall (fun c => Z.of_nat (length c) <= p /\ below r c) cs ->
  fold_o (radix_chunk_step r) cs data = Val data.
Proof.
  intros Hr Hp Hz H. induction H as [|c t [Hc1 Hc2] Ht IH]; [reflexivity|].
  cbn [fold_o]. unfold radix_chunk_step at 1. rewrite Hz.
  destruct (fold_radix_spec r p c Hr Hp Hc1 Hc2) as [-> _]. cbn [bind]. exact IH.
Qed.
Lemma chunk_loop_spec r p cs first : 2 <= r -> r ^ p <= 2 ^ 64 ->
  Forall (fun c => Z.of_nat (length c) <= p /\ below r c) cs ->
  fold_o (radix_chunk_step r) cs [first] = Val (tail_data first cs).
Proof.
  intros Hr Hp H. destruct cs as [|c t]; [reflexivity|]. apply Forall_cons_iff in H as [[Hc1 Hc2] Ht].
  cbn [fold_o tail_data]. unfold radix_chunk_step at 1. cbn [last_is_not_zero rev app].
  destruct (fold_radix_spec r p c Hr Hp Hc1 Hc2) as [E _].
  destruct (Z.eqb_spec first 0) as [->|N].
  - change (last_is_not_zero [0]) with false. cbv iota. rewrite E. cbn [bind]. now apply (chunk_loop_done r p).
  - replace (last_is_not_zero [first]) with true.
    2:{ unfold last_is_not_zero. cbn [rev app]. destruct (Z.eqb_spec first 0); [contradiction|reflexivity]. }
    rewrite E. cbn [bind]. apply (chunk_loop_done r p); auto.
Qed.

Lemma from_radix_spec v r base p : v <> [] -> 2 <= r -> radix_is_power_of_two r = false ->
  get_radix_base r = Val (base, p) -> 0 < p -> r ^ p <= 2 ^ 64 -> below r v ->
  let i := (Z.of_nat (length v) - 1) mod p + 1 in
  exists c, from_radix_digits v r = Val c /\
    is_apint c (if (Z.of_nat (length v) <=? p) || (radix_value r (firstn (Z.to_nat i) v) =? 0) then 64 else 128)
      (radix_value r (firstn (Z.to_nat i) v)).
Proof.
  intros Hne Hr Hpow Hbase Hp Hpp Hc i. unfold from_radix_digits. rewrite (nonempty_eqb v Hne), Hpow. cbn [negb andb].
  assert (Fb : forallb (is_valid_byte r) v = true).
  { apply forallb_forall. intros c Hin. unfold is_valid_byte. apply Z.ltb_lt. unfold below in Hc.
    rewrite Forall_forall in Hc. specialize (Hc c Hin). lia. }
  rewrite Fb, Hbase. cbn [negb bind]. destruct (Z.eqb_spec p 0) as [Hp0|_]; [lia|].
  pose proof (nonempty_len v Hne) as Lv. set (n := Z.of_nat (length v)) in *.
  assert (Hi : (if n mod p =? 0 then p else n mod p) = i).
  { subst i. clear - Hp Lv. pose proof (Z.mod_pos_bound n p Hp) as Hb. pose proof (Z.div_mod n p ltac:(lia)) as D.
    destruct (Z.eqb_spec (n mod p) 0) as [E|E].
    - replace ((n - 1) mod p) with (p - 1); [lia|]. apply Z.mod_unique with (n / p - 1); lia.
    - replace ((n - 1) mod p) with (n mod p - 1); [lia|]. apply Z.mod_unique with (n / p); lia. }
  rewrite Hi.
  assert (Hir : 0 < i <= p) by (subst i; pose proof (Z.mod_pos_bound (n - 1) p Hp); lia).
  assert (Hin : i <= n).
  { subst i. clear - Lv Hp. assert (0 < n) by lia. pose proof (Z.mod_le (n - 1) p ltac:(lia) Hp). lia. }
  destruct (Z.ltb_spec n i); [lia|].
  destruct (fold_radix_spec r p (firstn (Z.to_nat i) v)) as [E Hd]; auto.
  { rewrite firstn_length_le by lia. lia. } { now apply below_firstn. }
  rewrite E. cbn [bind]. rewrite skipn_length.
  assert (Htail : Z.of_nat (length v - Z.to_nat i) mod p = 0).
  { replace (Z.of_nat (length v - Z.to_nat i)) with (n - i) by lia. subst i.
    replace (n - ((n - 1) mod p + 1)) with ((n - 1) - (n - 1) mod p) by lia.
    replace (n - 1 - (n - 1) mod p) with (((n - 1) / p) * p) by (rewrite (Z.mod_eq (n - 1) p) by lia; lia).
    apply Z.mod_mul. lia. }
  rewrite Htail. cbn [Z.eqb negb]. unfold chunks. destruct (Nat.eqb_spec (Z.to_nat p) 0); [lia|]. cbn [bind].
  set (tail := skipn (Z.to_nat i) v). set (first := radix_value r (firstn (Z.to_nat i) v)) in *.
  rewrite (chunk_loop_spec r p); auto.
  2:{ apply Forall_forall. intros c Hcin. apply chunks_fuel_len in Hcin as [H1 H2]. split; [lia|].
    apply Forall_forall. intros x Hx. unfold below in Hc. rewrite Forall_forall in Hc. apply Hc.
    rewrite <- (firstn_skipn (Z.to_nat i) v). apply in_or_app. right. apply H2, Hx. }
  cbn [bind].
  assert (Hcs : (Z.of_nat (length v) <=? p) = match chunks_fuel (length tail) (Z.to_nat p) tail with [] => true | _ => false end).
  { fold n. destruct (Z.leb_spec n p) as [L|L].
    - assert (i = n).
      { subst i. rewrite Z.mod_small by lia. lia. }
      subst tail. rewrite skipn_all2 by lia. reflexivity.
    - subst tail. destruct (skipn (Z.to_nat i) v) as [|x t] eqn:Es; [|reflexivity].
      apply (f_equal (@length Z)) in Es. rewrite skipn_length in Es. cbn [length] in Es. lia. }
  fold n in Hcs. rewrite Hcs. unfold tail_data.
  destruct (chunks_fuel (length tail) (Z.to_nat p) tail) as [|c0 cs0]; cbn [orb].
  - destruct (from_iter_is [first]) as (c & Ec & Hcc); [discriminate|constructor; auto|].
    rewrite uval_one in Hcc. exists c. auto.
  - destruct (Z.eqb_spec first 0).
    + destruct (from_iter_is [first]) as (c & Ec & Hcc); [discriminate|constructor; auto|].
      rewrite uval_one in Hcc. exists c. auto.
    + destruct (from_iter_is [first; 0]) as (c & Ec & Hcc); [discriminate| |].
      { constructor; [assumption|]. constructor; [split; [lia|apply B_pos]|constructor]. }
      rewrite uval_cons, uval_one in Hcc. replace (first + B * 0) with first in Hcc by lia. exists c. auto.
Qed.

(** * The entry point *)
Lemma parse_reject r s : 2 <= r <= 36 -> ~ numeral r s ->
  from_str_radix r s = Val (Err (InvalidStringRepr s r None)).
Proof.
  intros Hr Hn. assert (Nb : numeralb r s = false).
  { destruct (numeralb r s) eqn:E; [|reflexivity]. apply numeralb_iff in E. contradiction. }
  unfold from_str_radix. destruct s as [|b t]; [reflexivity|]. cbn [numeralb] in Nb.
  destruct (b =? 95); [reflexivity|]. destruct (last (b :: t) 0 =? 95); [reflexivity|]. cbn [negb andb] in Nb.
  rewrite normalize_spec by auto. rewrite Nb. reflexivity.
Qed.

Lemma parse_accept r s : 2 <= r <= 36 -> numeral r s ->
  string_digits s <> [] /\ below r (string_digits s) /\
  from_str_radix r s =
    (let v := string_digits s in
     let! b := exact_bits_per_digit r in
     let! result :=
       match b with
       | Some bits => if 64 mod bits =? 0 then from_bitwise_digits (rev v) bits else from_inexact_bitwise_digits (rev v) bits
       | None => from_radix_digits v r
       end in
     Val (Ok result)).
Proof.
  intros Hr Hn. pose proof Hn as (Hne & Hh & Hl & Hf). apply forallb_valid in Hf.
  split; [apply (string_digits_nonempty r); auto|]. split; [now apply string_digits_below|].
  unfold from_str_radix. destruct s as [|b t]; [congruence|]. cbn [hd] in Hh.
  destruct (Z.eqb_spec b 95); [contradiction|].
  rewrite (last_default (b :: t) 0 95) by discriminate.
  destruct (Z.eqb_spec (last (b :: t) 95) 95); [contradiction|].
  rewrite normalize_spec by auto. rewrite Hf. reflexivity.
Qed.

Lemma rev_nonempty {A} (l : list A) : l <> [] -> rev l <> [].
Proof. intros H E. apply H. rewrite <- (rev_involutive l), E. reflexivity. Qed.

Lemma parse_pow2 k s : 1 <= k <= 5 -> numeral (2 ^ k) s ->
  exists c, from_str_radix (2 ^ k) s = Val (Ok c) /\
    is_apint c (64 * ((k * Z.of_nat (length (string_digits s)) + 63) / 64)) (string_value (2 ^ k) s).
Proof.
  intros Hk Hn. assert (Hr : 2 <= 2 ^ k <= 36).
  { assert (k = 1 \/ k = 2 \/ k = 3 \/ k = 4 \/ k = 5) as [->|[->|[->|[->| ->]]]] by lia; cbn; lia. }
  destruct (parse_accept (2 ^ k) s Hr Hn) as (Hne & Hb & ->). cbv zeta.
  assert (E : exact_bits_per_digit (2 ^ k) = Val (Some k)).
  { assert (k = 1 \/ k = 2 \/ k = 3 \/ k = 4 \/ k = 5) as [->|[->|[->|[->| ->]]]] by lia; reflexivity. }
  rewrite E. cbn [bind]. set (v := string_digits s) in *.
  assert (Hbr : below (2 ^ k) (rev v)) by (now apply Forall_rev). pose proof (rev_nonempty v Hne) as Hner.
  unfold string_value. fold v. rewrite <- le_rev, <- rev_length.
  destruct (Z.eqb_spec (64 mod k) 0).
  - destruct (from_bitwise_spec (rev v) k) as (c & Ec & Hc); auto; try lia. rewrite Ec. cbn [bind]. exists c. auto.
  - destruct (from_inexact_spec (rev v) k) as (c & Ec & Hc); auto; try lia. rewrite Ec. cbn [bind]. exists c. auto.
Qed.

(** What the code does for radices that are not powers of two: only the first
    [i] digits count, where [i] is the number of digits before the chunks of
    [p] digits. *)
Lemma parse_other r s : 2 <= r <= 36 -> (forall k, r <> 2 ^ k) -> numeral r s ->
  let n := Z.of_nat (length (string_digits s)) in
  exists c p i, from_str_radix r s = Val (Ok c) /\
    0 < p /\ r ^ p <= 2 ^ 64 < r ^ (p + 1) /\ i = (n - 1) mod p + 1 /\
    is_apint c (if (n <=? p) || (radix_value r (firstn (Z.to_nat i) (string_digits s)) =? 0) then 64 else 128)
      (radix_value r (firstn (Z.to_nat i) (string_digits s))).
Proof.
  intros Hr Hk Hn n. destruct (parse_accept r s Hr Hn) as (Hne & Hb & ->). cbv zeta.
  destruct (radix_cases r Hr) as [(k & _ & E & _)|(E & Hp2 & base & p & Hg & Hp & -> & Hle & Hlt)].
  { exfalso. exact (Hk k E). }
  rewrite E. cbn [bind].
  destruct (from_radix_spec (string_digits s) r (r ^ p) p) as (c & Ec & Hc); auto; try lia. rewrite Ec. cbn [bind].
  exists c, p, ((n - 1) mod p + 1). split; [reflexivity|]. split; [assumption|]. split.
  - rewrite Z.pow_add_r, Z.pow_1_r by lia. lia.
  - split; [reflexivity|]. exact Hc.
Qed.

(** The part of C34 that holds: strings of digits fitting one word. *)
Lemma parse_other_partial r s : 2 <= r <= 36 -> numeral r s -> r ^ Z.of_nat (length (string_digits s)) <= 2 ^ 64 ->
  exists c, from_str_radix r s = Val (Ok c) /\ is_apint c 64 (string_value r s).
Proof.
  intros Hr Hn Hle. destruct (radix_cases r Hr) as [(k & Hk & -> & _)|(E & _)].
  - destruct (parse_pow2 k s Hk Hn) as (c & Ec & Hc). exists c. split; [exact Ec|].
    destruct (parse_accept (2 ^ k) s Hr Hn) as (Hne & _). apply nonempty_len in Hne.
    rewrite <- Z.pow_mul_r in Hle by lia. apply Z.pow_le_mono_r_iff in Hle; [|lia|lia].
    rewrite (ceil_unique _ 1) in Hc by nia. exact Hc.
  - destruct (parse_other r s Hr) as (c & p & i & Ec & Hp & (Hp1 & Hp2) & Hi & Hc); auto.
    { intros k ->. assert (k = 1 \/ k = 2 \/ k = 3 \/ k = 4 \/ k = 5) as H.
      { destruct (Z.ltb_spec k 1).
        - destruct (Z.ltb_spec k 0); [rewrite Z.pow_neg_r in Hr by lia; lia|]. assert (k = 0) by lia. subst. cbn in Hr. lia.
        - destruct (Z.ltb_spec k 6); [lia|]. pose proof (Z.pow_le_mono_r 2 6 k). lia. }
      destruct H as [->|[->|[->|[->| ->]]]]; discriminate. }
    exists c. split; [exact Ec|]. destruct (parse_accept r s Hr Hn) as (Hne & _). apply nonempty_len in Hne.
    assert (Hnp : Z.of_nat (length (string_digits s)) <= p).
    { assert (Z.of_nat (length (string_digits s)) < p + 1); [|lia]. apply (Z.pow_lt_mono_r_iff r); lia. }
    assert (i = Z.of_nat (length (string_digits s))) by (rewrite Hi, Z.mod_small by lia; lia).
    destruct (Z.leb_spec (Z.of_nat (length (string_digits s))) p); [|lia]. cbn [orb] in Hc.
    unfold string_value. rewrite firstn_all2 in Hc by lia. exact Hc.
Qed.

Lemma parse_other_refuted : exists s, numeral 10 s /\
  forall c, from_str_radix 10 s = Val (Ok c) -> unsigned c <> string_value 10 s.
Proof.
  (* 10^19, the shortest decimal string with two chunks *)
  exists (49 :: repeat 48 19). split.
  - apply numeralb_iff. reflexivity.
  - intros c E. vm_compute in E. injection E as <-. vm_compute. discriminate.
Qed.

Lemma parse_decide r s : 2 <= r <= 36 ->
  (numeral r s /\ exists c, from_str_radix r s = Val (Ok c) /\ wf c) \/
  (~ numeral r s /\ from_str_radix r s = Val (Err (InvalidStringRepr s r None))).
Proof.
  intros Hr. destruct (numeralb r s) eqn:E.
  - left. apply numeralb_iff in E. split; [assumption|].
    destruct (radix_cases r Hr) as [(k & Hk & -> & _)|(E0 & _)].
    + destruct (parse_pow2 k s Hk E) as (c & Ec & Hc & _). exists c. auto.
    + destruct (parse_other r s Hr) as (c & p & i & Ec & _ & _ & _ & Hc & _); [|assumption|exists c; auto].
      intros k ->. assert (k = 1 \/ k = 2 \/ k = 3 \/ k = 4 \/ k = 5) as H.
      { destruct (Z.ltb_spec k 1).
        - destruct (Z.ltb_spec k 0); [rewrite Z.pow_neg_r in Hr by lia; lia|]. assert (k = 0) by lia. subst. cbn in Hr. lia.
        - destruct (Z.ltb_spec k 6); [lia|]. pose proof (Z.pow_le_mono_r 2 6 k). lia. }
      destruct H as [->|[->|[->|[->| ->]]]]; discriminate.
  - right. assert (~ numeral r s) by (intros H; apply numeralb_iff in H; congruence).
    split; [assumption|now apply parse_reject].
Qed.

Lemma radix_fact r s : 0 <= r < 256 ->
  radix_new r = (if (2 <=? r) && (r <=? 36) then Ok r else Err (InvalidRadix r)) /\
  from_str_radix_u8 r s = (if (2 <=? r) && (r <=? 36) then from_str_radix r s else Panic).
Proof.
  intros Hr. unfold from_str_radix_u8, radix_from, radix_new. destruct ((2 <=? r) && (r <=? 36)); split; reflexivity.
Qed.
