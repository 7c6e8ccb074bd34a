(** Proofs about the vectors of parsing: they never grow. *)
From Verif Require Export MParse SpecParse SpecStr Spec.
From Verif Require Import LBase LTemp1 LSerial LSerial2 LFacts.

(** * The logarithms *)
(** Squaring [n] times with 128 bits of precision, rounding up or down. *)
Fixpoint sq_up (n : nat) (a e : Z) : Z * Z :=
  match n with
  | O => (a, e)
  | S n => let p := a * a in let s := Z.max 0 (Z.log2 p - 128) in
           sq_up n ((p + (2 ^ s - 1)) / 2 ^ s) (2 * e + s)
  end.
Fixpoint sq_down (n : nat) (a e : Z) : Z * Z :=
  match n with
  | O => (a, e)
  | S n => let p := a * a in let s := Z.max 0 (Z.log2 p - 128) in sq_down n (p / 2 ^ s) (2 * e + s)
  end.
Lemma sq_up_spec n : forall a e x, 0 <= e -> 0 <= x <= a * 2 ^ e ->
  let (a', e') := sq_up n a e in x ^ (2 ^ Z.of_nat n) <= a' * 2 ^ e' /\ 0 <= e'.
Proof.
  induction n as [|n IH]; intros a e x He Hx; cbn [sq_up].
  - change (2 ^ Z.of_nat 0) with 1. rewrite Z.pow_1_r. lia.
  - set (p := a * a). set (s := Z.max 0 (Z.log2 p - 128)).
    assert (Hs : 0 <= s) by (unfold s; lia). clearbody s.
    replace (2 ^ Z.of_nat (S n)) with (2 * 2 ^ Z.of_nat n) by (rewrite Nat2Z.inj_succ, Z.pow_succ_r; lia).
    rewrite Z.pow_mul_r by lia. apply IH; [lia|].
    pose proof (Z.pow_pos_nonneg 2 s ltac:(lia) Hs) as Ps.
    pose proof (Z.pow_pos_nonneg 2 e ltac:(lia) He) as Pe.
    rewrite Z.pow_add_r, Z.mul_comm, (Z.mul_comm 2 e), Z.pow_mul_r by lia.
    set (q := (p + (2 ^ s - 1)) / 2 ^ s).
    assert (Hq : p <= q * 2 ^ s).
    { unfold q. pose proof (Z.div_mod (p + (2 ^ s - 1)) (2 ^ s) ltac:(lia)) as E.
      pose proof (Z.mod_pos_bound (p + (2 ^ s - 1)) (2 ^ s) Ps). lia. }
    rewrite !Z.pow_2_r. split; [nia|]. assert (x * x <= p * (2 ^ e * 2 ^ e)) by (unfold p; nia). nia.
Qed.
Lemma sq_down_spec n : forall a e x, 0 <= e -> 0 <= a -> a * 2 ^ e <= x ->
  let (a', e') := sq_down n a e in a' * 2 ^ e' <= x ^ (2 ^ Z.of_nat n) /\ 0 <= e'.
Proof.
  induction n as [|n IH]; intros a e x He Ha Hx; cbn [sq_down].
  - change (2 ^ Z.of_nat 0) with 1. rewrite Z.pow_1_r. lia.
  - set (p := a * a). set (s := Z.max 0 (Z.log2 p - 128)).
    assert (Hs : 0 <= s) by (unfold s; lia). clearbody s.
    replace (2 ^ Z.of_nat (S n)) with (2 * 2 ^ Z.of_nat n) by (rewrite Nat2Z.inj_succ, Z.pow_succ_r; lia).
    rewrite Z.pow_mul_r by lia.
    pose proof (Z.pow_pos_nonneg 2 s ltac:(lia) Hs) as Ps.
    pose proof (Z.pow_pos_nonneg 2 e ltac:(lia) He) as Pe.
    apply IH; [lia|apply Z.div_pos; [unfold p; nia|lia]|].
    rewrite Z.pow_add_r, (Z.mul_comm 2 e), Z.pow_mul_r by lia.
    assert (Hq : p / 2 ^ s * 2 ^ s <= p) by (rewrite Z.mul_comm; apply Z.mul_div_le; lia).
    rewrite !Z.pow_2_r. assert (p * (2 ^ e * 2 ^ e) <= x * x) by (unfold p; nia). nia.
Qed.

Definition log_check (r g : Z) : bool :=
  let (a, e) := sq_up 13 r 0 in let (b, f) := sq_down 13 r 0 in
  (e <=? g) && (a <=? 2 ^ (g - e)) && (f <=? g - 1) && (2 ^ (g - 1 - f) <? b).
Lemma log_check_spec r g : 0 <= r -> log_check r g = true -> rounded_logarithm r g.
Proof.
  intros Hr. unfold log_check. pose proof (sq_up_spec 13 r 0 r ltac:(lia) ltac:(lia)) as U.
  pose proof (sq_down_spec 13 r 0 r ltac:(lia) Hr ltac:(lia)) as D.
  destruct (sq_up 13 r 0) as [a e], (sq_down 13 r 0) as [b f].
  change (2 ^ Z.of_nat 13) with 8192 in *. rewrite !Bool.andb_true_iff. intros [[[H1 H2] H3] H4].
  apply Z.leb_le in H1, H2, H3. apply Z.ltb_lt in H4. unfold rounded_logarithm.
  destruct U as [U He], D as [D Hf].
  pose proof (Z.pow_pos_nonneg 2 e ltac:(lia) He). pose proof (Z.pow_pos_nonneg 2 f ltac:(lia) Hf).
  replace (2 ^ g) with (2 ^ (g - e) * 2 ^ e) by (rewrite <- Z.pow_add_r by lia; f_equal; lia).
  replace (2 ^ (g - 1)) with (2 ^ (g - 1 - f) * 2 ^ f) by (rewrite <- Z.pow_add_r by lia; f_equal; lia).
  split; nia.
Qed.

Fixpoint table_check (P : Z -> Z -> bool) (r : Z) (l : list Z) : bool :=
  match l with [] => true | g :: l => P r g && table_check P (r + 1) l end.
Lemma table_check_spec P l : forall r, table_check P r l = true ->
  forall i, (i < length l)%nat -> exists g, idx l i = Val g /\ P (r + Z.of_nat i) g = true.
Proof.
  induction l as [|g l IH]; intros r T i Hi; cbn [length] in Hi; [lia|].
  cbn [table_check] in T. apply Bool.andb_true_iff in T. destruct T as [T1 T]. destruct i as [|i].
  - exists g. split; [reflexivity|]. rewrite Z.add_0_r. exact T1.
  - destruct (IH (r + 1) T i ltac:(lia)) as (h & H1 & H2). exists h. split; [exact H1|].
    replace (r + Z.of_nat (S i)) with (r + 1 + Z.of_nat i) by lia. exact H2.
Qed.
Definition entry_check (r g : Z) : bool := log_check r g && (8192 <=? g) && (g <=? 42353).
Lemma entry_check_spec r g : 0 <= r -> entry_check r g = true -> rounded_logarithm r g /\ 8192 <= g <= 42353.
Proof.
  unfold entry_check. intros Hr. generalize (log_check_spec r g Hr). generalize (log_check r g) as c.
  generalize (rounded_logarithm r g) as Q. intros Q c K H. apply Bool.andb_true_iff in H as [H H3]. apply Bool.andb_true_iff in H as [H1 H2].
  apply Z.leb_le in H2, H3. split; [exact (K H1)|lia].
Qed.
Lemma table_checked : table_check entry_check 2 lb_2_36_i3f13 = true.
Proof. vm_compute. reflexivity. Qed.
Lemma table_spec r : 2 <= r <= 36 -> exists g, idx lb_2_36_i3f13 (Z.to_nat (r - 2)) = Val g /\
  rounded_logarithm r g /\ 8192 <= g <= 42353.
Proof.
  intros Hr. destruct (table_check_spec entry_check _ 2 table_checked (Z.to_nat (r - 2))) as (g & H1 & H2); [cbn; lia|].
  exists g. split; [exact H1|]. rewrite Z2Nat.id in H2 by lia. replace (2 + (r - 2)) with r in H2 by lia.
  apply entry_check_spec; [lia|exact H2].
Qed.
Lemma logarithm_unique r g h : rounded_logarithm r g -> rounded_logarithm r h -> 0 <= g -> 0 <= h -> g = h.
Proof.
  unfold rounded_logarithm. intros [A1 A2] [B1 B2] Hg Hh.
  destruct (Z.lt_trichotomy g h) as [L|[L|L]]; [exfalso| exact L|exfalso].
  - assert (2 ^ g <= 2 ^ (h - 1)) by (apply Z.pow_le_mono_r; lia). lia.
  - assert (2 ^ h <= 2 ^ (g - 1)) by (apply Z.pow_le_mono_r; lia). lia.
Qed.
(** No number of [m] digits needs more bits than estimated. *)
Lemma estimate_enough r g m : 2 <= r -> rounded_logarithm r g -> 8192 <= g -> 0 <= m ->
  r ^ m <= 2 ^ (g * (m + 1) / 8192).
Proof.
  intros Hr [_ Hg] H1 Hm. set (b := g * (m + 1) / 8192).
  assert (Hb : g * m <= 8192 * b).
  { unfold b. pose proof (Z.div_mod (g * (m + 1)) 8192 ltac:(lia)) as E.
    pose proof (Z.mod_pos_bound (g * (m + 1)) 8192 ltac:(lia)). lia. }
  assert (0 <= b) by nia. clearbody b.
  apply Z.lt_succ_r, Z.nle_gt. intros C. apply Z.le_succ_l in C.
  assert (X : (2 ^ b) ^ 8192 < (r ^ m) ^ 8192) by (apply Z.pow_lt_mono_l; [lia|split; [apply Z.pow_nonneg; lia|exact C]]).
  rewrite <- !Z.pow_mul_r in X by lia. rewrite (Z.mul_comm m), (Z.pow_mul_r r) in X by lia.
  assert (Y : (r ^ 8192) ^ m <= (2 ^ g) ^ m).
  { apply Z.pow_le_mono_l. split; [apply Z.pow_nonneg; lia|exact Hg]. }
  rewrite <- (Z.pow_mul_r 2) in Y by lia.
  assert (W : 2 ^ (g * m) <= 2 ^ (b * 8192)) by (apply Z.pow_le_mono_r; lia). lia.
Qed.

(** * The vectors *)
Lemma tbind_lift {A C : Type} (o : outcome A) (k : A -> counted C) : tbind (tlift o) k = bind o k.
Proof. destruct o as [a| |]; cbn; [|reflexivity|reflexivity]. destruct (k a) as [[c t]| |]; reflexivity. Qed.
Lemma tbind_val {A C : Type} (a : A) (k : A -> counted C) : tbind (Val (a, [])) k = k a.
Proof. cbn. destruct (k a) as [[c t]| |]; reflexivity. Qed.
Lemma push_room size v x : (length (items v) < capacity v)%nat -> sized_push size v x = Val (mk_vec (capacity v) (items v ++ [x]), []).
Proof. intros H. unfold sized_push. destruct (Nat.ltb_spec (length (items v)) (capacity v)); [reflexivity|lia]. Qed.

Lemma t_normalize_eq r input bytes : forall c ds, (length ds + length bytes <= c)%nat ->
  t_normalize r input bytes (mk_vec c ds) =
  Val (match normalize r input bytes with Ok v => Ok (mk_vec c (ds ++ v)) | Err e => Err e end, []).
Proof.
  induction bytes as [|b bytes IH]; intros c ds H; cbn [t_normalize normalize length] in *.
  - rewrite app_nil_r. reflexivity.
  - destruct (normalize_byte b) as [d|]; [|apply IH; lia].
    destruct (negb (is_valid_byte r d)); [reflexivity|].
    rewrite push_room by (cbn; lia). rewrite tbind_val. cbn [capacity items].
    rewrite IH by (rewrite app_length; cbn; lia).
    destruct (normalize r input bytes) as [v|e]; [|reflexivity]. rewrite <- app_assoc. reflexivity.
Qed.

Lemma t_inexact_eq bits v : 1 <= bits <= 8 -> forall c ds d dbits,
  0 <= dbits < 64 -> 64 * Z.of_nat (length ds) + dbits + bits * Z.of_nat (length v) <= 64 * Z.of_nat c ->
  t_fold (t_inexact_step bits) v (mk_vec c ds, d, dbits) =
  (let! (st, db) := fold_o (inexact_step bits) v (ds, d, dbits) in
   let '(ds', d') := st in
   Val ((mk_vec c ds', d', db), [])) /\
  (forall ds' d' db, fold_o (inexact_step bits) v (ds, d, dbits) = Val (ds', d', db) ->
     64 * Z.of_nat (length ds') + db = 64 * Z.of_nat (length ds) + dbits + bits * Z.of_nat (length v)).
Proof.
  intros Hb. induction v as [|x v IH]; intros c ds d dbits Hd Hc; cbn [t_fold fold_o length] in *.
  - split; [reflexivity|]. intros ds' d' db E. injection E as <- _ <-. lia.
  - unfold t_inexact_step at 1. unfold inexact_step at 1 3. rewrite tbind_lift.
    destruct (u64_shl x dbits) as [s| |]; cbn [bind]; [|split; [reflexivity|discriminate]..].
    destruct (Z.leb_spec 64 (dbits + bits)) as [L|L].
    + rewrite push_room by (cbn; lia). rewrite tbind_val. cbn [capacity items].
      unfold usize_sub. destruct (Z.leb_spec 64 (dbits + bits)); [|lia]. rewrite tbind_lift. cbn [bind].
      destruct (Z.leb_spec (dbits + bits - 64) bits); [|lia]. rewrite tbind_lift. cbn [bind].
      rewrite tbind_lift. destruct (u64_shr x (bits - (dbits + bits - 64))) as [d2| |]; cbn [bind]; [|split; [reflexivity|discriminate]..].
      destruct (IH c (ds ++ [Z.lor d s]) d2 (dbits + bits - 64)) as [E1 E2]; [lia|rewrite app_length; cbn [length]; lia|].
      rewrite tbind_lift. cbn [bind]. rewrite E1. split; [reflexivity|]. intros ds' d' db E. rewrite (E2 _ _ _ E), app_length. cbn [length]. lia.
    + destruct (IH c ds (Z.lor d s) (dbits + bits)) as [E1 E2]; [lia|lia|].
      rewrite tbind_lift. cbn [bind]. rewrite E1. split; [reflexivity|]. intros ds' d' db E. rewrite (E2 _ _ _ E). lia.
Qed.

Lemma t_from_inexact_eq v bits : 1 <= bits <= 8 ->
  t_from_inexact_bitwise_digits v bits =
  (let! a := from_inexact_bitwise_digits v bits in Val (a, request (8 * digits_for (bits * Z.of_nat (length v))))).
Proof.
  intros Hb. unfold t_from_inexact_bitwise_digits, from_inexact_bitwise_digits.
  destruct (negb (negb _ && _ && _)); [reflexivity|]. destruct (negb (forallb _ v)); [reflexivity|].
  replace (Z.to_nat ((Z.of_nat (length v) * bits + 64 - 1) / 64)) with (digits_for (bits * Z.of_nat (length v)))
    by (unfold digits_for; do 2 f_equal; lia).
  set (c := digits_for (bits * Z.of_nat (length v))).
  assert (Hc : bits * Z.of_nat (length v) <= 64 * Z.of_nat c).
  { unfold c, digits_for. pose proof (Z.div_mod (bits * Z.of_nat (length v) + 63) 64 ltac:(lia)) as E.
    pose proof (Z.mod_pos_bound (bits * Z.of_nat (length v) + 63) 64 ltac:(lia)).
    rewrite Z2Nat.id by (apply Z.div_pos; lia). lia. }
  clearbody c. unfold sized_with_capacity.
  destruct (t_inexact_eq bits v Hb c [] 0 0 ltac:(lia) ltac:(cbn [length]; lia)) as [E1 E2].
  unfold tbind at 1. cbn [bind]. rewrite E1.
  destruct (fold_o (inexact_step bits) v ([], 0, 0)) as [[[ds d] db]| |]; cbn [bind]; [|reflexivity|reflexivity].
  specialize (E2 _ _ _ eq_refl). cbn [length] in E2. rewrite tbind_val.
  destruct (Z.ltb_spec 0 db); [destruct (Z.ltb_spec db 64)|].
  - rewrite push_room by (cbn; lia). rewrite tbind_val. cbn [items bind].
    unfold tlift. destruct (let! r := from_iter (ds ++ [d]) in unwrap r); cbn; rewrite ?app_nil_r; reflexivity.
  - reflexivity.
  - rewrite tbind_lift. cbn [items bind].
    unfold tlift. destruct (let! r := from_iter ds in unwrap r); cbn; rewrite ?app_nil_r; reflexivity.
Qed.

Lemma t_radix_fold_eq r cs : forall c ds, (1 <= length ds <= 2)%nat -> (length ds = 2%nat -> last_is_not_zero ds = false) ->
  (1 <= c)%nat -> (cs <> [] -> (2 <= c)%nat) ->
  t_fold (t_radix_chunk_step r) cs (mk_vec c ds) = (let! ds' := fold_o (radix_chunk_step r) cs ds in Val (mk_vec c ds', [])).
Proof.
  induction cs as [|x cs IH]; intros c ds H1 H2 Hc Hcs; cbn [t_fold fold_o]; [reflexivity|].
  unfold t_radix_chunk_step at 1, radix_chunk_step at 1. cbn [items]. specialize (Hcs ltac:(discriminate)).
  destruct (last_is_not_zero ds) eqn:E.
  - assert (length ds = 1%nat) by (destruct (Nat.eq_dec (length ds) 2) as [N|N]; [discriminate (H2 N)|lia]).
    rewrite push_room by (cbn; lia). rewrite tbind_val. rewrite tbind_lift.
    destruct (fold_radix r x); cbn [bind]; [|reflexivity|reflexivity]. rewrite tbind_lift. cbn [bind capacity items]. apply IH; auto.
    + rewrite app_length. cbn [length]. lia.
    + intros _. unfold last_is_not_zero. rewrite rev_app_distr. reflexivity.
  - rewrite (tbind_lift (Val _)). cbn [bind]. rewrite tbind_lift.
    destruct (fold_radix r x); cbn [bind]; [|reflexivity|reflexivity]. rewrite tbind_lift. cbn [bind]. apply IH; auto.
Qed.

Definition room_check : bool :=
  forallb (fun i => match idx lb_2_36_i3f13 i, get_radix_base (Z.of_nat i + 2) with
                    | Val g, Val (_, p) => 524288 <=? g * (p + 2)
                    | _, _ => true end) (seq 0 35).
Lemma room_checked : room_check = true.
Proof. vm_compute. reflexivity. Qed.
Lemma room_spec r g b p : 2 <= r <= 36 -> idx lb_2_36_i3f13 (Z.to_nat (r - 2)) = Val g -> get_radix_base r = Val (b, p) ->
  524288 <= g * (p + 2).
Proof.
  intros Hr E1 E2. pose proof room_checked as T. unfold room_check in T. rewrite forallb_forall in T.
  specialize (T (Z.to_nat (r - 2))). rewrite in_seq in T. specialize (T ltac:(lia)). rewrite E1, Z2Nat.id in T by lia.
  replace (r - 2 + 2) with r in T by lia. rewrite E2 in T. now apply Z.leb_le.
Qed.
Lemma shiftr_13 x : Z.shiftr x 13 = x / 8192.
Proof. rewrite Z.shiftr_div_pow2 by lia. reflexivity. Qed.
Lemma estimate_eq r n : 2 <= r <= 36 -> 0 <= n < 2 ^ 48 -> exists g, rounded_logarithm r g /\ 8192 <= g <= 42353 /\
  idx lb_2_36_i3f13 (Z.to_nat (r - 2)) = Val g /\ radix_estimate r n = Val (g * (n + 1) / 8192 / 64 + 1).
Proof.
  intros Hr Hn. destruct (table_spec r Hr) as (g & E & Hg & Hb). exists g. split; [exact Hg|]. split; [exact Hb|]. split; [exact E|].
  unfold radix_estimate, usize_sub. destruct (Z.leb_spec 2 r); [|lia]. cbn [bind]. rewrite E. cbn [bind].
  change (2 ^ 48) with 281474976710656 in Hn. destruct (Z.ltb_spec (g * (n + 1)) B) as [L|L].
  - rewrite shiftr_13. reflexivity.
  - exfalso. rewrite B_pow in L. change (2 ^ 64) with 18446744073709551616 in L.
    assert (g * (n + 1) <= 42353 * 281474976710656) by (apply Z.mul_le_mono_nonneg; lia). lia.
Qed.

Lemma t_from_radix_eq v r : 2 <= r <= 36 -> Z.of_nat (length v) < 2 ^ 48 ->
  exists g, rounded_logarithm r g /\ 8192 <= g <= 42353 /\
  t_from_radix_digits v r =
  (let! a := from_radix_digits v r in Val (a, [8 * Z.to_nat (g * (Z.of_nat (length v) + 1) / 8192 / 64 + 1)]%nat)).
Proof.
  intros Hr Hn. destruct (estimate_eq r (Z.of_nat (length v)) Hr ltac:(lia)) as (g & Hg & Hb & Ei & Ee).
  exists g. split; [exact Hg|]. split; [exact Hb|].
  unfold t_from_radix_digits, from_radix_digits.
  destruct (negb (negb _ && _)); [reflexivity|]. destruct (negb (forallb _ v)); [reflexivity|].
  rewrite tbind_lift, Ee. cbn [bind]. set (e := g * (Z.of_nat (length v) + 1) / 8192 / 64).
  assert (He : 0 <= e) by (unfold e; apply Z.div_pos; [apply Z.div_pos; nia|lia]).
  unfold sized_with_capacity. replace (request (8 * Z.to_nat (e + 1))) with [8 * Z.to_nat (e + 1)]%nat
    by (replace (Z.to_nat (e + 1)) with (S (Z.to_nat e)) by lia; reflexivity).
  unfold tbind at 1. cbn [bind]. rewrite tbind_lift.
  destruct (get_radix_base r) as [[b p]| |] eqn:Eb; cbn [bind]; [|reflexivity|reflexivity].
  pose proof (room_spec r g b p Hr Ei Eb) as Room.
  destruct (Z.eqb_spec p 0) as [|Np]; [reflexivity|].
  set (i := if Z.of_nat (length v) mod p =? 0 then p else Z.of_nat (length v) mod p).
  destruct (Z.ltb_spec (Z.of_nat (length v)) i) as [|Li]; [reflexivity|].
  rewrite tbind_lift. destruct (fold_radix r (firstn (Z.to_nat i) v)) as [x| |]; cbn [bind]; [|reflexivity|reflexivity].
  rewrite push_room by (cbn [items length capacity]; lia). rewrite tbind_val. cbn [items capacity app].
  destruct (Z.eqb_spec (Z.of_nat (length (skipn (Z.to_nat i) v)) mod p) 0) as [Em|Em]; cbn [negb]; [|reflexivity].
  rewrite tbind_lift. destruct (chunks (Z.to_nat p) (skipn (Z.to_nat i) v)) as [cs| |] eqn:Ec; cbn [bind]; [|reflexivity|reflexivity].
  rewrite t_radix_fold_eq; [|cbn; lia|cbn; lia|lia|].
  - destruct (fold_o (radix_chunk_step r) cs [x]) as [ds| |]; cbn [bind]; [|reflexivity|reflexivity].
    rewrite tbind_val. cbn [items]. unfold tlift. destruct (let! r0 := from_iter ds in unwrap r0); cbn; reflexivity.
  - intros Hcs.
    assert (Hp : 1 <= p).
    { unfold chunks in Ec. destruct (Nat.eqb_spec (Z.to_nat p) 0); [discriminate Ec|lia]. }
    assert (Ht : (0 < length (skipn (Z.to_nat i) v))%nat).
    { destruct (skipn (Z.to_nat i) v) as [|y t]; [|cbn; lia]. exfalso. apply Hcs.
      unfold chunks in Ec. destruct (Nat.eqb (Z.to_nat p) 0); [discriminate Ec|]. injection Ec as <-. reflexivity. }
    rewrite skipn_length in Ht, Em.
    assert (Hl : p + 1 <= Z.of_nat (length v)).
    { assert (p <= Z.of_nat (length v - Z.to_nat i)).
      { apply Z.mod_divide in Em; [|lia]. apply Z.divide_pos_le; [lia|exact Em]. }
      assert (0 < i).
      { unfold i. destruct (Z.eqb_spec (Z.of_nat (length v) mod p) 0); [lia|].
        pose proof (Z.mod_pos_bound (Z.of_nat (length v)) p ltac:(lia)). lia. }
      lia. }
    assert (X : 64 <= g * (Z.of_nat (length v) + 1) / 8192) by (apply Z.div_le_lower_bound; [lia|nia]).
    assert (Y : 1 <= e) by (unfold e; apply Z.div_le_lower_bound; [lia|exact X]). lia.
Qed.

Lemma normalize_none b : normalize_byte b = None <-> b = 95.
Proof.
  unfold normalize_byte. split.
  - intros H. destruct (_ && _); [discriminate H|]. destruct (_ && _); [discriminate H|]. destruct (_ && _); [discriminate H|].
    destruct (Z.eqb_spec b 95); [assumption|discriminate H].
  - intros ->. reflexivity.
Qed.
Lemma normalize_length r input bytes v : normalize r input bytes = Ok v -> Z.of_nat (length v) = digits_in bytes.
Proof.
  unfold digits_in. revert v. induction bytes as [|b bytes IH]; intros v E; cbn [normalize filter] in *.
  - injection E as <-. reflexivity.
  - destruct (Z.eqb_spec b 95) as [->|N]; cbn [negb].
    + change (normalize_byte 95) with (@None Z) in E. now apply IH.
    + destruct (normalize_byte b) as [d|] eqn:Eb; [|apply normalize_none in Eb; contradiction].
      destruct (negb (is_valid_byte r d)); [discriminate E|].
      destruct (normalize r input bytes) as [w|] eqn:En; [|discriminate E]. injection E as <-.
      specialize (IH w eq_refl). cbn [length]. lia.
Qed.
Lemma digits_in_le s : 0 <= digits_in s <= Z.of_nat (length s).
Proof.
  unfold digits_in. split; [lia|]. induction s as [|b s IH]; cbn [filter]; [lia|]. destruct (negb _); cbn [length]; lia.
Qed.

Definition if_underscored (s : list Z) (p q : Prop) : Prop :=
  (s = [] \/ hd 0 s = 95 \/ last s 0 = 95) /\ p \/ s <> [] /\ hd 0 s <> 95 /\ last s 0 <> 95 /\ q.
Lemma parse_counted r s : 2 <= r <= 36 -> Z.of_nat (length s) < 2 ^ 48 ->
  exists l, t_from_str_radix r s = (let! res := from_str_radix r s in Val (res, l)) /\
    (forall a, from_str_radix r s = Val (Ok a) -> parse_buffers r s l) /\
    (forall e, from_str_radix r s = Val (Err e) ->
       if_underscored s (l = []) (l = [length s])).
Proof.
  intros Hr Hn. unfold t_from_str_radix, from_str_radix, if_underscored. destruct s as [|c0 t]; [exists []; split; [reflexivity|]; split; [discriminate|auto]|].
  change (hd 0 (c0 :: t)) with c0.
  destruct (Z.eqb_spec c0 95); [exists []; split; [reflexivity|]; split; [discriminate|auto]|].
  destruct (Z.eqb_spec (last (c0 :: t) 0) 95); [exists []; split; [reflexivity|]; split; [discriminate|auto]|].
  assert (c0 :: t <> []) by discriminate. set (s := c0 :: t) in *. unfold sized_with_capacity.
  replace (request (1 * length s)) with [length s] by (unfold s; cbn; rewrite Nat.add_0_r; reflexivity).
  unfold tbind at 1. cbn [bind]. rewrite t_normalize_eq by (cbn; lia). rewrite tbind_val. cbn [app].
  destruct (normalize r s s) as [v|e] eqn:En; [|exists [length s]; split; [reflexivity|]; split; [discriminate|auto]].
  cbn [items]. pose proof (normalize_length _ _ _ _ En) as Hv. pose proof (digits_in_le s) as Hd. rewrite tbind_lift.
  destruct (radix_cases r Hr) as [(k & Hk & -> & ->)|(-> & Hp & _)]; cbn [bind].
  - assert (Kc : k = 1 \/ k = 2 \/ k = 3 \/ k = 4 \/ k = 5) by lia.
    destruct (Z.eqb_spec (64 mod k) 0) as [E0|E0].
    + exists [length s]. rewrite tbind_lift. split; [destruct (from_bitwise_digits (rev v) k); reflexivity|]. split.
      * intros a _. unfold parse_buffers.
        destruct Kc as [->|[->|[->|[->| ->]]]]; try reflexivity; exfalso; vm_compute in E0; discriminate E0.
      * intros e E. destruct (from_bitwise_digits (rev v) k); discriminate E.
    + rewrite t_from_inexact_eq by lia. rewrite rev_length, Hv.
      exists (length s :: request (8 * digits_for (k * digits_in s))). split; [|split].
      * destruct (from_inexact_bitwise_digits (rev v) k); cbn; rewrite ?app_nil_r; reflexivity.
      * intros a Ea.
        assert (Hpos : (0 < digits_for (k * digits_in s))%nat).
        { destruct v as [|d0 v0].
          - exfalso. unfold from_inexact_bitwise_digits in Ea. cbn in Ea. discriminate Ea.
          - cbn [length] in Hv. unfold digits_for.
            assert (1 <= (k * digits_in s + 63) / 64) by (apply Z.div_le_lower_bound; nia). lia. }
        assert (Er : request (8 * digits_for (k * digits_in s)) = [8 * digits_for (k * digits_in s)]%nat).
        { destruct (digits_for (k * digits_in s)); [lia|reflexivity]. }
        rewrite Er. unfold parse_buffers.
        destruct Kc as [->|[->|[->|[->| ->]]]]; try reflexivity; exfalso; apply E0; reflexivity.
      * intros e E. destruct (from_inexact_bitwise_digits (rev v) k); discriminate E.
  - destruct (t_from_radix_eq v r Hr ltac:(lia)) as (g & Hg & _ & E). rewrite E, Hv.
    exists [length s; 8 * Z.to_nat (g * (digits_in s + 1) / 8192 / 64 + 1)]%nat. split; [|split].
    + destruct (from_radix_digits v r); reflexivity.
    + intros a _. unfold parse_buffers.
      assert (N : forall x, radix_is_power_of_two x = true -> (r =? x) = false).
      { intros x Hx. apply Z.eqb_neq. intros ->. congruence. }
      rewrite !N by reflexivity. cbn [orb]. exists g. auto.
    + intros e Ee. destruct (from_radix_digits v r); discriminate Ee.
Qed.

(** * The claims *)
Lemma parse_same_fact r s :
  2 <= r <= 36 -> Z.of_nat (length s) < 2 ^ 48 ->
  (let! (res, _) := t_from_str_radix r s in Val res) = from_str_radix r s.
Proof.
  intros Hr Hn. destruct (parse_counted r s Hr Hn) as (l & E & _). rewrite E.
  destruct (from_str_radix r s); reflexivity.
Qed.
Lemma parse_accepted_fact r s a l :
  2 <= r <= 36 -> Z.of_nat (length s) < 2 ^ 48 -> t_from_str_radix r s = Val (Ok a, l) -> parse_buffers r s l.
Proof.
  intros Hr Hn E. destruct (parse_counted r s Hr Hn) as (l' & E' & H & _). rewrite E in E'.
  destruct (from_str_radix r s) as [res| |]; cbn in E'; [|discriminate E'|discriminate E'].
  injection E' as <- ->. exact (H a eq_refl).
Qed.
Lemma parse_rejected_fact r s e l :
  2 <= r <= 36 -> Z.of_nat (length s) < 2 ^ 48 -> t_from_str_radix r s = Val (Err e, l) ->
  (s = [] \/ hd 0 s = 95 \/ last s 0 = 95) /\ l = [] \/
  s <> [] /\ hd 0 s <> 95 /\ last s 0 <> 95 /\ l = [length s].
Proof.
  intros Hr Hn E. destruct (parse_counted r s Hr Hn) as (l' & E' & _ & H). rewrite E in E'.
  destruct (from_str_radix r s) as [res| |]; cbn in E'; [|discriminate E'|discriminate E'].
  injection E' as <- ->. exact (H e eq_refl).
Qed.
Lemma words_bound k m : 0 <= k <= 5 -> 0 <= m -> Z.of_nat (8 * digits_for (k * m)) <= m + 8.
Proof.
  intros Hk Hm. unfold digits_for. rewrite Nat2Z.inj_mul, Z2Nat.id by (apply Z.div_pos; nia).
  pose proof (Z.mul_div_le (k * m + 63) 64 ltac:(lia)). change (Z.of_nat 8) with 8. nia.
Qed.
Lemma logarithm_nonneg r g : 2 <= r -> rounded_logarithm r g -> 0 <= g.
Proof.
  intros Hr [_ H]. pose proof (Z.pow_pos_nonneg r 8192 ltac:(lia) ltac:(lia)) as K.
  generalize dependent (r ^ 8192). intros x H K. destruct (Z.leb_spec 0 g) as [|L]; [assumption|].
  rewrite (Z.pow_neg_r 2 g L) in H. lia.
Qed.
Lemma parse_total_fact r s res l :
  2 <= r <= 36 -> Z.of_nat (length s) < 2 ^ 48 -> t_from_str_radix r s = Val (res, l) ->
  (length l <= 2)%nat /\ (bytes_of l <= 2 * length s + 9)%nat.
Proof.
  intros Hr Hn E. destruct res as [a|e].
  - pose proof (parse_accepted_fact r s a l Hr Hn E) as H. pose proof (digits_in_le s) as Hd. unfold parse_buffers in H.
    destruct (_ || _); [subst l; cbn [length bytes_of fold_right]; lia|].
    destruct (r =? 8). { pose proof (words_bound 3 (digits_in s) ltac:(lia) ltac:(lia)). subst l; cbn [length bytes_of fold_right]. lia. }
    destruct (r =? 32). { pose proof (words_bound 5 (digits_in s) ltac:(lia) ltac:(lia)). subst l; cbn [length bytes_of fold_right]. lia. }
    destruct H as (g & Hg & ->). destruct (table_spec r Hr) as (h & _ & Hh & Hb).
    pose proof (logarithm_nonneg r g ltac:(lia) Hg) as Hg0.
    assert (g = h) by (apply (logarithm_unique r); auto; lia). subst h. cbn [length bytes_of fold_right].
    assert (X : g * (digits_in s + 1) / 8192 / 64 <= (digits_in s + 1) / 8).
    { rewrite Z.div_div by (clear; lia). rewrite <- (Z.div_mul_cancel_r (digits_in s + 1) 8 65536) by (clear; lia).
      change (8192 * 64) with (8 * 65536). apply Z.div_le_mono; [clear; lia|]. clear - Hb Hd. nia. }
    assert (Y : 8 * ((digits_in s + 1) / 8) <= digits_in s + 1) by (apply Z.mul_div_le; lia).
    clear - X Y Hd Hg0. split; [lia|]. lia.
  - destruct (parse_rejected_fact r s e l Hr Hn E) as [(_ & ->)|(_ & _ & _ & ->)]; cbn [length bytes_of fold_right]; lia.
Qed.

Lemma radix_value_bound r ds : 2 <= r -> Forall (fun d => 0 <= d < r) ds -> forall acc, 0 <= acc ->
  fold_left (fun acc d => acc * r + d) ds acc < (acc + 1) * r ^ Z.of_nat (length ds).
Proof.
  intros Hr. induction 1 as [|d ds Hd Hds IH]; intros acc Ha; cbn [fold_left length].
  - change (Z.of_nat 0) with 0. rewrite Z.pow_0_r. lia.
  - rewrite Nat2Z.inj_succ, Z.pow_succ_r by lia. pose proof (Z.pow_pos_nonneg r (Z.of_nat (length ds)) ltac:(lia) ltac:(lia)).
    specialize (IH (acc * r + d) ltac:(nia)). assert ((acc * r + d + 1) * r ^ Z.of_nat (length ds) <= (acc + 1) * r * r ^ Z.of_nat (length ds)).
    { apply Z.mul_le_mono_nonneg_r; [lia|nia]. } lia.
Qed.
Lemma numeral_bound r s : 2 <= r -> numeral r s -> string_value r s < r ^ digits_in s.
Proof.
  intros Hr (_ & _ & _ & H). unfold string_value, radix_value.
  assert (K : Forall (fun d => 0 <= d < r) (string_digits s) /\ Z.of_nat (length (string_digits s)) = digits_in s).
  { unfold digits_in. induction H as [|b s Hb Hs [IH1 IH2]]; [split; [constructor|reflexivity]|].
    cbn [string_digits filter]. destruct Hb as [->|(d & Ed & Hd)].
    - rewrite char_value_underscore. cbn [Z.eqb Pos.eqb negb]. auto.
    - rewrite Ed. assert (Hb : 0 <= d /\ b <> 95).
      { unfold char_value in Ed. destruct (Z.leb_spec 48 b), (Z.leb_spec b 57), (Z.leb_spec 97 b), (Z.leb_spec b 122), (Z.leb_spec 65 b), (Z.leb_spec b 90);
          cbn [andb] in Ed; try discriminate Ed; injection Ed as <-; lia. }
      destruct (Z.eqb_spec b 95); [lia|]. cbn [negb length]. split; [constructor; [lia|exact IH1]|lia]. }
  destruct K as [K1 K2]. pose proof (radix_value_bound r _ Hr K1 0 ltac:(lia)) as X. rewrite K2 in X. lia.
Qed.
Lemma parse_enough_fact r s a n b :
  2 <= r <= 36 -> Z.of_nat (length s) < 2 ^ 48 -> numeral r s -> t_from_str_radix r s = Val (Ok a, [n; b]) ->
  string_value r s < 2 ^ (8 * Z.of_nat b).
Proof.
  intros Hr Hn Hs E. pose proof (numeral_bound r s ltac:(lia) Hs) as V. eapply Z.lt_le_trans; [exact V|]. clear V.
  pose proof (parse_accepted_fact r s a _ Hr Hn E) as H. pose proof (digits_in_le s) as Hd. unfold parse_buffers in H.
  assert (W : forall k, 0 < k -> 2 ^ (k * digits_in s) <= 2 ^ (8 * Z.of_nat (8 * digits_for (k * digits_in s)))).
  { intros k Hk. apply Z.pow_le_mono_r; [lia|]. unfold digits_for. rewrite Nat2Z.inj_mul, Z2Nat.id by (apply Z.div_pos; nia).
    pose proof (Z.div_mod (k * digits_in s + 63) 64 ltac:(lia)). pose proof (Z.mod_pos_bound (k * digits_in s + 63) 64 ltac:(lia)).
    change (Z.of_nat 8) with 8. lia. }
  destruct (_ || _); [discriminate H|].
  destruct (Z.eqb_spec r 8) as [->|]. { injection H as _ ->. change 8 with (2 ^ 3) at 1. rewrite <- Z.pow_mul_r by lia. apply W. lia. }
  destruct (Z.eqb_spec r 32) as [->|]. { injection H as _ ->. change 32 with (2 ^ 5). rewrite <- Z.pow_mul_r by lia. apply W. lia. }
  destruct H as (g & Hg & H). apply (f_equal (fun l => nth 1 l 0%nat)) in H. cbn [nth] in H. rewrite H. clear H.
  destruct (table_spec r Hr) as (h & _ & Hh & Hb).
  pose proof (logarithm_nonneg r g ltac:(lia) Hg) as Hg0.
  assert (g = h) by (apply (logarithm_unique r); auto; lia). subst h.
  eapply Z.le_trans; [apply (estimate_enough r g); auto; lia|]. apply Z.pow_le_mono_r; [lia|].
  set (e := g * (digits_in s + 1) / 8192). assert (0 <= e) by (unfold e; apply Z.div_pos; nia). clearbody e.
  rewrite Nat2Z.inj_mul, Z2Nat.id by (pose proof (Z.div_pos e 64); lia). change (Z.of_nat 8) with 8.
  pose proof (Z.div_mod e 64 ltac:(lia)). pose proof (Z.mod_pos_bound e 64 ltac:(lia)). lia.
Qed.
