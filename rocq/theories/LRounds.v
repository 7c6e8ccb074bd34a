(** How many rounds the loop of the division takes. *)
From Verif Require Export LDiv7.
From Verif Require Export MRounds SpecTemp.
From Coq Require Import Lia.

(** [o] is [o'], unless it was cut off. *)
Definition cut {A} (o o' : outcome A) : Prop := o = OutOfFuel \/ o = o'.

Lemma cut_refl {A} (o : outcome A) : cut o o.
Proof. now right. Qed.
Lemma cut_bind {A C} (o o' : outcome A) (f f' : A -> outcome C) :
  cut o o' -> (forall a, cut (f a) (f' a)) -> cut (bind o f) (bind o' f').
Proof.
  intros [->| ->] H; [now left|]. destruct o' as [a|b|]; cbn [bind]; [apply H|apply cut_refl|now left].
Qed.

Ltac cuts :=
  repeat (cbv zeta;
    match goal with
    | |- cut ?o ?o => apply cut_refl
    | |- cut (bind _ _) (bind _ _) => apply cut_bind; [|intros ?]
    | |- cut (match ?x with _ => _ end) (match ?x with _ => _ end) => destruct x
    | |- cut (if ?x then _ else _) (if ?x then _ else _) => destruct x
    end).

Lemma div_loop_cut f : forall f' len duo div quo sd lz dsd vb lb sig, (f <= f')%nat ->
  cut (div_loop f len duo div quo sd lz dsd vb lb sig) (div_loop f' len duo div quo sd lz dsd vb lb sig).
Proof.
  induction f as [|f IH]; intros [|f'] len duo div quo sd lz dsd vb lb sig H; try lia; try (left; reflexivity).
  cbn [div_loop]. cuts. apply IH. lia.
Qed.

Lemma large_cut r r' len duo sd div dsd : (r <= r')%nat ->
  cut (large_div_by_large_within r len duo sd div dsd) (large_div_by_large_within r' len duo sd div dsd).
Proof. intros H. unfold large_div_by_large_within. cuts. now apply div_loop_cut. Qed.
Lemma divrem_cut r r' duo div : (r <= r')%nat -> cut (aarons_divrem_within r duo div) (aarons_divrem_within r' duo div).
Proof. intros H. unfold aarons_divrem_within. cuts. now apply large_cut. Qed.
Lemma remdiv_cut r r' duo div : (r <= r')%nat -> cut (aarons_remdiv_within r duo div) (aarons_remdiv_within r' duo div).
Proof. intros H. unfold aarons_remdiv_within. cuts. now apply divrem_cut. Qed.

Lemma unsigned_cut r r' a b : (r <= r')%nat ->
  cut (wrapping_udivrem_within r a b) (wrapping_udivrem_within r' a b) /\
  cut (wrapping_uremdiv_within r a b) (wrapping_uremdiv_within r' a b) /\
  cut (wrapping_udiv_within r a b) (wrapping_udiv_within r' a b) /\
  cut (wrapping_urem_within r a b) (wrapping_urem_within r' a b).
Proof.
  intros H. unfold wrapping_udivrem_within, wrapping_uremdiv_within, wrapping_udiv_within, wrapping_urem_within.
  repeat split; cuts; auto using divrem_cut, remdiv_cut.
Qed.
Lemma signed_cut r r' a b : (r <= r')%nat ->
  cut (wrapping_sdivrem_within r a b) (wrapping_sdivrem_within r' a b) /\
  cut (wrapping_sremdiv_within r a b) (wrapping_sremdiv_within r' a b) /\
  cut (wrapping_sdiv_within r a b) (wrapping_sdiv_within r' a b) /\
  cut (wrapping_srem_within r a b) (wrapping_srem_within r' a b).
Proof.
  intros H. unfold wrapping_sdivrem_within, wrapping_sremdiv_within, wrapping_sdiv_within, wrapping_srem_within, unwrap_mut2.
  repeat split; cuts; apply unsigned_cut; auto.
Qed.

(** ** Enough rounds *)
Lemma large_enough r len duo sd div dsd :
  digs duo -> digs div -> length duo = len -> length div = len ->
  (2 <= sd < len)%nat -> (1 <= dsd <= sd)%nat ->
  nth sd duo 0 <> 0 -> uval (skipn (S sd) duo) = 0 -> nth dsd div 0 <> 0 -> uval (skipn (S dsd) div) = 0 ->
  Z.log2 (uval duo) - Z.log2 (uval div) < 62 * Z.of_nat r ->
  large_div_by_large_within r len duo sd div dsd <> OutOfFuel.
Proof.
  intros H1 H2 L1 L2 Hs Hd N1 Z1 N2 Z2 Hr.
  destruct (large_div_by_large_spec len duo sd div dsd) as (x & y & E & _); auto.
  revert E. unfold large_div_by_large_within, large_div_by_large. rewrite ?idx_nth by lia. cbn [bind].
  destruct (sig_spec duo sd) as (Hlz & HXf & HX); auto; [lia|].
  destruct (sig_spec div dsd) as (Hvz & HVf & HV); auto; [lia|].
  destruct (sig_d_spec div dsd) as [Esig Bsig]; auto; [lia|].
  cbv zeta in *. set (dlz := d_leading_zeros (nth dsd div 0)) in *.
  set (lz := d_leading_zeros (nth sd duo 0)) in *.
  assert (Ek : usize_sub 64 lz = Val (64 - lz)) by (unfold usize_sub; destruct (Z.leb_spec lz 64); [auto|lia]).
  assert (Ev : usize_sub 64 dlz = Val (64 - dlz)) by (unfold usize_sub; destruct (Z.leb_spec dlz 64); [auto|lia]).
  rewrite Ek, Ev in *. cbn [bind] in *.
  replace (Z.of_nat sd * 64 + (64 - lz)) with (64 * Z.of_nat sd + 64 - lz) by lia.
  replace (Z.of_nat dsd * 64 + (64 - dlz)) with (64 * Z.of_nat dsd + 64 - dlz) by lia.
  set (vb := 64 * Z.of_nat dsd + 64 - dlz) in *.
  assert (Evb : vb = 64 * Z.of_nat dsd + 64 - dlz) by reflexivity.
  replace (64 * Z.of_nat dsd + 63 - dlz) with (vb - 1) in HV by lia. clearbody vb.
  set (sb := 64 * Z.of_nat sd + 64 - lz) in *.
  assert (Esb : sb = 64 * Z.of_nat sd + 64 - lz) by reflexivity.
  replace (64 * Z.of_nat sd + 63 - lz) with (sb - 1) in HX by lia.
  rewrite (Z.log2_unique (uval duo) (sb - 1)) in Hr by (try lia; now replace (Z.succ (sb - 1)) with sb by lia).
  rewrite (Z.log2_unique (uval div) (vb - 1)) in Hr by (try lia; now replace (Z.succ (vb - 1)) with vb by lia).
  destruct (Z.ltb_spec sb vb) as [Hlt|Hge]; [intros E; rewrite E; intros K; discriminate K|].
  destruct (Z.eqb_spec sb vb) as [Heq|Hne]; [intros E; rewrite E; intros K; discriminate K|].
  destruct (Z.ltb_spec (sb - vb) 64) as [H64|H64]; [intros E; rewrite E; intros K; discriminate K|]. intros _.
  unfold nsub. destruct (Nat.leb_spec 1 dsd); [|lia]. cbn [bind].
  rewrite Esig. cbn [bind].
  replace (64 * Z.of_nat dsd - dlz) with (vb - 64) in * by lia.
  assert (EW : dd_wadd (dd (uval div / 2 ^ (vb - 64))) (dd ONE) = uval div / 2 ^ (vb - 64) + 1).
  { unfold dd_wadd, dd, ONE. apply Z.mod_small. rewrite BB_B. pose proof B_gt1 as HB1. clear - Bsig HB1. nia. }
  rewrite EW.
  replace (64 - dlz + 64 * Z.of_nat (dsd - 1)) with (vb - 64) by lia.
  destruct (div_loop_spec len div dsd vb (uval duo) r duo (repeat ZERO len) sd) as (u & v & Euv & _);
    auto; fold lz; try (clear HX HV HXf HVf; lia).
  - apply digs_repeat, dok_0.
  - apply repeat_length.
  - unfold ZERO. rewrite uval_repeat0. lia.
  - rewrite <- L1. apply uval_bound; auto.
  - fold lz in Euv. rewrite Euv. discriminate.
Qed.

Definition rounds_for (u v : Z) : Z := (bits_of u - bits_of v) / 62 + 1.

Lemma rounds_log u v r : 0 < u -> 0 < v -> rounds_for u v <= Z.of_nat r -> Z.log2 u - Z.log2 v < 62 * Z.of_nat r.
Proof.
  unfold rounds_for, bits_of. intros Hu Hv. destruct (Z.eqb_spec u 0); [lia|]. destruct (Z.eqb_spec v 0); [lia|].
  replace (Z.log2 u + 1 - (Z.log2 v + 1)) with (Z.log2 u - Z.log2 v) by lia.
  pose proof (Z.div_mod (Z.log2 u - Z.log2 v) 62 ltac:(lia)).
  pose proof (Z.mod_pos_bound (Z.log2 u - Z.log2 v) 62 ltac:(lia)). lia.
Qed.

Lemma cut_either {A} (f : nat -> outcome A) r d :
  (forall x y, (x <= y)%nat -> cut (f x) (f y)) -> f r <> OutOfFuel -> f d <> OutOfFuel -> f r = f d.
Proof.
  intros H Hr Hd. destruct (Nat.le_ge_cases r d) as [L|L].
  - destruct (H r d L) as [E|E]; [contradiction|exact E].
  - destruct (H d r L) as [E|E]; [contradiction|auto].
Qed.

Lemma large_same len duo sd div dsd :
  large_div_by_large_within (64 * len + 1) len duo sd div dsd = large_div_by_large len duo sd div dsd.
Proof. reflexivity. Qed.
Lemma divrem_same duo div :
  aarons_divrem_within (64 * length duo + 1) duo div = aarons_algorithm_divrem duo div.
Proof. reflexivity. Qed.
Lemma remdiv_same duo div :
  aarons_remdiv_within (64 * length duo + 1) duo div = aarons_algorithm_remdiv duo div.
Proof. reflexivity. Qed.

Lemma divrem_enough r duo div : digs duo -> digs div -> length duo = length div ->
  rounds_for (uval duo) (uval div) <= Z.of_nat r -> aarons_divrem_within r duo div = aarons_algorithm_divrem duo div.
Proof.
  intros H1 H2 L Hr. rewrite <- divrem_same. unfold aarons_divrem_within.
  pose proof (rposition_nonzero_spec div H2) as Rv.
  destruct (rposition_nonzero div) as [dsd|]; [|reflexivity]. destruct Rv as (V1 & V2 & V3).
  pose proof (rposition_nonzero_spec duo H1) as Rd.
  destruct (rposition_nonzero duo) as [sd|]; [|reflexivity].
  destruct Rd as (D1 & D2 & D3).
  destruct (Nat.ltb_spec sd dsd); [reflexivity|].
  destruct (Nat.eqb_spec sd 0), (Nat.eqb_spec dsd 0); try reflexivity.
  destruct (Nat.eqb_spec sd 1); [reflexivity|].
  f_equal. apply (cut_either (fun k => large_div_by_large_within k (length duo) duo sd div dsd)).
  - intros x y. apply large_cut.
  - apply large_enough; auto; try lia. apply rounds_log; [| |exact Hr].
    + destruct (sig_spec duo sd) as (Hlz & _ & HX); auto.
      assert (0 < 2 ^ (64 * Z.of_nat sd + 63 - d_leading_zeros (nth sd duo 0))) by (apply Z.pow_pos_nonneg; lia). lia.
    + destruct (sig_spec div dsd) as (Hlz & _ & HX); auto.
      assert (0 < 2 ^ (64 * Z.of_nat dsd + 63 - d_leading_zeros (nth dsd div 0))) by (apply Z.pow_pos_nonneg; lia). lia.
  - destruct (large_div_by_large_spec (length duo) duo sd div dsd) as (x & y & E & _); auto; try lia.
    rewrite large_same, E. discriminate.
Qed.
Lemma remdiv_enough r duo div : digs duo -> digs div -> length duo = length div ->
  rounds_for (uval duo) (uval div) <= Z.of_nat r -> aarons_remdiv_within r duo div = aarons_algorithm_remdiv duo div.
Proof.
  intros H1 H2 L Hr. unfold aarons_remdiv_within, aarons_algorithm_remdiv. now rewrite divrem_enough.
Qed.

(** * The calls *)
Lemma unsigned_same r a b : wf a -> wf b ->
  (forall duo div, zip_access_data a b = Val (Ok (ZExt duo div)) ->
     aarons_divrem_within r duo div = aarons_algorithm_divrem duo div /\
     aarons_remdiv_within r duo div = aarons_algorithm_remdiv duo div) ->
  wrapping_udivrem_within r a b = wrapping_udivrem_assign a b /\
  wrapping_uremdiv_within r a b = wrapping_uremdiv_assign a b /\
  wrapping_udiv_within r a b = wrapping_udiv_assign a b /\
  wrapping_urem_within r a b = wrapping_urem_assign a b.
Proof.
  intros Ha Hb H.
  unfold wrapping_udivrem_within, wrapping_udivrem_assign, wrapping_uremdiv_within, wrapping_uremdiv_assign,
    wrapping_udiv_within, wrapping_udiv_assign, wrapping_urem_within, wrapping_urem_assign.
  destruct (zip_access_data a b) as [[[l x|duo div]|e]|s|]; cbn [bind]; auto.
  destruct (H duo div eq_refl) as [-> ->]. auto.
Qed.

Lemma unsigned_enough r a b : wf a -> wf b -> rounds_for (unsigned a) (unsigned b) <= Z.of_nat r ->
  wrapping_udivrem_within r a b = wrapping_udivrem_assign a b /\
  wrapping_uremdiv_within r a b = wrapping_uremdiv_assign a b /\
  wrapping_udiv_within r a b = wrapping_udiv_assign a b /\
  wrapping_urem_within r a b = wrapping_urem_assign a b.
Proof.
  intros Ha Hb Hr. apply unsigned_same; auto. intros duo div E.
  pose proof (wf_sh a Ha) as Sa. pose proof (wf_sh b Hb) as Sb.
  destruct (Z.eq_dec (len a) (len b)) as [El|Nl].
  2:{ rewrite zip_access_data_mismatch in E by auto. discriminate. }
  destruct (zip_access_data_spec a b Sa Sb El) as [(l & x & _ & _ & _ & _ & _ & Hz)|(Hw & Hz)]; rewrite Hz in E; [discriminate|].
  injection E as <- <-. destruct Sa as (_ & La & Da). destruct Sb as (_ & Lb & Db).
  assert (length (digits a) = length (digits b)) by congruence.
  split; [apply divrem_enough|apply remdiv_enough]; auto.
Qed.

Lemma signed_enough r a b : wf a -> wf b -> rounds_for (Z.abs (signed a)) (Z.abs (signed b)) <= Z.of_nat r ->
  wrapping_sdivrem_within r a b = wrapping_sdivrem_assign a b /\
  wrapping_sremdiv_within r a b = wrapping_sremdiv_assign a b /\
  wrapping_sdiv_within r a b = wrapping_sdiv_assign a b /\
  wrapping_srem_within r a b = wrapping_srem_assign a b.
Proof.
  intros Ha Hb Hr.
  destruct (abs_spec a Ha) as (x & Ex & (Wx & Lx & Ux)). destruct (abs_spec b Hb) as (y & Ey & (Wy & Ly & Uy)).
  pose proof (msb_spec a (wf_sh a Ha)) as Ma. pose proof (msb_spec b (wf_sh b Hb)) as Mb.
  rewrite <- Ux, <- Uy in Hr. destruct (unsigned_enough r x y Wx Wy Hr) as (U1 & U2 & _ & _).
  set (da := bit a (len a - 1)) in *. set (db := bit b (len b - 1)) in *. clearbody da db.
  split; [|split; [|split]].
  - unfold wrapping_sdivrem_within, wrapping_sdivrem_assign. destruct (is_zero b) as [[|]|s|]; cbn [bind]; [reflexivity| |reflexivity|reflexivity].
    rewrite Ma, Mb. cbn [bind]. destruct da, db; rewrite Ex, Ey; cbn [bind]; rewrite U1; reflexivity.
  - unfold wrapping_sremdiv_within, wrapping_sremdiv_assign. destruct (is_zero b) as [[|]|s|]; cbn [bind]; [reflexivity| |reflexivity|reflexivity].
    rewrite Ma, Mb. cbn [bind]. destruct da, db; rewrite Ex, Ey; cbn [bind]; rewrite U2; reflexivity.
  - unfold wrapping_sdiv_within, wrapping_sdiv_assign. destruct (is_zero b) as [[|]|s|]; cbn [bind]; [reflexivity| |reflexivity|reflexivity].
    rewrite clone_spec by auto. cbn [bind].
    rewrite Ma, Mb. cbn [bind]. rewrite Ex, Ey. cbn [bind]. rewrite U1. reflexivity.
  - unfold wrapping_srem_within, wrapping_srem_assign. destruct (is_zero b) as [[|]|s|]; cbn [bind]; [reflexivity| |reflexivity|reflexivity].
    rewrite clone_spec by auto. cbn [bind].
    rewrite Ma, Mb. cbn [bind]. rewrite Ex, Ey. cbn [bind]. rewrite U2. reflexivity.
Qed.

Lemma rounds_width u v w : 0 < w -> 0 <= u < 2 ^ w -> 0 <= v -> rounds_for u v <= w / 62 + 1.
Proof.
  intros Hw Hu Hv. unfold rounds_for, bits_of.
  assert (0 <= (if v =? 0 then 0 else Z.log2 v + 1)).
  { destruct (v =? 0); [lia|]. pose proof (Z.log2_nonneg v). lia. }
  assert ((if u =? 0 then 0 else Z.log2 u + 1) <= w).
  { destruct (Z.eqb_spec u 0); [lia|]. assert (Z.log2 u < w) by (apply Z.log2_lt_pow2; lia). lia. }
  apply Z.add_le_mono_r. apply Z.div_le_mono; lia.
Qed.

(** ** The statements *)
Lemma rounds_unsigned_fact r a b : wf a -> wf b ->
  (bits_of (unsigned a) - bits_of (unsigned b)) / 62 + 1 <= Z.of_nat r ->
  wrapping_udivrem_within r a b = wrapping_udivrem_assign a b /\
  wrapping_uremdiv_within r a b = wrapping_uremdiv_assign a b /\
  wrapping_udiv_within r a b = wrapping_udiv_assign a b /\
  wrapping_urem_within r a b = wrapping_urem_assign a b.
Proof. apply unsigned_enough. Qed.

Lemma rounds_signed_fact r a b : wf a -> wf b ->
  (bits_of (Z.abs (signed a)) - bits_of (Z.abs (signed b))) / 62 + 1 <= Z.of_nat r ->
  wrapping_sdivrem_within r a b = wrapping_sdivrem_assign a b /\
  wrapping_sremdiv_within r a b = wrapping_sremdiv_assign a b /\
  wrapping_sdiv_within r a b = wrapping_sdiv_assign a b /\
  wrapping_srem_within r a b = wrapping_srem_assign a b.
Proof. apply signed_enough. Qed.

Lemma rounds_width_fact r a b : wf a -> wf b -> len a / 62 + 1 <= Z.of_nat r ->
  wrapping_udivrem_within r a b = wrapping_udivrem_assign a b /\
  wrapping_uremdiv_within r a b = wrapping_uremdiv_assign a b /\
  wrapping_udiv_within r a b = wrapping_udiv_assign a b /\
  wrapping_urem_within r a b = wrapping_urem_assign a b /\
  wrapping_sdivrem_within r a b = wrapping_sdivrem_assign a b /\
  wrapping_sremdiv_within r a b = wrapping_sremdiv_assign a b /\
  wrapping_sdiv_within r a b = wrapping_sdiv_assign a b /\
  wrapping_srem_within r a b = wrapping_srem_assign a b.
Proof.
  intros Ha Hb Hr. pose proof (wf_len a Ha) as Hw.
  destruct (unsigned_enough r a b) as (-> & -> & -> & ->); auto.
  { pose proof (unsigned_bound a Ha). pose proof (unsigned_bound b Hb).
    pose proof (rounds_width (unsigned a) (unsigned b) (len a)). lia. }
  destruct (signed_enough r a b) as (-> & -> & -> & ->); auto 8.
  pose proof (signed_range a Ha). pose proof (pow2_double (len a) Hw).
  pose proof (rounds_width (Z.abs (signed a)) (Z.abs (signed b)) (len a)). lia.
Qed.

Lemma rounds_limit_fact r a b : wf a -> wf b ->
  (wrapping_udivrem_within r a b = OutOfFuel \/ wrapping_udivrem_within r a b = wrapping_udivrem_assign a b) /\
  (wrapping_uremdiv_within r a b = OutOfFuel \/ wrapping_uremdiv_within r a b = wrapping_uremdiv_assign a b) /\
  (wrapping_udiv_within r a b = OutOfFuel \/ wrapping_udiv_within r a b = wrapping_udiv_assign a b) /\
  (wrapping_urem_within r a b = OutOfFuel \/ wrapping_urem_within r a b = wrapping_urem_assign a b) /\
  (wrapping_sdivrem_within r a b = OutOfFuel \/ wrapping_sdivrem_within r a b = wrapping_sdivrem_assign a b) /\
  (wrapping_sremdiv_within r a b = OutOfFuel \/ wrapping_sremdiv_within r a b = wrapping_sremdiv_assign a b) /\
  (wrapping_sdiv_within r a b = OutOfFuel \/ wrapping_sdiv_within r a b = wrapping_sdiv_assign a b) /\
  (wrapping_srem_within r a b = OutOfFuel \/ wrapping_srem_within r a b = wrapping_srem_assign a b).
Proof.
  intros Ha Hb. set (d := (r + Z.to_nat (len a / 62 + 1))%nat).
  destruct (rounds_width_fact d a b Ha Hb) as (<- & <- & <- & <- & <- & <- & <- & <-).
  { unfold d. assert (0 <= len a / 62) by (apply Z.div_pos; [pose proof (wf_len a Ha)|]; lia). lia. }
  destruct (unsigned_cut r d a b) as (U1 & U2 & U3 & U4); [unfold d; lia|].
  destruct (signed_cut r d a b) as (S1 & S2 & S3 & S4); [unfold d; lia|]. unfold cut in *. auto 10.
Qed.
