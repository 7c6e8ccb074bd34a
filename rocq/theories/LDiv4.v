(** Proofs about division, part 4: the `mul` or `mul - 1` algorithm. *)
From Verif Require Export LDiv3.

(** The result of dividing [A] by [V] on slices of [len] digits. *)
Definition div_done (len : nat) (A V : Z) (duo' div' : list Z) : Prop :=
  digs duo' /\ digs div' /\ length duo' = len /\ length div' = len /\
  uval duo' = A / V /\ uval div' = A mod V.

Lemma div_done_intro len A V duo' div' q r :
  digs duo' -> digs div' -> length duo' = len -> length div' = len ->
  uval duo' = q -> uval div' = r -> 0 <= r < V -> q * V + r = A -> div_done len A V duo' div'.
Proof.
  intros H1 H2 H3 H4 H5 H6 H7 H8. destruct (euclid A V q r H7 H8) as [E1 E2].
  unfold div_done. rewrite H5, H6. auto 10.
Qed.

Lemma uval_firstn_small k ds : digs ds -> (k <= length ds)%nat -> uval ds < P k -> uval (firstn k ds) = uval ds.
Proof.
  intros H Hk Hlt. rewrite uval_firstn_mod by auto. apply Z.mod_small. pose proof (uval_nonneg ds H). lia.
Qed.
Lemma skipn_small k ds : digs ds -> (k <= length ds)%nat -> uval ds < P k -> uval (skipn k ds) = 0.
Proof.
  intros H Hk Hlt. rewrite uval_skipn_div by auto. apply Z.div_small. pose proof (uval_nonneg ds H). lia.
Qed.
Lemma P_S_pow sd lz : 0 <= lz < 64 -> P (S sd) = 2 ^ (64 * Z.of_nat sd + 64 - lz) * 2 ^ lz.
Proof. intros. rewrite P_pow, <- Z.pow_add_r by lia. f_equal. lia. Qed.

(** Significant bits. *)
Lemma sig_spec xs sd :
  digs xs -> (sd < length xs)%nat -> nth sd xs 0 <> 0 -> uval (skipn (S sd) xs) = 0 ->
  let lz := d_leading_zeros (nth sd xs 0) in
  0 <= lz < 64 /\ uval (firstn (S sd) xs) = uval xs /\
  2 ^ (64 * Z.of_nat sd + 63 - lz) <= uval xs < 2 ^ (64 * Z.of_nat sd + 64 - lz).
Proof.
  intros Hd Hs Hn Hz lz. destruct (d_leading_zeros_spec (nth sd xs 0)) as [H1 H2]; auto using nth_dok.
  fold lz in H1, H2. split; [auto|]. rewrite (uval_sig xs sd) by auto. split; [auto|].
  rewrite uval_firstn_S by auto. pose proof (firstn_bound sd xs Hd ltac:(lia)) as Hb.
  rewrite P_pow in *.
  replace (64 * Z.of_nat sd + 63 - lz) with ((63 - lz) + 64 * Z.of_nat sd) by lia.
  replace (64 * Z.of_nat sd + 64 - lz) with ((64 - lz) + 64 * Z.of_nat sd) by lia.
  rewrite !Z.pow_add_r by lia. set (Q := 2 ^ (64 * Z.of_nat sd)) in *. nia.
Qed.

(** A number below [2 ^ sb] has a small enough digit [sd]. *)
Lemma top_digit_small xs sd lz :
  digs xs -> (sd < length xs)%nat -> 0 <= lz < 64 -> uval xs < 2 ^ (64 * Z.of_nat sd + 64 - lz) ->
  nth sd xs 0 < 2 ^ (64 - lz) /\ uval (firstn (S sd) xs) = uval xs.
Proof.
  intros Hd Hs Hl Hu.
  assert (Hp : 0 < 2 ^ lz) by (apply Z.pow_pos_nonneg; lia).
  assert (Hp2 : 0 < 2 ^ (64 * Z.of_nat sd + 64 - lz)) by (apply Z.pow_pos_nonneg; lia).
  assert (E : uval (firstn (S sd) xs) = uval xs).
  { apply uval_firstn_small; auto. rewrite (P_S_pow sd lz) by auto. nia. }
  split; auto. rewrite <- E, uval_firstn_S in Hu by auto.
  pose proof (firstn_bound sd xs Hd ltac:(lia)) as Hb.
  replace (64 * Z.of_nat sd + 64 - lz) with ((64 - lz) + 64 * Z.of_nat sd) in Hu by lia.
  rewrite Z.pow_add_r, <- P_pow in Hu by lia. nia.
Qed.

(** ** Arithmetic *)
Lemma mul_core X V L : 0 <= L -> 0 <= X -> 0 < V -> X / 2 ^ L < BB -> B <= V / 2 ^ L -> V <= X ->
  let m := X / 2 ^ L / (V / 2 ^ L) in
  1 <= m < B /\ X < (m + 1) * V /\ (m - 1) * V <= X.
Proof.
  intros HL HX HV Hds Hvs HVX m.
  assert (Hp : 0 < 2 ^ L) by (apply Z.pow_pos_nonneg; lia).
  set (p := 2 ^ L) in *.
  pose proof (Z.div_mod X p ltac:(lia)) as EX. pose proof (Z.mod_pos_bound X p Hp) as BX.
  pose proof (Z.div_mod V p ltac:(lia)) as EV. pose proof (Z.mod_pos_bound V p Hp) as BV.
  assert (Hle : V / p <= X / p) by (apply Z.div_le_mono; lia).
  set (ds := X / p) in *. set (vs := V / p) in *.
  pose proof B_gt1. pose proof BB_B.
  pose proof (Z.div_mod ds vs ltac:(lia)) as Em. pose proof (Z.mod_pos_bound ds vs ltac:(lia)) as Bm.
  fold m in Em. set (x0 := X mod p) in *. set (v0 := V mod p) in *. set (m0 := ds mod vs) in *.
  clearbody ds vs x0 v0 m0 m.
  assert (M1 : 1 <= m) by nia. assert (M2 : m < B) by nia.
  split; [lia|]. subst X V. split.
  - assert (ds + 1 <= (m + 1) * vs) by nia. nia.
  - assert ((m - 1) * (vs + 1) <= ds) by nia. nia.
Qed.

(** ** Rows *)
Lemma row_spec mul div n : digs div -> dok mul -> (1 <= n <= length div)%nat ->
  exists t0 c0 row c, d_carrying_mul mul (nth 0 div 0) = (t0, c0) /\
    sub_row mul (skipn 1 (firstn n div)) c0 = (row, c) /\
    digs (t0 :: row) /\ length (t0 :: row) = n /\ dok c /\
    uval (t0 :: row) + c * P n = mul * uval (firstn n div).
Proof.
  intros Hd Hm Hn.
  destruct (d_carrying_mul_spec mul (nth 0 div 0)) as (t0 & c0 & -> & H1 & H2 & H3); auto using nth_dok.
  destruct (sub_row_spec mul (skipn 1 (firstn n div)) c0) as (row & c & E & L & D & C & U);
    auto using digs_skipn, digs_firstn.
  exists t0, c0, row, c. split; [auto|]. split; [auto|]. split; [now apply digs_cons|].
  rewrite skipn_length, firstn_length_le in L, U by lia.
  split; [cbn [length]; lia|]. split; [auto|].
  destruct div as [|d div]; [cbn in Hn; lia|]. destruct n as [|n]; [lia|].
  cbn [firstn skipn nth] in *. cbn [Nat.sub] in U. rewrite Nat.sub_0_r in U. rewrite !uval_cons, P_S. nia.
Qed.

Lemma row_full mul div n : digs div -> dok mul -> (1 <= n < length div)%nat -> uval (skipn (S n) div) = 0 ->
  exists t0 c0 row c1 t c, d_carrying_mul mul (nth 0 div 0) = (t0, c0) /\
    sub_row mul (skipn 1 (firstn n div)) c0 = (row, c1) /\
    d_carrying_mul_add mul (nth n div 0) c1 = (t, c) /\
    digs ((t0 :: row) ++ [t; c]) /\ length (t0 :: row) = n /\
    uval ((t0 :: row) ++ [t; c]) = mul * uval div.
Proof.
  intros Hd Hm Hn Hz.
  destruct (row_spec mul div n) as (t0 & c0 & row & c1 & E1 & E2 & D & L & C & U); auto; [lia|].
  destruct (d_carrying_mul_add_spec mul (nth n div 0) c1) as (t & c & E3 & H1 & H2 & H3); auto using nth_dok.
  exists t0, c0, row, c1, t, c. do 3 (split; [auto|]).
  split. { apply digs_app; split; auto. apply digs_cons; split; auto. apply digs_cons; split; auto. apply digs_nil. }
  split; [auto|]. set (r := t0 :: row) in *. rewrite uval_app, L, !uval_cons, uval_nil.
  rewrite (uval_sig div n), uval_firstn_S by (auto; lia). nia.
Qed.

(** ** Finishing *)
Lemma d_pred m : 1 <= m < B -> d_wrapping_sub m ONE = m - 1.
Proof. intros. unfold d_wrapping_sub, u64_wsub, ONE. apply Z.mod_small. lia. Qed.

Lemma uval_firstn_len n ds : length ds = n -> uval (firstn n ds) = uval ds.
Proof. intros. now rewrite firstn_all2 by lia. Qed.
Lemma mod_add_opp x y m : 0 < m -> ((- x) mod m + y) mod m = (y - x) mod m.
Proof. intros. rewrite Zplus_mod_idemp_l. f_equal. lia. Qed.

Lemma neg_sub_spec len sub : digs sub -> length sub = len ->
  exists s, twos_complement len sub = Val s /\ digs s /\ length s = len /\ uval s = (- uval sub) mod P len.
Proof.
  intros Hs L. destruct (twos_complement_spec len sub Hs ltac:(lia)) as (s & -> & D & Ls & _ & U).
  exists s. rewrite (uval_firstn_len len s), (uval_firstn_len len sub) in U by lia.
  do 3 (split; [auto; lia|]). auto.
Qed.
Lemma neg_sub_add_spec len sub div m : digs sub -> digs div -> length sub = len -> length div = len ->
  (2 <= len)%nat -> uval sub = (m * uval div) mod P len ->
  exists s, (let! sub := twos_complement len sub in add_macro len sub div) = Val s /\
    digs s /\ length s = len /\ uval s = (- ((m - 1) * uval div)) mod P len.
Proof.
  intros Hs Hd L1 L2 Hl Us. destruct (neg_sub_spec len sub Hs L1) as (s & -> & D & Ls & U). cbn [bind].
  destruct (add_macro_spec len s div) as (s2 & -> & D2 & L3 & U2); auto.
  exists s2. do 3 (split; [auto|]). pose proof (P_pos len) as HP.
  rewrite U2, U, Us, mod_add_opp by auto. rewrite <- Zminus_mod_idemp_r, Zmod_mod, Zminus_mod_idemp_r. f_equal. ring.
Qed.

Lemma finish_mul_sub1_spec len duo div sub m :
  digs duo -> digs div -> digs sub -> length duo = len -> length div = len -> length sub = len -> (2 <= len)%nat ->
  1 <= m < B -> uval sub = (m * uval div) mod P len ->
  (m - 1) * uval div <= uval duo < m * uval div ->
  exists duo' div', finish_mul_sub1 len duo div sub m = Val (duo', div') /\
    div_done len (uval duo) (uval div) duo' div'.
Proof.
  intros H1 H2 H3 L1 L2 L3 Hl Hm Us Hq.
  destruct (neg_sub_add_spec len sub div m) as (s & E & D & Ls & U); auto.
  unfold finish_mul_sub1. destruct (twos_complement len sub) as [s1| |]; try discriminate. cbn [bind] in *.
  rewrite E. cbn [bind]. rewrite d_pred by auto.
  destruct (special0_spec len duo s div (m - 1)) as (duo' & div' & -> & A1 & A2 & A3 & A4 & A5 & A6 & A7 & A8);
    auto; try lia.
  { unfold dok. lia. }
  rewrite uval_firstn_len in A4 by lia. rewrite !uval_firstn_len in A8 by lia.
  eexists _, _. split; [reflexivity|].
  pose proof (uval_bound duo H1) as Bd. rewrite L1 in Bd.
  pose proof (uval_nonneg div H2).
  apply (div_done_intro _ _ _ _ _ (m - 1) (uval duo - (m - 1) * uval div)); auto; try lia.
  assert (0 <= (m - 1) * uval div) by (apply Z.mul_nonneg_nonneg; lia).
  rewrite A8, U, Zplus_mod_idemp_r. rewrite Z.mod_small; lia.
Qed.

Lemma finish_mul_spec len duo div sub m :
  digs duo -> digs div -> digs sub -> length duo = len -> length div = len -> length sub = len -> (2 <= len)%nat ->
  1 <= m < B -> uval sub = m * uval div ->
  m * uval div <= uval duo < (m + 1) * uval div ->
  exists duo' div', finish_mul len duo div sub m = Val (duo', div') /\
    div_done len (uval duo) (uval div) duo' div'.
Proof.
  intros H1 H2 H3 L1 L2 L3 Hl Hm Us Hq.
  destruct (neg_sub_spec len sub) as (s & E & D & Ls & U); auto.
  unfold finish_mul. rewrite E. cbn [bind].
  destruct (special0_spec len duo s div m) as (duo' & div' & -> & A1 & A2 & A3 & A4 & A5 & A6 & A7 & A8);
    auto; try lia.
  { unfold dok. lia. }
  rewrite uval_firstn_len in A4 by lia. rewrite !uval_firstn_len in A8 by lia.
  eexists _, _. split; [reflexivity|].
  pose proof (uval_bound duo H1) as Bd. rewrite L1 in Bd.
  pose proof (uval_nonneg div H2).
  apply (div_done_intro _ _ _ _ _ m (uval duo - m * uval div)); auto; try lia.
  rewrite A8, U, Us, Zplus_mod_idemp_r. rewrite Z.mod_small; lia.
Qed.

(** ** Both variants share these facts. *)
Lemma sig_pair duo div sd lz vb :
  digs duo -> digs div -> (2 <= sd < length duo)%nat -> length div = length duo -> 0 <= lz < 64 ->
  2 ^ (64 * Z.of_nat sd + 63 - lz) <= uval duo < 2 ^ (64 * Z.of_nat sd + 64 - lz) ->
  2 ^ (vb - 1) <= uval div < 2 ^ vb -> 64 * Z.of_nat sd - lz < vb < 64 * Z.of_nat sd + 64 - lz ->
  exists ds vs, sig_dd duo sd lz = Val ds /\ sig_dd div sd lz = Val vs /\ vs <> 0 /\
    let m := ds / vs in
    1 <= m < B /\ dd_lo m = m /\ uval duo < (m + 1) * uval div /\ (m - 1) * uval div <= uval duo.
Proof.
  intros H1 H2 Hs Hl Hlz HX HV Hvb.
  destruct (top_digit_small duo sd lz) as [T1 T2]; auto; try lia.
  assert (2 ^ vb <= 2 ^ (64 * Z.of_nat sd + 63 - lz)) by (apply Z.pow_le_mono_r; lia).
  assert (2 ^ (64 * Z.of_nat sd + 63 - lz) <= 2 ^ (64 * Z.of_nat sd + 64 - lz)) by (apply Z.pow_le_mono_r; lia).
  destruct (top_digit_small div sd lz) as [T3 T4]; auto; try lia.
  rewrite !sig_dd_spec by (auto; lia). eexists _, _. split; [reflexivity|]. split; [reflexivity|].
  rewrite T2, T4. set (L := 64 * Z.of_nat sd - 64 - lz).
  assert (HL : 0 <= L) by (unfold L; lia).
  assert (Hp : 0 < 2 ^ L) by (apply Z.pow_pos_nonneg; lia).
  assert (HvB : B <= uval div / 2 ^ L).
  { apply Z.div_le_lower_bound; auto. rewrite B_pow, <- Z.pow_add_r by lia.
    apply Z.le_trans with (2 ^ (vb - 1)); [|lia]. apply Z.pow_le_mono_r; unfold L; lia. }
  assert (HdB : uval duo / 2 ^ L < BB).
  { apply Z.div_lt_upper_bound; auto. rewrite BB_B, B_pow, <- !Z.pow_add_r by lia.
    replace (L + (64 + 64)) with (64 * Z.of_nat sd + 64 - lz) by (unfold L; lia). lia. }
  pose proof B_gt1. split; [lia|].
  assert (0 < 2 ^ (vb - 1)) by (apply Z.pow_pos_nonneg; lia).
  destruct (mul_core (uval duo) (uval div) L) as (M1 & M2 & M3); auto; try lia.
  cbv zeta in *. rewrite dd_lo_small by lia. auto.
Qed.

Lemma uval_repeat0 n : uval (repeat 0 n) = 0.
Proof.
  induction n as [|n IH]; cbn [repeat]; [apply uval_nil|]. rewrite uval_cons, IH. lia.
Qed.

(** ** [mul_or_mul_sub1] *)
Lemma mul_or_mul_sub1_spec len duo div sd lz dsd vb :
  digs duo -> digs div -> length duo = len -> length div = len -> (2 <= sd < len)%nat -> 0 <= lz < 64 ->
  2 ^ (64 * Z.of_nat sd + 63 - lz) <= uval duo < 2 ^ (64 * Z.of_nat sd + 64 - lz) ->
  2 ^ (vb - 1) <= uval div < 2 ^ vb -> 64 * Z.of_nat sd - lz < vb < 64 * Z.of_nat sd + 64 - lz ->
  (1 <= dsd < len)%nat -> uval (skipn (S dsd) div) = 0 ->
  exists duo' div', mul_or_mul_sub1 len duo sd lz div dsd = Val (duo', div') /\
    div_done len (uval duo) (uval div) duo' div'.
Proof.
  intros H1 H2 L1 L2 Hs Hlz HX HV Hvb Hd Hz.
  destruct (sig_pair duo div sd lz vb) as (ds & vs & E1 & E2 & Hvs & HM); auto; try lia.
  unfold mul_or_mul_sub1. rewrite E1, E2. cbn [bind].
  unfold dd_wdiv, dd_wdivrem. destruct (Z.eqb_spec vs 0); [lia|]. cbn [bind].
  set (m := ds / vs) in *. cbv zeta in HM. destruct HM as (M1 & -> & M2 & M3).
  rewrite ?idx_nth by lia. cbn [bind].
  destruct (row_full m div dsd) as (t0 & c0 & row & c1 & t & c & -> & -> & Et & D & L & U); auto; try lia.
  { unfold dok; lia. }
  unfold nsub. destruct (Nat.leb_spec 1 len); [|lia]. cbn [bind]. rewrite Et.
  pose proof (P_pos len) as HP.
  pose proof (uval_bound duo H1) as Bd. rewrite L1 in Bd.
  apply digs_app in D as [D1 D2]. apply digs_cons in D2 as [Dt D2]. apply digs_cons in D2 as [Dc _].
  destruct (Nat.eqb_spec dsd (len - 1)) as [El|El].
  - set (sub := (t0 :: row) ++ [t]).
    assert (Ds : digs sub).
    { apply digs_app; split; auto. apply digs_cons; split; auto. apply digs_nil. }
    assert (Ls : length sub = len) by (unfold sub; rewrite app_length, L; cbn [length]; lia).
    assert (Us : uval sub + c * P len = m * uval div).
    { rewrite <- U. unfold sub. set (r := t0 :: row) in *. rewrite !uval_app, L, !uval_cons, !uval_nil.
      replace len with (S dsd) by lia. rewrite P_S. ring. }
    pose proof (uval_bound sub Ds) as Bs. rewrite Ls in Bs.
    assert (Um : uval sub = (m * uval div) mod P len).
    { rewrite <- Us, Z_mod_plus_full, Z.mod_small; auto. }
    unfold d_is_zero, ZERO. unfold dok in Dc. destruct (Z.eqb_spec c 0) as [->|Hc]; cbn [negb].
    + rewrite ugt_spec by (auto; lia). cbn [bind]. rewrite !uval_firstn_len by lia.
      destruct (Z.ltb_spec (uval duo) (uval sub)) as [Hlt|Hge].
      * apply finish_mul_sub1_spec; auto; lia.
      * apply finish_mul_spec; auto; lia.
    + assert (P len <= c * P len) by (clear - Hc Dc HP; nia). apply finish_mul_sub1_spec; auto; lia.
  - set (sub0 := (t0 :: row) ++ [t; c]) in *.
    assert (L0 : length sub0 = (dsd + 2)%nat) by (unfold sub0; rewrite app_length, L; reflexivity).
    set (sub := sub0 ++ repeat ZERO (len - length sub0)).
    assert (Ds : digs sub).
    { apply digs_app; split; [|apply digs_repeat; apply dok_0].
      apply digs_app; split; auto. apply digs_cons; split; auto. apply digs_cons; split; auto. apply digs_nil. }
    assert (Ls : length sub = len) by (unfold sub; rewrite app_length, repeat_length, L0; lia).
    assert (Us : uval sub = m * uval div).
    { unfold sub, ZERO. rewrite uval_app, uval_repeat0, U. lia. }
    pose proof (uval_bound sub Ds) as Bs. rewrite Ls in Bs.
    assert (Um : uval sub = (m * uval div) mod P len).
    { rewrite <- Us, Z.mod_small; auto. }
    rewrite ugt_spec by (auto; lia). cbn [bind]. rewrite !uval_firstn_len by lia.
    destruct (Z.ltb_spec (uval duo) (uval sub)) as [Hlt|Hge].
    + apply finish_mul_sub1_spec; auto; lia.
    + apply finish_mul_spec; auto; lia.
Qed.

Lemma q_bound q V X m M :
  0 <= q -> 0 <= m -> 0 < V -> m * V <= X -> q * V + X < M -> 0 <= q + m < M.
Proof. intros. split; [lia|]. assert ((q + m) * V < M) by nia. nia. Qed.

(** ** [mul_or_mul_sub1_quo] *)
Lemma mul_or_mul_sub1_quo_spec len duo div quo sd lz dsd vb ds A :
  digs duo -> digs div -> digs quo -> length duo = len -> length div = len -> length quo = len ->
  (2 <= sd < len)%nat -> 0 <= lz < 64 ->
  2 ^ (64 * Z.of_nat sd + 63 - lz) <= uval duo < 2 ^ (64 * Z.of_nat sd + 64 - lz) ->
  2 ^ (vb - 1) <= uval div < 2 ^ vb -> 64 * Z.of_nat sd - lz < vb < 64 * Z.of_nat sd + 64 - lz ->
  (1 <= dsd)%nat -> (dsd + 2 <= len)%nat -> uval (skipn (S dsd) div) = 0 ->
  sig_dd duo sd lz = Val ds -> A = uval quo * uval div + uval duo -> A < P len ->
  exists duo' div', mul_or_mul_sub1_quo len duo sd lz ds div dsd quo = Val (duo', div') /\
    div_done len A (uval div) duo' div'.
Proof.
  intros H1 H2 H3 L1 L2 L3 Hs Hlz HX HV Hvb Hd1 Hd2 Hz Eds EA HA.
  destruct (sig_pair duo div sd lz vb) as (ds' & vs & E1 & E2 & Hvs & HM); auto; try lia.
  rewrite Eds in E1. apply Val_inj in E1. subst ds'.
  unfold mul_or_mul_sub1_quo. rewrite E2. cbn [bind].
  unfold dd_wdiv, dd_wdivrem. destruct (Z.eqb_spec vs 0); [lia|]. cbn [bind].
  set (m := ds / vs) in *. cbv zeta in HM. destruct HM as (M1 & -> & M2 & M3).
  rewrite ?idx_nth by lia. cbn [bind].
  destruct (row_full m div dsd) as (t0 & c0 & row & c1 & t & c & Ec & Er & Et & D & L & U); auto; try lia.
  { unfold dok; lia. }
  unfold d_carrying_mul in Ec. injection Ec as Ec1 Ec2. rewrite Ec1, Ec2, Er, Et.
  pose proof (P_pos len) as HP.
  pose proof (uval_bound duo H1) as Bd. rewrite L1 in Bd.
  pose proof (uval_nonneg quo H3). pose proof (uval_nonneg div H2).
  set (sub0 := (t0 :: row) ++ [t; c]) in *.
  assert (L0 : length sub0 = (dsd + 2)%nat) by (unfold sub0; rewrite app_length, L; reflexivity).
  set (sub := sub0 ++ repeat ZERO (len - (dsd + 2))).
  assert (Ds : digs sub) by (apply digs_app; split; [auto|apply digs_repeat; apply dok_0]).
  assert (Ls : length sub = len) by (unfold sub; rewrite app_length, repeat_length, L0; lia).
  assert (Us : uval sub = m * uval div).
  { unfold sub, ZERO. rewrite uval_app, uval_repeat0, U. lia. }
  pose proof (uval_bound sub Ds) as Bs. rewrite Ls in Bs. cbv zeta. rewrite Ls.
  assert (Um : uval sub = (m * uval div) mod P len).
  { rewrite <- Us, Z.mod_small; auto. }
  rewrite ugt_spec by (auto; lia). cbn [bind]. rewrite !uval_firstn_len by lia.
  assert (HV1 : 0 < uval div).
  { assert (0 < 2 ^ (vb - 1)) by (apply Z.pow_pos_nonneg; lia). lia. }
  destruct (Z.ltb_spec (uval duo) (uval sub)) as [Hlt|Hge].
  - destruct (neg_sub_add_spec len sub div m) as (s & E & D' & Ls' & U'); auto; try lia.
    destruct (twos_complement len sub) as [s1| |]; try discriminate. cbn [bind] in *.
    rewrite E. cbn [bind]. rewrite d_pred by auto.
    destruct (special1_spec len duo s div (m - 1) quo) as (duo' & div' & -> & A1 & A2 & A4 & A5 & A6 & A8);
      auto; try lia.
    { unfold dok. lia. }
    eexists _, _. split; [reflexivity|].
    apply (div_done_intro _ _ _ _ _ (uval quo + (m - 1)) (uval duo - (m - 1) * uval div)); auto; try lia.
    + rewrite A4. apply Z.mod_small. apply (q_bound _ (uval div) (uval duo)); lia.
    + assert (0 <= (m - 1) * uval div) by (apply Z.mul_nonneg_nonneg; lia).
      rewrite A8, U', Zplus_mod_idemp_r. rewrite Z.mod_small; lia.
  - destruct (neg_sub_spec len sub) as (s & E & D' & Ls' & U'); auto.
    rewrite E. cbn [bind].
    destruct (special1_spec len duo s div m quo) as (duo' & div' & -> & A1 & A2 & A4 & A5 & A6 & A8);
      auto; try lia.
    { unfold dok. lia. }
    eexists _, _. split; [reflexivity|].
    apply (div_done_intro _ _ _ _ _ (uval quo + m) (uval duo - m * uval div)); auto; try lia.
    + rewrite A4. apply Z.mod_small. apply (q_bound _ (uval div) (uval duo)); lia.
    + rewrite A8, U', Us, Zplus_mod_idemp_r. rewrite Z.mod_small; lia.
Qed.
