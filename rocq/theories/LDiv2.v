(** Proofs about division, part 2: the adding macros, rows and quotient updates. *)
From Verif Require Export LDiv1.

Lemma d_unset_all_0 x : d_unset_all x = 0.
Proof. unfold d_unset_all, ZERO. apply Z.land_0_r. Qed.
Lemma wadd3 s b c : d_wrapping_add (d_wrapping_add s b) c = (s + b + c) mod B.
Proof. unfold d_wrapping_add, u64_wadd. now rewrite Zplus_mod_idemp_l. Qed.
Lemma dok_modB z : dok (z mod B).
Proof. unfold dok. apply Z.mod_pos_bound, B_pos. Qed.
Lemma top_mod low z k : 0 <= low < P k -> low + (z mod B) * P k = (low + z * P k) mod P (S k).
Proof.
  intros H. pose proof (P_pos k). pose proof B_pos. pose proof (Z.mod_pos_bound z B ltac:(lia)).
  apply (Z.mod_unique _ _ (z / B)).
  - left. rewrite P_S. nia.
  - rewrite P_S. pose proof (Z.div_mod z B ltac:(lia)). nia.
Qed.
Lemma firstn_bound k ds : digs ds -> (k <= length ds)%nat -> 0 <= uval (firstn k ds) < P k.
Proof.
  intros H Hk. pose proof (uval_bound _ (digs_firstn k ds H)) as Hb. now rewrite firstn_length_le in Hb by lia.
Qed.

(** * special0! *)
Lemma special0_spec n sum sub target val :
  digs sum -> digs sub -> digs target -> dok val -> (2 <= n)%nat ->
  (n <= length sum)%nat -> (n <= length sub)%nat -> (n <= length target)%nat ->
  exists sum' target', special0 n sum sub target val = Val (sum', target') /\
    digs sum' /\ length sum' = length sum /\ skipn n sum' = skipn n sum /\ uval (firstn n sum') = val /\
    digs target' /\ length target' = length target /\ skipn n target' = skipn n target /\
    uval (firstn n target') = (uval (firstn n sum) + uval (firstn n sub)) mod P n.
Proof.
  intros Hs Hb Ht Hv Hn L1 L2 L3. unfold special0. rewrite ?idx_nth by lia. cbn [bind].
  destruct (d_carrying_add_spec (nth 0 sum 0) (nth 0 sub 0)) as (lo & c & -> & Hlo & Hc & E); auto using nth_dok.
  rewrite !upd_updl by lia. cbn [bind]. unfold nsub. destruct (Nat.leb_spec 1 n); [|lia]. cbn [bind].
  pose (I := fun i (st : list Z * list Z * Z) => let '(s, t, c) := st in
    digs s /\ length s = length sum /\ skipn i s = skipn i sum /\ uval (firstn i s) = val /\
    digs t /\ length t = length target /\ skipn i t = skipn i target /\ 0 <= c <= 1 /\
    uval (firstn i t) + c * P i = uval (firstn i sum) + uval (firstn i sub)).
  destruct (for_range_inv I (special0_step sub) (n - 1 - 1) 1 (updl sum 0 val, updl target 0 lo, c))
    as ([[s t] c'] & -> & Hi).
  - unfold I. rewrite !updl_length by lia. do 2 (split; [solve [auto using updl_digs]|]).
    split; [apply updl_skipn; lia|]. split; [rewrite uval_firstn_updl by lia; cbn [firstn]; rewrite uval_nil, P_0; lia|].
    do 2 (split; [solve [auto using updl_digs]|]). split; [apply updl_skipn; lia|]. split; [auto|].
    rewrite uval_firstn_updl by lia. rewrite !uval_firstn_S by lia. cbn [firstn]. rewrite !uval_nil, P_0, P_1. lia.
  - intros i [[s t] c'] Hi (I1 & I2 & I3 & I4 & I5 & I6 & I7 & I8 & I9). unfold special0_step.
    rewrite ?idx_nth by lia. cbn [bind]. rewrite !upd_updl by lia. cbn [bind].
    destruct (dd_add3_spec (nth i s 0) (nth i sub 0) c') as (S1 & S2 & S3); auto using nth_dok.
    cbv zeta in *. set (x := dd_wadd _ _) in *. rewrite d_unset_all_0.
    eexists; split; [reflexivity|]. unfold I. rewrite !updl_length by lia.
    split; [apply updl_digs; auto; apply dok_0|]. split; [auto|].
    split; [now apply updl_skipn_S; [lia|]|]. split; [rewrite uval_firstn_updl by lia; lia|].
    do 2 (split; [solve [auto using updl_digs]|]). split; [now apply updl_skipn_S; [lia|]|]. split; [auto|].
    rewrite uval_firstn_updl by lia. rewrite !uval_firstn_S by lia. rewrite P_S.
    rewrite <- (nth_of_skipn_eq s sum i) by (auto; lia). nia.
  - destruct Hi as (I1 & I2 & I3 & I4 & I5 & I6 & I7 & I8 & I9). cbn [bind].
    replace (1 + (n - 1 - 1))%nat with (n - 1)%nat in * by lia.
    rewrite ?idx_nth by lia. cbn [bind]. rewrite !upd_updl by lia. cbn [bind].
    eexists _, _. split; [reflexivity|]. rewrite wadd3, d_unset_all_0, !updl_length by lia.
    destruct n as [|m]; [lia|]. replace (S m - 1)%nat with m in * by lia.
    split; [apply updl_digs; auto; apply dok_0|]. split; [auto|].
    split; [now apply updl_skipn_S; [lia|]|].
    split; [rewrite uval_firstn_updl by lia; lia|].
    split; [apply updl_digs; auto; apply dok_modB|]. split; [auto|].
    split; [now apply updl_skipn_S; [lia|]|].
    rewrite uval_firstn_updl by lia.
    rewrite top_mod by (apply firstn_bound; auto; lia). rewrite !uval_firstn_S by lia.
    rewrite (nth_of_skipn_eq s sum m) by (auto; lia). f_equal. nia.
Qed.

Lemma special0_same_spec n sum target val :
  digs sum -> digs target -> dok val -> (2 <= n)%nat ->
  (n <= length sum)%nat -> (n <= length target)%nat ->
  exists sum' target', special0_same n sum target val = Val (sum', target') /\
    digs sum' /\ length sum' = length sum /\ skipn n sum' = skipn n sum /\ uval (firstn n sum') = val /\
    digs target' /\ length target' = length target /\ skipn n target' = skipn n target /\
    uval (firstn n target') = (uval (firstn n sum) + uval (firstn n target)) mod P n.
Proof.
  intros Hs Ht Hv Hn L1 L3. unfold special0_same. rewrite ?idx_nth by lia. cbn [bind].
  destruct (d_carrying_add_spec (nth 0 sum 0) (nth 0 target 0)) as (lo & c & -> & Hlo & Hc & E); auto using nth_dok.
  rewrite !upd_updl by lia. cbn [bind]. unfold nsub. destruct (Nat.leb_spec 1 n); [|lia]. cbn [bind].
  pose (I := fun i (st : list Z * list Z * Z) => let '(s, t, c) := st in
    digs s /\ length s = length sum /\ skipn i s = skipn i sum /\ uval (firstn i s) = val /\
    digs t /\ length t = length target /\ skipn i t = skipn i target /\ 0 <= c <= 1 /\
    uval (firstn i t) + c * P i = uval (firstn i sum) + uval (firstn i target)).
  destruct (for_range_inv I special0_same_step (n - 1 - 1) 1 (updl sum 0 val, updl target 0 lo, c))
    as ([[s t] c'] & -> & Hi).
  - unfold I. rewrite !updl_length by lia. do 2 (split; [solve [auto using updl_digs]|]).
    split; [apply updl_skipn; lia|]. split; [rewrite uval_firstn_updl by lia; cbn [firstn]; rewrite uval_nil, P_0; lia|].
    do 2 (split; [solve [auto using updl_digs]|]). split; [apply updl_skipn; lia|]. split; [auto|].
    rewrite uval_firstn_updl by lia. rewrite !uval_firstn_S by lia. cbn [firstn]. rewrite !uval_nil, P_0, P_1. lia.
  - intros i [[s t] c'] Hi (I1 & I2 & I3 & I4 & I5 & I6 & I7 & I8 & I9). unfold special0_same_step.
    rewrite ?idx_nth by lia. cbn [bind]. rewrite !upd_updl by lia. cbn [bind].
    destruct (dd_add3_spec (nth i s 0) (nth i t 0) c') as (S1 & S2 & S3); auto using nth_dok.
    cbv zeta in *. set (x := dd_wadd _ _) in *. rewrite d_unset_all_0.
    eexists; split; [reflexivity|]. unfold I. rewrite !updl_length by lia.
    split; [apply updl_digs; auto; apply dok_0|]. split; [auto|].
    split; [now apply updl_skipn_S; [lia|]|]. split; [rewrite uval_firstn_updl by lia; lia|].
    do 2 (split; [solve [auto using updl_digs]|]). split; [now apply updl_skipn_S; [lia|]|]. split; [auto|].
    rewrite uval_firstn_updl by lia. rewrite !uval_firstn_S by lia. rewrite P_S.
    rewrite <- (nth_of_skipn_eq s sum i) by (auto; lia).
    rewrite <- (nth_of_skipn_eq t target i) by (auto; lia). nia.
  - destruct Hi as (I1 & I2 & I3 & I4 & I5 & I6 & I7 & I8 & I9). cbn [bind].
    replace (1 + (n - 1 - 1))%nat with (n - 1)%nat in * by lia.
    rewrite ?idx_nth by lia. cbn [bind]. rewrite !upd_updl by lia. cbn [bind].
    eexists _, _. split; [reflexivity|]. rewrite wadd3, d_unset_all_0, !updl_length by lia.
    destruct n as [|m]; [lia|]. replace (S m - 1)%nat with m in * by lia.
    split; [apply updl_digs; auto; apply dok_0|]. split; [auto|].
    split; [now apply updl_skipn_S; [lia|]|].
    split; [rewrite uval_firstn_updl by lia; lia|].
    split; [apply updl_digs; auto; apply dok_modB|]. split; [auto|].
    split; [now apply updl_skipn_S; [lia|]|].
    rewrite uval_firstn_updl by lia.
    rewrite top_mod by (apply firstn_bound; auto; lia). rewrite !uval_firstn_S by lia.
    rewrite (nth_of_skipn_eq s sum m) by (auto; lia).
    rewrite (nth_of_skipn_eq t target m) by (auto; lia). f_equal. nia.
Qed.

(** * special1! *)
Lemma special1_spec n sum sub targ val add :
  digs sum -> digs sub -> digs targ -> digs add -> dok val -> (2 <= n)%nat ->
  length sum = n -> length sub = n -> length targ = n -> length add = n ->
  exists sum' targ', special1 n sum sub targ val add = Val (sum', targ') /\
    digs sum' /\ length sum' = n /\ uval sum' = (uval add + val) mod P n /\
    digs targ' /\ length targ' = n /\ uval targ' = (uval sum + uval sub) mod P n.
Proof.
  intros Hs Hb Ht Ha Hv Hn L1 L2 L3 L4. unfold special1. rewrite ?idx_nth by lia. cbn [bind].
  destruct (d_carrying_add_spec (nth 0 sum 0) (nth 0 sub 0)) as (lo & c & -> & Hlo & Hc & E); auto using nth_dok.
  rewrite !upd_updl by lia. cbn [bind]. unfold nsub. destruct (Nat.leb_spec 1 n); [|lia]. cbn [bind].
  pose (I := fun i (st : list Z * Z) => let '(t, c) := st in
    digs t /\ length t = n /\ 0 <= c <= 1 /\
    uval (firstn i t) + c * P i = uval (firstn i sum) + uval (firstn i sub)).
  destruct (for_range_inv I (special1_step1 sum sub) (n - 1 - 1) 1 (updl targ 0 lo, c))
    as ([t c'] & -> & Hi).
  - unfold I. rewrite !updl_length by lia. do 2 (split; [solve [auto using updl_digs]|]). split; [auto|].
    rewrite uval_firstn_updl by lia. rewrite !uval_firstn_S by lia. cbn [firstn]. rewrite !uval_nil, P_0, P_1. lia.
  - intros i [t c'] Hi (I5 & I6 & I8 & I9). unfold special1_step1.
    rewrite ?idx_nth by lia. cbn [bind]. rewrite !upd_updl by lia. cbn [bind].
    destruct (dd_add3_spec (nth i sum 0) (nth i sub 0) c') as (S1 & S2 & S3); auto using nth_dok.
    cbv zeta in *. set (x := dd_wadd _ _) in *.
    eexists; split; [reflexivity|]. unfold I. rewrite !updl_length by lia.
    do 2 (split; [solve [auto using updl_digs]|]). split; [auto|].
    rewrite uval_firstn_updl by lia. rewrite !uval_firstn_S by lia. rewrite P_S. nia.
  - destruct Hi as (I5 & I6 & I8 & I9). cbn [bind].
    replace (1 + (n - 1 - 1))%nat with (n - 1)%nat in * by lia.
    rewrite ?idx_nth by lia. cbn [bind]. rewrite !upd_updl by lia. cbn [bind]. rewrite wadd3.
    rewrite ?idx_nth by lia. cbn [bind].
    destruct (d_carrying_add_spec (nth 0 add 0) val) as (lo2 & c2 & -> & Hlo2 & Hc2 & E2); auto using nth_dok.
    rewrite !upd_updl by lia. cbn [bind].
    pose (J := fun i (st : list Z * Z) => let '(s, c) := st in
      digs s /\ length s = n /\ 0 <= c <= 1 /\ uval (firstn i s) + c * P i = uval (firstn i add) + val).
    destruct (for_range_inv J (special1_step2 add) (n - 1) 1 (updl sum 0 lo2, c2)) as ([s c3] & -> & Hj).
    + unfold J. rewrite !updl_length by lia. do 2 (split; [solve [auto using updl_digs]|]). split; [auto|].
      rewrite uval_firstn_updl by lia. rewrite !uval_firstn_S by lia. cbn [firstn]. rewrite !uval_nil, P_0, P_1. lia.
    + intros i [s c3] Hi (J1 & J2 & J3 & J4). unfold special1_step2.
      rewrite ?idx_nth by lia. cbn [bind].
      destruct (d_carrying_add_spec (nth i add 0) c3) as (lo3 & c4 & -> & Hlo3 & Hc4 & E3); auto using nth_dok.
      { unfold dok. pose proof B_gt1. lia. }
      assert (exists s1, (if d_is_zero c3 then upd s i (nth i add 0) else Val s) = Val s1 /\
        digs s1 /\ length s1 = n /\ firstn i s1 = firstn i s) as (s1 & -> & K1 & K2 & K3).
      { destruct (d_is_zero c3).
        - rewrite upd_updl by lia. eexists; split; [reflexivity|]. split; [apply updl_digs; auto using nth_dok|].
          split; [rewrite updl_length; lia|]. apply updl_firstn; lia.
        - eauto. }
      cbn [bind]. rewrite upd_updl by lia. cbn [bind]. eexists; split; [reflexivity|]. unfold J.
      rewrite updl_length by lia. do 2 (split; [solve [auto using updl_digs]|]). split; [auto|].
      rewrite uval_firstn_updl by lia. rewrite K3, uval_firstn_S by lia. rewrite P_S. nia.
    + destruct Hj as (J1 & J2 & J3 & J4). cbn [bind]. eexists _, _. split; [reflexivity|].
      replace (1 + (n - 1))%nat with n in * by lia.
      rewrite firstn_all2 in J4 by lia. rewrite (firstn_all2 add) in J4 by lia.
      split; [auto|]. split; [auto|]. split.
      { pose proof (uval_bound s J1) as Hb1. rewrite J2 in Hb1.
        symmetry. rewrite <- J4, Z_mod_plus_full. apply Z.mod_small. lia. }
      rewrite updl_length by lia. split; [apply updl_digs; auto; apply dok_modB|]. split; [auto|].
      rewrite <- (firstn_all2 (n := n) (updl t _ _)) by (rewrite updl_length; lia).
      replace (uval sum + uval sub) with (uval (firstn n sum) + uval (firstn n sub)) by (rewrite !firstn_all2 by lia; auto).
      destruct n as [|m]; [lia|]. replace (S m - 1)%nat with m in * by lia.
      rewrite uval_firstn_updl by lia.
      rewrite top_mod by (apply firstn_bound; auto; lia).
      rewrite !uval_firstn_S by lia. f_equal. nia.
Qed.

(** * add! *)
Lemma add_macro_spec n sum add :
  digs sum -> digs add -> (2 <= n)%nat -> length sum = n -> length add = n ->
  exists sum', add_macro n sum add = Val sum' /\ digs sum' /\ length sum' = n /\
    uval sum' = (uval sum + uval add) mod P n.
Proof.
  intros Hs Hb Hn L1 L2. unfold add_macro. rewrite ?idx_nth by lia. cbn [bind].
  destruct (d_carrying_add_spec (nth 0 sum 0) (nth 0 add 0)) as (lo & c & -> & Hlo & Hc & E); auto using nth_dok.
  rewrite !upd_updl by lia. cbn [bind]. unfold nsub. destruct (Nat.leb_spec 1 n); [|lia]. cbn [bind].
  pose (I := fun i (st : list Z * Z) => let '(t, c) := st in
    digs t /\ length t = n /\ skipn i t = skipn i sum /\ 0 <= c <= 1 /\
    uval (firstn i t) + c * P i = uval (firstn i sum) + uval (firstn i add)).
  destruct (for_range_inv I (add_step add) (n - 1 - 1) 1 (updl sum 0 lo, c))
    as ([t c'] & -> & Hi).
  - unfold I. rewrite !updl_length by lia. do 2 (split; [solve [auto using updl_digs]|]).
    split; [apply updl_skipn; lia|]. split; [auto|].
    rewrite uval_firstn_updl by lia. rewrite !uval_firstn_S by lia. cbn [firstn]. rewrite !uval_nil, P_0, P_1. lia.
  - intros i [t c'] Hi (I5 & I6 & I7 & I8 & I9). unfold add_step.
    rewrite ?idx_nth by lia. cbn [bind]. rewrite !upd_updl by lia. cbn [bind].
    destruct (dd_add3_spec (nth i t 0) (nth i add 0) c') as (S1 & S2 & S3); auto using nth_dok.
    cbv zeta in *. set (x := dd_wadd _ _) in *.
    eexists; split; [reflexivity|]. unfold I. rewrite !updl_length by lia.
    do 2 (split; [solve [auto using updl_digs]|]). split; [now apply updl_skipn_S; [lia|]|]. split; [auto|].
    rewrite uval_firstn_updl by lia. rewrite !uval_firstn_S by lia. rewrite P_S.
    rewrite <- (nth_of_skipn_eq t sum i) by (auto; lia). nia.
  - destruct Hi as (I5 & I6 & I7 & I8 & I9). cbn [bind].
    replace (1 + (n - 1 - 1))%nat with (n - 1)%nat in * by lia.
    rewrite ?idx_nth by lia. cbn [bind]. rewrite !upd_updl by lia. rewrite wadd3.
    eexists; split; [reflexivity|]. rewrite updl_length by lia.
    split; [apply updl_digs; auto; apply dok_modB|]. split; [auto|].
    rewrite <- (firstn_all2 (n := n) (updl t _ _)) by (rewrite updl_length; lia).
    replace (uval sum + uval add) with (uval (firstn n sum) + uval (firstn n add)) by (rewrite !firstn_all2 by lia; auto).
    destruct n as [|m]; [lia|]. replace (S m - 1)%nat with m in * by lia.
    rewrite uval_firstn_updl by lia.
    rewrite top_mod by (apply firstn_bound; auto; lia).
    rewrite !uval_firstn_S by lia.
    rewrite (nth_of_skipn_eq t sum m) by (auto; lia). f_equal. nia.
Qed.

(** * Rows *)
Lemma sub_row_spec mul xs : forall c, dok mul -> digs xs -> dok c ->
  exists out c', sub_row mul xs c = (out, c') /\ length out = length xs /\ digs out /\ dok c' /\
    uval out + c' * P (length xs) = mul * uval xs + c.
Proof.
  induction xs as [|x xs IH]; intros c Hm Hx Hc; cbn [sub_row].
  - exists [], c. cbn [length]. rewrite uval_nil, P_0.
    split; [auto|]. split; [auto|]. split; [apply digs_nil|]. split; auto. lia.
  - apply digs_cons in Hx as [Hx Hxs].
    destruct (d_carrying_mul_add_spec mul x c) as (lo & hi & -> & Hlo & Hhi & E); auto.
    destruct (IH hi) as (out & c' & -> & Hl & Hd & Hc' & E'); auto.
    exists (lo :: out), c'. cbn [length].
    split; [auto|]. split; [lia|]. split; [apply digs_cons; auto|]. split; [auto|].
    rewrite !uval_cons, P_S. nia.
Qed.

(** * The 128 significant bits *)
Lemma pow_split a b : 0 <= b <= a -> 2 ^ a = 2 ^ b * 2 ^ (a - b).
Proof. intros. rewrite <- Z.pow_add_r by lia. f_equal. lia. Qed.

Lemma sig_dd_spec xs sd lz :
  digs xs -> (2 <= sd < length xs)%nat -> 0 <= lz < 64 -> nth sd xs 0 < 2 ^ (64 - lz) ->
  sig_dd xs sd lz = Val (uval (firstn (S sd) xs) / 2 ^ (64 * Z.of_nat sd - 64 - lz)).
Proof.
  intros Hd Hs Hl Ht. unfold sig_dd, nsub, usize_sub.
  destruct (Nat.leb_spec 1 sd); [|lia]. destruct (Nat.leb_spec 2 sd); [|lia]. cbn [bind].
  rewrite ?idx_nth by lia. cbn [bind].
  set (x := nth sd xs 0) in *. set (y := nth (sd - 1) xs 0). set (z := nth (sd - 2) xs 0).
  assert (Hx : dok x) by now apply nth_dok. assert (Hy : dok y) by now apply nth_dok.
  assert (Hz : dok z) by now apply nth_dok.
  assert (Ex : uval (firstn (S sd) xs) = uval (firstn (sd - 2) xs) + (z + B * (y + B * x)) * P (sd - 2)).
  { rewrite uval_firstn_S by lia. fold x. replace sd with (S (sd - 1)) at 1 2 by lia.
    rewrite uval_firstn_S by lia. fold y. rewrite !P_S.
    replace (sd - 1)%nat with (S (sd - 2)) by lia. rewrite uval_firstn_S by lia. fold z. rewrite !P_S. lia. }
  pose proof (firstn_bound (sd - 2) xs Hd ltac:(lia)) as Hlow.
  set (low := uval (firstn (sd - 2) xs)) in *. rewrite Ex. clear Ex.
  assert (HP : P (sd - 2) = 2 ^ (64 * Z.of_nat sd - 128)).
  { rewrite P_pow. f_equal. lia. }
  rewrite HP in *. set (Q := 2 ^ (64 * Z.of_nat sd - 128)) in *.
  assert (HQ : 0 < Q) by (apply Z.pow_pos_nonneg; lia).
  unfold dok in *. pose proof B_pos.
  destruct (Z.eqb_spec lz 0) as [->|Hlz].
  - rewrite dd_from_lo_hi_spec by (unfold dok; lia). f_equal.
    replace (64 * Z.of_nat sd - 64 - 0) with (64 + (64 * Z.of_nat sd - 128)) by lia.
    rewrite Z.pow_add_r, <- B_pow by lia. fold Q.
    apply (Z.div_unique_pos _ _ _ (low + z * Q)); nia.
  - destruct (Z.leb_spec lz 64); [|lia]. cbn [bind]. unfold dd_shl, dd_shr, dd, dd_or.
    destruct (Z.ltb_spec (lz + 64) 128); [|lia]. destruct (Z.ltb_spec lz 128); [|lia].
    destruct (Z.ltb_spec (64 - lz) 128); [|lia]. cbn [bind]. f_equal.
    rewrite !Z.shiftl_mul_pow2, Z.shiftr_div_pow2 by lia.
    assert (Hpl : 0 < 2 ^ lz) by (apply Z.pow_pos_nonneg; lia).
    assert (Hpk : 0 < 2 ^ (64 - lz)) by (apply Z.pow_pos_nonneg; lia).
    assert (HB : B = 2 ^ lz * 2 ^ (64 - lz)) by (apply B_split; lia).
    assert (HBB : BB = B * B) by apply BB_B.
    set (p := 2 ^ lz) in *. set (k := 2 ^ (64 - lz)) in *.
    rewrite Z.pow_add_r by lia. fold p. rewrite <- B_pow.
    rewrite (Z.mod_small (x * (p * B))) by nia. rewrite (Z.mod_small (y * p)) by nia.
    assert (Hzk : 0 <= z / k < p).
    { split; [apply Z.div_pos; lia|]. apply Z.div_lt_upper_bound; nia. }
    (* x * p * B is a multiple of 2^(lz+64) *)
    replace (x * (p * B)) with (x * 2 ^ (64 + lz)) by (rewrite Z.pow_add_r by lia; fold p; rewrite <- B_pow; lia).
    rewrite lor_add_low; [|lia|].
    2:{ rewrite Z.pow_add_r by lia. fold p. rewrite <- B_pow. nia. }
    replace (x * 2 ^ (64 + lz) + y * p) with ((x * B + y) * 2 ^ lz)
      by (rewrite Z.pow_add_r by lia; fold p; rewrite <- B_pow; ring).
    rewrite lor_add_low; [|lia|exact Hzk]. fold p.
    replace (64 * Z.of_nat sd - 64 - lz) with ((64 - lz) + (64 * Z.of_nat sd - 128)) by lia.
    rewrite Z.pow_add_r by lia. fold Q k.
    pose proof (Z.div_mod z k ltac:(lia)) as Ez. pose proof (Z.mod_pos_bound z k ltac:(lia)) as Mz.
    set (zq := z / k) in *. set (zr := z mod k) in *.
    apply (Z.div_unique_pos _ _ _ (low + zr * Q)); [nia|]. rewrite HB. nia.
Qed.

(** * Adding to the quotient *)
Lemma carry_into_spec ds : forall c, digs ds -> 0 <= c <= 1 ->
  exists c', 0 <= c' <= 1 /\ digs (carry_into ds c) /\ length (carry_into ds c) = length ds /\
    uval (carry_into ds c) + c' * P (length ds) = uval ds + c.
Proof.
  induction ds as [|q r IH]; intros c Hd Hc; cbn [carry_into].
  - exists c. cbn [length]. rewrite uval_nil, P_0. split; [auto|]. split; [apply digs_nil|]. split; [auto|]. lia.
  - unfold d_is_zero, ZERO. destruct (Z.eqb_spec c 0) as [->|].
    + exists 0. split; [lia|]. split; [auto|]. split; [auto|]. lia.
    + apply digs_cons in Hd as [Hq Hr].
      destruct (d_carrying_add_spec q c) as (lo & hi & -> & Hlo & Hhi & E); auto.
      { unfold dok. pose proof B_gt1. lia. }
      destruct (IH hi Hr Hhi) as (c' & C1 & C2 & C3 & C4). exists c'. cbn [length].
      split; [auto|]. split; [apply digs_cons; auto|]. split; [lia|]. rewrite !uval_cons, P_S. nia.
Qed.

Lemma add_to_quo_spec quo dg b mul :
  digs quo -> (dg + 2 <= length quo)%nat -> 0 <= b < 64 -> 0 <= mul < 2 * B ->
  uval quo + mul * 2 ^ b * P dg < P (length quo) ->
  exists quo', add_to_quo quo dg b mul = Val quo' /\ digs quo' /\ length quo' = length quo /\
    uval quo' = uval quo + mul * 2 ^ b * P dg.
Proof.
  intros Hq Hl Hb Hm Hlt. unfold add_to_quo, dd_shl. destruct (Z.ltb_spec b 128); [|lia]. cbn [bind].
  rewrite Z.shiftl_mul_pow2 by lia.
  assert (Hpb : 0 < 2 ^ b) by (apply Z.pow_pos_nonneg; lia).
  assert (HpB : 2 * 2 ^ b <= B).
  { rewrite B_pow. rewrite <- (Z.pow_succ_r 2 b) by lia. apply Z.pow_le_mono_r; lia. }
  pose proof BB_B as HBB. pose proof B_pos.
  assert (Hs : 0 <= mul * 2 ^ b < BB) by nia.
  rewrite (Z.mod_small (mul * 2 ^ b)) by auto.
  destruct (dd_lo_hi (mul * 2 ^ b) Hs) as (E & Hlo & Hhi).
  set (lo := dd_lo (mul * 2 ^ b)) in *. set (hi := dd_hi (mul * 2 ^ b)) in *.
  rewrite ?idx_nth by lia. cbn [bind].
  destruct (d_carrying_add_spec lo (nth dg quo 0)) as (t & c & -> & Ht & Hc & E1); auto using nth_dok.
  rewrite upd_updl by lia. cbn [bind]. rewrite idx_nth by (rewrite updl_length; lia). cbn [bind].
  rewrite updl_nth_other by lia.
  destruct (dd_add3_spec hi (nth (dg + 1) quo 0) c) as (S1 & S2 & S3); auto using nth_dok.
  cbv zeta in *. set (x := dd_wadd _ _) in *.
  rewrite upd_updl by (rewrite updl_length; lia). cbn [bind].
  set (q2 := updl (updl quo dg t) (dg + 1) (dd_lo x)).
  assert (D2 : digs q2) by (unfold q2; auto using updl_digs).
  assert (L2 : length q2 = length quo) by (unfold q2; rewrite !updl_length; rewrite ?updl_length; lia).
  assert (U2 : uval q2 = uval quo + (t - nth dg quo 0) * P dg + (dd_lo x - nth (dg + 1) quo 0) * P (dg + 1)).
  { unfold q2. rewrite updl_uval by (rewrite updl_length; lia). rewrite updl_uval, updl_nth_other by lia. reflexivity. }
  destruct (carry_into_spec (skipn (dg + 2) q2) (dd_hi x)) as (c' & C1 & C2 & C3 & C4); auto using digs_skipn.
  rewrite skipn_length in C3, C4.
  eexists; split; [reflexivity|]. set (q3 := carry_into _ _) in *.
  assert (D3 : digs (firstn (dg + 2) q2 ++ q3)) by (apply digs_app; auto using digs_firstn).
  assert (L3 : length (firstn (dg + 2) q2 ++ q3) = length quo) by (rewrite app_length, firstn_length_le; lia).
  split; [auto|]. split; [auto|].
  pose proof (uval_bound _ D3) as Hb3. rewrite L3 in Hb3. revert Hb3.
  rewrite uval_app, firstn_length_le by lia. intros Hb3.
  pose proof (uval_split (dg + 2) q2 ltac:(lia)) as Sp.
  assert (EP : P (length quo) = P (dg + 2) * P (length quo - (dg + 2))) by (rewrite <- P_add; f_equal; lia).
  rewrite L2 in C4.
  assert (EP1 : P (dg + 1) = B * P dg) by (rewrite P_add, P_1; lia).
  assert (EP2 : P (dg + 2) = B * (B * P dg)) by (rewrite P_add; change (P 2) with (P (1 + 1)); rewrite P_add, P_1; lia).
  assert (Tot : uval (firstn (dg + 2) q2) + P (dg + 2) * uval q3 + c' * P (length quo)
                = uval quo + mul * 2 ^ b * P dg).
  { rewrite EP. replace (uval q3) with (uval (skipn (dg + 2) q2) + dd_hi x - c' * P (length quo - (dg + 2))) by lia.
    transitivity (uval q2 + P (dg + 2) * dd_hi x); [rewrite Sp; ring|]. rewrite U2, EP1, EP2, <- E.
    transitivity (uval quo + P dg * ((t - nth dg quo 0) + B * (dd_lo x + B * dd_hi x - nth (dg + 1) quo 0))); [ring|].
    rewrite S3. transitivity (uval quo + P dg * (t + B * c - nth dg quo 0 + B * hi)); [ring|].
    rewrite E1. ring. }
  assert (Hc' : c' = 0 \/ c' = 1) by lia. destruct Hc' as [-> | ->]; lia.
Qed.
