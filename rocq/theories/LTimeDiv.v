(** Bounds on the steps of division. *)
From Verif Require Export LTimeCost LRounds.
From Coq Require Import Lia ZArith.

Lemma k_small_step v i st : costs (c_small_step v i st) 2.
Proof. unfold c_small_step. cst. Qed.
Lemma k_u32_step v i st : costs (c_u32_step v i st) 3.
Proof. unfold c_u32_step. cst. Qed.
#[export] Hint Resolve k_small_step k_u32_step : costs.
Lemma k_large_div_by_small n duo sd div : (sd < n)%nat -> costs (c_large_div_by_small duo sd div) (3 * Z.of_nat n + 5).
Proof. intros H. unfold c_large_div_by_small. cst. Qed.
Lemma k_large_div_by_u32 n duo sd div : (sd < n)%nat -> costs (c_large_div_by_u32 duo sd div) (3 * Z.of_nat n + 5).
Proof. intros H. unfold c_large_div_by_u32. cst. Qed.
Lemma k_twos_from n : forall i a, costs (c_twos_complement_from n i a) (2 * Z.of_nat n).
Proof.
  induction n as [|n IH]; intros i a; cbn [c_twos_complement_from]; [cst|]. cstep. destruct (d_overflowing_add (d_not x) ONE) as [v [|]].
  - cst.
  - cstep. eapply costs_le; [apply (costs_for_range _ 2); [lia|intros; cst]|lia].
Qed.
Lemma k_twos n a : costs (c_twos_complement n a) (2 * Z.of_nat n).
Proof. apply k_twos_from. Qed.
Lemma k_any n lo r : costs (c_any_nonzero_rev n lo r) (Z.of_nat n).
Proof. induction n as [|n IH]; cbn [c_any_nonzero_rev]; cst. Qed.
Lemma k_uge_b1 n l r : costs (c_uge_b1 n l r) (2 * Z.of_nat n).
Proof. induction n as [|n IH]; cbn [c_uge_b1]; cst. Qed.
Lemma k_ugt_b1 n l r : costs (c_ugt_b1 n l r) (2 * Z.of_nat n).
Proof. induction n as [|n IH]; cbn [c_ugt_b1]; cst. Qed.
#[export] Hint Resolve k_twos k_any k_uge_b1 k_ugt_b1 : costs.
Lemma k_uge n m l r : costs (c_uge n l m r) (2 * Z.of_nat n + Z.of_nat m).
Proof. unfold c_uge. cst. Qed.
Lemma k_ugt n m l r : costs (c_ugt n l m r) (2 * Z.of_nat n + Z.of_nat m).
Proof. unfold c_ugt. cst. Qed.
Lemma k_special0_step s i st : costs (c_special0_step s i st) 4.
Proof. unfold c_special0_step. cst. Qed.
Lemma k_special0_same_step i st : costs (c_special0_same_step i st) 4.
Proof. unfold c_special0_same_step. cst. Qed.
Lemma k_special1_step1 s b i st : costs (c_special1_step1 s b i st) 3.
Proof. unfold c_special1_step1. cst. Qed.
Lemma k_special1_step2 a i st : costs (c_special1_step2 a i st) 4.
Proof. unfold c_special1_step2. cst. Qed.
Lemma k_move_step i st : costs (c_move_step i st) 3.
Proof. unfold c_move_step. cst. Qed.
Lemma k_swap_step i st : costs (c_swap_step i st) 4.
Proof. unfold c_swap_step. cst. Qed.
#[export] Hint Resolve k_uge k_ugt k_special0_step k_special0_same_step k_special1_step1 k_special1_step2 k_move_step k_swap_step : costs.
Lemma k_special0 n sum sub t v : costs (c_special0 n sum sub t v) (4 * Z.of_nat n + 8).
Proof. unfold c_special0. cst. Qed.
Lemma k_special0_same n sum t v : costs (c_special0_same n sum t v) (4 * Z.of_nat n + 8).
Proof. unfold c_special0_same. cst. Qed.
Lemma k_special1 n sum sub t v a : costs (c_special1 n sum sub t v a) (7 * Z.of_nat n + 8).
Proof. unfold c_special1. cst. Qed.
Lemma k_add_macro n s a : costs (c_add_macro n s a) (3 * Z.of_nat n + 6).
Proof. unfold c_add_macro. cst. Qed.
#[export] Hint Resolve k_special0 k_special0_same k_special1 k_add_macro : costs.
Lemma k_sig_dd x sd lz : costs (c_sig_dd x sd lz) 3.
Proof. unfold c_sig_dd. cst. Qed.
Lemma k_finish_mul_sub1 n duo div sub m : costs (c_finish_mul_sub1 n duo div sub m) (9 * Z.of_nat n + 14).
Proof. unfold c_finish_mul_sub1. cst. Qed.
Lemma k_finish_mul n duo div sub m : costs (c_finish_mul n duo div sub m) (6 * Z.of_nat n + 8).
Proof. unfold c_finish_mul. cst. Qed.
#[export] Hint Resolve k_sig_dd k_finish_mul_sub1 k_finish_mul : costs.
Lemma k_mul_or_mul_sub1 n duo sd lz div dsd : (dsd < n)%nat ->
  costs (c_mul_or_mul_sub1 n duo sd lz div dsd) (14 * Z.of_nat n + 22).
Proof. intros H. unfold c_mul_or_mul_sub1. pose proof (row_length dsd div). cst. Qed.
Lemma bind_inv {A C} (m : clocked A) (f : A -> clocked C) y : snd (cbind m f) = Val y -> exists x, snd m = Val x /\ snd (f x) = Val y.
Proof. unfold cbind. destruct (snd m) as [x| |] eqn:E; cbn [snd]; try discriminate. eauto. Qed.
Lemma carry_into_length ds : forall c, length (carry_into ds c) = length ds.
Proof.
  induction ds as [|d r IH]; intros c; cbn [carry_into]; [reflexivity|]. destruct (d_is_zero c); [reflexivity|].
  destruct (d_carrying_add d c). cbn [length]. now rewrite IH.
Qed.
Lemma sub_row_len m xs : forall c, length (fst (sub_row m xs c)) = length xs.
Proof.
  induction xs as [|x r IH]; intros c; cbn [sub_row]; [reflexivity|]. destruct (d_carrying_mul_add m x c) as [t d]. specialize (IH d).
  destruct (sub_row m r d). cbn [fst length] in *. now rewrite IH.
Qed.
Lemma add_to_quo_length quo d b m q : snd (c_add_to_quo quo d b m) = Val q -> length q = length quo.
Proof.
  unfold c_add_to_quo. intros E.
  repeat match type of E with
  | snd (cbind _ _) = _ => apply bind_inv in E as (? & ? & E)
  | snd (let '(_, _) := ?x in _) = _ => destruct x
  end.
  cbn [cval snd] in E. injection E as E. subst q. repeat match goal with H : snd (c_upd _ _ _) = _ |- _ => apply upd_length in H end.
  rewrite app_length, carry_into_length, List.skipn_length, firstn_length. lia.
Qed.
Lemma k_add_to_quo quo d b m : costs (c_add_to_quo quo d b m) (Z.of_nat (length quo) + 4).
Proof. unfold c_add_to_quo. cst. all: try (rewrite List.skipn_length; lia). Qed.
Lemma k_sub_lo_step div d b m i st : costs (c_sub_lo_step div d b m i st) 3.
Proof. unfold c_sub_lo_step. cst. Qed.
Lemma k_sub_hi_step div d b m i st : costs (c_sub_hi_step div d b m i st) 4.
Proof. unfold c_sub_hi_step. cst. Qed.
#[export] Hint Resolve k_add_to_quo k_sub_lo_step k_sub_hi_step : costs.
Lemma k_sub_lo n duo div sd d b m : (sd <= n)%nat -> costs (c_sub_lo duo div sd d b m) (4 * Z.of_nat n + 3).
Proof. intros H. unfold c_sub_lo. cst. Qed.
Lemma k_sub_hi n duo div sd d b m : (sd <= n)%nat -> costs (c_sub_hi duo div sd d b m) (4 * Z.of_nat n + 3).
Proof. intros H. unfold c_sub_hi. cst. Qed.

Lemma k_mul_or_mul_sub1_quo n duo sd lz sig div dsd quo : (dsd < n)%nat ->
  costs (c_mul_or_mul_sub1_quo n duo sd lz sig div dsd quo) (17 * Z.of_nat n + 50).
Proof.
  intros H. unfold c_mul_or_mul_sub1_quo. pose proof (row_length dsd div). cst.
  all: match goal with E : sub_row ?m ?xs ?c = _ |- _ => pose proof (sub_row_len m xs c) as R; rewrite E in R; cbn [fst] in R end.
  all: rewrite ?app_length, ?repeat_length in *; cbn [length] in *; rewrite ?app_length, ?repeat_length in *; cbn [length] in *; lia.
Qed.
Lemma k_find_sd n duo : costs (c_find_sd n duo) (Z.of_nat n).
Proof. induction n as [|n IH]; cbn [c_find_sd]; cst. Qed.
Lemma find_sd_lt n duo i : snd (c_find_sd n duo) = Val (Some i) -> (i < n)%nat.
Proof.
  induction n as [|n IH]; cbn [c_find_sd]; [discriminate|]. intros E. apply bind_inv in E as (d & _ & E).
  destruct (negb (d_is_zero d)); [injection E as E; lia|apply IH in E; lia].
Qed.
Lemma k_quo_add1 n : forall i len duo quo, (i + n <= len)%nat -> costs (c_quo_add1_from n i len duo quo) (2 * Z.of_nat (len - i)).
Proof.
  induction n as [|n IH]; intros i len duo quo L; cbn [c_quo_add1_from]; [cst|]. cstep. destruct (d_overflowing_add x ONE) as [v [|]].
  - cstep. eapply costs_le; [apply IH; lia|lia].
  - cst.
Qed.
Lemma k_quo_add_carry n : forall i len duo quo c, (i + n <= len)%nat -> costs (c_quo_add_carry_from n i len duo quo c) (2 * Z.of_nat (len - i)).
Proof.
  induction n as [|n IH]; intros i len duo quo c L; cbn [c_quo_add_carry_from]; [cst|]. cstep; [cst|]. cstep. cstep. cstep.
  eapply costs_le; [apply IH; lia|lia].
Qed.
#[export] Hint Resolve k_find_sd : costs.
Lemma k_small_tail n duo div quo : (2 <= n)%nat -> costs (c_small_tail n duo div quo) (2 * Z.of_nat n + 10).
Proof.
  intros H. pose proof (fun d q c => k_quo_add_carry (n - 2) 2 n d q c ltac:(lia)). unfold c_small_tail. cst.
Qed.

(** ** The loop *)
(** At most [n] steps, if [m'] does not run out of rounds. *)
Definition costs2 {A} (m m' : clocked A) (n : Z) : Prop := snd m' <> OutOfFuel -> costs m n.
Lemma costs2_one {A} (m m' : clocked A) n : costs m n -> costs2 m m' n.
Proof. now intros H _. Qed.
Lemma costs2_bind {A C} (m : clocked A) (f f' : A -> clocked C) a n :
  costs m a -> (forall x, snd m = Val x -> costs2 (f x) (f' x) (n - a)) -> a <= n -> costs2 (cbind m f) (cbind m f') n.
Proof.
  intros H K L N. apply costs_bind with a; auto. intros x E. apply (K x E). unfold cbind in N. rewrite E in N. exact N.
Qed.
Lemma k_div_loop n div dsd vb lb sig : (2 <= n)%nat -> (dsd < n)%nat -> forall r f duo quo sd lz, length quo = n -> (sd < n)%nat ->
  costs2 (c_div_loop f n duo div quo sd lz dsd vb lb sig) (c_div_loop r n duo div quo sd lz dsd vb lb sig)
    (Z.of_nat r * (6 * Z.of_nat n + 11) + 17 * Z.of_nat n + 53).
Proof.
  intros Hn Hd. induction r as [|r IH]; intros f duo quo sd lz Lq Hs; [intros N; now destruct N|].
  destruct f as [|f]; [apply costs2_one, costs_lift; nia|].
  assert (P : 0 <= Z.of_nat r * (6 * Z.of_nat n + 11)) by nia.
  replace (Z.of_nat (S r) * (6 * Z.of_nat n + 11)) with (Z.of_nat r * (6 * Z.of_nat n + 11) + 6 * Z.of_nat n + 11) by lia.
  set (R := Z.of_nat r * (6 * Z.of_nat n + 11)) in *.
  cbn [c_div_loop].
  eapply costs2_bind; [apply costs_lift0|intros d2 E; clear E|lia].
  eapply costs2_bind; [apply costs_lift0|intros dl E; clear E|lia].
  eapply costs2_bind; [apply k_sig_dd|intros sdd E; clear E|lia].
  destruct (lb <=? dl + 64 * Z.of_nat d2); [|apply costs2_one; eapply costs_le; [now apply k_mul_or_mul_sub1_quo|lia]].
  eapply costs2_bind; [apply costs_lift0|intros mul E; clear E|lia].
  eapply costs2_bind; [apply k_add_to_quo|intros q E; apply add_to_quo_length in E; rewrite Lq in *; clear Lq; rename E into Lq|lia].
  eapply costs2_bind with (a := 4 * Z.of_nat n + 3); [destruct (d_is_zero (dd_hi mul)); [apply k_sub_lo|apply k_sub_hi]; lia|intros duo2 E2; clear E2|lia].
  eapply costs2_bind; [apply k_find_sd|intros o Eo|lia].
  destruct o as [i|].
  2: { apply costs2_one. cstep. eapply costs_bind; [apply costs_for with (c := 2); [intros; cst|lia]|intros ? _|lia]. cst. }
  apply find_sd_lt in Eo.
  eapply costs2_bind; [apply costs_idx|intros d E; clear E|lia].
  eapply costs2_bind; [apply costs_lift0|intros k E; clear E|lia].
  destruct (Z.of_nat i * 64 + k =? vb); [apply costs2_one; pose proof (fun d q => k_quo_add1 n 0 n d q ltac:(lia)); cst|].
  destruct (Z.of_nat i * 64 + k <? vb); [apply costs2_one; cst|].
  destruct (Nat.ltb i 2); [apply costs2_one; eapply costs_le; [now apply k_small_tail|lia]|].
  intros N. eapply costs_le; [apply (IH f duo2 q i _ Lq ltac:(lia) N)|lia].
Qed.

(** Division of large numbers with [r] rounds at most. *)
Definition c_large_within (r len : nat) (duo : list Z) (ini_duo_sd : nat) (div : list Z) (div_sd : nat) : clocked (list Z * list Z) :=
  let~ dtop := c_idx duo ini_duo_sd in
  let ini_duo_lz := d_leading_zeros dtop in
  let~ vtop := c_idx div div_sd in
  let div_lz := d_leading_zeros vtop in
  let~ a := clift (usize_sub 64 ini_duo_lz) in
  let ini_duo_sb := Z.of_nat ini_duo_sd * 64 + a in
  let~ b := clift (usize_sub 64 div_lz) in
  let div_sb := Z.of_nat div_sd * 64 + b in
  if ini_duo_sb <? div_sb then
    let~ (duo, div) := c_for_range (ini_duo_sd + 1) 0 c_move_step (duo, div) in
    let~ _ := cpay (div_sd + 1) in
    cval (duo, unset_take_skip (div_sd + 1) (ini_duo_sd + 1) div)
  else if ini_duo_sb =? div_sb then
    let place := (ini_duo_sd + 1)%nat in
    let~ ge := c_uge place duo place div in
    if ge then
      let~ div := c_twos_complement place div in
      c_special0_same place duo div ONE
    else
      let~ (duo, div) := c_for_range (ini_duo_sd + 1) 0 c_move_step (duo, div) in
      let~ _ := cpay (div_sd + 1) in
      cval (duo, unset_take_skip (div_sd + 1) place div)
  else
    let ini_bits := ini_duo_sb - div_sb in
    if ini_bits <? 64 then c_mul_or_mul_sub1 len duo ini_duo_sd ini_duo_lz div div_sd
    else
      let~ dm := clift (nsub div_sd 1) in
      let div_lesser_bits := b + 64 * Z.of_nat dm in
      let~ div_sig_d :=
        if div_lz =? 0 then cval vtop
        else
          let~ y := c_idx div dm in
          let~ k := clift (usize_sub 64 div_lz) in
          cval (d_or (d_shl vtop div_lz) (d_shr y k)) in
      let div_sig_d_add1 := dd_wadd (dd div_sig_d) (dd ONE) in
      let~ _ := cpay len in
      let quo := repeat ZERO len in
      c_div_loop r len duo div quo ini_duo_sd ini_duo_lz div_sd div_sb
        div_lesser_bits div_sig_d_add1.
Lemma e_large_within r len duo sd div dsd : snd (c_large_within r len duo sd div dsd) = large_div_by_large_within r len duo sd div dsd.
Proof. erases c_large_within large_div_by_large_within. Qed.
Lemma k_large_within r n duo sd div dsd : (2 <= n)%nat -> (dsd < n)%nat -> (sd < n)%nat ->
  costs2 (c_large_div_by_large n duo sd div dsd) (c_large_within r n duo sd div dsd)
    (Z.of_nat r * (6 * Z.of_nat n + 11) + 18 * Z.of_nat n + 56).
Proof.
  intros Hn Hd Hs. unfold c_large_div_by_large, c_large_within.
  assert (P : 0 <= Z.of_nat r * (6 * Z.of_nat n + 11)) by nia.
  eapply costs2_bind; [apply costs_idx|intros d E; clear E|lia].
  eapply costs2_bind; [apply costs_idx|intros v E; clear E|lia].
  eapply costs2_bind; [apply costs_lift0|intros a E; clear E|lia].
  eapply costs2_bind; [apply costs_lift0|intros b E; clear E|lia].
  cbv zeta.
  destruct (Z.of_nat sd * 64 + a <? Z.of_nat dsd * 64 + b); [apply costs2_one; cst|].
  destruct (Z.of_nat sd * 64 + a =? Z.of_nat dsd * 64 + b); [apply costs2_one; cst|].
  destruct (Z.of_nat sd * 64 + a - (Z.of_nat dsd * 64 + b) <? 64); [apply costs2_one; eapply costs_le; [apply k_mul_or_mul_sub1; lia|lia]|].
  eapply costs2_bind; [apply costs_lift0|intros dm E; clear E|lia].
  eapply costs2_bind with (a := 1); [clear P; cst|intros y E; clear E|lia].
  eapply costs2_bind; [apply costs_pay|intros ? E; clear E|lia].
  intros N. eapply costs_le; [eapply k_div_loop; [lia|lia| |lia|exact N]|lia]. apply repeat_length.
Qed.

(** [7 n^2 + 50 n + 80] *)
Definition div_bound (n : Z) : Z := 7 * n * n + 50 * n + 80.
Lemma k_large n duo sd div dsd :
  digs duo -> digs div -> length duo = n -> length div = n ->
  (2 <= sd < n)%nat -> (1 <= dsd <= sd)%nat ->
  nth sd duo 0 <> 0 -> uval (skipn (S sd) duo) = 0 -> nth dsd div 0 <> 0 -> uval (skipn (S dsd) div) = 0 ->
  costs (c_large_div_by_large n duo sd div dsd) (div_bound (Z.of_nat n)).
Proof.
  intros H1 H2 L1 L2 Hs Hd N1 Z1 N2 Z2.
  set (r := (n + n / 31 + 1)%nat).
  assert (R : (31 * (n / 31) <= n < 31 * (n / 31) + 31)%nat) by (pose proof (Nat.div_mod n 31 ltac:(lia)); pose proof (Nat.mod_upper_bound n 31 ltac:(lia)); lia).
  eapply costs_le; [apply (k_large_within r); try lia|].
  - rewrite e_large_within. apply large_enough; auto; try lia.
    pose proof (Z.log2_nonneg (uval div)). enough (Z.log2 (uval duo) < 64 * Z.of_nat n) by lia.
    pose proof (uval_bound duo H1) as B1. rewrite L1 in B1.
    destruct (Z.eq_dec (uval duo) 0) as [->|]; [cbn; lia|]. apply Z.log2_lt_pow2; [lia|]. rewrite <- P_pow. lia.
  - unfold div_bound. assert (E : Z.of_nat r = Z.of_nat n + Z.of_nat (n / 31) + 1) by lia. rewrite E. clear E.
    set (k := Z.of_nat (n / 31)). assert (31 * k <= Z.of_nat n) by lia. assert (0 <= k) by lia. set (m := Z.of_nat n) in *. assert (2 < m) by lia. clearbody m k. nia.
Qed.
Lemma k_divrem n duo div : digs duo -> digs div -> length duo = n -> length div = n ->
  costs (c_aarons_algorithm_divrem duo div) (div_bound (Z.of_nat n) + 2 * Z.of_nat n).
Proof.
  intros H1 H2 L1 L2. unfold c_aarons_algorithm_divrem.
  assert (D : 50 * Z.of_nat n + 80 <= div_bound (Z.of_nat n)) by (unfold div_bound; nia).
  cstep. pose proof (rposition_nonzero_spec div H2) as Rv. destruct (rposition_nonzero div) as [dsd|]; [|cst].
  cstep. pose proof (rposition_nonzero_spec duo H1) as Rd. destruct (rposition_nonzero duo) as [sd|]; [|cst].
  destruct Rv as (V1 & V2 & V3), Rd as (D1 & D2 & D3).
  destruct (Nat.ltb_spec sd dsd); [cst|].
  pose proof (k_large_div_by_small n duo sd div ltac:(lia)). pose proof (k_large_div_by_u32 n duo sd div ltac:(lia)).
  destruct (Nat.eqb_spec sd 0), (Nat.eqb_spec dsd 0); [cst|cst|cst|].
  destruct (Nat.eqb_spec sd 1); [cst|].
  pose proof (k_large n duo sd div dsd H1 H2 L1 L2 ltac:(lia) ltac:(lia) D2 D3 V2 V3) as K. rewrite L1 in *. cst.
Qed.
Lemma divrem_lengths duo div x y ok : digs duo -> digs div -> length duo = length div ->
  snd (c_aarons_algorithm_divrem duo div) = Val (x, y, ok) -> length x = length duo /\ length y = length duo.
Proof.
  intros H1 H2 L. rewrite e_aarons_algorithm_divrem. pose proof (uval_bound div H2) as B1. destruct (Z.eq_dec (uval div) 0) as [E|E].
  - rewrite divrem_zero by auto. intros K. injection K as <- <- <-. auto.
  - destruct (divrem_spec duo div) as (q & r & -> & D); auto; [lia|]. intros K. injection K as <- <- <-. destruct D as (D1 & D2 & D3 & D4 & _). auto.
Qed.
Lemma k_remdiv n duo div : digs duo -> digs div -> length duo = n -> length div = n ->
  costs (c_aarons_algorithm_remdiv duo div) (div_bound (Z.of_nat n) + 6 * Z.of_nat n).
Proof.
  intros H1 H2 L1 L2. unfold c_aarons_algorithm_remdiv.
  assert (D : 50 * Z.of_nat n + 80 <= div_bound (Z.of_nat n)) by (unfold div_bound; nia).
  eapply costs_bind; [apply k_divrem with (n := n); auto| |lia]. intros [[x y] ok] E. apply divrem_lengths in E as [E1 E2]; auto; [|lia]. cst.
Qed.

Lemma remdiv_lengths duo div x y ok : digs duo -> digs div -> length duo = length div ->
  snd (c_aarons_algorithm_remdiv duo div) = Val (x, y, ok) -> length x = length duo /\ length y = length duo.
Proof.
  intros H1 H2 L. rewrite e_aarons_algorithm_remdiv. pose proof (uval_bound div H2) as B1. destruct (Z.eq_dec (uval div) 0) as [E|E].
  - rewrite remdiv_zero by auto. intros K. injection K as <- <- <-. auto.
  - destruct (remdiv_spec duo div) as (q & r & -> & D); auto; [lia|]. intros K. injection K as <- <- <-. destruct D as (D1 & D2 & D3 & D4 & _). auto.
Qed.

(** * The calls *)
Lemma wf_nd a b : wf a -> wf b -> len a = len b -> length (digits b) = length (digits a).
Proof. intros (_ & A & _) (_ & C & _) E. rewrite E in A. lia. Qed.
Lemma clone_ext a p : costs (c_clone (write_ext a p)) (Z.of_nat (length p)).
Proof. apply costs_clone. Qed.
Lemma k_udivs a b : wf a -> wf b ->
  costs (c_wrapping_udivrem_assign a b) (div_bound (nd a) + 3 * nd a) /\
  costs (c_wrapping_uremdiv_assign a b) (div_bound (nd a) + 7 * nd a) /\
  costs (c_wrapping_udiv_assign a b) (div_bound (nd a) + 4 * nd a) /\
  costs (c_wrapping_urem_assign a b) (div_bound (nd a) + 8 * nd a).
Proof.
  intros Wa Wb. pose proof (wf_nd a b Wa Wb) as LL. pose proof Wa as (_ & _ & Da & _). pose proof Wb as (_ & _ & Db & _).
  assert (D : 50 * nd a + 80 <= div_bound (nd a)) by (unfold div_bound, nd; nia).
  unfold c_wrapping_udivrem_assign, c_wrapping_uremdiv_assign, c_wrapping_udiv_assign, c_wrapping_urem_assign, c_division_by_zero.
  pose proof (k_divrem (length (digits a)) (digits a) (digits b)) as K1. pose proof (k_remdiv (length (digits a)) (digits a) (digits b)) as K2.
  pose proof (fun x y ok => divrem_lengths (digits a) (digits b) x y ok) as Q.
  pose proof (fun x y ok => remdiv_lengths (digits a) (digits b) x y ok) as Q2.
  unfold nd in *.
  repeat split; (eapply costs_bind; [apply costs_lift0| |lia]; intros z E; cbn [clift snd] in E;
    destruct z as [[l r|ls rs]|e]; [cst| |cst]; apply zip_inv in E as (-> & -> & E); specialize (LL E);
    specialize (K1 Da Db eq_refl LL); specialize (K2 Da Db eq_refl LL)).
  all: try (eapply costs_bind; [apply costs_pay|intros ? _|lia]).
  all: eapply costs_bind; [eassumption| |lia]; intros [[p q] ok] E2; first [apply Q in E2|apply Q2 in E2]; auto.
  all: cstep; [apply costs_val; lia|]; apply costs_assoc; eapply costs_bind; [apply clone_ext| |lia]; intros; cst.
Qed.
Lemma k_neg_if f x : wf x -> costs (c_neg_if f x) (2 * nd x + 4).
Proof. intros W. unfold c_neg_if. destruct f; [now apply k_neg|apply costs_val; unfold nd; lia]. Qed.
Lemma neg_if_inv f x y : wf x -> snd (c_neg_if f x) = Val y -> wf y /\ len y = len x /\ nd y = nd x.
Proof.
  intros W. rewrite e_neg_if. unfold neg_if. assert (N : wf y -> len y = len x -> wf y /\ len y = len x /\ nd y = nd x).
  { intros Wy E. split; [exact Wy|]. split; [exact E|]. unfold nd. now rewrite (wf_nd x y W Wy (eq_sym E)). }
  destruct f; [|intros [= <-]; now apply N]. destruct (wrapping_neg_spec x W) as (c & -> & Wc & Lc & _). intros K. injection K as <-. now apply N.
Qed.
Lemma clone_inv x y : wf x -> snd (c_clone x) = Val y -> y = x.
Proof. intros W. unfold c_clone. cbn [snd]. rewrite clone_spec by exact W. now intros [= <-]. Qed.
Lemma udivrem_inv a b x y r : wf a -> wf b -> snd (c_wrapping_udivrem_assign a b) = Val (x, y, r) -> wf x /\ wf y /\ nd x = nd a /\ nd y = nd b.
Proof.
  intros Wa Wb. rewrite e_wrapping_udivrem_assign. destruct (Z.eq_dec (len a) (len b)) as [E|E].
  - destruct (Z.eq_dec (unsigned b) 0) as [Z0|Z0].
    + destruct (udiv_zero_fact a b Wa Wb E Z0) as (-> & _). intros K. injection K as <- <- <-. auto.
    + destruct (udiv_all a b Wa Wb E Z0) as (q & s & -> & _ & _ & _ & _ & _ & (Wq & Lq & _) & (Ws & Ls & _)). intros K. injection K as <- <- <-.
      split; [exact Wq|]. split; [exact Ws|]. unfold nd. rewrite (wf_nd a q Wa Wq) by lia. rewrite (wf_nd b s Wb Ws) by lia. auto.
  - destruct (udiv_mismatch a b E) as (-> & _). intros K. injection K as <- <- <-. auto.
Qed.
Lemma uremdiv_inv a b x y r : wf a -> wf b -> snd (c_wrapping_uremdiv_assign a b) = Val (x, y, r) -> wf x /\ wf y /\ nd x = nd a /\ nd y = nd b.
Proof.
  intros Wa Wb. rewrite e_wrapping_uremdiv_assign. destruct (Z.eq_dec (len a) (len b)) as [E|E].
  - destruct (Z.eq_dec (unsigned b) 0) as [Z0|Z0].
    + destruct (udiv_zero_fact a b Wa Wb E Z0) as (_ & -> & _). intros K. injection K as <- <- <-. auto.
    + destruct (udiv_all a b Wa Wb E Z0) as (q & s & _ & -> & _ & _ & _ & _ & (Wq & Lq & _) & (Ws & Ls & _)). intros K. injection K as <- <- <-.
      split; [exact Ws|]. split; [exact Wq|]. unfold nd. rewrite (wf_nd b q Wb Wq) by lia. rewrite (wf_nd a s Wa Ws) by lia. auto.
  - destruct (udiv_mismatch a b E) as (_ & -> & _). intros K. injection K as <- <- <-. auto.
Qed.
Lemma k_unwrap2 m n : costs m n -> costs (c_unwrap_mut2 m) n.
Proof.
  intros H. unfold c_unwrap_mut2. eapply costs_bind; [exact H| |lia]. intros [st r] _. cst.
Qed.
Lemma unwrap2_inv m x y : snd (c_unwrap_mut2 m) = Val (x, y) -> exists r, snd m = Val (x, y, r).
Proof.
  unfold c_unwrap_mut2. intros E. apply bind_inv in E as ([st r] & E & K). apply bind_inv in K as (u & _ & K). injection K as ->. eauto.
Qed.
Definition sdiv_bound (a b : Z) : Z := div_bound a + 16 * a + 8 * b + 20.
Lemma k_sdivs a b : wf a -> wf b ->
  costs (c_wrapping_sdivrem_assign a b) (sdiv_bound (nd a) (nd b)) /\
  costs (c_wrapping_sremdiv_assign a b) (sdiv_bound (nd a) (nd b)) /\
  costs (c_wrapping_sdiv_assign a b) (sdiv_bound (nd a) (nd b)) /\
  costs (c_wrapping_srem_assign a b) (sdiv_bound (nd a) (nd b)).
Proof.
  intros Wa Wb. unfold sdiv_bound.
  assert (D : 50 * nd a + 80 <= div_bound (nd a)) by (unfold div_bound, nd; nia). assert (N : 0 <= nd a /\ 0 <= nd b) by (unfold nd; lia).
  assert (L : forall op, costs (c_division_by_zero op a) (nd a)) by (intros op; unfold c_division_by_zero, nd; cst).
  repeat split.
  all: unfold c_wrapping_sdivrem_assign, c_wrapping_sremdiv_assign, c_wrapping_sdiv_assign, c_wrapping_srem_assign.
  all: eapply costs_bind; [apply costs_is_zero|intros z _|fold (nd b); lia]; fold (nd b).
  all: destruct z; [eapply costs_bind; [apply L|intros e _; apply costs_val; lia|lia]|].
  3,4: eapply costs_bind; [apply costs_clone|intros b' Eb; apply clone_inv in Eb; [|exact Wb]; subst b'|fold (nd b); lia]; fold (nd b).
  all: eapply costs_bind; [apply costs_msb|intros ml _|lia]; eapply costs_bind; [apply costs_msb|intros mr _|lia].
  1,2: match goal with |- costs (let '(_, _) := ?x in _) _ => destruct x as [nl nr] end.
  all: eapply costs_bind; [apply k_neg_if, Wa|intros a1 Ea; apply neg_if_inv in Ea as (Wa1 & La1 & Na1); [|exact Wa]|lia].
  all: eapply costs_bind; [apply k_neg_if, Wb|intros b1 Eb; apply neg_if_inv in Eb as (Wb1 & Lb1 & Nb1); [|exact Wb]|lia].
  all: destruct (k_udivs a1 b1 Wa1 Wb1) as (K1 & K2 & _).
  all: eapply costs_bind; [apply k_unwrap2; eassumption| |rewrite Na1; lia]; intros [x y] E; apply unwrap2_inv in E as (r & E);
    (first [apply udivrem_inv in E as (Wx & Wy & Nx & Ny)|apply uremdiv_inv in E as (Wx & Wy & Nx & Ny)]; [|exact Wa1|exact Wb1]); rewrite Na1, Nb1 in *.
  all: eapply costs_bind; [apply k_neg_if, Wx|intros x1 _|lia].
  3,4: apply costs_val; lia.
  all: eapply costs_bind; [apply k_neg_if, Wy|intros y1 _; apply costs_val; lia|lia].
Qed.
