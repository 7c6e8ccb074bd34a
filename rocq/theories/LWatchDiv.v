(** What divisions let an observer see: the results. *)
From Verif Require Export LWatchMul3 MWatchDiv.
From Coq Require Import Lia ZArith.

Lemma werase_for_range_rev {S} n : forall lo (f : nat -> S -> watched S) g s, (forall i s, snd (f i s) = g i s) ->
  snd (w_for_range_rev n lo f s) = for_range_rev n lo g s.
Proof.
  induction n as [|n IH]; intros lo f g s H; cbn [w_for_range_rev for_range_rev]; [reflexivity|]. apply werase_bind; [apply H|]. intros s'. now apply IH.
Qed.
Ltac dwerase :=
  repeat first
    [ progress intros
    | match goal with
      | |- snd (let '(_, _) := ?x in _) = _ => destruct x
      | |- snd (match ?x with _ => _ end) = _ => destruct x
      end
    | solve [auto with werase]
    | reflexivity
    | apply werase_see
    | apply werase_branch
    | apply werase_for_range; intros
    | apply werase_for_range_rev; intros
    | apply werase_bind ].
Ltac dwerases f g := intros; unfold f, g; dwerase.

Lemma we_small_step v i st : snd (w_small_step v i st) = small_step v i st.
Proof. dwerases w_small_step small_step. Qed.
Lemma we_u32_step v i st : snd (w_u32_step v i st) = u32_step v i st.
Proof. dwerases w_u32_step u32_step. Qed.
#[export] Hint Resolve we_small_step we_u32_step : werase.
Lemma we_large_div_by_small q duo sd div : snd (w_large_div_by_small q duo sd div) = large_div_by_small duo sd div.
Proof. dwerases w_large_div_by_small large_div_by_small. Qed.
Lemma we_large_div_by_u32 q duo sd div : snd (w_large_div_by_u32 q duo sd div) = large_div_by_u32 duo sd div.
Proof. dwerases w_large_div_by_u32 large_div_by_u32. Qed.
#[export] Hint Resolve we_large_div_by_small we_large_div_by_u32 : werase.
Lemma we_twos_complement_from p n : forall i l, snd (w_twos_complement_from p n i l) = twos_complement_from n i l.
Proof.
  induction n as [|n IH]; intros i l; cbn [w_twos_complement_from twos_complement_from]; [reflexivity|]. apply werase_bind; [reflexivity|]. intros x. apply werase_see.
  destruct (d_overflowing_add (d_not x) ONE) as [v [|]]; dwerase.
Qed.
Lemma we_twos_complement p n l : snd (w_twos_complement p n l) = twos_complement n l.
Proof. apply we_twos_complement_from. Qed.
Lemma we_any_nonzero_rev p n : forall lo l, snd (w_any_nonzero_rev p n lo l) = any_nonzero_rev n lo l.
Proof.
  induction n as [|n IH]; intros lo l; cbn [w_any_nonzero_rev any_nonzero_rev]; [reflexivity|]. apply werase_bind; [reflexivity|]. intros x. apply werase_branch. destruct (negb (d_is_zero x)); [reflexivity|apply IH].
Qed.
Lemma we_uge_b1 p r n : forall x y, snd (w_uge_b1 p r n x y) = uge_b1 n x y.
Proof.
  induction n as [|n IH]; intros x y; cbn [w_uge_b1 uge_b1]; [reflexivity|]. apply werase_bind; [reflexivity|]. intros a. apply werase_bind; [reflexivity|]. intros b. apply werase_branch.
  destruct (a <? b); [reflexivity|]. apply werase_see, werase_branch. destruct (negb (a =? b)); [reflexivity|apply IH].
Qed.
Lemma we_ugt_b1 p r n : forall x y, snd (w_ugt_b1 p r n x y) = ugt_b1 n x y.
Proof.
  induction n as [|n IH]; intros x y; cbn [w_ugt_b1 ugt_b1]; [reflexivity|]. apply werase_bind; [reflexivity|]. intros a. apply werase_bind; [reflexivity|]. intros b. apply werase_branch.
  destruct (b <? a); [reflexivity|]. apply werase_see, werase_branch. destruct (negb (a =? b)); [reflexivity|apply IH].
Qed.
#[export] Hint Resolve we_twos_complement we_any_nonzero_rev we_uge_b1 we_ugt_b1 : werase.
Lemma we_uge p r n x m y : snd (w_uge p r n x m y) = uge n x m y.
Proof. dwerases w_uge uge. Qed.
Lemma we_ugt p r n x m y : snd (w_ugt p r n x m y) = ugt n x m y.
Proof. dwerases w_ugt ugt. Qed.
Lemma we_special0_step q sub i st : snd (w_special0_step q sub i st) = special0_step sub i st.
Proof. dwerases w_special0_step special0_step. Qed.
Lemma we_special0_same_step q i st : snd (w_special0_same_step q i st) = special0_same_step i st.
Proof. dwerases w_special0_same_step special0_same_step. Qed.
Lemma we_special1_step1 q sum sub i st : snd (w_special1_step1 q sum sub i st) = special1_step1 sum sub i st.
Proof. dwerases w_special1_step1 special1_step1. Qed.
Lemma we_special1_step2 add i st : snd (w_special1_step2 add i st) = special1_step2 add i st.
Proof. dwerases w_special1_step2 special1_step2. Qed.
Lemma we_add_macro_step p r add i st : snd (w_add_macro_step p r add i st) = add_step add i st.
Proof. dwerases w_add_macro_step add_step. Qed.
#[export] Hint Resolve we_uge we_ugt we_special0_step we_special0_same_step we_special1_step1 we_special1_step2 we_add_macro_step : werase.
Lemma we_special0 q n sum sub t v : snd (w_special0 q n sum sub t v) = special0 n sum sub t v.
Proof. dwerases w_special0 special0. Qed.
Lemma we_special0_same q n sum t v : snd (w_special0_same q n sum t v) = special0_same n sum t v.
Proof. dwerases w_special0_same special0_same. Qed.
Lemma we_special1 q n sum sub t v add : snd (w_special1 q n sum sub t v add) = special1 n sum sub t v add.
Proof. dwerases w_special1 special1. Qed.
Lemma we_add_macro p r n sum add : snd (w_add_macro p r n sum add) = add_macro n sum add.
Proof. dwerases w_add_macro add_macro. Qed.
Lemma we_copy_range p r lo hi d s : snd (w_copy_range p r lo hi d s) = copy_range lo hi d s.
Proof. unfold w_copy_range, wbind, wlift, see, wval. cbn. now destruct (copy_range lo hi d s). Qed.
Lemma we_move_step q i st : snd (w_move_step q i st) = move_step i st.
Proof. dwerases w_move_step move_step. Qed.
#[export] Hint Resolve we_special0 we_special0_same we_special1 we_add_macro we_copy_range we_move_step : werase.
Lemma we_move q sd vd duo div : snd (w_move q sd vd duo div) = let! (duo, div) := for_range (sd + 1) 0 move_step (duo, div) in Val (duo, unset_take_skip (vd + 1) (sd + 1) div).
Proof. unfold w_move. dwerase. Qed.
Lemma we_sig_dd p l sd lz : snd (w_sig_dd p l sd lz) = sig_dd l sd lz.
Proof. dwerases w_sig_dd sig_dd. Qed.
Lemma we_sub_row q m xs : forall i c, snd (w_sub_row q i m xs c) = Val (sub_row m xs c).
Proof.
  induction xs as [|x xs IH]; intros i c; cbn [w_sub_row sub_row]; [reflexivity|]. apply werase_see. destruct (d_carrying_mul_add m x c) as [t d]. rewrite (wbind_val _ _ _ (IH _ _)). now destruct (sub_row m xs d).
Qed.
Lemma we_finish_mul_sub1 q n duo div sub m : snd (w_finish_mul_sub1 q n duo div sub m) = finish_mul_sub1 n duo div sub m.
Proof. dwerases w_finish_mul_sub1 finish_mul_sub1. Qed.
Lemma we_finish_mul q n duo div sub m : snd (w_finish_mul q n duo div sub m) = finish_mul n duo div sub m.
Proof. dwerases w_finish_mul finish_mul. Qed.
#[export] Hint Resolve we_move we_sig_dd we_finish_mul_sub1 we_finish_mul : werase.
Lemma we_mul_or_mul_sub1 q n duo sd lz div vd : snd (w_mul_or_mul_sub1 q n duo sd lz div vd) = mul_or_mul_sub1 n duo sd lz div vd.
Proof.
  unfold w_mul_or_mul_sub1, mul_or_mul_sub1. apply werase_see. do 3 (apply werase_bind; [auto with werase|]; intros ?). apply werase_see. apply werase_bind; [reflexivity|]. intros v0. apply werase_see.
  destruct (d_carrying_mul (dd_lo a1) v0) as [t0 c]. rewrite (wbind_val _ _ _ (we_sub_row _ _ _ _ _)). destruct (sub_row _ _ _) as [row c']. apply werase_see. dwerase.
Qed.
Lemma we_carry_into ds : forall i c, snd (w_carry_into i ds c) = Val (carry_into ds c).
Proof.
  induction ds as [|d ds IH]; intros i c; cbn [w_carry_into carry_into]; [reflexivity|]. apply werase_branch. destruct (d_is_zero c); [reflexivity|]. apply werase_see.
  destruct (d_carrying_add d c) as [t e]. rewrite (wbind_val _ _ _ (IH _ _)). reflexivity.
Qed.
Lemma we_add_to_quo quo k b m : snd (w_add_to_quo quo k b m) = add_to_quo quo k b m.
Proof.
  unfold w_add_to_quo, add_to_quo. do 2 (apply werase_bind; [reflexivity|]; intros ?). destruct (d_carrying_add _ _) as [t c]. do 3 (apply werase_bind; [reflexivity|]; intros ?). cbv zeta.
  rewrite (wbind_val _ _ _ (we_carry_into _ _ _)). reflexivity.
Qed.
Lemma we_sub_lo_step q div k b m i st : snd (w_sub_lo_step q div k b m i st) = sub_lo_step div k b m i st.
Proof. dwerases w_sub_lo_step sub_lo_step. Qed.
Lemma we_sub_hi_step q div k b m i st : snd (w_sub_hi_step q div k b m i st) = sub_hi_step div k b m i st.
Proof. dwerases w_sub_hi_step sub_hi_step. Qed.
#[export] Hint Resolve we_mul_or_mul_sub1 we_add_to_quo we_sub_lo_step we_sub_hi_step : werase.
Lemma we_sub_lo q duo div sd k b m : snd (w_sub_lo q duo div sd k b m) = sub_lo duo div sd k b m.
Proof. dwerases w_sub_lo sub_lo. Qed.
Lemma we_sub_hi q duo div sd k b m : snd (w_sub_hi q duo div sd k b m) = sub_hi duo div sd k b m.
Proof. dwerases w_sub_hi sub_hi. Qed.
Lemma we_mul_or_mul_sub1_quo q n duo sd lz s div vd quo : snd (w_mul_or_mul_sub1_quo q n duo sd lz s div vd quo) = mul_or_mul_sub1_quo n duo sd lz s div vd quo.
Proof.
  unfold w_mul_or_mul_sub1_quo, mul_or_mul_sub1_quo. apply werase_see. do 2 (apply werase_bind; [auto with werase|]; intros ?). apply werase_see. apply werase_bind; [reflexivity|]. intros v0. cbv zeta. apply werase_see.
  rewrite (wbind_val _ _ _ (we_sub_row _ _ _ _ _)). destruct (sub_row _ _ _) as [row c']. apply werase_bind; [reflexivity|]. intros vt. destruct (d_carrying_mul_add _ _ _) as [t c]. apply werase_see. dwerase.
Qed.
Lemma we_find_sd n : forall duo, snd (w_find_sd n duo) = find_sd n duo.
Proof.
  induction n as [|n IH]; intros duo; cbn [w_find_sd find_sd]; [reflexivity|]. apply werase_bind; [reflexivity|]. intros d. apply werase_branch. destruct (negb (d_is_zero d)); [reflexivity|]. apply werase_see, IH.
Qed.
Lemma we_quo_add1_from n : forall i len duo quo, snd (w_quo_add1_from n i len duo quo) = quo_add1_from n i len duo quo.
Proof.
  induction n as [|n IH]; intros i len duo quo; cbn [w_quo_add1_from quo_add1_from]; [reflexivity|]. apply werase_bind; [reflexivity|]. intros d. apply werase_see.
  destruct (d_overflowing_add d ONE) as [v [|]]; dwerase.
Qed.
Lemma we_quo_add_carry_from n : forall i len duo quo c, snd (w_quo_add_carry_from n i len duo quo c) = quo_add_carry_from n i len duo quo c.
Proof.
  induction n as [|n IH]; intros i len duo quo c; cbn [w_quo_add_carry_from quo_add_carry_from]; [reflexivity|]. apply werase_branch. destruct (d_is_zero c); [apply we_copy_range|].
  apply werase_bind; [reflexivity|]. intros d. destruct (d_carrying_add d c) as [t e]. dwerase.
Qed.
#[export] Hint Resolve we_sub_lo we_sub_hi we_mul_or_mul_sub1_quo we_find_sd we_quo_add1_from we_quo_add_carry_from : werase.
Lemma we_small_tail q n duo div quo : snd (w_small_tail q n duo div quo) = small_tail n duo div quo.
Proof. dwerases w_small_tail small_tail. Qed.
#[export] Hint Resolve we_small_tail : werase.
Lemma we_div_loop q fuel : forall n duo div quo sd lz vd vb lb s, snd (w_div_loop q fuel n duo div quo sd lz vd vb lb s) = div_loop fuel n duo div quo sd lz vd vb lb s.
Proof.
  induction fuel as [|fuel IH]; intros; cbn [w_div_loop div_loop]; [reflexivity|]. do 2 (apply werase_bind; [reflexivity|]; intros ?). cbv zeta. apply werase_see. apply werase_bind; [auto with werase|]. intros sdd.
  apply werase_branch. destruct (lb <=? a0 + 64 * Z.of_nat a); [|auto with werase]. apply werase_bind; [reflexivity|]. intros mul. apply werase_bind; [auto with werase|]. intros quo'.
  apply werase_branch. apply werase_bind; [destruct (d_is_zero (dd_hi mul)); auto with werase|]. intros duo'. apply werase_bind; [auto with werase|]. intros [sd'|].
  - apply werase_bind; [reflexivity|]. intros d. apply werase_bind; [reflexivity|]. intros k. apply werase_branch. destruct (_ =? vb).
    + dwerase.
    + apply werase_branch. destruct (_ <? vb); [dwerase|]. apply werase_branch. destruct (Nat.ltb sd' 2); [auto with werase|apply IH].
  - apply werase_see. dwerase.
Qed.
Lemma we_large_div_by_large q n duo sd div vd : snd (w_large_div_by_large q n duo sd div vd) = large_div_by_large n duo sd div vd.
Proof.
  unfold w_large_div_by_large, large_div_by_large. do 2 (apply werase_bind; [reflexivity|]; intros ?). cbv zeta. do 2 (apply werase_bind; [reflexivity|]; intros ?). apply werase_branch.
  destruct (_ <? _); [auto with werase|]. apply werase_branch. destruct (_ =? _); [dwerase|]. apply werase_branch. destruct (_ <? 64); [auto with werase|].
  apply werase_bind; [reflexivity|]. intros dm. apply werase_branch, werase_see. apply werase_bind; [destruct (_ =? 0); dwerase|]. intros s. apply werase_see. apply we_div_loop.
Qed.
#[export] Hint Resolve we_large_div_by_large : werase.
Lemma werase_assoc {A C D} (m : watched A) (f : A -> watched C) (g : C -> watched D) o :
  snd (wbind m (fun a => wbind (f a) g)) = o -> snd (wbind (wbind m f) g) = o.
Proof. intros <-. unfold wbind. destruct (snd m) as [a| |]; cbn [snd fst]; try reflexivity. now destruct (snd (f a)). Qed.
Lemma we_aarons_algorithm_divrem q duo div : snd (w_aarons_algorithm_divrem q duo div) = aarons_algorithm_divrem duo div.
Proof.
  unfold w_aarons_algorithm_divrem, aarons_algorithm_divrem. rewrite (wbind_val _ _ _ (we_rposition _ _ _ (le_n _))), firstn_all. destruct (rposition_nonzero div) as [vd|]; [|reflexivity].
  rewrite (wbind_val _ _ _ (we_rposition _ _ _ (le_n _))), firstn_all. destruct (rposition_nonzero duo) as [sd|]; [|reflexivity]. apply werase_branch. destruct (Nat.ltb sd vd); [reflexivity|].
  unfold w_divrem_cases. apply werase_assoc, werase_branch, werase_assoc, werase_branch. destruct (Nat.eqb sd 0), (Nat.eqb vd 0); [|reflexivity| |].
  - do 3 (apply werase_assoc, werase_bind; [reflexivity|]; intros ?). destruct a1 as [x r]. do 2 (apply werase_assoc, werase_bind; [reflexivity|]; intros ?). reflexivity.
  - apply werase_assoc, werase_bind; [reflexivity|]. intros v. apply werase_assoc, werase_branch. destruct (32 <=? d_leading_zeros v); (apply werase_bind; [auto with werase|]); now intros [? ?].
  - apply werase_assoc, werase_branch. destruct (Nat.eqb sd 1); [|apply werase_bind; [auto with werase|]; now intros [? ?]].
    do 5 (apply werase_assoc, werase_bind; [reflexivity|]; intros ?). destruct a3 as [x r]. do 4 (apply werase_assoc, werase_bind; [reflexivity|]; intros ?). reflexivity.
Qed.
Lemma we_swap_step q i st : snd (w_swap_step q i st) = swap_step i st.
Proof. dwerases w_swap_step swap_step. Qed.
#[export] Hint Resolve we_aarons_algorithm_divrem we_swap_step : werase.
Lemma we_aarons_algorithm_remdiv q duo div : snd (w_aarons_algorithm_remdiv q duo div) = aarons_algorithm_remdiv duo div.
Proof. dwerases w_aarons_algorithm_remdiv aarons_algorithm_remdiv. Qed.
Lemma we_clone_any p a : snd (w_clone p a) = clone a.
Proof. unfold w_clone. destruct (storage (len a)); reflexivity. Qed.
#[export] Hint Resolve we_aarons_algorithm_remdiv we_clone_any : werase.
Lemma we_division_by_zero op x : snd (w_division_by_zero op x) = division_by_zero op x.
Proof. dwerases w_division_by_zero division_by_zero. Qed.
#[export] Hint Resolve we_division_by_zero : werase.
Lemma we_wrapping_udivrem_assign a b : snd (w_wrapping_udivrem_assign a b) = wrapping_udivrem_assign a b.
Proof. dwerases w_wrapping_udivrem_assign wrapping_udivrem_assign. Qed.
Lemma we_wrapping_uremdiv_assign a b : snd (w_wrapping_uremdiv_assign a b) = wrapping_uremdiv_assign a b.
Proof. dwerases w_wrapping_uremdiv_assign wrapping_uremdiv_assign. Qed.
Lemma we_wrapping_udiv_assign a b : snd (w_wrapping_udiv_assign a b) = wrapping_udiv_assign a b.
Proof. dwerases w_wrapping_udiv_assign wrapping_udiv_assign. Qed.
Lemma we_wrapping_urem_assign a b : snd (w_wrapping_urem_assign a b) = wrapping_urem_assign a b.
Proof. dwerases w_wrapping_urem_assign wrapping_urem_assign. Qed.
#[export] Hint Resolve we_wrapping_udivrem_assign we_wrapping_uremdiv_assign : werase.
Lemma we_elsewhere f {A} (m : watched A) o : snd m = o -> snd (elsewhere f m) = o.
Proof. intros <-. reflexivity. Qed.
#[export] Hint Resolve we_elsewhere : werase.
Lemma we_neg_if f b x : snd (w_neg_if f b x) = neg_if b x.
Proof. unfold w_neg_if, neg_if. destruct b; [|reflexivity]. apply we_elsewhere, we_wrapping_neg. Qed.
Lemma we_unwrap_mut2 m o : snd m = o -> snd (w_unwrap_mut2 m) = unwrap_mut2 o.
Proof. intros <-. unfold w_unwrap_mut2, unwrap_mut2. apply werase_bind; [reflexivity|]. intros [st r]. dwerase. Qed.
#[export] Hint Resolve we_neg_if we_unwrap_mut2 : werase.
Ltac signed_erase := apply werase_bind; [apply we_elsewhere, we_is_zero|]; intros z; apply werase_branch; destruct z; [dwerase|].
Lemma we_wrapping_sdivrem_assign a b : snd (w_wrapping_sdivrem_assign a b) = wrapping_sdivrem_assign a b.
Proof.
  unfold w_wrapping_sdivrem_assign, wrapping_sdivrem_assign. signed_erase. apply werase_bind; [apply we_msb|]. intros ml. apply werase_bind; [apply we_elsewhere, we_msb|]. intros mr. apply werase_branch, werase_branch.
  destruct ml, mr; dwerase.
Qed.
Lemma we_wrapping_sremdiv_assign a b : snd (w_wrapping_sremdiv_assign a b) = wrapping_sremdiv_assign a b.
Proof.
  unfold w_wrapping_sremdiv_assign, wrapping_sremdiv_assign. signed_erase. apply werase_bind; [apply we_msb|]. intros ml. apply werase_bind; [apply we_elsewhere, we_msb|]. intros mr. apply werase_branch, werase_branch.
  destruct ml, mr; dwerase.
Qed.
Lemma we_wrapping_sdiv_assign a b : snd (w_wrapping_sdiv_assign a b) = wrapping_sdiv_assign a b.
Proof.
  unfold w_wrapping_sdiv_assign, wrapping_sdiv_assign. signed_erase. apply werase_bind; [apply we_clone_any|]. intros c. apply werase_bind; [apply we_msb|]. intros ml. apply werase_bind; [apply we_elsewhere, we_msb|].
  intros mr. apply werase_branch, werase_branch. destruct ml, mr; dwerase.
Qed.
Lemma we_wrapping_srem_assign a b : snd (w_wrapping_srem_assign a b) = wrapping_srem_assign a b.
Proof.
  unfold w_wrapping_srem_assign, wrapping_srem_assign. signed_erase. apply werase_bind; [apply we_clone_any|]. intros c. apply werase_bind; [apply we_msb|]. intros ml. apply werase_bind; [apply we_elsewhere, we_msb|].
  intros mr. apply werase_branch, werase_branch. destruct ml, mr; dwerase.
Qed.
