(** The steps of arithmetic. *)
From Verif Require Export LRounds MTime.
From Coq Require Import Lia ZArith.

(** * The results are those of the definitions repeated *)
Lemma erase_bind {A C} (m : clocked A) (o : outcome A) (f : A -> clocked C) (g : A -> outcome C) :
  snd m = o -> (forall a, snd (f a) = g a) -> snd (cbind m f) = bind o g.
Proof. intros <- H. unfold cbind. destruct (snd m); cbn [bind snd]; auto. Qed.
Lemma erase_pay {C} n (f : unit -> clocked C) o : snd (f tt) = o -> snd (cbind (cpay n) f) = o.
Proof. intros <-. reflexivity. Qed.
Lemma erase_for_range {S} n : forall lo (f : nat -> S -> clocked S) g s, (forall i s, snd (f i s) = g i s) ->
  snd (c_for_range n lo f s) = for_range n lo g s.
Proof.
  induction n as [|n IH]; intros lo f g s H; cbn [c_for_range for_range]; [reflexivity|]. apply erase_bind; [apply H|]. intros s'. now apply IH.
Qed.
Lemma erase_for_range_rev {S} n : forall lo (f : nat -> S -> clocked S) g s, (forall i s, snd (f i s) = g i s) ->
  snd (c_for_range_rev n lo f s) = for_range_rev n lo g s.
Proof.
  induction n as [|n IH]; intros lo f g s H; cbn [c_for_range_rev for_range_rev]; [reflexivity|]. apply erase_bind; [apply H|]. intros s'. now apply IH.
Qed.
Create HintDb erase.
Ltac erase :=
  repeat first
    [ progress intros
    | match goal with
      | |- snd (let '(_, _) := ?x in _) = _ => destruct x
      | |- snd (match ?x with _ => _ end) = _ => destruct x
      end
    | solve [auto with erase]
    | reflexivity
    | apply erase_pay
    | apply erase_for_range; intros
    | apply erase_for_range_rev; intros
    | apply erase_bind ].
Ltac erases f g := intros; unfold f, g; erase.

Lemma e_wrapping_shl_assign a s : snd (c_wrapping_shl_assign a s) = wrapping_shl_assign a s.
Proof. erases c_wrapping_shl_assign wrapping_shl_assign. Qed.
Lemma e_wrapping_lshr_assign a s : snd (c_wrapping_lshr_assign a s) = wrapping_lshr_assign a s.
Proof. erases c_wrapping_lshr_assign wrapping_lshr_assign. Qed.
#[export] Hint Resolve e_wrapping_shl_assign e_wrapping_lshr_assign : erase.
Lemma e_ashr_subdigit b u x : snd (c_ashr_subdigit b u x) = ashr_subdigit b u x.
Proof. erases c_ashr_subdigit ashr_subdigit. Qed.
Lemma e_ashr_fill d e x : snd (c_ashr_fill d e x) = ashr_fill d e x.
Proof. erases c_ashr_fill ashr_fill. Qed.
#[export] Hint Resolve e_ashr_subdigit e_ashr_fill : erase.
Lemma e_ashr_digit d e x : snd (c_ashr_digit d e x) = ashr_digit d e x.
Proof. erases c_ashr_digit ashr_digit. Qed.
Lemma e_ashr_both d e b u x : snd (c_ashr_both d e b u x) = ashr_both d e b u x.
Proof. erases c_ashr_both ashr_both. Qed.
#[export] Hint Resolve e_ashr_digit e_ashr_both : erase.
Lemma e_wrapping_ashr_assign a s : snd (c_wrapping_ashr_assign a s) = wrapping_ashr_assign a s.
Proof. erases c_wrapping_ashr_assign wrapping_ashr_assign. Qed.
Lemma e_division_by_zero op x : snd (c_division_by_zero op x) = division_by_zero op x.
Proof. erases c_division_by_zero division_by_zero. Qed.
#[export] Hint Resolve e_division_by_zero : erase.
Lemma e_unwrap_mut2 m o : snd m = o -> snd (c_unwrap_mut2 m) = unwrap_mut2 o.
Proof. intros <-. unfold c_unwrap_mut2, unwrap_mut2. erase. Qed.
#[export] Hint Resolve e_unwrap_mut2 : erase.
Lemma e_wrapping_inc a : snd (c_wrapping_inc a) = wrapping_inc a.
Proof. unfold c_wrapping_inc, wrapping_inc. apply erase_bind; [reflexivity|]. intros [x|xs]; reflexivity. Qed.
#[export] Hint Resolve e_wrapping_inc : erase.
Lemma e_wrapping_dec a : snd (c_wrapping_dec a) = wrapping_dec a.
Proof. unfold c_wrapping_dec, wrapping_dec. apply erase_bind; [reflexivity|]. intros [x|xs]; reflexivity. Qed.
#[export] Hint Resolve e_wrapping_dec : erase.
Lemma e_wrapping_neg a : snd (c_wrapping_neg a) = wrapping_neg a.
Proof. erases c_wrapping_neg wrapping_neg. Qed.
#[export] Hint Resolve e_wrapping_neg : erase.
Lemma e_add_step rhs i st : snd (c_add_step rhs i st) = add_step rhs i st.
Proof. erases c_add_step add_step. Qed.
#[export] Hint Resolve e_add_step : erase.
Lemma e_add_digits lhs rhs : snd (c_add_digits lhs rhs) = add_digits lhs rhs.
Proof. erases c_add_digits add_digits. Qed.
#[export] Hint Resolve e_add_digits : erase.
Lemma e_wrapping_add_assign a rhs : snd (c_wrapping_add_assign a rhs) = wrapping_add_assign a rhs.
Proof. erases c_wrapping_add_assign wrapping_add_assign. Qed.
#[export] Hint Resolve e_wrapping_add_assign : erase.
Lemma e_sub_step rhs i st : snd (c_sub_step rhs i st) = sub_step rhs i st.
Proof. erases c_sub_step sub_step. Qed.
#[export] Hint Resolve e_sub_step : erase.
Lemma e_sub_digits lhs rhs : snd (c_sub_digits lhs rhs) = sub_digits lhs rhs.
Proof. erases c_sub_digits sub_digits. Qed.
#[export] Hint Resolve e_sub_digits : erase.
Lemma e_wrapping_sub_assign a rhs : snd (c_wrapping_sub_assign a rhs) = wrapping_sub_assign a rhs.
Proof. erases c_wrapping_sub_assign wrapping_sub_assign. Qed.
#[export] Hint Resolve e_wrapping_sub_assign : erase.
Lemma e_sig_bits ds sig : snd (c_sig_bits ds sig) = sig_bits ds sig.
Proof. erases c_sig_bits sig_bits. Qed.
#[export] Hint Resolve e_sig_bits : erase.
Lemma e_mul_row_step mult rhs lhs_i rhs_i st : snd (c_mul_row_step mult rhs lhs_i rhs_i st) = mul_row_step mult rhs lhs_i rhs_i st.
Proof. erases c_mul_row_step mul_row_step. Qed.
#[export] Hint Resolve e_mul_row_step : erase.
Lemma e_mul_row_first mult rhs lhs_i sum : snd (c_mul_row_first mult rhs lhs_i sum) = mul_row_first mult rhs lhs_i sum.
Proof. erases c_mul_row_first mul_row_first. Qed.
#[export] Hint Resolve e_mul_row_first : erase.
Lemma e_mul_full_row lhs rhs rhs_sig lhs_i sum : snd (c_mul_full_row lhs rhs rhs_sig lhs_i sum) = mul_full_row lhs rhs rhs_sig lhs_i sum.
Proof. erases c_mul_full_row mul_full_row. Qed.
#[export] Hint Resolve e_mul_full_row : erase.
Lemma e_mul_no_overflow lhs rhs lhs_sig rhs_sig : snd (c_mul_no_overflow lhs rhs lhs_sig rhs_sig) = mul_no_overflow lhs rhs lhs_sig rhs_sig.
Proof. erases c_mul_no_overflow mul_no_overflow. Qed.
#[export] Hint Resolve e_mul_no_overflow : erase.
Lemma e_mul_wrap_row lhs rhs sig lhs_i sum : snd (c_mul_wrap_row lhs rhs sig lhs_i sum) = mul_wrap_row lhs rhs sig lhs_i sum.
Proof. erases c_mul_wrap_row mul_wrap_row. Qed.
#[export] Hint Resolve e_mul_wrap_row : erase.
Lemma e_mul_wrapping lhs rhs : snd (c_mul_wrapping lhs rhs) = mul_wrapping lhs rhs.
Proof. erases c_mul_wrapping mul_wrapping. Qed.
#[export] Hint Resolve e_mul_wrapping : erase.
Lemma e_mul_small_step mult src i st : snd (c_mul_small_step mult src i st) = mul_small_step mult src i st.
Proof. erases c_mul_small_step mul_small_step. Qed.
#[export] Hint Resolve e_mul_small_step : erase.
Lemma e_mul_small_lhs lhs rhs rhs_sig : snd (c_mul_small_lhs lhs rhs rhs_sig) = mul_small_lhs lhs rhs rhs_sig.
Proof. erases c_mul_small_lhs mul_small_lhs. Qed.
#[export] Hint Resolve e_mul_small_lhs : erase.
Lemma e_mul_small_step_inplace mult i st : snd (c_mul_small_step_inplace mult i st) = mul_small_step_inplace mult i st.
Proof. erases c_mul_small_step_inplace mul_small_step_inplace. Qed.
#[export] Hint Resolve e_mul_small_step_inplace : erase.
Lemma e_mul_small_rhs lhs rhs lhs_sig : snd (c_mul_small_rhs lhs rhs lhs_sig) = mul_small_rhs lhs rhs lhs_sig.
Proof. erases c_mul_small_rhs mul_small_rhs. Qed.
#[export] Hint Resolve e_mul_small_rhs : erase.
Lemma e_mul_small_both lhs rhs : snd (c_mul_small_both lhs rhs) = mul_small_both lhs rhs.
Proof. erases c_mul_small_both mul_small_both. Qed.
#[export] Hint Resolve e_mul_small_both : erase.
Lemma e_mul_digits lhs rhs : snd (c_mul_digits lhs rhs) = mul_digits lhs rhs.
Proof. erases c_mul_digits mul_digits. Qed.
#[export] Hint Resolve e_mul_digits : erase.
Lemma e_wrapping_mul_assign a rhs : snd (c_wrapping_mul_assign a rhs) = wrapping_mul_assign a rhs.
Proof. erases c_wrapping_mul_assign wrapping_mul_assign. Qed.
#[export] Hint Resolve e_wrapping_mul_assign : erase.
Lemma e_small_step div_small i st : snd (c_small_step div_small i st) = small_step div_small i st.
Proof. erases c_small_step small_step. Qed.
#[export] Hint Resolve e_small_step : erase.
Lemma e_large_div_by_small duo ini_duo_sd div : snd (c_large_div_by_small duo ini_duo_sd div) = large_div_by_small duo ini_duo_sd div.
Proof. erases c_large_div_by_small large_div_by_small. Qed.
#[export] Hint Resolve e_large_div_by_small : erase.
Lemma e_u32_step div_u32 i st : snd (c_u32_step div_u32 i st) = u32_step div_u32 i st.
Proof. erases c_u32_step u32_step. Qed.
#[export] Hint Resolve e_u32_step : erase.
Lemma e_large_div_by_u32 duo ini_duo_sd div : snd (c_large_div_by_u32 duo ini_duo_sd div) = large_div_by_u32 duo ini_duo_sd div.
Proof. erases c_large_div_by_u32 large_div_by_u32. Qed.
#[export] Hint Resolve e_large_div_by_u32 : erase.
Lemma e_twos_complement_from n : forall i0 array, snd (c_twos_complement_from n i0 array) = twos_complement_from n i0 array.
Proof. induction n as [|n IH]; intros; cbn [c_twos_complement_from twos_complement_from]; erase; apply IH. Qed.
#[export] Hint Resolve e_twos_complement_from : erase.
Lemma e_twos_complement len array : snd (c_twos_complement len array) = twos_complement len array.
Proof. erases c_twos_complement twos_complement. Qed.
#[export] Hint Resolve e_twos_complement : erase.
Lemma e_any_nonzero_rev n : forall lo rhs, snd (c_any_nonzero_rev n lo rhs) = any_nonzero_rev n lo rhs.
Proof. induction n as [|n IH]; intros; cbn [c_any_nonzero_rev any_nonzero_rev]; erase; apply IH. Qed.
#[export] Hint Resolve e_any_nonzero_rev : erase.
Lemma e_uge_b1 n : forall lhs rhs, snd (c_uge_b1 n lhs rhs) = uge_b1 n lhs rhs.
Proof. induction n as [|n IH]; intros; cbn [c_uge_b1 uge_b1]; erase; apply IH. Qed.
#[export] Hint Resolve e_uge_b1 : erase.
Lemma e_uge lhs_len lhs rhs_len rhs : snd (c_uge lhs_len lhs rhs_len rhs) = uge lhs_len lhs rhs_len rhs.
Proof. erases c_uge uge. Qed.
#[export] Hint Resolve e_uge : erase.
Lemma e_ugt_b1 n : forall lhs rhs, snd (c_ugt_b1 n lhs rhs) = ugt_b1 n lhs rhs.
Proof. induction n as [|n IH]; intros; cbn [c_ugt_b1 ugt_b1]; erase; apply IH. Qed.
#[export] Hint Resolve e_ugt_b1 : erase.
Lemma e_ugt lhs_len lhs rhs_len rhs : snd (c_ugt lhs_len lhs rhs_len rhs) = ugt lhs_len lhs rhs_len rhs.
Proof. erases c_ugt ugt. Qed.
#[export] Hint Resolve e_ugt : erase.
Lemma e_special0_step sub i st : snd (c_special0_step sub i st) = special0_step sub i st.
Proof. erases c_special0_step special0_step. Qed.
#[export] Hint Resolve e_special0_step : erase.
Lemma e_special0 len sum sub target val : snd (c_special0 len sum sub target val) = special0 len sum sub target val.
Proof. erases c_special0 special0. Qed.
#[export] Hint Resolve e_special0 : erase.
Lemma e_special0_same_step i st : snd (c_special0_same_step i st) = special0_same_step i st.
Proof. erases c_special0_same_step special0_same_step. Qed.
#[export] Hint Resolve e_special0_same_step : erase.
Lemma e_special0_same len sum target val : snd (c_special0_same len sum target val) = special0_same len sum target val.
Proof. erases c_special0_same special0_same. Qed.
#[export] Hint Resolve e_special0_same : erase.
Lemma e_special1_step1 sum sub i st : snd (c_special1_step1 sum sub i st) = special1_step1 sum sub i st.
Proof. erases c_special1_step1 special1_step1. Qed.
#[export] Hint Resolve e_special1_step1 : erase.
Lemma e_special1_step2 add i0 st : snd (c_special1_step2 add i0 st) = special1_step2 add i0 st.
Proof. erases c_special1_step2 special1_step2. Qed.
#[export] Hint Resolve e_special1_step2 : erase.
Lemma e_special1 len sum sub targ val add : snd (c_special1 len sum sub targ val add) = special1 len sum sub targ val add.
Proof. erases c_special1 special1. Qed.
#[export] Hint Resolve e_special1 : erase.
Lemma e_add_macro len sum add : snd (c_add_macro len sum add) = add_macro len sum add.
Proof. erases c_add_macro add_macro. Qed.
#[export] Hint Resolve e_add_macro : erase.
Lemma e_move_step i st : snd (c_move_step i st) = move_step i st.
Proof. erases c_move_step move_step. Qed.
#[export] Hint Resolve e_move_step : erase.
Lemma e_sig_dd xs sd lz : snd (c_sig_dd xs sd lz) = sig_dd xs sd lz.
Proof. erases c_sig_dd sig_dd. Qed.
#[export] Hint Resolve e_sig_dd : erase.
Lemma e_finish_mul_sub1 len duo div sub mul : snd (c_finish_mul_sub1 len duo div sub mul) = finish_mul_sub1 len duo div sub mul.
Proof. erases c_finish_mul_sub1 finish_mul_sub1. Qed.
#[export] Hint Resolve e_finish_mul_sub1 : erase.
Lemma e_finish_mul len duo div sub mul : snd (c_finish_mul len duo div sub mul) = finish_mul len duo div sub mul.
Proof. erases c_finish_mul finish_mul. Qed.
#[export] Hint Resolve e_finish_mul : erase.
Lemma e_mul_or_mul_sub1 len duo ini_duo_sd ini_duo_lz div div_sd : snd (c_mul_or_mul_sub1 len duo ini_duo_sd ini_duo_lz div div_sd) = mul_or_mul_sub1 len duo ini_duo_sd ini_duo_lz div div_sd.
Proof. erases c_mul_or_mul_sub1 mul_or_mul_sub1. Qed.
#[export] Hint Resolve e_mul_or_mul_sub1 : erase.
Lemma e_add_to_quo quo digits bits_ll mul : snd (c_add_to_quo quo digits bits_ll mul) = add_to_quo quo digits bits_ll mul.
Proof. erases c_add_to_quo add_to_quo. Qed.
#[export] Hint Resolve e_add_to_quo : erase.
Lemma e_sub_lo_step div digits bits_ll mul i st : snd (c_sub_lo_step div digits bits_ll mul i st) = sub_lo_step div digits bits_ll mul i st.
Proof. erases c_sub_lo_step sub_lo_step. Qed.
#[export] Hint Resolve e_sub_lo_step : erase.
Lemma e_sub_lo duo div duo_sd digits bits_ll mul : snd (c_sub_lo duo div duo_sd digits bits_ll mul) = sub_lo duo div duo_sd digits bits_ll mul.
Proof. erases c_sub_lo sub_lo. Qed.
#[export] Hint Resolve e_sub_lo : erase.
Lemma e_sub_hi_step div digits bits_ll mul i st : snd (c_sub_hi_step div digits bits_ll mul i st) = sub_hi_step div digits bits_ll mul i st.
Proof. erases c_sub_hi_step sub_hi_step. Qed.
#[export] Hint Resolve e_sub_hi_step : erase.
Lemma e_sub_hi duo div duo_sd digits bits_ll mul : snd (c_sub_hi duo div duo_sd digits bits_ll mul) = sub_hi duo div duo_sd digits bits_ll mul.
Proof. erases c_sub_hi sub_hi. Qed.
#[export] Hint Resolve e_sub_hi : erase.
Lemma e_mul_or_mul_sub1_quo len duo duo_sd duo_lz duo_sig_dd div div_sd quo : snd (c_mul_or_mul_sub1_quo len duo duo_sd duo_lz duo_sig_dd div div_sd quo) = mul_or_mul_sub1_quo len duo duo_sd duo_lz duo_sig_dd div div_sd quo.
Proof. erases c_mul_or_mul_sub1_quo mul_or_mul_sub1_quo. Qed.
#[export] Hint Resolve e_mul_or_mul_sub1_quo : erase.
Lemma e_find_sd n : forall duo, snd (c_find_sd n duo) = find_sd n duo.
Proof. induction n as [|n IH]; intros; cbn [c_find_sd find_sd]; erase; apply IH. Qed.
#[export] Hint Resolve e_find_sd : erase.
Lemma e_quo_add1_from n : forall i0 len duo quo, snd (c_quo_add1_from n i0 len duo quo) = quo_add1_from n i0 len duo quo.
Proof. induction n as [|n IH]; intros; cbn [c_quo_add1_from quo_add1_from]; erase; apply IH. Qed.
#[export] Hint Resolve e_quo_add1_from : erase.
Lemma e_quo_add_carry_from n : forall i0 len duo quo carry, snd (c_quo_add_carry_from n i0 len duo quo carry) = quo_add_carry_from n i0 len duo quo carry.
Proof. induction n as [|n IH]; intros; cbn [c_quo_add_carry_from quo_add_carry_from]; erase; apply IH. Qed.
#[export] Hint Resolve e_quo_add_carry_from : erase.
Lemma e_small_tail len duo div quo : snd (c_small_tail len duo div quo) = small_tail len duo div quo.
Proof. erases c_small_tail small_tail. Qed.
#[export] Hint Resolve e_small_tail : erase.
Lemma e_div_loop fuel : forall len duo div quo duo_sd duo_lz div_sd div_sb div_lesser_bits div_sig_d_add1, snd (c_div_loop fuel len duo div quo duo_sd duo_lz div_sd div_sb div_lesser_bits div_sig_d_add1) = div_loop fuel len duo div quo duo_sd duo_lz div_sd div_sb div_lesser_bits div_sig_d_add1.
Proof. induction fuel as [|fuel IH]; intros; cbn [c_div_loop div_loop]; erase; apply IH. Qed.
#[export] Hint Resolve e_div_loop : erase.
Lemma e_large_div_by_large len duo ini_duo_sd div div_sd : snd (c_large_div_by_large len duo ini_duo_sd div div_sd) = large_div_by_large len duo ini_duo_sd div div_sd.
Proof. erases c_large_div_by_large large_div_by_large. Qed.
#[export] Hint Resolve e_large_div_by_large : erase.
Lemma e_aarons_algorithm_divrem duo div : snd (c_aarons_algorithm_divrem duo div) = aarons_algorithm_divrem duo div.
Proof. erases c_aarons_algorithm_divrem aarons_algorithm_divrem. Qed.
#[export] Hint Resolve e_aarons_algorithm_divrem : erase.
Lemma e_swap_step i st : snd (c_swap_step i st) = swap_step i st.
Proof. erases c_swap_step swap_step. Qed.
#[export] Hint Resolve e_swap_step : erase.
Lemma e_aarons_algorithm_remdiv duo div : snd (c_aarons_algorithm_remdiv duo div) = aarons_algorithm_remdiv duo div.
Proof. erases c_aarons_algorithm_remdiv aarons_algorithm_remdiv. Qed.
#[export] Hint Resolve e_aarons_algorithm_remdiv : erase.
Lemma e_wrapping_udivrem_assign lhs rhs : snd (c_wrapping_udivrem_assign lhs rhs) = wrapping_udivrem_assign lhs rhs.
Proof. erases c_wrapping_udivrem_assign wrapping_udivrem_assign. Qed.
#[export] Hint Resolve e_wrapping_udivrem_assign : erase.
Lemma e_wrapping_uremdiv_assign lhs rhs : snd (c_wrapping_uremdiv_assign lhs rhs) = wrapping_uremdiv_assign lhs rhs.
Proof. erases c_wrapping_uremdiv_assign wrapping_uremdiv_assign. Qed.
#[export] Hint Resolve e_wrapping_uremdiv_assign : erase.
Lemma e_wrapping_udiv_assign a rhs : snd (c_wrapping_udiv_assign a rhs) = wrapping_udiv_assign a rhs.
Proof. erases c_wrapping_udiv_assign wrapping_udiv_assign. Qed.
#[export] Hint Resolve e_wrapping_udiv_assign : erase.
Lemma e_wrapping_urem_assign a rhs : snd (c_wrapping_urem_assign a rhs) = wrapping_urem_assign a rhs.
Proof. erases c_wrapping_urem_assign wrapping_urem_assign. Qed.
#[export] Hint Resolve e_wrapping_urem_assign : erase.
Lemma e_neg_if flag x : snd (c_neg_if flag x) = neg_if flag x.
Proof. erases c_neg_if neg_if. Qed.
#[export] Hint Resolve e_neg_if : erase.
Lemma e_wrapping_sdivrem_assign lhs rhs : snd (c_wrapping_sdivrem_assign lhs rhs) = wrapping_sdivrem_assign lhs rhs.
Proof. erases c_wrapping_sdivrem_assign wrapping_sdivrem_assign. Qed.
#[export] Hint Resolve e_wrapping_sdivrem_assign : erase.
Lemma e_wrapping_sremdiv_assign lhs rhs : snd (c_wrapping_sremdiv_assign lhs rhs) = wrapping_sremdiv_assign lhs rhs.
Proof. erases c_wrapping_sremdiv_assign wrapping_sremdiv_assign. Qed.
#[export] Hint Resolve e_wrapping_sremdiv_assign : erase.
Lemma e_wrapping_sdiv_assign a rhs : snd (c_wrapping_sdiv_assign a rhs) = wrapping_sdiv_assign a rhs.
Proof. erases c_wrapping_sdiv_assign wrapping_sdiv_assign. Qed.
#[export] Hint Resolve e_wrapping_sdiv_assign : erase.
Lemma e_wrapping_srem_assign a rhs : snd (c_wrapping_srem_assign a rhs) = wrapping_srem_assign a rhs.
Proof. erases c_wrapping_srem_assign wrapping_srem_assign. Qed.
#[export] Hint Resolve e_wrapping_srem_assign : erase.
