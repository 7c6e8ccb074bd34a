(** How many digits are read, written and allocated: shifts, and the calls that stop early. *)
From Verif Require Export LWork2.
From Coq Require Import Lia ZArith List Bool.
Import ListNotations.
Open Scope Z_scope.

Lemma shift_fine a s : 0 <= s < len a -> verify_shift_amount (width a) s = Ok tt.
Proof. intros H. unfold verify_shift_amount, width. now rewrite (proj2 (Z.ltb_lt _ _) (proj2 H)). Qed.
Lemma bit_fine a s : 0 <= s < len a -> verify_bit_access (width a) s = Ok tt.
Proof. intros H. unfold verify_bit_access, width. now rewrite (proj2 (Z.ltb_lt _ _) (proj2 H)). Qed.
Lemma steps_zero s : 0 <= s -> Nat.eqb (digit_steps s) 0 = (s <? 64).
Proof.
  intros H. unfold digit_steps. destruct (Z.ltb_spec s 64).
  - rewrite Z.div_small by lia. reflexivity.
  - assert (1 <= s / 64) by (apply Z.div_le_lower_bound; lia). destruct (Nat.eqb_spec (Z.to_nat (s / 64)) 0); [lia|reflexivity].
Qed.
Lemma steps_below a s : sized a -> 0 <= s < len a -> 0 <= s / 64 < Nd a.
Proof.
  intros [L _] H. split; [apply Z.div_pos; lia|]. unfold Nd, digit_count. apply Z.div_lt_upper_bound; [lia|]. pose proof (Z.div_mod (len a + 63) 64 ltac:(lia)). pose proof (Z.mod_pos_bound (len a + 63) 64). lia.
Qed.
Lemma steps_of s : 0 <= s -> Z.of_nat (digit_steps s) = s / 64.
Proof. intros H. unfold digit_steps. rewrite Z2Nat.id; [reflexivity|]. apply Z.div_pos; lia. Qed.

Lemma y_shl_small a s : sized a -> len a <= 64 -> 0 <= s < len a -> yields (w_wrapping_shl_assign a s) (1 + Xd a) (1 + Xd a) 0 (fun _ => True).
Proof.
  intros S L H. unfold w_wrapping_shl_assign. rewrite (shift_fine a s H).
  eapply y_is; [ystep; eapply y_bind; [now apply y_access_small|intros v [d ->]]; ybind_as (kin a); [ystep; ystep; ystep; now apply kin_inl|intros v V]; eapply y_bind;
    [exact (y_clear_kin Self a v V)|intros; ystep; exact I]|..]; evald; lia.
Qed.
Lemma y_shl_large a s : sized a -> 64 < len a -> 0 <= s < len a ->
  yields (w_wrapping_shl_assign a s)
    ((if s <? 64 then 0 else Nd a - s / 64) + (if s mod 64 =? 0 then 0 else Nd a - s / 64) + Xd a)
    ((if s <? 64 then 0 else Nd a) + (if s mod 64 =? 0 then 0 else Nd a - s / 64) + Xd a) 0 (fun _ => True).
Proof.
  intros S L H. unfold w_wrapping_shl_assign. rewrite (shift_fine a s H). pose proof (steps_below a s S H) as B. pose proof (steps_of s ltac:(lia)) as K. pose proof (proj2 S) as M.
  eapply y_is; [ystep; eapply y_bind; [apply y_access_large; lia|intros v ->]; ybind_as (kin a); [|intros v V; eapply y_bind; [exact (y_clear_kin Self a v V)|intros; ystep; exact I]]|..].
  - eapply y_bind; [apply y_shl_digits|intros ds1 D]. cbv beta in D. ystep.
    ybind_as (fun v : list Z => List.length v = List.length (digits a)).
    + instantiate (1 := 0). instantiate (1 := if s mod 64 =? 0 then 0 else Nd a - s / 64). instantiate (1 := if s mod 64 =? 0 then 0 else Nd a - s / 64). unfold bit_steps. destruct (Z.eqb_spec (s mod 64) 0); cbn [negb].
      * ystep. exact D.
      * unfold w_modify_from. destruct (Nat.leb_spec (digit_steps s) (List.length ds1)); [|lia].
        eapply y_is; [eapply y_bind; [apply y_shl_loop|intros t T; ystep; rewrite app_length, firstn_length, T, skipn_length; lia]|..]; rewrite ?skipn_length; lia.
    + intros v V. ystep. now apply kin_ext.
  - rewrite steps_zero by lia. evald. destruct (s <? 64); lia.
  - rewrite steps_zero by lia. evald. destruct (s <? 64); lia.
  - reflexivity.
Qed.
Lemma y_lshr_small a s : len a <= 64 -> 0 <= s < len a -> yields (w_wrapping_lshr_assign a s) 1 1 0 (fun _ => True).
Proof.
  intros L H. unfold w_wrapping_lshr_assign. rewrite (shift_fine a s H).
  eapply y_is; [ystep; eapply y_bind; [now apply y_access_small|intros v [d ->]]; ystep; ystep; ystep; exact I|..]; reflexivity.
Qed.
Lemma y_lshr_large a s : sized a -> 64 < len a -> 0 <= s < len a ->
  yields (w_wrapping_lshr_assign a s)
    ((if s <? 64 then 0 else Nd a) + (if s mod 64 =? 0 then 0 else Nd a))
    ((if s <? 64 then 0 else Nd a + s / 64) + (if s mod 64 =? 0 then 0 else Nd a)) 0 (fun _ => True).
Proof.
  intros S L H. unfold w_wrapping_lshr_assign. rewrite (shift_fine a s H). pose proof (steps_below a s S H) as B. pose proof (steps_of s ltac:(lia)) as K. pose proof (proj2 S) as M.
  eapply y_is; [ystep; eapply y_bind; [apply y_access_large; lia|intros v ->]; eapply y_bind; [apply y_lshr_digits|intros ds1 D]; cbv beta in D; ystep|..].
  - ybind_as (fun v : list Z => True).
    + instantiate (1 := 0). instantiate (1 := if s mod 64 =? 0 then 0 else Nd a). instantiate (1 := if s mod 64 =? 0 then 0 else Nd a). unfold bit_steps. pose proof (Z.mod_pos_bound s 64 ltac:(lia)).
      destruct (Z.eqb_spec (s mod 64) 0), (Z.ltb_spec 0 (s mod 64)); try lia; cbn [negb].
      * ystep. exact I.
      * eapply y_is; [eapply y_bind; [apply y_lshr_loop|intros t T; ystep; exact I]|..]; rewrite ?rev_length; lia.
    + intros v V. ystep. exact I.
  - rewrite steps_zero by lia. evald. destruct (s <? 64); lia.
  - rewrite steps_zero by lia. evald. destruct (s <? 64); lia.
  - reflexivity.
Qed.

(** * Arithmetic shifts of negative integers *)
Lemma lift_sub x y : (y <= x)%nat -> forall z, nsub x y = Val z -> z = (x - y)%nat.
Proof. intros H z. unfold nsub. destruct (Nat.leb_spec y x); [|lia]. now intros [= <-]. Qed.
Lemma y_ashr_subdigit b u x : (0 < List.length x)%nat -> yields (w_ashr_subdigit b u x) (2 * Z.of_nat (List.length x) - 1) (Z.of_nat (List.length x)) 0 (fun v => List.length v = List.length x).
Proof.
  intros P. unfold w_ashr_subdigit. eapply y_is.
  - eapply (y_bind _ _ _ _ _ _ _ _ (fun v => v = (List.length x - 1)%nat)); [eapply y_weak; [apply y_lift|apply lift_sub; lia]|intros last ->].
    eapply y_bind; [apply (y_times (List.length x - 1) 0 _ 2 1 0 (fun v => List.length v = List.length x)); [|reflexivity]|intros v V; cbv beta in V].
    + intros i s _ J. eapply y_is; [ystep; ystep; ystep; lia|..]; reflexivity.
    + ystep. ystep. lia.
  - lia.
  - lia.
  - lia.
Qed.
Lemma y_ashr_fill d e x : yields (w_ashr_fill d e x) (Z.of_nat d) (Z.of_nat d) 0 (fun v => List.length v = List.length x).
Proof.
  unfold w_ashr_fill. eapply y_is; [apply (y_times d 0 _ 1 1 0 (fun v => List.length v = List.length x)); [|reflexivity]|..]; [|lia..].
  intros i s _ J. eapply y_is; [ystep; ystep; lia|..]; reflexivity.
Qed.
Lemma y_ashr_digit d e x : (d <= List.length x)%nat -> yields (w_ashr_digit d e x) (Z.of_nat (List.length x)) (Z.of_nat (List.length x)) 0 (fun v => List.length v = List.length x).
Proof.
  intros P. unfold w_ashr_digit. eapply y_is.
  - eapply y_bind; [apply (y_times (List.length x - d) d _ 1 1 0 (fun v => List.length v = List.length x)); [|reflexivity]|intros v V; cbv beta in V].
    + intros i s _ J. eapply y_is; [ystep; ystep; ystep; lia|..]; reflexivity.
    + eapply y_weak; [apply y_ashr_fill|]. intros t T. cbv beta in T. lia.
  - lia.
  - lia.
  - lia.
Qed.
Lemma y_ashr_both d e b u x : (d < List.length x)%nat -> yields (w_ashr_both d e b u x) (2 * Z.of_nat (List.length x) - 1 - Z.of_nat d) (Z.of_nat (List.length x)) 0 (fun v => List.length v = List.length x).
Proof.
  intros P. unfold w_ashr_both. eapply y_is.
  - eapply (y_bind _ _ _ _ _ _ _ _ (fun v => v = (List.length x - 1)%nat)); [eapply y_weak; [apply y_lift|apply lift_sub; lia]|intros last ->].
    eapply y_bind; [apply (y_times (List.length x - 1 - d) d _ 2 1 0 (fun v => List.length v = List.length x)); [|reflexivity]|intros v V; cbv beta in V].
    + intros i s _ J. eapply y_is; [ystep; ystep; ystep; ystep; lia|..]; reflexivity.
    + ystep. ystep. ystep. eapply y_weak; [apply y_ashr_fill|]. intros t T. cbv beta in T. lia.
  - lia.
  - lia.
  - lia.
Qed.
Lemma y_ashr_positive a s r w : snd (w_msb a) = Val false -> yields (w_wrapping_lshr_assign a s) r w 0 (fun _ => True) -> yields (w_wrapping_ashr_assign a s) (1 + r) w 0 (fun _ => True).
Proof.
  intros M L. unfold w_wrapping_ashr_assign. eapply y_is; [eapply y_bind; [eapply y_exact; [apply y_msb|exact M]|intros v [_ V]]; injection V as <-; ystep; exact L|..]; lia.
Qed.
Lemma y_ashr_none a : 0 < len a -> snd (w_msb a) = Val true -> yields (w_wrapping_ashr_assign a 0) 1 0 0 (fun _ => True).
Proof.
  intros P M. unfold w_wrapping_ashr_assign. rewrite (shift_fine a 0) by lia.
  eapply y_is; [eapply y_bind; [eapply y_exact; [apply y_msb|exact M]|intros v [_ V]]; injection V as <-; ystep; cbn [negb]; ystep; ystep; cbn [Z.eqb]; ystep; exact I|..]; reflexivity.
Qed.
Lemma y_ashr_small a s : sized a -> len a <= 64 -> 0 < s < len a -> snd (w_msb a) = Val true -> yields (w_wrapping_ashr_assign a s) (2 + Xd a) (1 + Xd a) 0 (fun _ => True).
Proof.
  intros S L H M. unfold w_wrapping_ashr_assign. rewrite (shift_fine a s) by lia. destruct (Z.eqb_spec s 0) as [Zs|Zs]; [lia|].
  eapply y_is; [eapply y_bind; [eapply y_exact; [apply y_msb|exact M]|intros v [_ V]]; injection V as <-; ystep; cbn [negb]; ystep; ystep; cbv zeta; ystep;
    eapply y_bind; [now apply y_access_small|intros v [d ->]]; ybind_as (kin a); [ystep; ystep; ystep; now apply kin_inl|intros v V]; eapply y_bind;
    [exact (y_clear_kin Self a v V)|intros; ystep; exact I]|..]; evald; lia.
Qed.
Lemma y_ashr_large a s : sized a -> 64 < len a -> 0 < s < len a -> snd (w_msb a) = Val true ->
  yields (w_wrapping_ashr_assign a s) (1 + 2 * Xd a + (if s mod 64 =? 0 then Nd a else 2 * Nd a - 1 - s / 64)) (2 * Xd a + Nd a) 0 (fun _ => True).
Proof.
  intros S L H M. unfold w_wrapping_ashr_assign. rewrite (shift_fine a s) by lia. destruct (Z.eqb_spec s 0) as [Zs|Zs]; [lia|]. pose proof (proj2 S) as Len. pose proof (steps_below a s S ltac:(lia)) as B.
  assert (Z.to_nat (s / 64) < List.length (digits a))%nat as Below by lia.
  eapply y_is; [eapply y_bind; [eapply y_exact; [apply y_msb|exact M]|intros v [_ V]]; injection V as <-; ystep; cbn [negb]; ystep; ystep; cbv zeta; ystep;
    eapply y_bind; [apply y_access_large; lia|intros v ->]; ybind_as (kin a); [|intros v V; eapply y_bind; [exact (y_clear_kin Self a v V)|intros; ystep; exact I]]|..].
  - ystep. ybind_as (fun v : list Z => List.length v = List.length (digits a)).
    + instantiate (1 := 0). instantiate (1 := Xd a). instantiate (1 := Xd a). unfold Xd, partly_used, width. destruct (Z.eqb_spec (len a mod 64) 0); cbn [negb].
      * ystep. reflexivity.
      * eapply y_is; [ystep; ystep; ystep; ystep; ystep; lia|..]; reflexivity.
    + intros x E. ystep. ystep. ybind_as (fun v : list Z => List.length v = List.length (digits a)).
      * instantiate (1 := 0). instantiate (1 := Nd a). instantiate (1 := if s mod 64 =? 0 then Nd a else 2 * Nd a - 1 - s / 64).
        destruct (Nat.eqb_spec (Z.to_nat (s / 64)) 0) as [K|K].
        -- pose proof (Z.div_mod s 64 ltac:(lia)) as DM. destruct (Z.eqb_spec (s mod 64) 0); [lia|]. eapply y_is; [eapply y_weak; [apply y_ashr_subdigit; lia|intros t T; cbv beta in T; lia]|..]; lia.
        -- destruct (Z.eqb_spec (s mod 64) 0).
           ++ eapply y_is; [ystep; eapply y_weak; [apply y_ashr_digit; lia|intros t T; cbv beta in T; lia]|..]; lia.
           ++ eapply y_is; [ystep; eapply y_weak; [apply y_ashr_both; lia|intros t T; cbv beta in T; lia]|..]; lia.
      * intros v V. ystep. now apply kin_ext.
  - evald. lia.
  - evald. lia.
  - reflexivity.
Qed.
