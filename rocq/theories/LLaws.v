(** Algebraic laws between API operations, derived from their values. *)
From Coq Require Import Btauto.
From Verif Require Export LFacts.

Definition denotes (m : outcome (result apint)) (w u : Z) : Prop :=
  exists c, m = Val (Ok c) /\ is_apint c w u.

Lemma denotes_eq m m' w u : denotes m w u -> denotes m' w u -> m = m'.
Proof. intros (c & -> & Hc) (d & -> & Hd). now rewrite (is_apint_unique _ _ _ _ Hc Hd). Qed.
Lemma denotes_ok c w u : is_apint c w u -> denotes (Val (Ok c)) w u.
Proof. intros; exists c; auto. Qed.
Lemma denotes_bind m f w u w' v :
  denotes m w u -> (forall c, is_apint c w u -> denotes (f c) w' v) -> denotes (bindr m f) w' v.
Proof. intros (c & -> & Hc) H. cbn. auto. Qed.
Lemma denotes_bindo (m : outcome apint) f w u w' v :
  (exists c, m = Val c /\ is_apint c w u) -> (forall c, is_apint c w u -> denotes (f c) w' v) ->
  denotes (bind m f) w' v.
Proof. intros (c & -> & Hc) H. cbn. auto. Qed.
Lemma denotes_val m f w u : denotes m w u -> (u = f) -> denotes m w f.
Proof. now intros H ->. Qed.

Lemma is_apint_pow_pos a w u : is_apint a w u -> 0 < 2 ^ w /\ 0 < w /\ 0 <= u < 2 ^ w.
Proof.
  intros (W & L & V). pose proof (wf_len _ W). pose proof (unsigned_bound _ W). rewrite L, V in *.
  split; [apply Z.pow_pos_nonneg|]; lia.
Qed.

Lemma add_den a b w u v : is_apint a w u -> is_apint b w v -> denotes (into_wrapping_add a b) w ((u + v) mod 2 ^ w).
Proof.
  intros (A & <- & <-) (Bb & E & <-). destruct (add_fact a b A Bb (eq_sym E)) as (c & _ & H & Hc & _).
  exists c; auto.
Qed.
Lemma sub_den a b w u v : is_apint a w u -> is_apint b w v -> denotes (into_wrapping_sub a b) w ((u - v) mod 2 ^ w).
Proof.
  intros (A & <- & <-) (Bb & E & <-). destruct (sub_fact a b A Bb (eq_sym E)) as (c & _ & H & Hc & _).
  exists c; auto.
Qed.
Lemma mul_den a b w u v : is_apint a w u -> is_apint b w v -> denotes (into_wrapping_mul a b) w ((u * v) mod 2 ^ w).
Proof.
  intros (A & <- & <-) (Bb & E & <-). destruct (mul_fact a b A Bb (eq_sym E)) as (c & _ & H & Hc & _).
  exists c; auto.
Qed.
Lemma neg_den a w u : is_apint a w u -> exists c, into_wrapping_neg a = Val c /\ is_apint c w ((- u) mod 2 ^ w).
Proof. intros (A & <- & <-). destruct (neg_fact a A) as (c & _ & H & Hc & _). eauto. Qed.
Lemma not_den a w u : is_apint a w u -> exists c, into_bitnot a = Val c /\ is_apint c w (2 ^ w - 1 - u).
Proof. intros (A & <- & <-). destruct (bitnot_spec a A) as (c & H & Hc). eauto. Qed.
Lemma and_den a b w u v : is_apint a w u -> is_apint b w v -> denotes (into_bitand a b) w (Z.land u v).
Proof.
  intros (A & <- & <-) (Bb & E & <-). destruct (bitand_assign_spec a b A Bb (eq_sym E)) as (c & H & Hc).
  exists c; split; auto. now apply try_forward_ok.
Qed.
Lemma or_den a b w u v : is_apint a w u -> is_apint b w v -> denotes (into_bitor a b) w (Z.lor u v).
Proof.
  intros (A & <- & <-) (Bb & E & <-). destruct (bitor_assign_spec a b A Bb (eq_sym E)) as (c & H & Hc).
  exists c; split; auto. now apply try_forward_ok.
Qed.
Lemma xor_den a b w u v : is_apint a w u -> is_apint b w v -> denotes (into_bitxor a b) w (Z.lxor u v).
Proof.
  intros (A & <- & <-) (Bb & E & <-). destruct (bitxor_assign_spec a b A Bb (eq_sym E)) as (c & H & Hc).
  exists c; split; auto. now apply try_forward_ok.
Qed.

Lemma self_den a w : wf a -> len a = w -> is_apint a w (unsigned a).
Proof. unfold is_apint; auto. Qed.

(** The ring laws. *)
Lemma ring_fact a b c : wf a -> wf b -> wf c -> len a = len b -> len b = len c ->
  into_wrapping_add a b = into_wrapping_add b a /\
  into_wrapping_mul a b = into_wrapping_mul b a /\
  (let? ab := into_wrapping_add a b in into_wrapping_add ab c) =
  (let? bc := into_wrapping_add b c in into_wrapping_add a bc) /\
  (let? ab := into_wrapping_mul a b in into_wrapping_mul ab c) =
  (let? bc := into_wrapping_mul b c in into_wrapping_mul a bc) /\
  (let? bc := into_wrapping_add b c in into_wrapping_mul a bc) =
  (let? ab := into_wrapping_mul a b in let? ac := into_wrapping_mul a c in into_wrapping_add ab ac) /\
  (let! z := zero (len a) in into_wrapping_add a z) = Val (Ok a) /\
  (let! o := one (len a) in into_wrapping_mul a o) = Val (Ok a) /\
  (let! nb := into_wrapping_neg b in into_wrapping_add a nb) = into_wrapping_sub a b /\
  into_wrapping_sub a a = (let! z := zero (len a) in Val (Ok z)) /\
  (let? ab := into_wrapping_sub a b in into_wrapping_add ab b) = Val (Ok a).
Proof.
  intros Ha Hb Hc E1 E2. set (w := len a) in *.
  pose proof (self_den a w Ha eq_refl) as A. pose proof (self_den b w Hb (eq_sym E1)) as Bb.
  assert (C : is_apint c w (unsigned c)) by (apply self_den; auto; congruence).
  pose proof (is_apint_pow_pos _ _ _ A) as (Hp & Hw & Ua).
  set (x := unsigned a) in *. set (y := unsigned b) in *. set (z := unsigned c) in *.
  split; [eapply denotes_eq; [now apply add_den; eauto|rewrite Z.add_comm; now apply add_den]|].
  split; [eapply denotes_eq; [now apply mul_den; eauto|rewrite Z.mul_comm; now apply mul_den]|].
  split.
  { apply (denotes_eq _ _ w ((x + y + z) mod 2 ^ w)).
    - eapply denotes_bind; [eapply add_den; eauto|]. intros d D.
      eapply denotes_val; [eapply add_den; eauto|]. now rewrite Zplus_mod_idemp_l.
    - eapply denotes_bind; [eapply (add_den b c); eauto|]. intros d D.
      eapply denotes_val; [eapply add_den; eauto|]. rewrite Zplus_mod_idemp_r. f_equal. lia. }
  split.
  { apply (denotes_eq _ _ w ((x * y * z) mod 2 ^ w)).
    - eapply denotes_bind; [eapply mul_den; eauto|]. intros d D.
      eapply denotes_val; [eapply mul_den; eauto|]. now rewrite Zmult_mod_idemp_l.
    - eapply denotes_bind; [eapply (mul_den b c); eauto|]. intros d D.
      eapply denotes_val; [eapply mul_den; eauto|]. rewrite Zmult_mod_idemp_r. f_equal. lia. }
  split.
  { apply (denotes_eq _ _ w ((x * (y + z)) mod 2 ^ w)).
    - eapply denotes_bind; [eapply (add_den b c); eauto|]. intros d D.
      eapply denotes_val; [eapply mul_den; eauto|]. now rewrite Zmult_mod_idemp_r.
    - eapply denotes_bind; [eapply (mul_den a b); eauto|]. intros d D.
      eapply denotes_bind; [eapply (mul_den a c); eauto|]. intros e De.
      eapply denotes_val; [eapply add_den; eauto|]. rewrite <- Zplus_mod. f_equal. lia. }
  split.
  { apply (denotes_eq _ _ w x); [|now apply denotes_ok].
    eapply denotes_bindo; [apply zero_spec; lia|]. intros d D.
    eapply denotes_val; [eapply add_den; eauto|]. rewrite Z.add_0_r. apply Z.mod_small. lia. }
  split.
  { apply (denotes_eq _ _ w x); [|now apply denotes_ok].
    eapply denotes_bindo; [apply one_spec; lia|]. intros d D.
    eapply denotes_val; [eapply mul_den; eauto|]. rewrite Z.mul_1_r. apply Z.mod_small. lia. }
  split.
  { eapply denotes_eq; [|eapply sub_den; eauto].
    eapply denotes_bindo; [eapply (neg_den b); eauto|]. intros d D.
    eapply denotes_val; [eapply add_den; eauto|]. rewrite Zplus_mod_idemp_r. f_equal. }
  split.
  { destruct (zero_spec w Hw) as (d & -> & D). cbn [bind].
    apply (denotes_eq _ _ w 0); [|now apply denotes_ok].
    eapply denotes_val; [eapply sub_den; eauto|]. rewrite Z.sub_diag. apply Z.mod_0_l. lia. }
  apply (denotes_eq _ _ w x); [|now apply denotes_ok].
  eapply denotes_bind; [eapply (sub_den a b); eauto|]. intros d D.
  eapply denotes_val; [eapply add_den; eauto|]. rewrite Zplus_mod_idemp_l.
  replace (x - y + y) with x by lia. apply Z.mod_small; lia.
Qed.

(** The Boolean algebra laws. *)
Lemma not_lnot u w : 0 <= u < 2 ^ w -> 2 ^ w - 1 - u = Z.lnot u mod 2 ^ w.
Proof.
  intros H. unfold Z.lnot. rewrite <- (Z.mod_small (2 ^ w - 1 - u) (2 ^ w)) by lia.
  replace (2 ^ w - 1 - u) with (Z.pred (- u) + 1 * 2 ^ w) by lia. now rewrite Z_mod_plus_full.
Qed.

Lemma boolean_fact a b c : wf a -> wf b -> wf c -> len a = len b -> len b = len c ->
  into_bitand a b = into_bitand b a /\ into_bitor a b = into_bitor b a /\ into_bitxor a b = into_bitxor b a /\
  (let? ab := into_bitand a b in into_bitand ab c) = (let? bc := into_bitand b c in into_bitand a bc) /\
  (let? ab := into_bitor a b in into_bitor ab c) = (let? bc := into_bitor b c in into_bitor a bc) /\
  (let? ab := into_bitxor a b in into_bitxor ab c) = (let? bc := into_bitxor b c in into_bitxor a bc) /\
  (let? bc := into_bitor b c in into_bitand a bc) =
  (let? ab := into_bitand a b in let? ac := into_bitand a c in into_bitor ab ac) /\
  (let? bc := into_bitand b c in into_bitor a bc) =
  (let? ab := into_bitor a b in let? ac := into_bitor a c in into_bitand ab ac) /\
  (let? ab := into_bitand a b in into_bitor a ab) = Val (Ok a) /\
  (let? ab := into_bitor a b in into_bitand a ab) = Val (Ok a) /\
  (let! na := into_bitnot a in into_bitnot na) = Val a /\
  (let? ab := into_bitand a b in let! n := into_bitnot ab in Val (Ok n)) =
  (let! na := into_bitnot a in let! nb := into_bitnot b in into_bitor na nb) /\
  (let? ab := into_bitor a b in let! n := into_bitnot ab in Val (Ok n)) =
  (let! na := into_bitnot a in let! nb := into_bitnot b in into_bitand na nb) /\
  (let! na := into_bitnot a in into_bitand a na) = (let! z := zero (len a) in Val (Ok z)) /\
  (let! na := into_bitnot a in into_bitor a na) = (let! o := all_set (len a) in Val (Ok o)) /\
  (let? ab := into_bitxor a b in into_bitxor ab b) = Val (Ok a).
Proof.
  intros Ha Hb Hc E1 E2. set (w := len a) in *.
  pose proof (self_den a w Ha eq_refl) as A. pose proof (self_den b w Hb (eq_sym E1)) as Bb.
  assert (C : is_apint c w (unsigned c)) by (apply self_den; auto; congruence).
  pose proof (is_apint_pow_pos _ _ _ A) as (Hp & Hw & Ua).
  pose proof (is_apint_pow_pos _ _ _ Bb) as (_ & _ & Ub).
  set (x := unsigned a) in *. set (y := unsigned b) in *. set (z := unsigned c) in *.
  split; [eapply denotes_eq; [now apply and_den; eauto|rewrite Z.land_comm; now apply and_den]|].
  split; [eapply denotes_eq; [now apply or_den; eauto|rewrite Z.lor_comm; now apply or_den]|].
  split; [eapply denotes_eq; [now apply xor_den; eauto|rewrite Z.lxor_comm; now apply xor_den]|].
  split.
  { apply (denotes_eq _ _ w (Z.land (Z.land x y) z)).
    - eapply denotes_bind; [eapply and_den; eauto|]. intros d D. eapply and_den; eauto.
    - eapply denotes_bind; [eapply (and_den b c); eauto|]. intros d D. rewrite <- Z.land_assoc. eapply and_den; eauto. }
  split.
  { apply (denotes_eq _ _ w (Z.lor (Z.lor x y) z)).
    - eapply denotes_bind; [eapply or_den; eauto|]. intros d D. eapply or_den; eauto.
    - eapply denotes_bind; [eapply (or_den b c); eauto|]. intros d D. rewrite <- Z.lor_assoc. eapply or_den; eauto. }
  split.
  { apply (denotes_eq _ _ w (Z.lxor (Z.lxor x y) z)).
    - eapply denotes_bind; [eapply xor_den; eauto|]. intros d D. eapply xor_den; eauto.
    - eapply denotes_bind; [eapply (xor_den b c); eauto|]. intros d D. rewrite Z.lxor_assoc. eapply xor_den; eauto. }
  split.
  { apply (denotes_eq _ _ w (Z.land x (Z.lor y z))).
    - eapply denotes_bind; [eapply (or_den b c); eauto|]. intros d D. eapply and_den; eauto.
    - eapply denotes_bind; [eapply (and_den a b); eauto|]. intros d D.
      eapply denotes_bind; [eapply (and_den a c); eauto|]. intros e De. 
      eapply denotes_val; [eapply or_den; eauto|]. symmetry. apply Z.land_lor_distr_r. }
  split.
  { apply (denotes_eq _ _ w (Z.lor x (Z.land y z))).
    - eapply denotes_bind; [eapply (and_den b c); eauto|]. intros d D. eapply or_den; eauto.
    - eapply denotes_bind; [eapply (or_den a b); eauto|]. intros d D.
      eapply denotes_bind; [eapply (or_den a c); eauto|]. intros e De.
      eapply denotes_val; [eapply and_den; eauto|]. symmetry. apply Z.lor_land_distr_r. }
  split.
  { apply (denotes_eq _ _ w x); [|now apply denotes_ok].
    eapply denotes_bind; [eapply (and_den a b); eauto|]. intros d D.
    eapply denotes_val; [eapply or_den; eauto|].
    apply Z.bits_inj'; intros i _. rewrite Z.lor_spec, Z.land_spec. btauto. }
  split.
  { apply (denotes_eq _ _ w x); [|now apply denotes_ok].
    eapply denotes_bind; [eapply (or_den a b); eauto|]. intros d D.
    eapply denotes_val; [eapply and_den; eauto|].
    apply Z.bits_inj'; intros i _. rewrite Z.land_spec, Z.lor_spec. btauto. }
  split.
  { destruct (not_den a w x A) as (d & -> & D). cbn [bind].
    destruct (not_den d w _ D) as (e & -> & De). f_equal. apply (is_apint_unique e a w x); auto.
    replace x with (2 ^ w - 1 - (2 ^ w - 1 - x)) by lia. auto. }
  assert (M1 : forall u v, Z.land (u mod 2 ^ w) (v mod 2 ^ w) = (Z.land u v) mod 2 ^ w).
  { intros. rewrite <- !Z.land_ones by lia. apply Z.bits_inj'; intros i _. rewrite !Z.land_spec. btauto. }
  assert (M2 : forall u v, Z.lor (u mod 2 ^ w) (v mod 2 ^ w) = (Z.lor u v) mod 2 ^ w).
  { intros. rewrite <- !Z.land_ones by lia. apply Z.bits_inj'; intros i _.
    rewrite !Z.lor_spec, !Z.land_spec, Z.lor_spec. btauto. }
  split.
  { apply (denotes_eq _ _ w (Z.lnot (Z.land x y) mod 2 ^ w)).
    - eapply denotes_bind; [eapply (and_den a b); eauto|]. intros d D.
      eapply denotes_bindo; [eapply not_den; eauto|]. intros e De. apply denotes_ok.
      rewrite not_lnot in De; auto. apply (is_apint_pow_pos _ _ _ D).
    - eapply denotes_bindo; [eapply (not_den a); eauto|]. intros d D.
      eapply denotes_bindo; [eapply (not_den b); eauto|]. intros e De.
      eapply denotes_val; [eapply or_den; eauto|]. rewrite !not_lnot by auto.
      rewrite M2. now rewrite Z.lnot_land. }
  split.
  { apply (denotes_eq _ _ w (Z.lnot (Z.lor x y) mod 2 ^ w)).
    - eapply denotes_bind; [eapply (or_den a b); eauto|]. intros d D.
      eapply denotes_bindo; [eapply not_den; eauto|]. intros e De. apply denotes_ok.
      rewrite not_lnot in De; auto. apply (is_apint_pow_pos _ _ _ D).
    - eapply denotes_bindo; [eapply (not_den a); eauto|]. intros d D.
      eapply denotes_bindo; [eapply (not_den b); eauto|]. intros e De.
      eapply denotes_val; [eapply and_den; eauto|]. rewrite !not_lnot by auto.
      rewrite M1. now rewrite Z.lnot_lor. }
  split.
  { destruct (zero_spec w Hw) as (d & -> & D). cbn [bind].
    apply (denotes_eq _ _ w 0); [|now apply denotes_ok].
    eapply denotes_bindo; [eapply (not_den a); eauto|]. intros e De.
    eapply denotes_val; [eapply and_den; eauto|]. rewrite not_lnot by auto.
    rewrite <- (Z.mod_small x (2 ^ w)) at 1 by lia. rewrite M1, Z.land_lnot_diag. apply Z.mod_0_l. lia. }
  split.
  { destruct (all_set_spec w Hw) as (d & -> & D). cbn [bind].
    apply (denotes_eq _ _ w (2 ^ w - 1)); [|now apply denotes_ok].
    eapply denotes_bindo; [eapply (not_den a); eauto|]. intros e De.
    eapply denotes_val; [eapply or_den; eauto|]. rewrite not_lnot by auto.
    rewrite <- (Z.mod_small x (2 ^ w)) at 1 by lia. rewrite M2, Z.lor_lnot_diag.
    rewrite <- Z.land_ones by lia. rewrite Z.land_m1_l, Z.ones_equiv. lia. }
  apply (denotes_eq _ _ w x); [|now apply denotes_ok].
  eapply denotes_bind; [eapply (xor_den a b); eauto|]. intros d D.
  eapply denotes_val; [eapply xor_den; eauto|]. now rewrite Z.lxor_assoc, Z.lxor_nilpotent, Z.lxor_0_r.
Qed.

(** * Shift identities *)
Lemma shl_den a w u s : is_apint a w u -> 0 <= s < w -> denotes (into_wrapping_shl a s) w ((u * 2 ^ s) mod 2 ^ w).
Proof. intros (A & <- & <-) Hs. destruct (shl_fact a s A Hs) as (c & _ & H & Hc). exists c; auto. Qed.
Lemma lshr_den a w u s : is_apint a w u -> 0 <= s < w -> denotes (into_wrapping_lshr a s) w (u / 2 ^ s).
Proof. intros (A & <- & <-) Hs. destruct (lshr_fact a s A Hs) as (c & _ & H & Hc). exists c; auto. Qed.
Lemma ashr_den a w u s : is_apint a w u -> 0 <= s < w ->
  denotes (into_wrapping_ashr a s) w ((to_signed w u / 2 ^ s) mod 2 ^ w).
Proof.
  intros (A & <- & <-) Hs. destruct (wrapping_ashr_assign_spec a s A Hs) as (c & H & Hc).
  exists c; split; auto. now apply try_forward_ok.
Qed.

Lemma shift_fact a s t : wf a -> 0 <= s -> 0 <= t -> s + t < len a ->
  (let? x := into_wrapping_shl a s in into_wrapping_shl x t) = into_wrapping_shl a (s + t) /\
  (let? x := into_wrapping_lshr a s in into_wrapping_lshr x t) = into_wrapping_lshr a (s + t) /\
  (let? x := into_wrapping_ashr a s in into_wrapping_ashr x t) = into_wrapping_ashr a (s + t) /\
  (forall p, is_apint p (len a) (2 ^ s) -> into_wrapping_shl a s = into_wrapping_mul a p) /\
  (exists c, (let? x := into_wrapping_shl a s in into_wrapping_lshr x s) = Val (Ok c) /\
    is_apint c (len a) (unsigned a mod 2 ^ (len a - s))) /\
  (exists c, (let? x := into_wrapping_lshr a s in into_wrapping_shl x s) = Val (Ok c) /\
    is_apint c (len a) (unsigned a - unsigned a mod 2 ^ s)).
Proof.
  intros Ha Hs Ht Hst. set (w := len a) in *. pose proof (self_den a w Ha eq_refl) as A.
  pose proof (is_apint_pow_pos _ _ _ A) as (Hp & Hw & Ua). pose proof (signed_range a Ha) as Sr. fold w in Sr.
  set (x := unsigned a) in *.
  assert (Ps : 0 < 2 ^ s) by (apply Z.pow_pos_nonneg; lia).
  assert (Pt : 0 < 2 ^ t) by (apply Z.pow_pos_nonneg; lia).
  split.
  { eapply denotes_eq; [|eapply shl_den; eauto; lia].
    eapply denotes_bind; [eapply shl_den; eauto; lia|]. intros d D.
    eapply denotes_val; [eapply shl_den; eauto; lia|].
    rewrite Zmult_mod_idemp_l, Z.pow_add_r by lia. f_equal. lia. }
  split.
  { eapply denotes_eq; [|eapply lshr_den; eauto; lia].
    eapply denotes_bind; [eapply lshr_den; eauto; lia|]. intros d D.
    eapply denotes_val; [eapply lshr_den; eauto; lia|].
    rewrite Z.pow_add_r, Z.div_div by lia. reflexivity. }
  split.
  { eapply denotes_eq; [|eapply ashr_den; eauto; lia].
    eapply denotes_bind; [eapply ashr_den; eauto; lia|]. intros d D.
    eapply denotes_val; [eapply ashr_den; eauto; lia|].
    fold (signed a). change (to_signed w x) with (signed a).
    change (to_signed w ((signed a / 2 ^ s) mod 2 ^ w)) with (wrap_signed w (signed a / 2 ^ s)).
    rewrite wrap_signed_small; [|lia|apply ashr_range; lia].
    rewrite Z.pow_add_r, Z.div_div by lia. reflexivity. }
  split.
  { intros p Hpp. eapply denotes_eq; [eapply shl_den; eauto; lia|]. now apply mul_den. }
  split.
  { change (denotes (let? x := into_wrapping_shl a s in into_wrapping_lshr x s) w (x mod 2 ^ (w - s))).
    eapply denotes_bind; [eapply shl_den; eauto; lia|]. intros d D.
    eapply denotes_val; [eapply lshr_den; eauto; lia|].
    assert (0 < 2 ^ (w - s)) by (apply Z.pow_pos_nonneg; lia).
    replace (2 ^ w) with (2 ^ (w - s) * 2 ^ s) by (rewrite <- Z.pow_add_r by lia; f_equal; lia).
    rewrite Zmult_mod_distr_r, Z.div_mul by lia. reflexivity. }
  change (denotes (let? x := into_wrapping_lshr a s in into_wrapping_shl x s) w (x - x mod 2 ^ s)).
  eapply denotes_bind; [eapply lshr_den; eauto; lia|]. intros d D.
  eapply denotes_val; [eapply shl_den; eauto; lia|].
  pose proof (Z.div_mod x (2 ^ s) ltac:(lia)). pose proof (Z.mod_pos_bound x (2 ^ s) ltac:(lia)).
  pose proof (Z.mod_le x (2 ^ s) ltac:(lia) ltac:(lia)).
  replace (x / 2 ^ s * 2 ^ s) with (x - x mod 2 ^ s) by lia. apply Z.mod_small. lia.
Qed.
