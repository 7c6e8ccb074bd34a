(** Ownership of heap buffers: casting and construction. *)
From Coq Require Import Permutation.
From Verif Require Export LHeap1.

(** What [f] leaves has the length and the number of digits of what it got. *)
Definition same_size (x y : apint) : Prop := len y = len x /\ length (digits y) = length (digits x).

Lemma modify_last_length f ds es : modify_last f ds = Val es -> length es = length ds.
Proof.
  revert es. induction ds as [|d ds IH]; intros es; cbn [modify_last]; [discriminate|].
  destruct ds as [|d' ds].
  - destruct (f d) as [e| |]; cbn [bind]; try discriminate. intros E. apply Val_inj in E. subst. reflexivity.
  - destruct (modify_last f (d' :: ds)) as [r| |]; cbn [bind]; try discriminate. intros E. apply Val_inj in E. subst.
    cbn [length]. f_equal. rewrite (IH r eq_refl). reflexivity.
Qed.

Lemma modify_msd_size f x y : modify_most_significant_digit f x = Val y -> same_size x y.
Proof.
  unfold modify_most_significant_digit, access_data. destruct (storage (len x)).
  - destruct (digits x) as [|d [|? ?]] eqn:E; unfold read_inl; rewrite E; cbn [bind]; try discriminate.
    destruct (f d) as [d'| |]; cbn [bind]; try discriminate. intros H. apply Val_inj in H. subst y. split; [reflexivity|].
    rewrite E. reflexivity.
  - cbn [bind]. destruct (modify_last f (as_digit_slice x)) as [ds| |] eqn:E; cbn [bind]; try discriminate.
    intros H. apply Val_inj in H. subst y. split; [reflexivity|]. exact (modify_last_length _ _ _ E).
Qed.

Lemma clear_size x y : clear_unused_bits x = Val y -> same_size x y.
Proof.
  unfold clear_unused_bits. destruct (excess_bits (width x)); [apply modify_msd_size|]. intros H. apply Val_inj in H. subst. split; reflexivity.
Qed.

Lemma fill_size w x y r : fill_most_significant_digit x w = Val (y, r) -> same_size x y.
Proof.
  unfold fill_most_significant_digit. destruct (excess_width w).
  - destruct (most_significant_digit x) as [d| |]; cbn [bind]; try discriminate.
    destruct (d_sign_extend_from d _) as [[d'|e]| |]; cbn [bind]; try discriminate.
    + destruct (modify_most_significant_digit _ x) as [x'| |] eqn:E; cbn [bind]; try discriminate.
      intros H. apply Val_inj in H. injection H as <- _. exact (modify_msd_size _ _ _ E).
    + intros H. apply Val_inj in H. injection H as <- _. split; reflexivity.
  - intros H. apply Val_inj in H. injection H as <- _. split; reflexivity.
Qed.

Lemma ref_modify_unit f a x L : repr a x L -> (forall y, f x = Val y -> same_size x y) ->
  refines (h_modify (with_unit f) a) L (f x) (fun r y L' => repr (fst r) y L').
Proof.
  intros Ha Hf. pose proof (ref_modify (with_unit f) a x L Ha) as H.
  assert (S : forall y r, with_unit f x = Val (y, r) -> len y = len x /\ length (digits y) = length (digits x)).
  { intros y r. unfold with_unit. destruct (f x) as [z| |] eqn:E; cbn [bind]; try discriminate. intros K. apply Val_inj in K.
    injection K as <- _. exact (Hf z eq_refl). }
  eapply ref_mono; [exact (H S)|]. intros F o L1. change (with_unit f x) with (let! y := f x in Val (y, tt)).
  destruct (f x) as [y| |]; cbn [bind ending]; auto.
  intros (r & L' & E & P & (_ & Hr)). exists r, L'. auto.
Qed.

Lemma repr_relen a x L w : 0 < w -> required_digits w = required_digits (len x) -> repr a x L ->
  repr (mk_hapint w (hdata a)) (mk_apint w (digits x)) L.
Proof.
  intros Hw E (H1 & H2 & H3 & H4). unfold reprb. cbn [hlen hdata len digits].
  assert (S : storage w = storage (len x)).
  { pose proof (storage_digits w Hw) as S1. pose proof (storage_digits (len x) H2) as S2.
    destruct (storage w), (storage (len x)); auto; lia. }
  rewrite S, E. auto.
Qed.

Lemma ref_replace a x L b y Lb : repr a x L -> repr b y Lb -> refines (h_replace a b) (Lb ++ L) (Val (y, Ok tt)) rmut.
Proof.
  intros Ha Hb. unfold h_replace. apply (ref_step _ _ _ tt _ (fun _ _ L' => L' = Lb)).
  - eapply ref_perm; [apply Permutation_app_comm|]. eapply ref_conseq; [apply ref_frame, (ref_drop a x L Ha)|].
    intros u v L' (L'' & -> & ->). eauto.
  - intros _ L' ->. apply ref_ret. split; [reflexivity|exact Hb].
Qed.

(** A call that needs no buffer of ours. *)
Lemma ref_aside {A B} (h : HM A) L (f : outcome B) Q :
  refines h [] f Q -> refines h L f (fun a b L' => exists L'', L' = L'' ++ L /\ Q a b L'').
Proof. exact (ref_frame h [] L f Q). Qed.

Lemma ref_unwrap h L f (Q : list cell -> list cell) : refines h L f (fun r s L' => exists L'', L' = Q L'' /\ rres r s L'') ->
  refines (h_unwrap h) L (let! r := f in unwrap r) (fun a x L' => exists L'', L' = Q L'' /\ repr a x L'').
Proof.
  intros H. unfold h_unwrap. eapply ref_bind; [exact H|]. intros r s L' _ (L'' & -> & Hr).
  destruct r as [a|e], s as [x|e']; cbn [rres] in Hr; try tauto; cbn [unwrap lift]; [|exact (ref_panic _ _ _)].
  apply (ref_ret a x). eauto.
Qed.

Lemma ref_ok {A B A' B'} (b : A) (y : B) (k : A -> HM A') L (g : B -> outcome B') R :
  refines (k b) L (g y) R -> refines (hbind (lift (unwrap (Ok b))) k) L (bind (unwrap (Ok y)) g) R.
Proof. exact (fun H => H). Qed.

Lemma ref_forward h L f : refines h L f rmut ->
  refines (h_forward h) L (let! (this, r) := f in match r with Ok _ => Val (Ok this) | Err e => Val (Err e) end) rres.
Proof.
  intros H. unfold h_forward. eapply ref_bind; [exact H|]. intros [a r] [x s] L' _ (E & Hr). cbn [fst snd] in *. subst s.
  destruct r as [u|e]; [apply ref_ret; exact Hr|].
  apply (ref_step _ _ _ tt _ (fun _ _ L' => L' = [])); [exact (ref_drop a x L' Hr)|]. intros _ L'' ->.
  apply ref_ret. split; reflexivity.
Qed.

Lemma repr_width a x L : repr a x L -> hlen a = width x.
Proof. intros (H & _). exact H. Qed.

Lemma ref_truncate fuel : forall a x L w, 0 < w -> repr a x L ->
  refines (h_truncate_fuel fuel a w) L (truncate_fuel fuel x w) rmut.
Proof.
  induction fuel as [|fuel IH]; intros a x L w Hw Ha; [exact (ref_fuel _ _)|].
  cbn [h_truncate_fuel truncate_fuel]. cbv zeta. rewrite (repr_width a x L Ha).
  destruct (w =? width x); [apply ref_ret; split; [reflexivity|exact Ha]|].
  destruct (width x <? w); [apply ref_ret; split; [reflexivity|exact Ha]|].
  destruct (Nat.eqb_spec (required_digits (width x)) (required_digits w)) as [E|E].
  - eapply ref_bind; [apply ref_lift|]. intros e e' L' _ [-> ->].
    eapply ref_bind; [exact (ref_modify_unit _ a x L Ha (modify_msd_size _ x))|]. intros [a' u] x' L' Ex Hr. cbn [fst] in Hr.
    apply ref_ret. split; [reflexivity|]. cbn [fst]. apply repr_relen; [exact Hw| |exact Hr].
    destruct (modify_msd_size _ _ _ Ex) as (-> & _). symmetry. exact E.
  - apply (ref_step _ _ _ (digits x) _ (fun r ds L' => r = ds /\ L' = L)); [eapply ref_slice; eassumption|]. intros ds L' [-> ->].
    eapply ref_bind; [apply ref_aside, ref_from_iter|]. intros r s L' _ (L1 & -> & Hr).
    destruct r as [b|e], s as [y|e']; cbn [rres] in Hr; try tauto; [|exact (ref_panic _ _ _)].
    apply ref_ok. rewrite (repr_width b y L1 Hr). destruct (negb (width y =? w)).
    + eapply ref_bind; [apply ref_frame, (IH b y L1 w Hw Hr)|]. intros [c q] [z q'] L' _ (L2 & -> & Eq & Hc).
      cbn [fst snd] in *. subst q'. destruct q as [u|e]; [exact (ref_replace a x L c z L2 Ha Hc)|].
      apply (ref_step _ _ _ tt _ (fun _ _ L' => L' = L)).
      { eapply ref_conseq; [apply ref_frame, (ref_drop c z L2 Hc)|]. intros u v L' (L'' & -> & ->). eauto. }
      intros _ L' ->. apply ref_ret. split; [reflexivity|exact Ha].
    + exact (ref_replace a x L b y L1 Ha Hr).
Qed.

Lemma ref_into_truncate a x L w : 0 < w -> repr a x L ->
  refines (h_forward (h_truncate a w)) L (into_truncate x w) rres.
Proof. intros Hw Ha. exact (ref_forward _ L _ (ref_truncate 2 a x L w Hw Ha)). Qed.

Lemma ref_rebuild a ds w : 0 < w ->
  refines (h_rebuild a ds w) [] (let? apint := from_iter ds in into_truncate apint w) rres.
Proof.
  intros Hw. unfold h_rebuild, bindr. eapply ref_bind; [apply ref_from_iter|]. intros r s L' _ Hr.
  destruct r as [b|e], s as [y|e']; cbn [rres] in Hr; try tauto; [exact (ref_into_truncate b y L' w Hw Hr)|].
  destruct Hr as [-> ->]. apply ref_ret. split; reflexivity.
Qed.

Lemma ref_zero_extend a x L w : 0 < w -> repr a x L -> refines (h_zero_extend a w) L (zero_extend x w) rmut.
Proof.
  intros Hw Ha. unfold h_zero_extend, zero_extend. rewrite (repr_width a x L Ha).
  destruct (w =? width x); [apply ref_ret; split; [reflexivity|exact Ha]|].
  destruct (w <? width x); [apply ref_ret; split; [reflexivity|exact Ha]|]. cbv zeta.
  destruct (Nat.eqb_spec (required_digits (width x)) (required_digits w)) as [E|E].
  - apply ref_ret. split; [reflexivity|]. apply repr_relen; auto.
  - destruct (negb (Nat.ltb (required_digits (width x)) (required_digits w))); [exact (ref_panic _ _ _)|].
    apply (ref_step _ _ _ (digits x) _ (fun r ds L' => r = ds /\ L' = L)); [eapply ref_slice; eassumption|]. intros ds L' [-> ->].
    eapply ref_bind; [apply ref_aside, ref_rebuild, Hw|]. intros r s L' _ (L1 & -> & Hr).
    destruct r as [b|e], s as [y|e']; cbn [rres] in Hr; try tauto; [exact (ref_replace a x L b y L1 Ha Hr)|].
    destruct Hr as [-> ->]. apply ref_ret. split; [reflexivity|exact Ha].
Qed.

Lemma ref_fill a x L w : repr a x L ->
  refines (h_modify (fun x => fill_most_significant_digit x w) a) L (fill_most_significant_digit x w) rmut.
Proof. intros Ha. apply (ref_modify (fun x => fill_most_significant_digit x w) a x L Ha). intros y r. apply fill_size. Qed.

Lemma ref_sign_extend a x L w : 0 < w -> repr a x L -> refines (h_sign_extend a w) L (sign_extend x w) rmut.
Proof.
  intros Hw Ha. unfold h_sign_extend, sign_extend. rewrite (repr_width a x L Ha).
  destruct (w =? width x); [apply ref_ret; split; [reflexivity|exact Ha]|].
  destruct (w <? width x); [apply ref_ret; split; [reflexivity|exact Ha]|]. cbv zeta.
  eapply ref_bind; [apply (ref_ask msb true a x L Ha)|]. intros m m' L' _ [-> ->].
  destruct (negb m'); [now apply ref_zero_extend|].
  destruct (Nat.eqb_spec (required_digits (width x)) (required_digits w)) as [E|E].
  - eapply ref_bind; [apply ref_fill, (repr_relen a x L w Hw (eq_sym E) Ha)|]. intros [b q] [y q'] L' _ (Eq & Hb).
    cbn [fst snd] in *. subst q'. destruct q as [u|e]; [|apply ref_ret; split; [reflexivity|exact Hb]].
    eapply ref_bind; [apply (ref_modify_unit clear_unused_bits b y L' Hb), clear_size|]. intros [c v] z L'' _ Hc.
    apply ref_ret. split; [reflexivity|exact Hc].
  - destruct (negb (Nat.ltb (required_digits (width x)) (required_digits w))); [exact (ref_panic _ _ _)|].
    eapply ref_bind; [apply ref_fill, Ha|]. intros [b q] [y q'] L' _ (Eq & Hb).
    cbn [fst snd] in *. subst q'. destruct q as [u|e]; [|apply ref_ret; split; [reflexivity|exact Hb]].
    apply (ref_step _ _ _ (digits y) _ (fun r ds L1 => r = ds /\ L1 = L')); [eapply ref_slice; eassumption|]. intros ds L1 [-> ->].
    eapply ref_bind; [apply ref_aside, ref_rebuild, Hw|]. intros r s L1 _ (L2 & -> & Hr).
    destruct r as [c|e], s as [z|e']; cbn [rres] in Hr; try tauto.
    + eapply ref_bind.
      { eapply ref_perm; [apply Permutation_app_comm|].
        apply ref_frame, (ref_modify_unit clear_unused_bits b y L' Hb), clear_size. }
      intros [d v] y' L3 _ (L4 & -> & Hd). cbn [fst] in Hd. eapply ref_perm; [apply Permutation_app_comm|].
      exact (ref_replace d y' L4 c z L2 Hd Hr).
    + destruct Hr as [-> ->]. apply ref_ret. split; [reflexivity|exact Hb].
Qed.

Lemma ref_expect h L f : refines h L f rmut -> refines (h_expect h) L (expect_mut f) repr.
Proof.
  intros H. unfold h_expect, expect_mut. eapply ref_bind; [exact H|]. intros [a r] [x s] L' _ (E & Hr). cbn [fst snd] in *. subst s.
  destruct r as [u|e]; [|exact (ref_panic _ _ _)]. apply ref_ok. now apply ref_ret.
Qed.

Lemma ref_zero_resize a x L w : 0 < w -> repr a x L -> refines (h_zero_resize a w) L (zero_resize x w) repr.
Proof.
  intros Hw Ha. unfold h_zero_resize, zero_resize. rewrite (repr_width a x L Ha).
  destruct (w <=? width x); apply ref_expect; [now apply ref_truncate|now apply ref_zero_extend].
Qed.
Lemma ref_sign_resize a x L w : 0 < w -> repr a x L -> refines (h_sign_resize a w) L (sign_resize x w) repr.
Proof.
  intros Hw Ha. unfold h_sign_resize, sign_resize. rewrite (repr_width a x L Ha).
  destruct (w <=? width x); apply ref_expect; [now apply ref_truncate|now apply ref_sign_extend].
Qed.

Lemma ref_unwrap0 h L f : refines h L f rres -> refines (h_unwrap h) L (let! r := f in unwrap r) repr.
Proof.
  intros H. unfold h_unwrap. eapply ref_bind; [exact H|]. intros r s L' _ Hr.
  destruct r as [a|e], s as [x|e']; cbn [rres] in Hr; try tauto; [|exact (ref_panic _ _ _)]. now apply (ref_ret a x).
Qed.

Lemma ref_assoc {A B C D} (h : HM A) L (f : outcome B) (g : B -> outcome C) (k : C -> outcome D) Q :
  refines h L (bind f (fun b => bind (g b) k)) Q -> refines h L (bind (bind f g) k) Q.
Proof. destruct f; exact (fun H => H). Qed.

Lemma ref_repeat_digit w d : 0 < w -> refines (h_repeat_digit w d) [] (repeat_digit w d) repr.
Proof.
  intros Hw. unfold h_repeat_digit, repeat_digit. cbv zeta.
  pose proof (ref_unwrap0 _ _ _ (ref_from_iter (repeat d (required_digits w)))) as H.
  assert (R : refines (h_repeat_digit w d) []
    (bind (let! r := from_iter (repeat d (required_digits w)) in unwrap r) (fun a => let! r := into_truncate a w in unwrap r)) repr).
  { unfold h_repeat_digit. cbv zeta. eapply ref_bind; [exact H|]. intros a x L _ Ha.
    apply ref_unwrap0, ref_into_truncate; auto. }
  destruct (from_iter (repeat d (required_digits w))); exact R.
Qed.

Lemma ref_one w : 0 < w -> refines (h_one w) [] (one w) repr.
Proof.
  intros Hw. unfold h_one, one, from_u64. eapply ref_bind; [apply ref_new_inl; lia|]. intros a x L _ Ha.
  exact (ref_zero_resize a x L w Hw Ha).
Qed.

Lemma set_bit_size f x y : wf x ->
  (exists c, f x = Val c /\ wf c /\ len c = len x) -> f x = Val y -> same_size x y.
Proof.
  intros Hx (c & E & Hc & L) H. assert (c = y) by congruence. subst c. split; [exact L|].
  apply wf_shape in Hx as ((_ & -> & _) & _). apply wf_shape in Hc as ((_ & -> & _) & _). now rewrite L.
Qed.
