(** Ownership of heap buffers: the calls and the variables of a program. *)
From Coq Require Import Permutation.
From Verif Require Export LHeap2.

(** * Calls *)
Lemma wf_size x y : wf x -> wf y -> len y = len x -> same_size x y.
Proof.
  intros Hx Hy L. split; [exact L|]. apply wf_shape in Hx as ((_ & -> & _) & _). apply wf_shape in Hy as ((_ & -> & _) & _). now rewrite L.
Qed.

(** What a changing call leaves has the same size if the abstract machine says so. *)
Definition keeps (w : Z) (r : option ares) : Prop := match r with Some (inl v) => fst v = w | _ => True end.
Lemma rel_mut_size x v m r y q : rel x v -> rel_mut x m r -> keeps (fst v) r -> m = Val (y, q) -> same_size x y.
Proof.
  intros Hx Hm Hk E. destruct (rel_open x v Hx) as (Wx & Lx & _). destruct r as [[u|e]|]; cbn in Hm, Hk.
  - destruct Hm as (c & E' & Hc). assert (c = y) by congruence. subst c. destruct (rel_open y u Hc) as (Wy & Ly & _).
    apply wf_size; auto. congruence.
  - destruct Hm as (k & E' & _). assert (x = y) by congruence. subst y. split; reflexivity.
  - congruence.
Qed.

Lemma ref_modify_rel f a x L v r : repr a x L -> rel x v -> rel_mut x (f x) r -> keeps (fst v) r ->
  refines (h_modify f a) L (f x) rmut.
Proof. intros Ha Hx Hm Hk. apply ref_modify; [exact Ha|]. intros y q E. exact (rel_mut_size x v _ r y q Hx Hm Hk E). Qed.

Lemma keeps_mut m v : match m with MNot | MNeg | MInc | MDec | MShl _ | MLshr _ | MAshr _ => keeps (fst v) (Some (amut m v)) | _ => True end.
Proof. destruct v as [w u], m; cbn; auto; destruct (s <? w); cbn; auto. Qed.
Lemma keeps_put m v : keeps (fst v) (Some (aput m v)).
Proof. destruct v as [w u], m; cbn; auto; destruct (p <? w); cbn; auto. Qed.
Lemma keeps_bin o v u : keeps (fst v) (abin o v u).
Proof.
  destruct v as [w a], u as [w' b], o; cbn; unfold signed_div; cbn [fst snd]; destruct (w =? w'), (b =? 0); cbn; auto.
Qed.

Lemma ref_total h L f : refines h L f repr -> refines (h_total h) L (total f) rres.
Proof. intros H. unfold h_total, total. eapply ref_bind; [exact H|]. intros a x L' _ Hr. now apply ref_ret. Qed.
Lemma ref_total_mut h L f : refines h L f repr -> refines (h_total_mut h) L (total_mut f) rmut.
Proof. intros H. unfold h_total_mut, total_mut. eapply ref_bind; [exact H|]. intros a x L' _ Hr. apply ref_ret. split; auto. Qed.
Lemma ref_sized w h f : 0 <= w -> (0 < w -> refines (h w) [] (f w) repr) -> refines (h_sized w h) [] (sized w (fun w => total (f w))) rres.
Proof.
  intros Hw H. unfold h_sized, sized, bitwidth_new. destruct (Z.eqb_spec w 0); [apply ref_ret; split; reflexivity|].
  apply ref_total, H. lia.
Qed.
Lemma ref_sized_mut a x L w h f : 0 <= w -> repr a x L -> (0 < w -> refines (h w) L (f w) rmut) ->
  refines (h_sized_mut a w h) L (sized_mut x w f) rmut.
Proof.
  intros Hw Ha H. unfold h_sized_mut, sized_mut, bitwidth_new. destruct (Z.eqb_spec w 0); [apply ref_ret; split; auto|].
  apply H. lia.
Qed.

Lemma ref_u64_array vs : refines (h_from_u64_array vs) [] (from_u64_array vs) repr.
Proof.
  unfold h_from_u64_array, from_u64_array. cbv zeta. destruct (Nat.eqb (length (rev vs)) (length vs)); [|exact (ref_panic _ _ _)].
  apply ref_unwrap0, ref_from_iter.
Qed.

Lemma ref_signed_min w : 0 < w -> refines (h_signed_min_value w) [] (signed_min_value w) repr.
Proof.
  intros Hw. unfold h_signed_min_value.
  assert (R : refines (h_signed_min_value w) [] (let! a := zero w in let! a := set_msb a in Val a) repr).
  { unfold h_signed_min_value. eapply ref_bind; [exact (ref_repeat_digit w ZERO Hw)|]. intros a x L E Ha.
    destruct (constants_fact w Hw) as ((c & E' & _ & _ & Hc) & _). assert (c = x) by (change (zero w = Val x) in E; congruence). subst c.
    destruct Hc as (Hc & _). eapply ref_bind.
    - apply (ref_modify_unit set_msb a x L Ha). intros y. apply set_bit_size; [exact Hc|].
      destruct (sign_bit_fact x Hc) as ((c & ? & ? & ? & _) & _). eauto.
    - intros [b u] y L' _ Hb. now apply ref_ret. }
  unfold signed_min_value. destruct (zero w) as [a| |]; cbn [bind] in *; [|exact R|exact R].
  destruct (set_msb a); exact R.
Qed.
Lemma ref_signed_max w : 0 < w -> refines (h_signed_max_value w) [] (signed_max_value w) repr.
Proof.
  intros Hw. unfold h_signed_max_value.
  assert (R : refines (h_signed_max_value w) [] (let! a := all_set w in let! a := unset_msb a in Val a) repr).
  { unfold h_signed_max_value. eapply ref_bind; [exact (ref_repeat_digit w ONES Hw)|]. intros a x L E Ha.
    destruct (constants_fact w Hw) as (_ & _ & (c & E' & _ & Hc) & _). assert (c = x) by (change (all_set w = Val x) in E; congruence). subst c.
    destruct Hc as (Hc & _). eapply ref_bind.
    - apply (ref_modify_unit unset_msb a x L Ha). intros y. apply set_bit_size; [exact Hc|].
      destruct (sign_bit_fact x Hc) as (_ & (c & ? & ? & ? & _) & _). eauto.
    - intros [b u] y L' _ Hb. now apply ref_ret. }
  unfold signed_max_value. destruct (all_set w) as [a| |]; cbn [bind] in *; [|exact R|exact R].
  destruct (unset_msb a); exact R.
Qed.

Lemma parsed_words r ds : exists k, fst (parsed r ds) = 64 * k.
Proof.
  unfold parsed. cbv zeta. destruct (r =? 2 ^ Z.log2 r); [eexists; reflexivity|]. cbn [fst].
  match goal with |- exists k, (if ?b then _ else _) = _ => destruct b end; [exists 1|exists 2]; reflexivity.
Qed.

Lemma from_iter_words x k : wf x -> len x = 64 * k -> from_iter (digits x) = Val (Ok x).
Proof.
  intros Hx L. pose proof Hx as (H0 & H1 & _).
  assert (E : Z.of_nat (length (digits x)) = k).
  { rewrite H1, L. replace (64 * k + 63) with (63 + k * 64) by lia. rewrite Z.div_add by lia. rewrite (Z.div_small 63) by lia. lia. }
  rewrite from_iter_spec.
  - rewrite E, <- L. now destruct x.
  - intros N. rewrite N in E. cbn in E. lia.
Qed.

Lemma ref_parse r s : 0 <= r < 256 -> refines (h_from_str_radix r s) [] (from_str_radix_u8 r s) rres.
Proof.
  intros Hr. pose proof (parse_sim r s Hr) as P. unfold h_from_str_radix.
  assert (W : forall x, from_str_radix_u8 r s = Val (Ok x) -> from_iter (digits x) = Val (Ok x)).
  { intros x E. rewrite E in P. cbn [anew] in P. destruct ((2 <=? r) && (r <=? 36)); [|cbn in P; congruence].
    destruct (is_numeral r s); cbn [rel_res] in P.
    - destruct P as (c & Ec & Hc). assert (c = x) by congruence. subst c.
      destruct (parsed_words r (string_digits s)) as (k & Hk). destruct Hc as (Hx & Lx & _). apply (from_iter_words x k Hx). congruence.
    - destruct P as (k & Ek & _). congruence. }
  destruct (from_str_radix_u8 r s) as [[x|e]| |]; [| |exact (ref_panic _ _ _)|exact (ref_fuel _ _)].
  - specialize (W x eq_refl). pose proof (ref_unwrap0 _ _ _ (ref_from_iter (digits x))) as U. rewrite W in U.
    change (refines (let* a := h_unwrap (h_from_iter (digits x)) in hret (Ok a)) [] (Val (Ok x)) rres).
    eapply ref_step; [exact U|]. intros a L Ha. now apply ref_ret.
  - apply (ref_ret (Err e)). split; reflexivity.
Qed.

Lemma ref_new n : newop_ok n -> refines (hnew n) [] (cnew n) rres.
Proof.
  destruct n; cbn [newop_ok hnew cnew]; intros Hn; try (apply ref_total, ref_new_inl; lia);
    try (apply ref_total, ref_u64_array);
    try (apply (ref_sized w); [exact Hn|]; intros Hw; first [now apply ref_repeat_digit|now apply ref_one|now apply ref_signed_min|now apply ref_signed_max]).
  apply ref_parse. unfold has_type in Hn. cbn in Hn. lia.
Qed.

Lemma ref_mut m a x L v : mutop_ok m -> repr a x L -> rel x v -> refines (hmut m a) L (cmut m x) rmut.
Proof.
  intros Hm Ha Hx. pose proof (keeps_mut m v) as K. pose proof (proj1 (mut_sim m x v Hm Hx)) as S.
  destruct m; cbn [hmut cmut mutop_ok] in *; try exact (ref_modify_rel _ a x L v _ Ha Hx S K);
    apply (ref_sized_mut a x L _ _ _ Hm Ha); intros Hw.
  - now apply ref_truncate.
  - now apply ref_zero_extend.
  - now apply ref_sign_extend.
  - now apply ref_total_mut, ref_zero_resize.
  - now apply ref_total_mut, ref_sign_resize.
Qed.

Definition forward (f : mut_result) : outcome (result apint) :=
  let! (this, r) := f in match r with Ok _ => Val (Ok this) | Err e => Val (Err e) end.
Lemma into_forward m x : cinto m x = forward (cmut m x).
Proof.
  destruct m; cbn [cinto cmut]; try reflexivity;
    try (unfold into_bitnot, into_wrapping_neg, into_wrapping_inc, into_wrapping_dec, forward_mut_impl, total, total_mut, forward;
         match goal with |- context [bind ?f _] => destruct f; reflexivity end);
    unfold sized, sized_mut; destruct (bitwidth_new t); try reflexivity;
    unfold into_zero_resize, into_sign_resize, total, total_mut, forward;
    match goal with |- context [bind ?f _] => destruct f; reflexivity end.
Qed.
Lemma bin_forward o x y : cbin_into o x y = forward (cbin o x y).
Proof. destruct o; reflexivity. Qed.

Lemma ref_into m a x L v : mutop_ok m -> repr a x L -> rel x v -> refines (h_forward (hmut m a)) L (cinto m x) rres.
Proof. intros Hm Ha Hx. rewrite into_forward. apply ref_forward. now apply (ref_mut m a x L v). Qed.

Lemma ref_put m a x L v : setop_ok m -> repr a x L -> rel x v -> refines (h_modify (cput m) a) L (cput m x) rmut.
Proof. intros Hm Ha Hx. exact (ref_modify_rel _ a x L v _ Ha Hx (put_sim m x v Hm Hx) (keeps_put m v)). Qed.

(** With two integers the second one's buffer is only read. *)
Lemma ref_modify_by f a x La g b y Lb v r : repr a x La -> reprb g b y Lb -> rel x v -> rel_mut x (f x y) r -> keeps (fst v) r ->
  refines (h_modify_by f a b) (La ++ Lb) (f x y) (fun p q L' => exists L'', L' = L'' ++ Lb /\ rmut p q L'').
Proof.
  intros Ha Hb Hx Hm Hk. unfold h_modify_by.
  apply (ref_step _ _ _ (digits y) _ (fun r ds L' => r = ds /\ L' = Lb ++ La)).
  { eapply ref_perm; [apply Permutation_app_comm|].
    eapply ref_conseq; [apply ref_frame, (ref_slice g b y Lb Hb)|]. intros p q L' (L'' & -> & -> & ->). eauto. }
  intros ds L' [-> ->]. rewrite (repr_eta g b y Lb Hb). eapply ref_perm; [apply Permutation_app_comm|].
  apply ref_frame. exact (ref_modify_rel (fun x => f x y) a x La v r Ha Hx Hm Hk).
Qed.

Lemma ref_modify_both f a x La b y Lb : repr a x La -> repr b y Lb ->
  (forall x' y' r, f x y = Val (x', y', r) -> same_size x x' /\ same_size y y') ->
  refines (h_modify_both f a b) (La ++ Lb) (f x y)
    (fun p q L' => snd p = snd q /\ exists L1 L2, L' = L1 ++ L2 /\ repr (fst (fst p)) (fst (fst q)) L1 /\ repr (snd (fst p)) (snd (fst q)) L2).
Proof.
  intros Ha Hb Hf. unfold h_modify_both.
  apply (ref_step _ _ _ (digits x) _ (fun r ds L' => r = ds /\ L' = La ++ Lb)).
  { eapply ref_conseq; [apply ref_frame, (ref_slice true a x La Ha)|]. intros p q L' (L'' & -> & -> & ->). eauto. }
  intros ds L' [-> ->]. rewrite (repr_eta true a x La Ha).
  apply (ref_step _ _ _ (digits y) _ (fun r ds L' => r = ds /\ L' = Lb ++ La)).
  { eapply ref_perm; [apply Permutation_app_comm|].
    eapply ref_conseq; [apply ref_frame, (ref_slice true b y Lb Hb)|]. intros p q L' (L'' & -> & -> & ->). eauto. }
  intros ds L' [-> ->]. rewrite (repr_eta true b y Lb Hb). eapply ref_perm; [apply Permutation_app_comm|].
  destruct (f x y) as [[[x' y'] r]| |] eqn:E; [|exact (ref_panic _ _ _)|exact (ref_fuel _ _)].
  destruct (Hf x' y' r eq_refl) as ((Lx & Dx) & (Ly & Dy)).
  change (hbind (lift (Val (x', y', r))) ?k) with (k (x', y', r)). cbv beta iota.
  apply (ref_step _ _ _ (mk_apint (len x) (digits x')) _ (fun a' z L' => exists L'', L' = Lb ++ L'' /\ repr a' z L'')).
  { eapply ref_conseq; [apply ref_frame, (ref_write a x La (digits x') Ha Dx)|]. intros p q L' (L'' & -> & Hr).
    exists (Lb ++ L''). split; [apply Permutation_app_comm|eauto]. }
  intros a' L' (L1 & -> & Ha'). rewrite <- Lx in Ha'. replace (mk_apint (len x') (digits x')) with x' in Ha' by (now destruct x').
  apply (ref_step _ _ _ (mk_apint (len y) (digits y')) _ (fun b' z L' => exists L'', L' = L1 ++ L'' /\ repr b' z L'')).
  { eapply ref_conseq; [apply ref_frame, (ref_write b y Lb (digits y') Hb Dy)|]. intros p q L' (L'' & -> & Hr).
    exists (L1 ++ L''). split; [apply Permutation_app_comm|eauto]. }
  intros b' L' (L2 & -> & Hb'). rewrite <- Ly in Hb'. replace (mk_apint (len y') (digits y')) with y' in Hb' by (now destruct y').
  apply ref_ret. split; [reflexivity|]. exists L1, L2. auto.
Qed.

Lemma pair_size o x y v u x' y' r : rel x v -> rel y u -> cpair o x y = Val (x', y', r) -> same_size x x' /\ same_size y y'.
Proof.
  intros Hx Hy E. pose proof (pair_sim o x y v u Hx Hy) as P.
  destruct (rel_open x v Hx) as (Wx & Lx & _). destruct (rel_open y u Hy) as (Wy & Ly & _).
  assert (K : match apair o v u with Some (inl (v', u')) => fst v' = fst v /\ fst u' = fst u | _ => True end).
  { destruct v as [w a], u as [w' b], o; cbn; destruct (Z.eqb_spec w w'), (b =? 0); cbn; auto. }
  destruct (apair o v u) as [[[v' u']|e]|].
  - destruct P as (a & b & E' & Ra & Rb). rewrite E in E'. injection E' as <- <- _.
    destruct (rel_open _ _ Ra) as (? & ? & _). destruct (rel_open _ _ Rb) as (? & ? & _).
    split; apply wf_size; auto; [|]; destruct K; congruence.
  - destruct P as (k & E' & _). rewrite E in E'. injection E' as <- <- _. split; split; reflexivity.
  - congruence.
Qed.

Lemma ref_error_copy g a x L o : reprb g a x L -> refines (h_error_copy a o) L (Val tt) (fun _ _ L' => L' = L).
Proof.
  intros Ha. assert (R : refines (let* c := h_clone a in h_drop_digits c) L (Val tt) (fun _ _ L' => L' = L)).
  { eapply ref_step; [exact (ref_clone g a x L Ha)|]. intros c L' (Lc & -> & Hc).
    eapply ref_conseq; [apply ref_frame, (ref_drop c x Lc Hc)|]. intros u v L' (L'' & -> & ->). eauto. }
  assert (N : refines (hret tt) L (Val tt) (fun _ _ L' => L' = L)) by (apply ref_ret; reflexivity).
  unfold h_error_copy. destruct o as [| |e| | |]; try exact N. destruct e; first [exact N|exact R].
Qed.

Lemma ref_bin o a x La g b y Lb v u : repr a x La -> reprb g b y Lb -> rel x v -> rel y u ->
  refines (h_bin o a b) (La ++ Lb) (cbin o x y) (fun p q L' => exists L'', L' = L'' ++ Lb /\ rmut p q L'').
Proof.
  intros Ha Hb Hx Hy.
  assert (M : forall g c Lc, reprb g c y Lc -> refines (h_modify_by (cbin o) a c) (La ++ Lc) (cbin o x y)
    (fun p q L' => exists L'', L' = L'' ++ Lc /\ rmut p q L'')).
  { intros g' c Lc Hc. exact (ref_modify_by (cbin o) a x La g' c y Lc v _ Ha Hc Hx (proj1 (bin_sim o x y v u Hx Hy)) (keeps_bin o v u)). }
  unfold h_bin.
  assert (Z : exists z, refines (match o with BSdiv | BSrem => h_ask is_zero b | _ => hret true end) (La ++ Lb) (Val z)
    (fun r s L' => r = s /\ L' = La ++ Lb)).
  { assert (N : refines (hret true) (La ++ Lb) (Val true) (fun r s L' => r = s /\ L' = La ++ Lb)) by (apply ref_ret; auto).
    assert (S : exists z, refines (h_ask is_zero b) (La ++ Lb) (Val z) (fun r s L' => r = s /\ L' = La ++ Lb)).
    { destruct (rel_open y u Hy) as (Wy & _). apply wf_shape in Wy as (Wy & _). exists (unsigned y =? 0). rewrite <- (is_zero_spec y Wy).
      eapply ref_perm; [apply Permutation_app_comm|].
      eapply ref_conseq; [apply ref_frame, (ref_ask is_zero g b y Lb Hb)|]. intros p q L' (L'' & -> & -> & ->). exists (La ++ Lb).
      split; [apply Permutation_app_comm|auto]. }
    destruct o; eauto. }
  destruct Z as (z & Z). eapply ref_step; [exact Z|]. intros z' L' [-> ->].
  assert (D : refines
    (if z then h_modify_by (cbin o) a b
     else let* rhs_clone := h_clone b in let* (a, r) := h_modify_by (cbin o) a rhs_clone in
          let* _ := h_drop_digits rhs_clone in hret (a, r)) (La ++ Lb) (cbin o x y)
    (fun p q L' => exists L'', L' = L'' ++ Lb /\ rmut p q L'')).
  { destruct z; [exact (M g b Lb Hb)|].
    apply (ref_step _ _ _ y _ (fun c y' L' => exists Lc, L' = (La ++ Lc) ++ Lb /\ repr c y' Lc)).
    { eapply ref_perm; [apply Permutation_app_comm|].
      eapply ref_conseq; [apply ref_frame, (ref_clone g b y Lb Hb)|]. intros c y' L' (L'' & -> & Lc & -> & Hc).
      exists ((La ++ Lc) ++ Lb). split; [|eauto]. rewrite <- !app_assoc. rewrite (Permutation_app_comm La (Lc ++ Lb)).
      now rewrite <- app_assoc. }
    intros c L' (Lc & -> & Hc). replace (cbin o x y) with (bind (cbin o x y) Val) by (destruct (cbin o x y); reflexivity).
    eapply ref_bind; [apply ref_frame, (M true c Lc Hc)|]. intros [a' r] [x' s] L' _ (L1 & -> & L2 & -> & Hr).
    apply (ref_step _ _ _ tt _ (fun _ _ L' => L' = L2 ++ Lb)).
    { eapply ref_perm; [rewrite (Permutation_app_comm L2 Lc), <- app_assoc; reflexivity|].
      eapply ref_conseq; [apply ref_frame, (ref_drop c y Lc Hc)|]. intros p q L' (L'' & -> & ->). eauto. }
    intros _ L' ->. apply ref_ret. eauto. }
  replace (cbin o x y) with (bind (cbin o x y) Val) by (destruct (cbin o x y); reflexivity).
  eapply ref_bind; [exact D|]. intros [a' r] [x' s] L' _ (L1 & -> & Eq & Hr). cbn [fst snd] in *. subst s.
  apply (ref_step _ _ _ tt _ (fun _ _ L' => L' = L1 ++ Lb)).
  { eapply ref_conseq; [apply ref_frame, (ref_error_copy true a' x' L1 (done r) Hr)|]. intros p q L' (L'' & -> & ->). eauto. }
  intros _ L' ->. apply ref_ret. exists L1. split; [reflexivity|]. split; [reflexivity|exact Hr].
Qed.
