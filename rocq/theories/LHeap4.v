(** Ownership of heap buffers: variables and whole programs. *)
From Coq Require Import Permutation.
From Verif Require Export LHeap3 SpecThreads.

(** The variables [hs] in memory hold [cs] with the buffers [L]; [g] says which
    ones are owned and not just borrowed. *)
Inductive srepr : (nat -> bool) -> hvars -> vars -> list cell -> Prop :=
| srepr_nil g : srepr g [] [] []
| srepr_none g hs cs L : srepr (fun n => g (S n)) hs cs L -> srepr g (None :: hs) (None :: cs) L
| srepr_some g a x La hs cs L : reprb (g O) a x La -> srepr (fun n => g (S n)) hs cs L ->
    srepr g (Some a :: hs) (Some x :: cs) (La ++ L).
(** The same, the buffers in some order. *)
Definition sown (g : nat -> bool) (hs : hvars) (cs : vars) (L : list cell) : Prop := exists L', Permutation L L' /\ srepr g hs cs L'.

Lemma sown_perm g hs cs L L' : Permutation L L' -> sown g hs cs L' -> sown g hs cs L.
Proof. intros P (L1 & P1 & H). exists L1. split; [now transitivity L'|exact H]. Qed.

Lemma srepr_focus g hs cs L : srepr g hs cs L -> forall i,
  match nth_error hs i, nth_error cs i with
  | Some (Some a), Some (Some x) =>
      exists La Lr, Permutation L (La ++ Lr) /\ reprb (g i) a x La /\ srepr g (update i None hs) (update i None cs) Lr
  | Some None, Some None => True
  | None, None => True
  | _, _ => False
  end.
Proof.
  induction 1 as [g|g hs cs L H IH|g a x La hs cs L Ha H IH]; intros [|i]; cbn [nth_error update]; auto.
  - specialize (IH i). destruct (nth_error hs i) as [[a|]|], (nth_error cs i) as [[x|]|]; auto.
    destruct IH as (La & Lr & P & Ha & Hs). exists La, Lr. split; [exact P|]. split; [exact Ha|]. now constructor.
  - exists La, L. split; [reflexivity|]. split; [exact Ha|]. now constructor.
  - specialize (IH i). destruct (nth_error hs i) as [[b|]|], (nth_error cs i) as [[y|]|]; auto.
    destruct IH as (Lb & Lr & P & Hb & Hs). exists Lb, (La ++ Lr). split; [|split; [exact Hb|now constructor]].
    rewrite P, !app_assoc. apply Permutation_app_tail, Permutation_app_comm.
Qed.

Lemma srepr_fill g hs cs L : srepr g hs cs L -> forall i a x La, nth_error hs i = Some None -> reprb (g i) a x La ->
  sown g (update i (Some a) hs) (update i (Some x) cs) (La ++ L).
Proof.
  induction 1 as [g|g hs cs L H IH|g b y Lb hs cs L Hb H IH]; intros [|i] a x La E Ha; cbn [nth_error update] in *; try discriminate.
  - exists (La ++ L). split; [reflexivity|]. now constructor.
  - destruct (IH i a x La E Ha) as (L' & P & Hs). exists L'. split; [exact P|]. now constructor.
  - destruct (IH i a x La E Ha) as (L' & P & Hs). exists (Lb ++ L'). split; [|now constructor].
    rewrite <- P, !app_assoc. apply Permutation_app_tail, Permutation_app_comm.
Qed.

Lemma sown_fill g hs cs L i a x La : sown g hs cs L -> nth_error hs i = Some None -> reprb (g i) a x La ->
  sown g (update i (Some a) hs) (update i (Some x) cs) (La ++ L).
Proof.
  intros (L' & P & H) E Ha. apply (sown_perm g _ _ _ (La ++ L')); [now apply Permutation_app_head|]. now apply srepr_fill.
Qed.

Lemma sown_append g hs cs L a x La : sown g hs cs L -> reprb (g (length hs)) a x La -> sown g (hs ++ [Some a]) (cs ++ [Some x]) (La ++ L).
Proof.
  intros (L' & P & H) Ha. apply (sown_perm g _ _ _ (La ++ L')); [now apply Permutation_app_head|]. clear P L. revert a x La Ha.
  induction H as [g|g hs cs L H IH|g b y Lb hs cs L Hb H IH]; intros a x La Ha; cbn [app length] in *.
  - exists (La ++ []). split; [reflexivity|]. apply (srepr_some g a x La [] [] []); [exact Ha|constructor].
  - destruct (IH a x La Ha) as (L' & P & Hs). exists L'. split; [exact P|]. now constructor.
  - destruct (IH a x La Ha) as (L' & P & Hs). exists (Lb ++ L'). split; [|now constructor].
    rewrite <- P, !app_assoc. apply Permutation_app_tail, Permutation_app_comm.
Qed.

Lemma update_twice {A} i (a b : A) l : update i a (update i b l) = update i a l.
Proof. revert i. induction l as [|c l IH]; intros [|i]; cbn; auto. now rewrite IH. Qed.
Lemma update_swap {A} i j (a b : A) l : i <> j -> update i a (update j b l) = update j b (update i a l).
Proof. revert i j. induction l as [|c l IH]; intros [|i] [|j] N; cbn; auto; [lia|]. rewrite IH; auto. Qed.
Lemma nth_update_same {A} i (a b : A) l : nth_error l i = Some b -> nth_error (update i a l) i = Some a.
Proof. revert i. induction l as [|c l IH]; intros [|i] E; cbn in *; try discriminate; auto. Qed.
Lemma nth_update_other {A} i j (a : A) l : i <> j -> nth_error (update i a l) j = nth_error l j.
Proof. revert i j. induction l as [|c l IH]; intros [|i] [|j] N; cbn; auto; lia. Qed.

(** Taking a variable out of the store. *)
Lemma sown_take g hs cs L i a : sown g hs cs L -> nth_error hs i = Some (Some a) ->
  exists x La Lr, nth_error cs i = Some (Some x) /\ Permutation L (La ++ Lr) /\ reprb (g i) a x La /\ sown g (update i None hs) (update i None cs) Lr.
Proof.
  intros (L' & P & H) E. pose proof (srepr_focus g hs cs L' H i) as F. rewrite E in F.
  destruct (nth_error cs i) as [[x|]|]; try tauto. destruct F as (La & Lr & P' & Ha & Hs).
  exists x, La, Lr. split; [reflexivity|]. split; [now transitivity L'|]. split; [exact Ha|]. exists Lr. split; [reflexivity|exact Hs].
Qed.

Definition spost (g : nat -> bool) (p : hvars * obs) (q : vars * obs) (L : list cell) : Prop := snd p = snd q /\ sown g (fst p) (fst q) L.

Lemma ref_get1 g hs cs L i k k' : sown g hs cs L ->
  (forall a x La Lr, nth_error hs i = Some (Some a) -> nth_error cs i = Some (Some x) -> Permutation L (La ++ Lr) -> reprb (g i) a x La ->
    sown g (update i None hs) (update i None cs) Lr -> refines (k a) (La ++ Lr) (k' x) (spost g)) ->
  refines (hget1 hs i k) L (cget1 cs i k') (spost g).
Proof.
  intros H K. unfold hget1, cget1. destruct (nth_error hs i) as [[a|]|] eqn:E.
  - destruct (sown_take g hs cs L i a H E) as (x & La & Lr & Ec & P & Ha & Hs). rewrite Ec.
    eapply ref_perm; [exact P|]. now apply (K a x La Lr).
  - destruct H as (L' & P & H). pose proof (srepr_focus g hs cs L' H i) as F. rewrite E in F.
    destruct (nth_error cs i) as [[x|]|]; try tauto. apply ref_ret. split; [reflexivity|]. exists L'. auto.
  - destruct H as (L' & P & H). pose proof (srepr_focus g hs cs L' H i) as F. rewrite E in F.
    destruct (nth_error cs i) as [[x|]|]; try tauto. apply ref_ret. split; [reflexivity|]. exists L'. auto.
Qed.

Lemma ref_get2 g hs cs L i j k k' : i <> j -> sown g hs cs L ->
  (forall a x La b y Lb Lr, nth_error hs i = Some (Some a) -> nth_error cs i = Some (Some x) -> reprb (g i) a x La ->
    nth_error hs j = Some (Some b) -> nth_error cs j = Some (Some y) -> reprb (g j) b y Lb ->
    sown g (update j None (update i None hs)) (update j None (update i None cs)) Lr -> refines (k a b) (La ++ Lb ++ Lr) (k' x y) (spost g)) ->
  refines (hget2 hs i j k) L (cget2 cs i j k') (spost g).
Proof.
  intros N H K. unfold hget2, cget2. apply (ref_get1 g hs cs L i); [exact H|]. intros a x La Lr E Ec P Ha Hs.
  assert (S : sown g hs cs (La ++ Lr)) by (eapply sown_perm; [symmetry; exact P|exact H]).
  unfold hget1, cget1. destruct (nth_error hs j) as [[b|]|] eqn:F.
  - rewrite <- (nth_update_other i j None hs N) in F.
    destruct (sown_take g _ _ Lr j b Hs F) as (y & Lb & Lq & Fc & Q & Hb & Ht). rewrite (nth_update_other i j None hs N) in F.
    rewrite (nth_update_other i j None cs N) in Fc. rewrite Fc.
    eapply ref_perm; [apply Permutation_app_head, Q|]. now apply (K a x La b y Lb Lq).
  - destruct S as (L' & P' & S). pose proof (srepr_focus g hs cs L' S j) as G. rewrite F in G.
    destruct (nth_error cs j) as [[y|]|]; try tauto. apply ref_ret. split; [reflexivity|]. exists L'. auto.
  - destruct S as (L' & P' & S). pose proof (srepr_focus g hs cs L' S j) as G. rewrite F in G.
    destruct (nth_error cs j) as [[y|]|]; try tauto. apply ref_ret. split; [reflexivity|]. exists L'. auto.
Qed.

(** Reading any variable leaves everything in place. *)
Lemma ref_read g hs cs L i a : sown g hs cs L -> nth_error hs i = Some (Some a) ->
  exists x, nth_error cs i = Some (Some x) /\ mk_apint (hlen a) (digits x) = x /\
    refines (h_as_digit_slice a) L (Val (digits x)) (fun r ds L' => r = ds /\ L' = L).
Proof.
  intros H E. destruct (sown_take g hs cs L i a H E) as (x & La & Lr & Ec & P & Ha & Hs). exists x. split; [exact Ec|].
  split; [exact (repr_eta _ a x La Ha)|]. eapply ref_perm; [exact P|].
  eapply ref_conseq; [apply ref_frame, (ref_slice _ a x La Ha)|]. intros r ds L' (L'' & -> & -> & ->). exists L.
  split; [now symmetry|auto].
Qed.

Lemma ref_read2 g hs cs L i j (f : apint -> apint -> outcome obs) : sown g hs cs L ->
  refines (hget2 hs i j (fun a b => let* o := h_ask2 f a b in hret (hs, o))) L
    (cget2 cs i j (fun a b => let! o := f a b in Val (cs, o))) (spost g).
Proof.
  intros H. unfold hget2, cget2. unfold hget1, cget1.
  assert (RJ : refines (hret (hs, ORejected)) L (Val (cs, ORejected)) (spost g)) by (apply ref_ret; split; auto).
  assert (G : forall k, nth_error hs k = Some None /\ nth_error cs k = Some None \/ nth_error hs k = None /\ nth_error cs k = None \/
    exists a, nth_error hs k = Some (Some a)).
  { intros k. destruct H as (L' & P & H). pose proof (srepr_focus g hs cs L' H k) as F.
    destruct (nth_error hs k) as [[a|]|], (nth_error cs k) as [[x|]|]; try tauto; eauto. }
  destruct (G i) as [(-> & ->)|[(-> & ->)|(a & Ea)]]; [exact RJ|exact RJ|]. rewrite Ea.
  destruct (ref_read g hs cs L i a H Ea) as (x & -> & Xa & Ra).
  destruct (G j) as [(-> & ->)|[(-> & ->)|(b & Eb)]]; [exact RJ|exact RJ|]. rewrite Eb.
  destruct (ref_read g hs cs L j b H Eb) as (y & -> & Xb & Rb).
  assert (A : refines (h_ask2 f a b) L (f x y) (fun r s L' => r = s /\ L' = L)).
  { unfold h_ask2. eapply ref_step; [exact Ra|]. intros ds L' [-> ->]. eapply ref_step; [exact Rb|]. intros ds L' [-> ->].
    rewrite Xa, Xb. apply ref_lift. }
  eapply ref_bind; [exact A|]. intros r s L' _ [-> ->]. apply ref_ret. split; auto.
Qed.

Lemma ref_create g hs cs L La h f : g (length hs) = true -> sown g hs cs L -> refines h La f rres -> refines (hcreate hs h) (La ++ L) (ccreate cs f) (spost g).
Proof.
  intros G H Hf. unfold hcreate, ccreate. eapply ref_bind; [apply ref_frame, Hf|]. intros r s L' _ (L'' & -> & Hr).
  destruct r as [a|e], s as [x|e']; cbn [rres] in Hr; try tauto.
  - apply ref_ret. split; [reflexivity|]. apply sown_append; [exact H|]. now rewrite G.
  - destruct Hr as [-> ->]. apply ref_ret. split; [reflexivity|]. exact H.
Qed.

Lemma ref_change g hs cs Lr i La h f v : g i = true -> sown g (update i None hs) (update i None cs) Lr -> nth_error hs i = Some v ->
  refines h La f rmut -> refines (hchange hs i h) (La ++ Lr) (cchange cs i f) (spost g).
Proof.
  intros G H E Hf. unfold hchange, cchange. eapply ref_bind; [apply ref_frame, Hf|]. intros [a r] [x s] L' _ (L'' & -> & Eq & Hr).
  cbn [fst snd] in *. subst s. apply ref_ret. split; [reflexivity|]. cbn [fst].
  rewrite <- (update_twice i (Some a) None hs), <- (update_twice i (Some x) None cs).
  apply sown_fill; [exact H| |rewrite G; exact Hr]. exact (nth_update_same i None v hs E).
Qed.

Definition inv (cs : vars) : Prop := exists s, Forall2 holds cs s.
Lemma inv_rel cs i x : inv cs -> nth_error cs i = Some (Some x) -> exists v, rel x v.
Proof.
  intros (s & H) E. pose proof (get_sim cs s i H) as G. rewrite E in G. destruct (nth_error s i) as [[v|]|]; try tauto. eauto.
Qed.

(** With the read operand put back next to the rest. *)
Lemma sown_put_back g hs cs i j b y Lb Lr : i <> j -> nth_error hs j = Some (Some b) -> nth_error cs j = Some (Some y) -> reprb (g j) b y Lb ->
  sown g (update j None (update i None hs)) (update j None (update i None cs)) Lr -> sown g (update i None hs) (update i None cs) (Lb ++ Lr).
Proof.
  intros N Eb Ey Hb H.
  assert (F : nth_error (update j None (update i None hs)) j = Some None).
  { apply (nth_update_same j None (Some b)). rewrite nth_update_other; auto. }
  pose proof (sown_fill g _ _ Lr j b y Lb H F Hb) as R. rewrite !update_twice in R.
  rewrite (update_id j (Some b)) in R by (rewrite nth_update_other; auto).
  rewrite (update_id j (Some y)) in R by (rewrite nth_update_other; auto). exact R.
Qed.

Lemma ref_by_frame h La Lb Lr (f : mut_result) :
  refines h (La ++ Lb) f (fun p q L' => exists L'', L' = L'' ++ Lb /\ rmut p q L'') ->
  refines h (La ++ Lb ++ Lr) f (fun p q L' => exists L'', L' = L'' ++ Lb ++ Lr /\ rmut p q L'').
Proof.
  intros H. rewrite app_assoc. eapply ref_conseq; [apply ref_frame, H|]. intros p q L' (L1 & -> & L2 & -> & Hr).
  exists (L2 ++ Lb ++ Lr). split; [now rewrite app_assoc|eauto].
Qed.

(** Variables that are created are owned. *)
Definition opens (g : nat -> bool) (n : nat) : Prop := forall k, (n <= k)%nat -> g k = true.
Definition allowed (g : nat -> bool) (c : cmd) : Prop := forall x, In x (writes c) -> g x = true.

Lemma update_length {A} i (a : A) l : length (update i a l) = length l.
Proof. revert i. induction l as [|b l IH]; intros [|i]; cbn; auto. Qed.

Lemma ref_step_cmd g hs cs L c : cmd_ok c -> inv cs -> opens g (length hs) -> allowed g c -> sown g hs cs L ->
  refines (hstep hs c) L (cstep cs c) (spost g).
Proof.
  intros Hc I G W H. assert (RJ : refines (hret (hs, ORejected)) L (Val (cs, ORejected)) (spost g)) by (apply ref_ret; split; auto).
  assert (G0 : g (length hs) = true) by (apply G; lia).
  assert (G1 : forall i, g (length (update i None hs)) = true) by (intros i; rewrite update_length; exact G0).
  destruct c as [n|x|x|m x|m x|m x|o x y|o x y|o x y|x y|x y|o x y|x y|q x]; cbn [hstep cstep cmd_ok] in *;
    try (assert (Wx : g x = true) by (apply W; now left)).
  - exact (ref_create g hs cs L [] _ _ G0 H (ref_new n Hc)).
  - apply (ref_get1 g hs cs L); [exact H|]. intros a u La Lr E Ec P Ha Hs.
    assert (S : sown g hs cs (La ++ Lr)) by (eapply sown_perm; [symmetry; exact P|exact H]).
    unfold hcreate, ccreate, h_total, total. rewrite (clone_id _ a u La Ha). cbn [bind].
    apply (ref_step _ _ _ (Ok u) _ (fun r s L' => exists Lc, L' = Lc ++ La ++ Lr /\ rres r s Lc)).
    { eapply ref_step; [apply ref_frame, (ref_clone _ a u La Ha)|]. intros c L' (L1 & -> & Lc & -> & Hc').
      apply ref_ret. exists Lc. split; [now rewrite app_assoc|exact Hc']. }
    intros r L' (Lc & -> & Hr). destruct r as [c|e]; cbn [rres] in Hr; [|contradiction].
    apply ref_ret. split; [reflexivity|]. apply sown_append; [exact S|]. now rewrite G0.
  - apply (ref_get1 g hs cs L); [exact H|]. intros a u La Lr E Ec P Ha Hs. rewrite Wx in Ha.
    apply (ref_step _ _ _ tt _ (fun _ _ L' => L' = Lr)).
    { eapply ref_conseq; [apply ref_frame, (ref_drop a u La Ha)|]. intros p q L' (L'' & -> & ->). eauto. }
    intros _ L' ->. apply ref_ret. split; [reflexivity|exact Hs].
  - apply (ref_get1 g hs cs L); [exact H|]. intros a u La Lr E Ec P Ha Hs. destruct (inv_rel cs x u I Ec) as (v & Hv).
    rewrite Wx in Ha. apply (ref_change g hs cs Lr x La _ _ (Some a) Wx Hs E). now apply (ref_mut m a u La v).
  - apply (ref_get1 g hs cs L); [exact H|]. intros a u La Lr E Ec P Ha Hs. destruct (inv_rel cs x u I Ec) as (v & Hv).
    rewrite Wx in Ha. apply ref_create; [apply G1|exact Hs|]. now apply (ref_into m a u La v).
  - apply (ref_get1 g hs cs L); [exact H|]. intros a u La Lr E Ec P Ha Hs. destruct (inv_rel cs x u I Ec) as (v & Hv).
    rewrite Wx in Ha. apply (ref_change g hs cs Lr x La _ _ (Some a) Wx Hs E). now apply (ref_put m a u La v).
  - destruct (Nat.eqb_spec x y) as [|N]; [exact RJ|]. apply (ref_get2 g hs cs L); [exact N|exact H|].
    intros a u La b w Lb Lr E Ec Ha F Fc Hb Hs. destruct (inv_rel cs x u I Ec) as (v & Hv). destruct (inv_rel cs y w I Fc) as (t & Ht).
    rewrite Wx in Ha.
    pose proof (ref_by_frame _ La Lb Lr _ (ref_bin o a u La (g y) b w Lb v t Ha Hb Hv Ht)) as R.
    unfold hchange, cchange. eapply ref_bind; [exact R|]. intros [a' r] [u' r'] L' _ (L'' & -> & Eq & Hr). cbn [fst snd] in *. subst r'.
    apply ref_ret. split; [reflexivity|]. cbn [fst].
    rewrite <- (update_twice x (Some a') None hs), <- (update_twice x (Some u') None cs).
    apply sown_fill; [now apply (sown_put_back g hs cs x y b w)| |rewrite Wx; exact Hr]. exact (nth_update_same x None _ hs E).
  - destruct (Nat.eqb_spec x y) as [|N]; [exact RJ|]. apply (ref_get2 g hs cs L); [exact N|exact H|].
    intros a u La b w Lb Lr E Ec Ha F Fc Hb Hs. destruct (inv_rel cs x u I Ec) as (v & Hv). destruct (inv_rel cs y w I Fc) as (t & Ht).
    rewrite Wx in Ha.
    pose proof (ref_by_frame _ La Lb Lr _ (ref_bin o a u La (g y) b w Lb v t Ha Hb Hv Ht)) as R.
    assert (R2 : refines (h_forward (h_bin o a b)) (La ++ Lb ++ Lr) (cbin_into o u w)
      (fun r s L' => exists L'', L' = L'' ++ Lb ++ Lr /\ rres r s L'')).
    { rewrite bin_forward. unfold h_forward, forward. eapply ref_bind; [exact R|].
      intros [a' r] [u' r'] L' _ (L'' & -> & Eq & Hr). cbn [fst snd] in *. subst r'. destruct r as [z|e].
      - apply ref_ret. exists L''. split; [reflexivity|exact Hr].
      - apply (ref_step _ _ _ tt _ (fun _ _ L' => L' = Lb ++ Lr)).
        { eapply ref_conseq; [apply ref_frame, (ref_drop a' u' L'' Hr)|]. intros p q L' (L1 & -> & ->). eauto. }
        intros _ L' ->. apply ref_ret. exists []. split; [reflexivity|]. split; reflexivity. }
    unfold hcreate, ccreate. eapply ref_bind; [exact R2|]. intros r s L' _ (L'' & -> & Hr).
    pose proof (sown_put_back g hs cs x y b w Lb Lr N F Fc Hb Hs) as S.
    destruct r as [a'|e], s as [u'|e']; cbn [rres] in Hr; try tauto.
    + apply ref_ret. split; [reflexivity|]. apply sown_append; [exact S|]. now rewrite G1.
    + destruct Hr as [-> ->]. apply ref_ret. split; [reflexivity|]. exact S.
  - destruct (Nat.eqb_spec x y) as [|N]; [exact RJ|]. apply (ref_get2 g hs cs L); [exact N|exact H|].
    intros a u La b w Lb Lr E Ec Ha F Fc Hb Hs. destruct (inv_rel cs x u I Ec) as (v & Hv). destruct (inv_rel cs y w I Fc) as (t & Ht).
    assert (Wy : g y = true) by (apply W; right; now left). rewrite Wx in Ha. rewrite Wy in Hb.
    rewrite app_assoc. eapply ref_bind; [apply ref_frame, (ref_modify_both (cpair o) a u La b w Lb Ha Hb)|].
    { intros u' w' r Ep. exact (pair_size o u w v t u' w' r Hv Ht Ep). }
    intros [[a' b'] r] [[u' w'] r'] L' _ (L'' & -> & Eq & L1 & L2 & -> & R1 & R2). cbn [fst snd] in *. subst r'.
    apply (ref_step _ _ _ tt _ (fun _ _ L' => L' = (L1 ++ L2) ++ Lr)).
    { rewrite <- app_assoc.
      eapply ref_conseq; [apply ref_frame, (ref_error_copy true a' u' L1 (done r) R1)|]. intros p q L' (L'' & -> & ->). eauto. }
    intros _ L' ->. apply ref_ret. split; [reflexivity|]. cbn [fst].
    assert (F1 : nth_error (update y None (update x None hs)) y = Some None).
    { apply (nth_update_same y None (Some b)). rewrite nth_update_other; auto. }
    rewrite <- Wy in R2. pose proof (sown_fill g _ _ Lr y b' w' L2 Hs F1 R2) as S1. rewrite !update_twice in S1.
    rewrite (update_swap y x) in S1 by auto. rewrite (update_swap y x) in S1 by auto.
    assert (F2 : nth_error (update x None (update y (Some b') hs)) x = Some None).
    { apply (nth_update_same x None (Some a)). rewrite nth_update_other; auto. }
    rewrite <- Wx in R1. pose proof (sown_fill g _ _ (L2 ++ Lr) x a' u' L1 S1 F2 R1) as S2. rewrite !update_twice in S2.
    rewrite (update_swap y x (Some b')) by auto. rewrite (update_swap y x (Some w')) by auto.
    rewrite <- app_assoc. exact S2.
  - destruct (Nat.eqb_spec x y) as [|N]; [exact RJ|]. apply (ref_get2 g hs cs L); [exact N|exact H|].
    intros a u La b w Lb Lr E Ec Ha F Fc Hb Hs. rewrite Wx in Ha.
    rewrite app_assoc. eapply ref_bind; [apply ref_frame, (ref_assign a u La (g y) b w Lb Ha Hb)|].
    intros c z L' _ (L'' & -> & Lc & -> & Hr). apply ref_ret. split; [reflexivity|]. cbn [fst].
    rewrite <- (update_twice x (Some c) None hs), <- (update_twice x (Some z) None cs). rewrite <- app_assoc.
    apply sown_fill; [now apply (sown_put_back g hs cs x y b w)| |rewrite Wx; exact Hr]. exact (nth_update_same x None _ hs E).
  - destruct (Nat.eqb_spec x y) as [|N]; [exact RJ|]. apply (ref_get2 g hs cs L); [exact N|exact H|].
    intros a u La b w Lb Lr E Ec Ha F Fc Hb Hs. destruct (inv_rel cs x u I Ec) as (v & Hv). destruct (inv_rel cs y w I Fc) as (t & Ht).
    destruct (rel_open u v Hv) as (Wu & Lu & _). destruct (rel_open w t Ht) as (Ww & Lw & _).
    assert (M : exists r, rel_mut u (strict_assign u w) r /\ keeps (fst v) r).
    { destruct (assign_fact u w Wu Ww) as (_ & _ & A1 & A2). destruct (Z.eq_dec (len u) (len w)) as [D|D].
      - exists (Some (inl t)). split; [exists w; rewrite A1 by auto; auto|]. cbn. congruence.
      - exists (Some (inr (observe (UnmatchingBitwidth (len u) (len w))))). split; [|exact Logic.I].
        exists (UnmatchingBitwidth (len u) (len w)). rewrite A2 by auto. auto. }
    destruct M as (r0 & M1 & M2). rewrite Wx in Ha.
    pose proof (ref_by_frame _ La Lb Lr _ (ref_modify_by strict_assign a u La (g y) b w Lb v _ Ha Hb Hv M1 M2)) as R.
    unfold hchange, cchange. eapply ref_bind; [exact R|]. intros [a' r] [u' r'] L' _ (L'' & -> & Eq & Hr). cbn [fst snd] in *. subst r'.
    apply ref_ret. split; [reflexivity|]. cbn [fst].
    rewrite <- (update_twice x (Some a') None hs), <- (update_twice x (Some u') None cs).
    apply sown_fill; [now apply (sown_put_back g hs cs x y b w)| |rewrite Wx; exact Hr]. exact (nth_update_same x None _ hs E).
  - exact (ref_read2 g hs cs L x y (fun a b => obs_rbool (ccmp o a b)) H).
  - exact (ref_read2 g hs cs L x y (fun a b => Val (OBool (apint_eqb a b))) H).
  - apply (ref_get1 g hs cs L); [exact H|]. intros a u La Lr E Ec P Ha Hs.
    assert (S : sown g hs cs (La ++ Lr)) by (eapply sown_perm; [symmetry; exact P|exact H]).
    eapply ref_bind; [apply ref_frame, (ref_ask (cask q) _ a u La Ha)|]. intros r s L' _ (L'' & -> & -> & ->).
    apply (ref_step _ _ _ tt _ (fun _ _ L' => L' = La ++ Lr)).
    { eapply ref_conseq; [apply ref_frame, (ref_error_copy _ a u La s Ha)|]. intros p p' L' (L'' & -> & ->). eauto. }
    intros _ L' ->. apply ref_ret. split; auto.
Qed.

Lemma inv_step cs c cs' o : cmd_ok c -> inv cs -> cstep cs c = Val (cs', o) -> inv cs'.
Proof.
  intros Hc (s & H) E. pose proof (step_sim cs s c Hc H) as R. destruct (astep s c) as [[s' o']|]; cbn [step_rel] in R; [|congruence].
  destruct R as (cs1 & E' & H'). exists s'. assert (cs1 = cs') by congruence. now subst.
Qed.

Definition rpost (g : nat -> bool) (p : hvars * list obs) (q : vars * list obs) (L : list cell) : Prop := snd p = snd q /\ sown g (fst p) (fst q) L.
Lemma cstep_length cs c cs' o : cstep cs c = Val (cs', o) -> (length cs <= length cs')%nat.
Proof.
  assert (X : forall s (m : outcome (result apint)), ccreate s m = Val (cs', o) -> (length s <= length cs')%nat).
  { intros s m. unfold ccreate. destruct m as [[a|e]| |]; cbn [bind]; try discriminate; intros E; apply Val_inj in E; injection E as <- _;
      rewrite ?app_length; cbn; lia. }
  assert (Y : forall s i (m : mut_result), cchange s i m = Val (cs', o) -> (length s <= length cs')%nat).
  { intros s i m. unfold cchange. destruct m as [[a r]| |]; cbn [bind]; try discriminate; intros E; apply Val_inj in E; injection E as <- _.
    rewrite update_length. lia. }
  assert (Z : forall r, Val (cs, r) = Val (cs', o) -> (length cs <= length cs')%nat).
  { intros r E. apply Val_inj in E. injection E as <- _. lia. }
  assert (U : forall i, length (update i None cs) = length cs) by (intros; apply update_length).
  destruct c as [n|x|x|m x|m x|m x|p x y|p x y|p x y|x y|x y|p x y|x y|q x]; cbn [cstep]; unfold cget2, cget1; intros E;
    repeat match type of E with
    | context [if ?b then _ else _] => destruct b
    | context [match nth_error cs ?i with _ => _ end] => destruct (nth_error cs i) as [[?|]|]
    end; eauto.
  - apply Val_inj in E. injection E as <- _. rewrite U. lia.
  - rewrite <- (U x). eauto.
  - rewrite <- (U x). eauto.
  - destruct (cpair p a a0) as [[[? ?] ?]| |]; cbn [bind] in E; try discriminate. apply Val_inj in E. injection E as <- _.
    rewrite !update_length. lia.
  - destruct (assign a a0); cbn [bind] in E; try discriminate. apply Val_inj in E. injection E as <- _. rewrite update_length. lia.
  - destruct (obs_rbool _); cbn [bind] in E; try discriminate. eauto.
  - destruct (cask q a); cbn [bind] in E; try discriminate. eauto.
Qed.
Lemma sown_length g hs cs L : sown g hs cs L -> length hs = length cs.
Proof. intros (L' & _ & H). induction H; cbn; auto. Qed.

Lemma ref_run g p : Forall cmd_ok p -> Forall (allowed g) p -> forall hs cs L, inv cs -> opens g (length hs) -> sown g hs cs L ->
  refines (hrun hs p) L (crun cs p) (rpost g).
Proof.
  induction 1 as [|c p Hc Hp IH]; intros W hs cs L I G H; cbn [hrun crun].
  - apply ref_ret. split; auto.
  - apply Forall_cons_iff in W as (W1 & W2).
    eapply ref_bind; [apply (ref_step_cmd g hs cs L c Hc I G W1 H)|]. intros [hs1 o] [cs1 o'] L1 E (Eo & H1). cbn [fst snd] in *. subst o'.
    assert (G' : opens g (length hs1)).
    { intros k Hk. apply G. rewrite (sown_length _ _ _ _ H). rewrite (sown_length _ _ _ _ H1) in Hk.
      pose proof (cstep_length cs c cs1 o E). lia. }
    eapply ref_bind; [apply (IH W2 hs1 cs1 L1); [exact (inv_step cs c cs1 o Hc I E)|exact G'|exact H1]|].
    intros [hs2 os] [cs2 os'] L2 _ (Eos & H2). cbn [fst snd] in *. subst os'. apply ref_ret. split; auto.
Qed.
