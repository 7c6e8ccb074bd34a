(** Programs on [UInt] and [Int] over the heap: variables and whole programs. *)
From Coq Require Import Permutation.
From Verif Require Export LHeapTyped1 SpecHeapTyped.

(** The integers inside and the types of the variables. *)

Definition vinside (ts : tvars) : vars := map (option_map inner) ts.
Definition tallowed (g : nat -> bool) (c : tcmd) : Prop := forall x, In x (twrites c) -> g x = true.
(** [g] says which variables are owned and which are lent. *)
Definition tsown (g : nat -> bool) (hs : htvars) (ts : tvars) (L : list cell) : Prop :=
  sown g (inside hs) (vinside ts) L /\ map (option_map hkind) hs = map (option_map kind_of) ts.
Definition tpost (g : nat -> bool) (p : htvars * tobs) (q : tvars * tobs) (L : list cell) : Prop := snd p = snd q /\ tsown g (fst p) (fst q) L.
Definition framed {A B : Type} (G : list cell) (Q : A -> B -> list cell -> Prop) (p : A) (q : B) (L : list cell) : Prop :=
  exists L', L = L' ++ G /\ Q p q L'.

Lemma map_update {A B : Type} (f : A -> B) i a l : map f (update i a l) = update i (f a) (map f l).
Proof. revert i. induction l as [|b l IH]; intros [|i]; cbn; auto. now rewrite IH. Qed.
Lemma inner_wrap k x : inner (wrap k x) = x. Proof. destruct k; reflexivity. Qed.
Lemma kind_wrap k x : kind_of (wrap k x) = k. Proof. destruct k; reflexivity. Qed.

Lemma tsown_perm g hs ts L L' : Permutation L L' -> tsown g hs ts L' -> tsown g hs ts L.
Proof. intros P [H K]. split; [now apply (sown_perm _ _ _ _ L')|exact K]. Qed.

Lemma tsown_take g hs ts L i k a : tsown g hs ts L -> nth_error hs i = Some (Some (mk_htvar k a)) ->
  exists x La Lr, nth_error ts i = Some (Some (wrap k x)) /\ Permutation L (La ++ Lr) /\ reprb (g i) a x La /\
    tsown g (update i None hs) (update i None ts) Lr.
Proof.
  intros [H K] E.
  assert (E1 : nth_error (inside hs) i = Some (Some a)) by (unfold inside; rewrite nth_error_map, E; reflexivity).
  destruct (sown_take g _ _ L i a H E1) as (x & La & Lr & Ec & P & Ha & Hs).
  assert (K1 : nth_error (map (option_map kind_of) ts) i = Some (Some k)) by (rewrite <- K, nth_error_map, E; reflexivity).
  unfold vinside in Ec. rewrite nth_error_map in Ec, K1. destruct (nth_error ts i) as [[v|]|]; try discriminate.
  injection Ec as <-. injection K1 as <-. exists (inner v), La, Lr. rewrite wrap_inner. split; [reflexivity|]. split; [exact P|].
  split; [exact Ha|]. split; [unfold inside, vinside in *; rewrite !map_update; exact Hs|]. rewrite !map_update, K. reflexivity.
Qed.
Lemma tsown_gone g hs ts L i : tsown g hs ts L -> (forall v, nth_error hs i <> Some (Some v)) -> forall v, nth_error ts i <> Some (Some v).
Proof.
  intros [H K] E v F. assert (K1 : nth_error (map (option_map hkind) hs) i = Some (Some (kind_of v))) by (rewrite K, nth_error_map, F; reflexivity).
  rewrite nth_error_map in K1. destruct (nth_error hs i) as [[w|]|]; try discriminate. now apply (E w).
Qed.
Lemma tsown_fill g hs ts L i k a x La : tsown g hs ts L -> nth_error hs i = Some None -> reprb (g i) a x La ->
  tsown g (update i (Some (mk_htvar k a)) hs) (update i (Some (wrap k x)) ts) (La ++ L).
Proof.
  intros [H K] E Ha. split.
  - unfold inside, vinside in *. rewrite !map_update. cbn [option_map hval]. rewrite inner_wrap. apply sown_fill; [exact H| |exact Ha].
    rewrite nth_error_map, E. reflexivity.
  - rewrite !map_update, K. cbn [option_map hkind]. now rewrite kind_wrap.
Qed.
Lemma tsown_append g hs ts L k a x La : tsown g hs ts L -> reprb (g (length hs)) a x La -> tsown g (hs ++ [Some (mk_htvar k a)]) (ts ++ [Some (wrap k x)]) (La ++ L).
Proof.
  intros [H K] Ha. split.
  - unfold inside, vinside in *. rewrite !map_app. cbn [map option_map hval]. rewrite inner_wrap. apply sown_append; [exact H|]. now rewrite map_length.
  - rewrite !map_app, K. cbn [map option_map hkind]. now rewrite kind_wrap.
Qed.
Lemma tsown_put_back g hs ts i j k b y Lb Lr : i <> j -> nth_error hs j = Some (Some (mk_htvar k b)) -> nth_error ts j = Some (Some (wrap k y)) ->
  reprb (g j) b y Lb -> tsown g (update j None (update i None hs)) (update j None (update i None ts)) Lr ->
  tsown g (update i None hs) (update i None ts) (Lb ++ Lr).
Proof.
  intros N Eb Ey Hb H.
  assert (F : nth_error (update j None (update i None hs)) j = Some None).
  { apply (nth_update_same j None (Some (mk_htvar k b))). rewrite nth_update_other; auto. }
  pose proof (tsown_fill g _ _ Lr j k b y Lb H F Hb) as R. rewrite !update_twice in R.
  rewrite (update_id j (Some (mk_htvar k b))) in R by (rewrite nth_update_other; auto).
  rewrite (update_id j (Some (wrap k y))) in R by (rewrite nth_update_other; auto). exact R.
Qed.

Lemma ref_reject g hs ts L : tsown g hs ts L -> refines (ht_reject hs) L (reject ts) (tpost g).
Proof. intros H. apply ref_ret. split; auto. Qed.
Lemma ref_tget1 g hs ts L i h f : tsown g hs ts L ->
  (forall k a x La Lr, nth_error hs i = Some (Some (mk_htvar k a)) -> nth_error ts i = Some (Some (wrap k x)) -> Permutation L (La ++ Lr) ->
    reprb (g i) a x La -> tsown g (update i None hs) (update i None ts) Lr -> refines (h k a) (La ++ Lr) (f k x) (tpost g)) ->
  refines (ht_get1 hs i h) L (v_get1 ts i f) (tpost g).
Proof.
  intros H K. unfold ht_get1, v_get1. destruct (nth_error hs i) as [[[k a]|]|] eqn:E.
  - destruct (tsown_take g hs ts L i k a H E) as (x & La & Lr & Ec & P & Ha & Hs). rewrite Ec. cbn [hkind hval]. rewrite inner_wrap, kind_wrap.
    eapply ref_perm; [exact P|]. now apply (K k a x La Lr).
  - assert (G := tsown_gone g hs ts L i H ltac:(congruence)). destruct (nth_error ts i) as [[v|]|]; [now elim (G v)| |]; now apply ref_reject.
  - assert (G := tsown_gone g hs ts L i H ltac:(congruence)). destruct (nth_error ts i) as [[v|]|]; [now elim (G v)| |]; now apply ref_reject.
Qed.
Lemma ref_tget2 g hs ts L i j h f : i <> j -> tsown g hs ts L ->
  (forall k a x La b y Lb Lr, nth_error hs i = Some (Some (mk_htvar k a)) -> nth_error ts i = Some (Some (wrap k x)) -> reprb (g i) a x La ->
    nth_error hs j = Some (Some (mk_htvar k b)) -> nth_error ts j = Some (Some (wrap k y)) -> reprb (g j) b y Lb ->
    tsown g (update i None hs) (update i None ts) (Lb ++ Lr) -> refines (h k a b) (La ++ Lb ++ Lr) (f k x y) (tpost g)) ->
  refines (ht_get2 hs i j h) L (v_get2 ts i j f) (tpost g).
Proof.
  intros N H K. unfold ht_get2, v_get2. apply ref_tget1; [exact H|]. intros k a x La Lr E Ec P Ha Hs.
  assert (S : tsown g hs ts (La ++ Lr)) by (eapply tsown_perm; [symmetry; exact P|exact H]).
  unfold ht_get1, v_get1. destruct (nth_error hs j) as [[[k' b]|]|] eqn:F.
  - rewrite <- (nth_update_other i j None hs N) in F.
    destruct (tsown_take g _ _ Lr j k' b Hs F) as (y & Lb & Lq & Fc & Q & Hb & Ht). rewrite (nth_update_other i j None hs N) in F.
    rewrite (nth_update_other i j None ts N) in Fc. rewrite Fc. cbn [hkind hval]. rewrite inner_wrap, kind_wrap.
    destruct k, k'; cbn [if_same_kind]; try (apply ref_reject; exact S).
    + eapply ref_perm; [apply Permutation_app_head, Q|]. apply (K KU a x La b y Lb Lq); auto. now apply (tsown_put_back g hs ts i j KU b y).
    + eapply ref_perm; [apply Permutation_app_head, Q|]. apply (K KI a x La b y Lb Lq); auto. now apply (tsown_put_back g hs ts i j KI b y).
  - assert (G := tsown_gone g hs ts _ j S ltac:(congruence)). destruct (nth_error ts j) as [[v|]|]; [now elim (G v)| |]; now apply ref_reject.
  - assert (G := tsown_gone g hs ts _ j S ltac:(congruence)). destruct (nth_error ts j) as [[v|]|]; [now elim (G v)| |]; now apply ref_reject.
Qed.

(** Reading leaves everything in place. *)
Lemma ref_tread g hs ts L i k a : tsown g hs ts L -> nth_error hs i = Some (Some (mk_htvar k a)) ->
  exists x, nth_error ts i = Some (Some (wrap k x)) /\ mk_apint (hlen a) (digits x) = x /\
    refines (h_as_digit_slice a) L (Val (digits x)) (fun r ds L' => r = ds /\ L' = L).
Proof.
  intros H E. destruct (tsown_take g hs ts L i k a H E) as (x & La & Lr & Ec & P & Ha & Hs). exists x. split; [exact Ec|].
  split; [exact (repr_eta _ a x La Ha)|]. eapply ref_perm; [exact P|].
  eapply ref_conseq; [apply ref_frame, (ref_slice _ a x La Ha)|]. intros r ds L' (L'' & -> & -> & ->). exists L.
  split; [now symmetry|auto].
Qed.
Lemma ref_tread2 {R : Type} (show : R -> tobs) g hs ts L i j (f : kind -> apint -> apint -> outcome R) : tsown g hs ts L ->
  refines (ht_get2 hs i j (fun k a b => ht_show show hs (h_ask2 (f k) a b))) L
    (v_get2 ts i j (fun k a b => v_show show ts (f k a b))) (tpost g).
Proof.
  intros H. unfold ht_get2, v_get2. apply ref_tget1; [exact H|]. intros k a x La Lr E Ec P Ha Hs.
  eapply ref_perm; [symmetry; exact P|]. clear Hs.
  destruct (ref_tread g hs ts L i k a H E) as (x' & Ex & Xa & Ra). rewrite Ec in Ex. assert (x' = x) by (destruct k; injection Ex; auto). subst x'.
  apply ref_tget1; [exact H|]. intros k' b y Lb Lq F Fc Q Hb Hs.
  eapply ref_perm; [symmetry; exact Q|]. clear Hs.
  destruct (ref_tread g hs ts L j k' b H F) as (y' & Ey & Xb & Rb). rewrite Fc in Ey. assert (y' = y) by (destruct k'; injection Ey; auto). subst y'.
  assert (A : refines (h_ask2 (f k) a b) L (f k x y) (fun r s L' => r = s /\ L' = L)).
  { unfold h_ask2. eapply ref_step; [exact Ra|]. intros ds L' [-> ->]. eapply ref_step; [exact Rb|]. intros ds L' [-> ->].
    rewrite Xa, Xb. apply ref_lift. }
  assert (B : refines (ht_show show hs (h_ask2 (f k) a b)) L (v_show show ts (f k x y)) (tpost g)).
  { unfold ht_show, v_show. eapply ref_bind; [exact A|]. intros r s L' _ [-> ->]. apply ref_ret. split; auto. }
  destruct k, k'; cbn [if_same_kind]; first [exact B|apply ref_reject; exact H].
Qed.

(** * Results *)
Lemma ref_tcreate g k hs ts L L0 h f : g (length hs) = true -> tsown g hs ts L -> refines h L0 f (framed L rres) -> refines (ht_create k hs h) L0 (v_create k ts f) (tpost g).
Proof.
  intros Gn H Hf. unfold ht_create, v_create. eapply ref_bind; [exact Hf|]. intros r s L' _ (L'' & -> & Hr).
  destruct r as [a|e], s as [x|e']; cbn [rres] in Hr; try tauto.
  - apply ref_ret. split; [reflexivity|]. apply tsown_append; [exact H|now rewrite Gn].
  - destruct Hr as [-> ->]. apply ref_ret. split; [reflexivity|]. exact H.
Qed.
Lemma ref_tchange g k hs ts Lr i L0 h f v : g i = true -> tsown g (update i None hs) (update i None ts) Lr -> nth_error hs i = Some v ->
  refines h L0 f (framed Lr rmut) -> refines (ht_change k hs i h) L0 (v_change k ts i f) (tpost g).
Proof.
  intros Gi H E Hf. unfold ht_change, v_change. eapply ref_bind; [exact Hf|]. intros [a r] [x s] L' _ (L'' & -> & Eq & Hr).
  cbn [fst snd] in *. subst s. apply ref_ret. split; [reflexivity|]. cbn [fst].
  rewrite <- (update_twice i (Some (mk_htvar k a)) None hs), <- (update_twice i (Some (wrap k x)) None ts).
  apply tsown_fill; [exact H| |now rewrite Gi]. exact (nth_update_same i None v hs E).
Qed.
Lemma ref_unwrap_assign G L h f : refines h L f (framed G rmut) -> refines (h_unwrap_assign h) L (v_unwrap_assign f) (framed G rmut).
Proof.
  intros H. unfold h_unwrap_assign, v_unwrap_assign. eapply ref_bind; [exact H|]. intros [a r] [x s] L' _ (L'' & -> & Eq & Hr).
  cbn [fst snd] in *. subst s. destruct r as [[]|e].
  - apply ref_ret. exists L''. split; [reflexivity|]. split; auto.
  - exact (ref_panic _ _ _).
Qed.
Lemma ref_unwrap_into G L h f : refines h L f (framed G rres) -> refines (h_unwrap_into h) L (v_unwrap_into f) (framed G rres).
Proof.
  intros H. unfold h_unwrap_into, v_unwrap_into, h_unwrap.
  assert (X : refines (let* r := h in lift (unwrap r)) L (let! r := f in unwrap r) (framed G repr)).
  { eapply ref_bind; [exact H|]. intros r s L' _ (L'' & -> & Hr). destruct r as [a|e], s as [x|e']; cbn [rres] in Hr; try tauto; [|exact (ref_panic _ _ _)].
    apply (ref_ret a x). exists L''. auto. }
  assert (Y : refines (let* a := (let* r := h in lift (unwrap r)) in hret (Ok a)) L (let! a := (let! r := f in unwrap r) in Val (Ok a)) (framed G rres)).
  { eapply ref_bind; [exact X|]. intros a x L' _ (L'' & -> & Hr). apply ref_ret. exists L''. auto. }
  replace (let! r := f in let! a := unwrap r in Val (Ok a)) with (let! a := (let! r := f in unwrap r) in Val (Ok a)); [exact Y|].
  destruct f; reflexivity.
Qed.
Lemma ref_tforward G L h f : refines h L f (framed G rmut) -> refines (h_forward h) L (forward f) (framed G rres).
Proof.
  intros H. unfold h_forward, forward. eapply ref_bind; [exact H|]. intros [a r] [x s] L' _ (L'' & -> & Eq & Hr). cbn [fst snd] in *. subst s.
  destruct r as [z|e].
  - apply ref_ret. exists L''. split; [reflexivity|exact Hr].
  - apply (ref_step _ _ _ tt _ (fun _ _ L' => L' = G)).
    { eapply ref_conseq; [apply ref_frame, (ref_drop a x L'' Hr)|]. intros p q L' (L1 & -> & ->). eauto. }
    intros _ L' ->. apply ref_ret. exists []. split; [reflexivity|]. split; reflexivity.
Qed.

(** * The calls *)
Lemma ap_new_ok k n : tnew_ok k n -> newop_ok (ap_new k n).
Proof. destruct k, n as [b|[| | | |] v|vs|w|w|w|w|w|w]; cbn; auto. Qed.
Lemma ap_mut_ok k m o : tmut_ok m -> ap_mut k m = Some o -> mutop_ok o.
Proof. destruct k, m; cbn; intros H E; try discriminate; injection E as <-; exact H. Qed.
Lemma ap_set_ok m : tset_ok m -> setop_ok (ap_set m).
Proof. destruct m; cbn; auto. Qed.

Lemma ref_tnew k n : tnew_ok k n -> refines (ht_new k n) [] (v_new k n) (fun r s L => match r, s with
  | Ok (Some a), Ok (Some x) => repr a x L | Ok None, Ok None => L = [] | Err e, Err e' => e = e' /\ L = [] | _, _ => False end).
Proof.
  intros Hn. pose proof (ref_new _ (ap_new_ok k n Hn)) as R.
  assert (X : refines (let* r := hnew (ap_new k n) in hret (map_result Some r)) [] (let! r := cnew (ap_new k n) in Val (map_result Some r))
    (fun r s L => match r, s with
     | Ok (Some a), Ok (Some x) => repr a x L | Ok None, Ok None => L = [] | Err e, Err e' => e = e' /\ L = [] | _, _ => False end)).
  { eapply ref_bind; [exact R|]. intros r s L' _ Hr. apply ref_ret. destruct r, s; cbn [map_result rres] in *; auto. }
  unfold ht_new, v_new. destruct k; [exact X|]. destruct n as [b|z v|vs|w|w|w|w|w|w]; try exact X.
  destruct w as [|[p|p|]|p]; try exact X. apply ref_ret. reflexivity.
Qed.
Lemma ref_tmut k m a x L v : tmut_ok m -> repr a x L -> rel x v -> refines (h_tmut k m a) L (v_tmut k m x) rmut.
Proof.
  intros Hm Ha Hx. unfold h_tmut, v_tmut. destruct (ap_mut k m) as [o|] eqn:E.
  - apply (ref_mut o a x L v); [exact (ap_mut_ok k m o Hm E)|exact Ha|exact Hx].
  - unfold h_wrapping_abs, v_abs. eapply ref_bind; [exact (ref_ask msb _ a x L Ha)|]. intros b b' L' _ [-> ->].
    destruct b'; [now apply (ref_mut MNeg a x L v)|]. apply ref_ret. split; [reflexivity|exact Ha].
Qed.

Definition tinv (ts : tvars) : Prop := exists s, Forall2 tholds ts s.
Lemma tinv_rel ts i k x : tinv ts -> nth_error ts i = Some (Some (wrap k x)) -> exists v, rel x v.
Proof.
  intros (s & H) E. revert i E. induction H as [|a v ts s Ha H IH]; intros [|i] E; cbn in E; try discriminate; [|eauto].
  injection E as ->. destruct v as [[[|] w z]|]; destruct k; cbn [tholds wrap] in Ha; try contradiction.
  - exists (w, z). exact Ha.
  - exists (w, z mod 2 ^ w). exact (of_int (mk_int x) w z Ha).
Qed.

Lemma ref_tstep g hs ts L c : tcmd_ok c -> tinv ts -> opens g (length hs) -> tallowed g c -> tsown g hs ts L -> refines (htstep hs c) L (tstep ts c) (tpost g).
Proof.
  intros Hc I Go Gw H. rewrite step_wrap. assert (Gn : g (length hs) = true) by (apply Go; lia). pose proof (ref_reject g hs ts L H) as RJ.
  destruct c as [k n|x|x|f m x|f m x|m x|f o x y|f o x y|x y|x y|o x y|o x y|x y|x y|x|k x|q x]; cbn [htstep v_step tcmd_ok twrites] in *.
  - unfold ht_create_opt, v_create_opt. change L with ([] ++ L). eapply ref_bind; [apply ref_frame, (ref_tnew k n Hc)|].
    intros r s L' _ (L'' & -> & Hr). destruct r as [[a|]|e], s as [[u|]|e']; cbn in Hr; try contradiction.
    + apply ref_ret. split; [reflexivity|]. apply tsown_append; [exact H|now rewrite Gn].
    + subst L''. apply ref_ret. split; [reflexivity|exact H].
    + destruct Hr as [-> ->]. apply ref_ret. split; [reflexivity|exact H].
  - apply (ref_tget1 g hs ts L); [exact H|]. intros k a u La Lr E Ec P Ha Hs.
    assert (S : tsown g hs ts (La ++ Lr)) by (eapply tsown_perm; [symmetry; exact P|exact H]).
    apply (ref_tcreate g k hs ts (La ++ Lr)); [exact Gn|exact S|]. unfold h_total, total. rewrite (clone_id _ a u La Ha). cbn [bind].
    eapply ref_step; [apply ref_frame, (ref_clone _ a u La Ha)|]. intros c L' (L1 & -> & Lc & -> & Hc').
    apply ref_ret. exists Lc. split; [now rewrite app_assoc|exact Hc'].
  - apply (ref_tget1 g hs ts L); [exact H|]. intros k a u La Lr E Ec P Ha Hs. rewrite (Gw x ltac:(cbn; auto)) in Ha.
    apply (ref_step _ _ _ tt _ (fun _ _ L' => L' = Lr)).
    { eapply ref_conseq; [apply ref_frame, (ref_drop a u La Ha)|]. intros p q L' (L'' & -> & ->). eauto. }
    intros _ L' ->. apply ref_ret. split; [reflexivity|exact Hs].
  - apply (ref_tget1 g hs ts L); [exact H|]. intros k a u La Lr E Ec P Ha Hs. rewrite (Gw x ltac:(cbn; auto)) in Ha. destruct (tinv_rel ts x k u I Ec) as (v & Hv).
    assert (S : tsown g hs ts (La ++ Lr)) by (eapply tsown_perm; [symmetry; exact P|exact H]).
    pose proof (ref_frame _ _ Lr _ _ (ref_tmut k m a u La v Hc Ha Hv)) as R.
    assert (A : refines (ht_change k hs x (h_tmut k m a)) (La ++ Lr) (v_change k ts x (v_tmut k m u)) (tpost g))
      by exact (ref_tchange g k hs ts Lr x _ _ _ _ (Gw x ltac:(cbn; auto)) Hs E R).
    assert (B : refines (ht_change k hs x (h_unwrap_assign (h_tmut k m a))) (La ++ Lr) (v_change k ts x (v_unwrap_assign (v_tmut k m u))) (tpost g))
      by exact (ref_tchange g k hs ts Lr x _ _ _ _ (Gw x ltac:(cbn; auto)) Hs E (ref_unwrap_assign Lr _ _ _ R)).
    destruct f, k, m; cbn [ht_mut v_mut ht_if_any if_any]; first [exact A|exact B|apply ref_reject; exact S].
  - apply (ref_tget1 g hs ts L); [exact H|]. intros k a u La Lr E Ec P Ha Hs. rewrite (Gw x ltac:(cbn; auto)) in Ha. destruct (tinv_rel ts x k u I Ec) as (v & Hv).
    assert (S : tsown g hs ts (La ++ Lr)) by (eapply tsown_perm; [symmetry; exact P|exact H]).
    pose proof (ref_tforward Lr _ _ _ (ref_frame _ _ Lr _ _ (ref_tmut k m a u La v Hc Ha Hv))) as R.
    pose proof (ref_tcreate g k _ _ Lr _ _ _ ltac:(rewrite update_length; exact Gn) Hs R) as A.
    pose proof (ref_tcreate g k _ _ Lr _ _ _ ltac:(rewrite update_length; exact Gn) Hs (ref_unwrap_into Lr _ _ _ R)) as B.
    destruct f, k, m; cbn [ht_into v_into ht_if_any if_any]; first [exact A|exact B|apply ref_reject; exact S].
  - apply (ref_tget1 g hs ts L); [exact H|]. intros k a u La Lr E Ec P Ha Hs. rewrite (Gw x ltac:(cbn; auto)) in Ha. destruct (tinv_rel ts x k u I Ec) as (v & Hv).
    assert (S : tsown g hs ts (La ++ Lr)) by (eapply tsown_perm; [symmetry; exact P|exact H]).
    pose proof (ref_frame _ _ Lr _ _ (ref_put (ap_set m) a u La v (ap_set_ok m Hc) Ha Hv)) as R.
    pose proof (ref_tchange g k hs ts Lr x _ _ _ _ (Gw x ltac:(cbn; auto)) Hs E R) as A.
    destruct k, m; cbn [ht_put v_put ht_if_any if_any]; first [exact A|apply ref_reject; exact S].
  - unfold ht_get2', v_get2'. destruct (Nat.eqb_spec x y) as [|N]; [exact RJ|]. apply (ref_tget2 g hs ts L); [exact N|exact H|].
    intros k a u La b w Lb Lr E Ec Ha F Fc Hb Hs. rewrite (Gw x ltac:(cbn; auto)) in Ha. destruct (tinv_rel ts x k u I Ec) as (v & Hv). destruct (tinv_rel ts y k w I Fc) as (t & Ht).
    pose proof (ref_by_frame _ La Lb Lr _ (ref_bin (ap_bin k o) a u La (g y) b w Lb v t Ha Hb Hv Ht)) as R.
    apply (ref_tchange g k hs ts (Lb ++ Lr) x _ _ _ _ (Gw x ltac:(cbn; auto)) Hs E). destruct f; cbn [ht_bin v_bin]; [exact R|exact (ref_unwrap_assign _ _ _ _ R)].
  - unfold ht_get2', v_get2'. destruct (Nat.eqb_spec x y) as [|N]; [exact RJ|]. apply (ref_tget2 g hs ts L); [exact N|exact H|].
    intros k a u La b w Lb Lr E Ec Ha F Fc Hb Hs. rewrite (Gw x ltac:(cbn; auto)) in Ha. destruct (tinv_rel ts x k u I Ec) as (v & Hv). destruct (tinv_rel ts y k w I Fc) as (t & Ht).
    pose proof (ref_tforward (Lb ++ Lr) _ _ _ (ref_by_frame _ La Lb Lr _ (ref_bin (ap_bin k o) a u La (g y) b w Lb v t Ha Hb Hv Ht))) as R.
    apply (ref_tcreate g k _ _ (Lb ++ Lr) _ _ _ ltac:(rewrite update_length; exact Gn) Hs). destruct f; cbn [ht_bin_into v_bin_into]; [exact R|exact (ref_unwrap_into _ _ _ _ R)].
  - unfold ht_get2', v_get2'. destruct (Nat.eqb_spec x y) as [|N]; [exact RJ|]. apply (ref_tget2 g hs ts L); [exact N|exact H|].
    intros k a u La b w Lb Lr E Ec Ha F Fc Hb Hs. rewrite (Gw x ltac:(cbn; auto)) in Ha. apply (ref_tchange g k hs ts (Lb ++ Lr) x _ _ _ _ (Gw x ltac:(cbn; auto)) Hs E).
    unfold h_total_mut, total_mut. rewrite app_assoc. eapply ref_bind; [apply ref_frame, (ref_assign a u La (g y) b w Lb Ha Hb)|].
    intros c z L' _ (L'' & -> & Lc & -> & Hr). apply ref_ret. exists Lc. split; [now rewrite app_assoc|]. split; [reflexivity|exact Hr].
  - unfold ht_get2', v_get2'. destruct (Nat.eqb_spec x y) as [|N]; [exact RJ|]. apply (ref_tget2 g hs ts L); [exact N|exact H|].
    intros k a u La b w Lb Lr E Ec Ha F Fc Hb Hs. rewrite (Gw x ltac:(cbn; auto)) in Ha. destruct (tinv_rel ts x k u I Ec) as (v & Hv). destruct (tinv_rel ts y k w I Fc) as (t & Ht).
    destruct (rel_open u v Hv) as (Wu & Lu & _). destruct (rel_open w t Ht) as (Ww & Lw & _).
    assert (M : exists r, rel_mut u (strict_assign u w) r /\ keeps (fst v) r).
    { destruct (assign_fact u w Wu Ww) as (_ & _ & A1 & A2). destruct (Z.eq_dec (len u) (len w)) as [D|D].
      - exists (Some (inl t)). split; [exists w; rewrite A1 by auto; auto|]. cbn. congruence.
      - exists (Some (inr (observe (UnmatchingBitwidth (len u) (len w))))). split; [|exact Logic.I].
        exists (UnmatchingBitwidth (len u) (len w)). rewrite A2 by auto. auto. }
    destruct M as (r0 & M1 & M2).
    pose proof (ref_by_frame _ La Lb Lr _ (ref_modify_by strict_assign a u La (g y) b w Lb v _ Ha Hb Hv M1 M2)) as R.
    exact (ref_tchange g k hs ts (Lb ++ Lr) x _ _ _ _ (Gw x ltac:(cbn; auto)) Hs E R).
  - exact (ref_tread2 Shows g hs ts L x y (fun k a b => obs_rbool (match k with KU => ucheck o (mk_uint a) (mk_uint b) | KI => icheck o (mk_int a) (mk_int b) end)) H).
  - exact (ref_tread2 Shows g hs ts L x y (fun k a b => obs_bool (match k with KU => utest o (mk_uint a) (mk_uint b) | KI => itest o (mk_int a) (mk_int b) end)) H).
  - exact (ref_tread2 Ordering g hs ts L x y (fun k a b => match k with KU => uint_partial_cmp (mk_uint a) (mk_uint b) | KI => int_partial_cmp (mk_int a) (mk_int b) end) H).
  - exact (ref_tread2 Shows g hs ts L x y (fun k a b => Val (OBool (match k with KU => uint_eqb (mk_uint a) (mk_uint b) | KI => int_eqb (mk_int a) (mk_int b) end))) H).
  - apply (ref_tget1 g hs ts L); [exact H|]. intros k a u La Lr E Ec P Ha Hs. rewrite (Gw x ltac:(cbn; auto)) in Ha.
    apply (ref_tcreate g _ _ _ Lr _ _ _ ltac:(rewrite update_length; exact Gn) Hs). apply ref_ret. exists La. split; [reflexivity|exact Ha].
  - apply (ref_tget1 g hs ts L); [exact H|]. intros k' a u La Lr E Ec P Ha Hs. rewrite (Gw x ltac:(cbn; auto)) in Ha.
    apply (ref_tcreate g _ _ _ Lr _ _ _ ltac:(rewrite update_length; exact Gn) Hs). apply ref_ret. exists La. split; [reflexivity|exact Ha].
  - apply (ref_tget1 g hs ts L); [exact H|]. intros k a u La Lr E Ec P Ha Hs.
    assert (S : tsown g hs ts (La ++ Lr)) by (eapply tsown_perm; [symmetry; exact P|exact H]).
    assert (A : forall q0 : apint -> outcome obs, refines (ht_show Shows hs (let* o := h_ask q0 a in let* _ := h_error_copy a o in hret o)) (La ++ Lr)
      (v_show Shows ts (q0 u)) (tpost g)).
    { intros q0. unfold ht_show, v_show. eapply (ref_bind _ _ _ _ _ (fun r s L' => r = s /\ L' = La ++ Lr)).
      - assert (X : refines (let* o := h_ask q0 a in let* _ := h_error_copy a o in hret o) (La ++ Lr) (let! r := q0 u in Val r) (fun r s L' => r = s /\ L' = La ++ Lr)).
        { eapply ref_bind; [apply ref_frame, (ref_ask q0 _ a u La Ha)|]. intros r s L' _ (L'' & -> & -> & ->).
          apply (ref_step _ _ _ tt _ (fun _ _ L' => L' = La ++ Lr)).
          { eapply ref_conseq; [apply ref_frame, (ref_error_copy _ a u La s Ha)|]. intros p p' L' (L'' & -> & ->). eauto. }
          intros _ L' ->. apply ref_ret. auto. }
        destruct (q0 u); exact X.
      - intros r s L' _ [-> ->]. apply ref_ret. split; auto. }
    destruct k; [|exact (A (fun x => iask q (mk_int x)))].
    destruct q; cbn [hu_ask vu_ask ht_if_any if_any]; try (apply ref_reject; exact S);
      match goal with |- refines (ht_show Shows hs (hbind (h_ask ?f0 a) _)) _ _ _ => exact (A f0) end.
Qed.
