(** How many digits divisions allocate: the calls. *)
From Verif Require Export LTraffic2.
From Verif Require Import SpecTime LTimeFacts LWatchMul.

Lemma a_rposition p ds n : al 0 (w_rposition p ds n).
Proof. induction n as [|n IH]; cbn [w_rposition]; ass. Qed.
#[export] Hint Resolve a_rposition : al.
Lemma a_swap_step q i st : al 0 (w_swap_step q i st).
Proof. unfold w_swap_step. ass. Qed.
#[export] Hint Resolve a_swap_step : al.
Lemma a_divrem q duo div : al (2 * Z.of_nat (length duo)) (w_aarons_algorithm_divrem q duo div).
Proof.
  unfold w_aarons_algorithm_divrem. apply a_call; [apply a_rposition|lia|]. intros [dsd|]; [|ass]. apply a_call; [apply a_rposition|lia|]. intros [sd|]; [|ass].
  apply a_call; [apply a_none; [reflexivity|lia]|lia|]. intros [|]; [ass|]. eapply a_bind; [apply a_divrem_cases|lia|]. intros ? _. ass.
Qed.
Lemma a_remdiv q duo div : al (2 * Z.of_nat (length duo)) (w_aarons_algorithm_remdiv q duo div).
Proof.
  unfold w_aarons_algorithm_remdiv. eapply a_bind; [apply a_divrem|lia|]. intros [[x y] ok] _. rewrite Z.sub_diag. ass.
Qed.
(** A call that finds the divisor zero has changed and allocated nothing. *)
Lemma divrem_zero q duo div x y : snd (w_aarons_algorithm_divrem q duo div) = Val (x, y, false) -> x = duo /\ al 0 (w_aarons_algorithm_divrem q duo div).
Proof.
  intros H. assert (R : snd (w_rposition q div (length div)) = Val (rposition_nonzero div)) by (rewrite we_rposition by lia; now rewrite firstn_all).
  assert (D : rposition_nonzero div = None /\ x = duo).
  { revert H. unfold w_aarons_algorithm_divrem, wbind at 1. rewrite R. cbn [fst snd]. destruct (rposition_nonzero div) as [dsd|]; [|unfold wval; cbn [snd]; intros H; injection H as <- _; auto].
    unfold wbind at 1. rewrite we_rposition by lia. rewrite firstn_all. cbn [fst snd]. destruct (rposition_nonzero duo) as [sd|]; [|discriminate].
    unfold wbind at 1, branch. cbn [fst snd]. destruct (sd <? dsd)%nat; [discriminate|]. unfold wbind. destruct (snd (w_divrem_cases q duo div sd dsd)) as [[? ?]| |]; discriminate. }
  destruct D as (D & ->). split; [reflexivity|]. unfold w_aarons_algorithm_divrem. eapply (a_bind 0 0); [apply a_rposition|lia|]. intros o Ho. rewrite R, D in Ho. injection Ho as <-. ass.
Qed.
Lemma remdiv_zero q duo div x y : snd (w_aarons_algorithm_remdiv q duo div) = Val (x, y, false) -> x = duo /\ al 0 (w_aarons_algorithm_remdiv q duo div).
Proof.
  unfold w_aarons_algorithm_remdiv. unfold wbind at 1. destruct (snd (w_aarons_algorithm_divrem q duo div)) as [[[u v] ok]| |] eqn:E; cbn [fst snd]; [|discriminate..].
  unfold wbind at 1, branch. cbn [fst snd]. destruct ok; intros H.
  - exfalso. revert H. unfold wbind. destruct (snd (w_for_range _ _ _ _)) as [[? ?]| |]; discriminate.
  - unfold wval in H. cbn [snd] in H. injection H as <- <-. destruct (divrem_zero _ _ _ _ _ E) as (-> & L). split; [reflexivity|]. eapply (a_bind 0 0); [exact L|lia|]. intros z Hz. rewrite E in Hz. injection Hz as <-. ass.
Qed.
Lemma a_clone p a : al (Z.of_nat (length (digits a))) (w_clone p a).
Proof.
  unfold al, w_clone. destruct (storage (len a)); unfold wbind, see, wlift; cbn [fst snd]; rewrite app_nil_r; cbn [digits_allocated]; [lia|]. rewrite al_copies. unfold as_digit_slice. lia.
Qed.
Lemma a_by_zero op a : al (Z.of_nat (length (digits a))) (w_division_by_zero op a).
Proof. unfold w_division_by_zero. eapply a_bind; [apply a_clone|lia|]. intros x _. ass. Qed.
Lemma a_zip a b : al 0 (w_zip_access_data a b).
Proof. unfold w_zip_access_data. ass. Qed.
Lemma zip_inv a b x y : snd (w_zip_access_data a b) = Val (Ok (ZExt x y)) -> x = digits a /\ y = digits b.
Proof.
  rewrite we_zip_access_data. unfold zip_access_data. destruct (negb _); [discriminate|]. destruct (storage (len a)).
  - destruct (read_inl a); cbn [bind]; [|discriminate..]. destruct (read_inl b); discriminate.
  - intros H. injection H as <- <-. auto.
Qed.
Lemma a_udivrem a b : al (2 * Z.of_nat (length (digits a))) (w_wrapping_udivrem_assign a b).
Proof.
  unfold w_wrapping_udivrem_assign. eapply (a_bind _ 0); [apply a_zip|lia|]. rewrite Z.sub_0_r. intros [[x y|x y]|e] Hz; [| |ass].
  - apply a_call; [apply a_none; [reflexivity|lia]|lia|]. intros ok. destruct ok; [ass|]. eapply a_bind; [apply a_by_zero|lia|]. intros; ass.
  - destruct (zip_inv _ _ _ _ Hz) as (-> & ->). 
    destruct (snd (w_aarons_algorithm_divrem Other (digits a) (digits b))) as [[[u v] ok]| |] eqn:E.
    2,3: eapply a_bind; [apply a_divrem|an|]; intros z Hx; rewrite E in Hx; discriminate.
    destruct ok.
    + eapply a_bind; [apply a_divrem|an|]. intros z Hx. rewrite E in Hx. injection Hx as <-. cbn beta iota zeta. eapply (a_bind _ 0); [apply a_none; [reflexivity|lia]|an|]. intros ok Ho. injection Ho as <-. ass.
    + destruct (divrem_zero _ _ _ _ _ E) as (-> & L0). eapply a_bind; [exact L0|an|]. intros z Hx. rewrite E in Hx. injection Hx as <-. cbn beta iota zeta.
      apply a_call; [apply a_none; [reflexivity|lia]|an|]. intros ok. destruct ok; [ass|]. eapply a_bind; [apply a_by_zero|cbn [digits write_ext]; unfold write_ext; cbn [digits]; an|]. intros; cbn [digits write_ext]; unfold write_ext; cbn [digits]; ass.
Qed.
Lemma a_uremdiv a b : al (2 * Z.of_nat (length (digits a))) (w_wrapping_uremdiv_assign a b).
Proof.
  unfold w_wrapping_uremdiv_assign. eapply (a_bind _ 0); [apply a_zip|lia|]. rewrite Z.sub_0_r. intros [[x y|x y]|e] Hz; [| |ass].
  - apply a_call; [apply a_none; [reflexivity|lia]|lia|]. intros ok. destruct ok; [ass|]. eapply a_bind; [apply a_by_zero|lia|]. intros; ass.
  - destruct (zip_inv _ _ _ _ Hz) as (-> & ->). 
    destruct (snd (w_aarons_algorithm_remdiv Other (digits a) (digits b))) as [[[u v] ok]| |] eqn:E.
    2,3: eapply a_bind; [apply a_remdiv|an|]; intros z Hx; rewrite E in Hx; discriminate.
    destruct ok.
    + eapply a_bind; [apply a_remdiv|an|]. intros z Hx. rewrite E in Hx. injection Hx as <-. cbn beta iota zeta. eapply (a_bind _ 0); [apply a_none; [reflexivity|lia]|an|]. intros ok Ho. injection Ho as <-. ass.
    + destruct (remdiv_zero _ _ _ _ _ E) as (-> & L0). eapply a_bind; [exact L0|an|]. intros z Hx. rewrite E in Hx. injection Hx as <-. cbn beta iota zeta.
      apply a_call; [apply a_none; [reflexivity|lia]|an|]. intros ok. destruct ok; [ass|]. eapply a_bind; [apply a_by_zero|cbn [digits write_ext]; unfold write_ext; cbn [digits]; an|]. intros; cbn [digits write_ext]; unfold write_ext; cbn [digits]; ass.
Qed.
Lemma a_udiv a b : al (2 * Z.of_nat (length (digits a)) + Z.of_nat (length (digits b))) (w_wrapping_udiv_assign a b).
Proof.
  unfold w_wrapping_udiv_assign. eapply (a_bind _ 0); [apply a_zip|lia|]. rewrite Z.sub_0_r. intros [[x y|x y]|e] Hz; [| |ass].
  - apply a_call; [apply a_none; [reflexivity|lia]|lia|]. intros ok. destruct ok; [ass|]. eapply a_bind; [apply a_by_zero|lia|]. intros; ass.
  - destruct (zip_inv _ _ _ _ Hz) as (-> & ->). apply a_see. 
    destruct (snd (w_aarons_algorithm_divrem New (digits a) (digits b))) as [[[u v] ok]| |] eqn:E.
    2,3: eapply a_bind; [apply a_divrem|an|]; intros z Hx; rewrite E in Hx; discriminate.
    destruct ok.
    + eapply a_bind; [apply a_divrem|an|]. intros z Hx. rewrite E in Hx. injection Hx as <-. cbn beta iota zeta. eapply (a_bind _ 0); [apply a_none; [reflexivity|lia]|an|]. intros ok Ho. injection Ho as <-. ass.
    + destruct (divrem_zero _ _ _ _ _ E) as (-> & L0). eapply a_bind; [exact L0|an|]. intros z Hx. rewrite E in Hx. injection Hx as <-. cbn beta iota zeta.
      apply a_call; [apply a_none; [reflexivity|lia]|an|]. intros ok. destruct ok; [ass|]. eapply a_bind; [apply a_by_zero|cbn [digits write_ext]; unfold write_ext; cbn [digits]; an|]. intros; cbn [digits write_ext]; unfold write_ext; cbn [digits]; ass.
Qed.
Lemma a_urem a b : al (2 * Z.of_nat (length (digits a)) + Z.of_nat (length (digits b))) (w_wrapping_urem_assign a b).
Proof.
  unfold w_wrapping_urem_assign. eapply (a_bind _ 0); [apply a_zip|lia|]. rewrite Z.sub_0_r. intros [[x y|x y]|e] Hz; [| |ass].
  - apply a_call; [apply a_none; [reflexivity|lia]|lia|]. intros ok. destruct ok; [ass|]. eapply a_bind; [apply a_by_zero|lia|]. intros; ass.
  - destruct (zip_inv _ _ _ _ Hz) as (-> & ->). apply a_see. 
    destruct (snd (w_aarons_algorithm_remdiv New (digits a) (digits b))) as [[[u v] ok]| |] eqn:E.
    2,3: eapply a_bind; [apply a_remdiv|an|]; intros z Hx; rewrite E in Hx; discriminate.
    destruct ok.
    + eapply a_bind; [apply a_remdiv|an|]. intros z Hx. rewrite E in Hx. injection Hx as <-. cbn beta iota zeta. eapply (a_bind _ 0); [apply a_none; [reflexivity|lia]|an|]. intros ok Ho. injection Ho as <-. ass.
    + destruct (remdiv_zero _ _ _ _ _ E) as (-> & L0). eapply a_bind; [exact L0|an|]. intros z Hx. rewrite E in Hx. injection Hx as <-. cbn beta iota zeta.
      apply a_call; [apply a_none; [reflexivity|lia]|an|]. intros ok. destruct ok; [ass|]. eapply a_bind; [apply a_by_zero|cbn [digits write_ext]; unfold write_ext; cbn [digits]; an|]. intros; cbn [digits write_ext]; unfold write_ext; cbn [digits]; ass.
Qed.
Lemma a_clear p a : al 0 (w_clear_unused_bits p a).
Proof. unfold w_clear_unused_bits, w_modify_most_significant_digit, w_access_data. destruct (excess_bits (width a)); ass. Qed.
#[export] Hint Resolve a_clear : al.
Lemma a_map f ds : forall i, al 0 (w_map f i ds).
Proof. induction ds as [|d ds IH]; intros; cbn [w_map]; ass. Qed.
#[export] Hint Resolve a_map : al.
Lemma a_inc_loop ds : forall i, al 0 (w_inc_loop i ds).
Proof. induction ds as [|d ds IH]; intros; cbn [w_inc_loop]; ass. Qed.
#[export] Hint Resolve a_inc_loop : al.
Lemma a_all_zero ds : forall i, al 0 (w_all_zero i ds).
Proof. induction ds as [|d ds IH]; intros; cbn [w_all_zero]; ass. Qed.
#[export] Hint Resolve a_all_zero : al.
Lemma a_neg a : al 0 (w_wrapping_neg a).
Proof. unfold w_wrapping_neg, w_bitnot, w_modify_digits, w_wrapping_inc, w_access_data. ass. Qed.
Lemma a_neg_if f b a : al 0 (w_neg_if f b a).
Proof. unfold w_neg_if. destruct b; [apply a_elsewhere, a_neg|ass]. Qed.
#[export] Hint Resolve a_neg_if : al.
Lemma a_is_zero a : al 0 (w_is_zero a).
Proof. unfold w_is_zero, w_access_data. ass. Qed.
Lemma a_msb a : al 0 (w_msb a).
Proof. unfold w_msb, w_most_significant_digit, w_access_data. ass. Qed.
Lemma a_unwrap2 k w : 0 <= k -> al k w -> al k (w_unwrap_mut2 w).
Proof. intros Hk H. unfold w_unwrap_mut2. eapply a_bind; [exact H|lia|]. intros [st r] _. rewrite Z.sub_diag. ass. Qed.
Lemma neg_if_digits f b a x : wf a -> snd (w_neg_if f b a) = Val x -> length (digits x) = length (digits a).
Proof.
  intros W. unfold w_neg_if. destruct b; [|now intros [= <-]]. unfold elsewhere. cbn [snd]. rewrite we_wrapping_neg.
  destruct (wrapping_neg_spec a W) as (c & -> & Wc & Lc & _). intros K. injection K as <-. exact (wf_nd a c W Wc (eq_sym Lc)).
Qed.
Lemma a_sdivrem a b : wf a -> al (2 * Z.of_nat (length (digits a))) (w_wrapping_sdivrem_assign a b).
Proof.
  intros W. unfold w_wrapping_sdivrem_assign. apply a_call; [apply a_elsewhere, a_is_zero|lia|]. intros z. apply a_call; [apply a_none; [reflexivity|lia]|lia|]. intros z'.
  destruct z'; [eapply a_bind; [apply a_by_zero|lia|]; intros; ass|].
  apply a_call; [apply a_msb|lia|]. intros ml. apply a_call; [apply a_elsewhere, a_msb|lia|]. intros mr. do 2 (apply a_call; [apply a_none; [reflexivity|lia]|lia|]; intros ?).
  set (p := match x with true => _ | false => _ end). clearbody p. destruct p as [nl nr]. 
  eapply (a_bind _ 0); [apply a_neg_if|lia|]. intros a' Ha. apply (neg_if_digits _ _ _ _ W) in Ha.
  apply a_call; [apply a_neg_if|lia|]. intros b'. eapply a_bind; [eapply a_unwrap2; [|apply a_udivrem]; lia|lia|]. intros [? ?] _. ass.
Qed.
Lemma a_sremdiv a b : wf a -> al (2 * Z.of_nat (length (digits a))) (w_wrapping_sremdiv_assign a b).
Proof.
  intros W. unfold w_wrapping_sremdiv_assign. apply a_call; [apply a_elsewhere, a_is_zero|lia|]. intros z. apply a_call; [apply a_none; [reflexivity|lia]|lia|]. intros z'.
  destruct z'; [eapply a_bind; [apply a_by_zero|lia|]; intros; ass|].
  apply a_call; [apply a_msb|lia|]. intros ml. apply a_call; [apply a_elsewhere, a_msb|lia|]. intros mr. do 2 (apply a_call; [apply a_none; [reflexivity|lia]|lia|]; intros ?).
  set (p := match x with true => _ | false => _ end). clearbody p. destruct p as [nl nr]. 
  eapply (a_bind _ 0); [apply a_neg_if|lia|]. intros a' Ha. apply (neg_if_digits _ _ _ _ W) in Ha.
  apply a_call; [apply a_neg_if|lia|]. intros b'. eapply a_bind; [eapply a_unwrap2; [|apply a_uremdiv]; lia|lia|]. intros [? ?] _. ass.
Qed.
Lemma a_sdiv a b : wf a -> al (2 * Z.of_nat (length (digits a)) + Z.of_nat (length (digits b))) (w_wrapping_sdiv_assign a b).
Proof.
  intros W. unfold w_wrapping_sdiv_assign. apply a_call; [apply a_elsewhere, a_is_zero|lia|]. intros z. apply a_call; [apply a_none; [reflexivity|lia]|lia|]. intros z'.
  destruct z'; [eapply a_bind; [apply a_by_zero|lia|]; intros; ass|].
  eapply a_bind; [apply a_clone|lia|]. intros c _. apply a_call; [apply a_msb|lia|]. intros ml. apply a_call; [apply a_elsewhere, a_msb|lia|]. intros mr. do 2 (apply a_call; [apply a_none; [reflexivity|lia]|lia|]; intros ?).
  set (p := match x with true => _ | false => _ end). clearbody p. 
  eapply (a_bind _ 0); [apply a_neg_if|lia|]. intros a' Ha. apply (neg_if_digits _ _ _ _ W) in Ha.
  apply a_call; [apply a_neg_if|lia|]. intros b'. eapply a_bind; [eapply a_unwrap2; [|apply a_elsewhere, a_udivrem]; lia|lia|]. intros [? ?] _. ass.
Qed.
Lemma a_srem a b : wf a -> al (2 * Z.of_nat (length (digits a)) + Z.of_nat (length (digits b))) (w_wrapping_srem_assign a b).
Proof.
  intros W. unfold w_wrapping_srem_assign. apply a_call; [apply a_elsewhere, a_is_zero|lia|]. intros z. apply a_call; [apply a_none; [reflexivity|lia]|lia|]. intros z'.
  destruct z'; [eapply a_bind; [apply a_by_zero|lia|]; intros; ass|].
  eapply a_bind; [apply a_clone|lia|]. intros c _. apply a_call; [apply a_msb|lia|]. intros ml. apply a_call; [apply a_elsewhere, a_msb|lia|]. intros mr. do 2 (apply a_call; [apply a_none; [reflexivity|lia]|lia|]; intros ?).
  set (p := match x with true => _ | false => _ end). clearbody p. 
  eapply (a_bind _ 0); [apply a_neg_if|lia|]. intros a' Ha. apply (neg_if_digits _ _ _ _ W) in Ha.
  apply a_call; [apply a_neg_if|lia|]. intros b'. eapply a_bind; [eapply a_unwrap2; [|apply a_elsewhere, a_uremdiv]; lia|lia|]. intros [? ?] _. ass.
Qed.
