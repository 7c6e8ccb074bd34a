(** Programs on [UInt] and [Int] over the heap: the facts. *)
From Coq Require Import Permutation.
From Verif Require Export LHeapTyped2.

Lemma tinv_step ts c ts' o : tcmd_ok c -> tinv ts -> tstep ts c = Val (ts', o) -> tinv ts'.
Proof.
  intros Hc (s & H) E. pose proof (tstep_sim ts s c Hc H) as R. unfold tstep_rel in R. destruct (tastep s c) as [[s' o']|]; [|congruence].
  destruct R as (ts1 & E' & H'). exists s'. assert (ts1 = ts') by congruence. now subst.
Qed.
Definition trpost (p : htvars * list tobs) (q : tvars * list tobs) (L : list cell) : Prop := snd p = snd q /\ tsown all_owned (fst p) (fst q) L.
Lemma ref_trun p : Forall tcmd_ok p -> forall hs ts L, tinv ts -> tsown all_owned hs ts L -> refines (htrun hs p) L (trun ts p) trpost.
Proof.
  induction 1 as [|c p Hc Hp IH]; intros hs ts L I H; cbn [htrun trun].
  - apply ref_ret. split; auto.
  - eapply ref_bind; [apply (ref_tstep all_owned hs ts L c Hc I (fun _ _ => eq_refl) (fun _ _ => eq_refl) H)|]. intros [hs1 o] [ts1 o'] L1 E (Eo & H1). cbn [fst snd] in *. subst o'.
    eapply ref_bind; [apply (IH hs1 ts1 L1); [exact (tinv_step ts c ts1 o Hc I E)|exact H1]|].
    intros [hs2 os] [ts2 os'] L2 _ (Eos & H2). cbn [fst snd] in *. subst os'. apply ref_ret. split; auto.
Qed.

Lemma tsown_nil : tsown all_owned [] [] [].
Proof. split; [apply sown_nil|reflexivity]. Qed.
Lemma tinv_nil : tinv [].
Proof. exists []. constructor. Qed.

(** The integers inside are in order. *)
Lemma tholds_apint k x w z : tholds (Some (wrap k x)) (Some (mk_tval k w z)) -> is_apint x w (z mod 2 ^ w).
Proof. destruct k; cbn [tholds wrap]; intros H; [exact (of_uint (mk_uint x) w z H)|exact (of_int (mk_int x) w z H)]. Qed.
Lemma inv_inside ts s : Forall2 tholds ts s -> inv (vinside ts).
Proof.
  intros H. exists (map (option_map (fun t => (twidth t, tvalue t mod 2 ^ twidth t))) s).
  induction H as [|a v ts s Ha H IH]; cbn [vinside map]; constructor; [|exact IH].
  destruct a as [a|], v as [[k w z]|]; cbn [option_map]; try (destruct a; contradiction); try contradiction; [|exact I].
  assert (kind_of a = k) by (destruct a, k; cbn in *; auto; contradiction). subst k.
  rewrite <- (wrap_inner a) in Ha. rewrite kind_wrap in Ha. apply tholds_apint in Ha. exact Ha.
Qed.

Lemma in_memory_fact m ts s vs : Forall2 tholds ts s -> map (option_map hkind) vs = map (option_map kind_of) ts ->
  Forall2 (stored m) (inside vs) (vinside ts) -> Forall2 (in_memory m) vs s.
Proof.
  intros H. revert vs. induction H as [|a v ts s Ha H IH]; intros [|h vs] K St; cbn [map] in K; try discriminate; [constructor|].
  cbn [inside vinside map] in St. inversion St as [|? ? ? ? S1 S2]. subst. injection K as K1 K2. constructor; [|exact (IH vs K2 S2)].
  destruct a as [a|], v as [[k w z]|], h as [h|]; cbn [option_map] in *; try (destruct a; contradiction); try contradiction; try discriminate; [|exact I].
  assert (kind_of a = k) by (destruct a, k; cbn in *; auto; contradiction). subst k. injection K1 as K1.
  cbn [in_memory tkind twidth tvalue]. split; [exact K1|]. exists (inner a). split; [|exact S1].
  rewrite <- (wrap_inner a) in Ha. rewrite kind_wrap in Ha. apply tholds_apint in Ha. exact Ha.
Qed.

Lemma typed_heap_fact p slack : Forall tcmd_ok p ->
  match tarun [] p with
  | None => exec (htrun [] p) (empty_memory slack) = MPanic
  | Some (s, os) => exists vs m, exec (htrun [] p) (empty_memory slack) = MVal (vs, os) m /\
      Forall2 (in_memory m) vs s /\ owned_once m (inside vs)
  end.
Proof.
  intros Hp. pose proof (ref_trun p Hp [] [] [] tinv_nil tsown_nil) as R.
  pose proof (ref_exec _ _ _ _ [] (empty_memory slack) R (live_empty slack)) as X.
  pose proof (typed_simulation_fact p Hp) as Sm. destruct (tarun [] p) as [[s os]|].
  - destruct Sm as (ts & Et & Hs). rewrite Et in X. destruct X as ([vs os'] & m & L & E & (Eo & So & K) & Hm). cbn [fst snd] in *. subst os'.
    rewrite app_nil_r in Hm. destruct (sown_order _ _ _ L m Hm So (inv_inside ts s Hs)) as (A & C).
    exists vs, m. split; [exact E|]. split; [|exact C]. exact (in_memory_fact m ts s vs Hs K A).
  - rewrite Sm in X. exact X.
Qed.

Lemma typed_never_undefined_fact p slack : Forall tcmd_ok p ->
  exec (htrun [] p) (empty_memory slack) <> MUndefined /\ exec (htrun [] p) (empty_memory slack) <> MFuel.
Proof.
  intros Hp. pose proof (typed_heap_fact p slack Hp) as H. destruct (tarun [] p) as [[s os]|]; [destruct H as (vs & m & -> & _)|rewrite H]; split; discriminate.
Qed.

(** Dropping every variable. *)
Lemma tarun_drops s : forall n k, (n + k = length s)%nat -> (forall i, (i < k)%nat -> nth_error s i = Some None) ->
  exists os, tarun s (map TDrop (seq k n)) = Some (repeat None (length s), os).
Proof.
  intros n. revert s. induction n as [|n IH]; intros s k E Z; cbn [seq map tarun].
  - exists []. do 2 f_equal. replace k with (length s) in Z by lia. clear E. induction s as [|c s IH]; [reflexivity|].
    cbn [length repeat]. pose proof (Z O ltac:(cbn; lia)) as Z0. cbn in Z0. f_equal; [congruence|]. apply IH. intros i Hi. apply (Z (S i)). cbn. lia.
  - destruct (nth_error s k) as [v|] eqn:Ek; [|apply nth_error_None in Ek; lia].
    assert (exists o, tastep s (TDrop k) = Some (update k None s, o)) as (o & Eo).
    { cbn [tastep]. unfold tget1. rewrite Ek. destruct v as [x|]; [eauto|]. rewrite update_id by exact Ek. eauto. }
    rewrite Eo.
    assert (Lu : length (update k None s) = length s) by apply update_length.
    destruct (IH (update k None s) (S k)) as (os & Es).
    + rewrite Lu. lia.
    + intros i Hi. destruct (Nat.eq_dec k i) as [->|D].
      * exact (nth_update_same i None v s Ek).
      * rewrite nth_update_other by exact D. apply Z. lia.
    + cbn [opt_bind]. rewrite Es, Lu. cbn [option_map]. eauto.
Qed.
Lemma tarun_app p q : forall s, tarun s (p ++ q) =
  opt_bind (tarun s p) (fun '(s', os) => option_map (fun '(s'', os') => (s'', os ++ os')) (tarun s' q)).
Proof.
  induction p as [|c p IH]; intros s; cbn [app tarun opt_bind].
  - destruct (tarun s q) as [[s' os]|]; reflexivity.
  - destruct (tastep s c) as [[s' o]|]; cbn [opt_bind]; [|reflexivity]. rewrite IH.
    destruct (tarun s' p) as [[s2 os]|]; cbn [opt_bind option_map]; [|reflexivity]. destruct (tarun s2 q) as [[s3 os3]|]; reflexivity.
Qed.

Lemma typed_no_leak_fact p slack s os : Forall tcmd_ok p -> tarun [] p = Some (s, os) ->
  exists vs os' m, exec (htrun [] (p ++ map TDrop (seq 0 (length s)))) (empty_memory slack) = MVal (vs, os') m /\ all_freed m.
Proof.
  intros Hp E. set (q := map TDrop (seq 0 (length s))).
  assert (Hq : Forall tcmd_ok (p ++ q)).
  { apply Forall_app. split; [exact Hp|]. unfold q. clear. induction (seq 0 (length s)); constructor; [exact Logic.I|exact IHl]. }
  destruct (tarun_drops s (length s) 0 ltac:(lia) ltac:(intros; lia)) as (os2 & E2). fold q in E2.
  assert (Eq : tarun [] (p ++ q) = Some (repeat None (length s), os ++ os2)) by (rewrite tarun_app, E; cbn [opt_bind]; rewrite E2; reflexivity).
  pose proof (typed_heap_fact (p ++ q) slack Hq) as F. rewrite Eq in F. destruct F as (vs & m & R & S & O).
  exists vs, (os ++ os2), m. split; [exact R|]. intros b ds Hb. destruct (O b ds Hb) as (i & (a & Ei & _) & _).
  clear - S Ei. revert i Ei. remember (repeat (@None tval) (length s)) as l eqn:El.
  assert (A : forall c, In c l -> c = None) by (intros c Hc; rewrite El in Hc; now apply repeat_spec in Hc). clear El.
  induction S as [|v c vs l Hv S IH]; intros [|i] Ei; cbn in Ei; try discriminate.
  - rewrite (A c ltac:(now left)) in Hv. destruct v as [v|]; [exact Hv|discriminate].
  - apply (IH ltac:(intros; apply A; now right) i Ei).
Qed.
