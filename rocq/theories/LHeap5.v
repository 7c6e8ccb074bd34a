(** Ownership of heap buffers: facts about whole programs. *)
From Coq Require Import Permutation.
From Verif Require Export LHeap4 SpecHeap.

Lemma srepr_in g hs cs L : srepr g hs cs L -> forall b p ds, In (b, p, ds) L <-> exists i a x,
  nth_error hs i = Some (Some a) /\ nth_error cs i = Some (Some x) /\ hdata a = UExt p /\ digits x = ds /\ b = g i.
Proof.
  induction 1 as [g|g hs cs L H IH|g a x La hs cs L Ha H IH]; intros b p ds.
  - split; [contradiction|]. intros (i & a & x & E & _). destruct i; discriminate.
  - rewrite IH. split.
    + intros (i & a & x & K). exists (S i), a, x. exact K.
    + intros ([|i] & a & x & K); [destruct K; discriminate|]. exists i, a, x. exact K.
  - rewrite in_app_iff, IH. pose proof Ha as (R1 & R2 & R3 & R4). split.
    + intros [K|(i & c & y & K)]; [|exists (S i), c, y; exact K]. exists O, a, x. destruct (storage (len x)).
      * destruct R4 as (d & _ & _ & ->). contradiction.
      * destruct R4 as (q & Eq & ->). destruct K as [K|[]]. injection K as <- <- <-. auto.
    + intros ([|i] & c & y & K1 & K2 & K3 & K4 & K5); [|right; exists i, c, y; auto]. left. cbn in K1, K2.
      assert (c = a) by congruence. assert (y = x) by congruence. subst c y. destruct (storage (len x)).
      * destruct R4 as (d & _ & Ed & _). congruence.
      * destruct R4 as (q & Eq & ->). left. congruence.
Qed.

Lemma nodup_tail {A} (l k : list A) : NoDup (l ++ k) -> NoDup k.
Proof. induction l as [|a l IH]; [auto|]. cbn [app]. intros N. apply NoDup_cons_iff in N as (_ & N). auto. Qed.

Lemma srepr_unique g hs cs L : srepr g hs cs L -> NoDup (map addr L) -> forall i j p,
  points_to hs i p -> points_to hs j p -> i = j.
Proof.
  induction 1 as [g|g hs cs L H IH|g a x La hs cs L Ha H IH]; intros N i j p (b & Eb & Pb) (c & Ec & Pc).
  - destruct i; discriminate.
  - destruct i as [|i]; [discriminate|]. destruct j as [|j]; [discriminate|]. f_equal. apply (IH N i j p); [exists b|exists c]; auto.
  - assert (ND : forall q, hdata a = UExt q -> forall k, ~ points_to hs k q).
    { intros q Eq k (d & Ed & Pd). pose proof Ha as (R1 & R2 & R3 & R4). destruct (storage (len x)).
      - destruct R4 as (e & _ & E' & _). congruence.
      - destruct R4 as (q' & E' & ->). assert (q' = q) by congruence. subst q'. cbn [app map] in N. apply NoDup_cons_iff in N as (N & _).
        pose proof (srepr_focus _ hs cs L H k) as F. rewrite Ed in F. destruct (nth_error cs k) as [[y|]|] eqn:Ey; try tauto.
        apply N. apply in_map_iff. exists (g (S k), q, digits y). split; [reflexivity|]. apply (srepr_in _ hs cs L H). exists k, d, y. auto 6. }
    assert (N' : NoDup (map addr L)).
    { rewrite map_app in N. exact (nodup_tail _ _ N). }
    destruct i as [|i], j as [|j]; cbn [nth_error] in *.
    + reflexivity.
    + exfalso. assert (b = a) by congruence. subst b. apply (ND p Pb j). exists c. auto.
    + exfalso. assert (c = a) by congruence. subst c. apply (ND p Pc i). exists b. auto.
    + f_equal. apply (IH N' i j p); [exists b|exists c]; auto.
Qed.

Lemma sown_stored g hs cs L m : (forall b p ds, In (b, p, ds) L -> nth_error (blocks m) p = Some (Some ds)) ->
  sown g hs cs L -> inv cs -> Forall2 (stored m) hs cs.
Proof.
  intros S (L' & P & H) I.
  assert (S' : forall b p ds, In (b, p, ds) L' -> nth_error (blocks m) p = Some (Some ds)).
  { intros b p ds K. apply (S b). revert K. apply Permutation_in. now symmetry. }
  assert (W : forall x, In (Some x) cs -> wf x).
  { intros x Hx. apply In_nth_error in Hx as (i & E). destruct (inv_rel cs i x I E) as (v & Hv). now destruct (rel_open x v Hv). }
  clear P I S L. induction H as [g|g hs cs L' H IH|g a x La hs cs L' Ha H IH].
  - constructor.
  - constructor; [exact Logic.I|]. apply IH; auto. intros x Hx. apply W. now right.
  - constructor; [|apply IH; [intros b p ds Hp; apply (S' b), in_or_app; auto|intros y Hy; apply W; now right]].
    pose proof (W x ltac:(now left)) as (_ & Wl & _). pose proof Ha as (R1 & R2 & R3 & R4). cbn [stored].
    split; [exact R1|]. split; [exact Wl|]. destruct (Z.le_gt_cases (len x) 64) as [B|B].
    + rewrite (storage_inl _ B) in R4. destruct R4 as (d & E1 & E2 & _). split; [eauto|lia].
    + rewrite (storage_ext _ B) in R4. destruct R4 as (p & E1 & ->). split; [lia|]. intros _. exists p. split; [exact E1|].
      apply (S' (g O)), in_or_app. left. now left.
Qed.

Lemma sown_order g hs cs L m : live m L -> sown g hs cs L -> inv cs -> Forall2 (stored m) hs cs /\ owned_once m hs.
Proof.
  intros Hm H I. split.
  - apply (sown_stored g hs cs L m); auto. intros b p ds K. exact (proj1 (live_in m L b p ds Hm K)).
  - destruct H as (L' & P & H). apply (live_perm m L L' P) in Hm. destruct Hm as (N & Hm).
    intros p ds E. apply Hm in E as (b & E). apply (srepr_in g hs cs L' H) in E. destruct E as (i & a & x & E1 & _ & E3 & _).
    exists i. split; [exists a; auto|]. intros j Hj. apply (srepr_unique g hs cs L' H N i j p); [exists a; auto|exact Hj].
Qed.

Lemma live_empty slack : live (empty_memory slack) [].
Proof. split; [constructor|]. intros p ds. destruct p; cbn; split; try discriminate; intros (b & []). Qed.

Definition all_owned (n : nat) : bool := true.
Lemma allowed_all p : Forall (allowed all_owned) p.
Proof. induction p; constructor; auto. intros x _. reflexivity. Qed.
Lemma sown_nil g : sown g [] [] [].
Proof. exists []. split; [reflexivity|constructor]. Qed.
Lemma inv_nil : inv [].
Proof. exists []. constructor. Qed.
Lemma inv_run p cs os : Forall cmd_ok p -> crun [] p = Val (cs, os) -> inv cs.
Proof.
  intros Hp E. pose proof (simulation_fact p Hp) as Sm. destruct (arun [] p) as [[s os']|]; [|congruence].
  destruct Sm as (cs' & E' & F). exists s. assert (cs' = cs) by congruence. now subst.
Qed.

Lemma setup_fact p slack : Forall cmd_ok p ->
  match crun [] p with
  | Val (cs, os) => exists vs m L, exec (hrun [] p) (empty_memory slack) = MVal (vs, os) m /\ sown all_owned vs cs L /\ live m L
  | Stop _ => exec (hrun [] p) (empty_memory slack) = MPanic
  | OutOfFuel => False
  end.
Proof.
  intros Hp. pose proof (ref_run all_owned p Hp (allowed_all p) [] [] [] inv_nil ltac:(intros k _; reflexivity) (sown_nil _)) as R.
  pose proof (ref_exec _ _ _ _ [] (empty_memory slack) R (live_empty slack)) as X.
  pose proof (simulation_fact p Hp) as Sm. destruct (crun [] p) as [[cs os]| |].
  - destruct X as ([vs os'] & m & L & E & (Eo & So) & Hm). cbn [fst snd] in *. subst os'. rewrite app_nil_r in Hm. eauto 6.
  - exact X.
  - destruct (arun [] p) as [[s os']|]; [destruct Sm as (? & ? & _); discriminate|discriminate].
Qed.

Lemma heap_fact p slack : Forall cmd_ok p ->
  (crun [] p = Panic /\ exec (hrun [] p) (empty_memory slack) = MPanic) \/
  exists cs os vs m, crun [] p = Val (cs, os) /\ exec (hrun [] p) (empty_memory slack) = MVal (vs, os) m /\
    Forall2 (stored m) vs cs /\ owned_once m vs.
Proof.
  intros Hp. pose proof (setup_fact p slack Hp) as R. pose proof (inv_run p) as I. pose proof (simulation_fact p Hp) as Sm.
  destruct (crun [] p) as [[cs os]|b|]; [| |contradiction].
  2: { left. split; [|exact R]. destruct (arun [] p) as [[s os]|]; [destruct Sm as (? & ? & _); discriminate|exact Sm]. }
  right. destruct R as (vs & m & L & E & So & Hm).
  destruct (sown_order _ vs cs L m Hm So (I cs os Hp eq_refl)) as (A & C). exists cs, os, vs, m. auto.
Qed.

(** Dropping every variable. *)
Lemma crun_drops cs : forall n k, (n + k = length cs)%nat -> (forall i, (i < k)%nat -> nth_error cs i = Some None) ->
  exists os, crun cs (map Drop (seq k n)) = Val (repeat None (length cs), os).
Proof.
  intros n. revert cs. induction n as [|n IH]; intros cs k E Z; cbn [seq map crun].
  - exists []. do 2 f_equal. replace k with (length cs) in Z by lia. clear E. induction cs as [|c cs IH]; [reflexivity|].
    cbn [length repeat]. pose proof (Z O ltac:(cbn; lia)) as Z0. cbn in Z0. f_equal; [congruence|]. apply IH. intros i Hi. apply (Z (S i)). cbn. lia.
  - cbn [cstep]. unfold cget1. destruct (nth_error cs k) as [v|] eqn:Ek; [|apply nth_error_None in Ek; lia].
    assert (exists o, cstep cs (Drop k) = Val (update k None cs, o)) as (o & Eo).
    { cbn [cstep]. unfold cget1. rewrite Ek. destruct v as [x|]; [eauto|]. rewrite update_id by exact Ek. eauto. }
    cbn [cstep] in Eo. unfold cget1 in Eo. rewrite Ek in Eo. rewrite Eo. cbn [bind].
    assert (Lu : length (update k None cs) = length cs) by apply update_length.
    destruct (IH (update k None cs) (S k)) as (os & Es).
    + rewrite Lu. lia.
    + intros i Hi. destruct (Nat.eq_dec k i) as [->|D].
      * exact (nth_update_same i None v cs Ek).
      * rewrite nth_update_other by exact D. apply Z. lia.
    + rewrite Es, Lu. cbn [bind]. eauto.
Qed.

Lemma no_leak_fact p slack cs os : Forall cmd_ok p -> crun [] p = Val (cs, os) ->
  exists vs os' m, exec (hrun [] (p ++ map Drop (seq 0 (length cs)))) (empty_memory slack) = MVal (vs, os') m /\ all_freed m.
Proof.
  intros Hp E. set (q := map Drop (seq 0 (length cs))).
  assert (Hq : Forall cmd_ok (p ++ q)).
  { apply Forall_app. split; [exact Hp|]. unfold q. clear. induction (seq 0 (length cs)); constructor; [exact Logic.I|exact IHl]. }
  destruct (crun_drops cs (length cs) 0 ltac:(lia) ltac:(intros; lia)) as (os2 & E2). fold q in E2.
  assert (Eq : crun [] (p ++ q) = Val (repeat None (length cs), os ++ os2)) by (rewrite crun_app, E; cbn [bind]; rewrite E2; reflexivity).
  destruct (heap_fact (p ++ q) slack Hq) as [(K & _)|(cs' & os' & vs & m & K & R & S & O)]; [congruence|].
  assert (cs' = repeat None (length cs)) by congruence. subst cs'.
  exists vs, os', m. split; [exact R|]. intros b ds Hb. destruct (O b ds Hb) as (i & (a & Ei & _) & _).
  clear - S Ei. revert i Ei. remember (repeat (@None apint) (length cs)) as l eqn:El.
  assert (A : forall c, In c l -> c = None) by (intros c Hc; rewrite El in Hc; now apply repeat_spec in Hc). clear El.
  induction S as [|v c vs l Hv S IH]; intros [|i] Ei; cbn in Ei; try discriminate.
  - rewrite (A c ltac:(now left)) in Hv. injection Ei as ->. exact Hv.
  - apply (IH ltac:(intros; apply A; now right) i Ei).
Qed.

Lemma never_undefined_fact p slack : Forall cmd_ok p ->
  exec (hrun [] p) (empty_memory slack) <> MUndefined /\ exec (hrun [] p) (empty_memory slack) <> MFuel.
Proof.
  intros Hp. destruct (heap_fact p slack Hp) as [(_ & ->)|(cs & os & vs & m & _ & -> & _)]; split; discriminate.
Qed.
