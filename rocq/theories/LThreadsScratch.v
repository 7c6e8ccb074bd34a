(** Threads that use buffers as scratch space. *)
From Verif Require Export LThreadsTrace MThreadsScratch SpecThreadsScratch.
From Coq Require Import Lia Permutation.

(** Buffer [p] holds something else. *)
Definition poke (p : nat) (u : list Z) (L : list cell) : list cell := map (fun c => if Nat.eqb (addr c) p then (fst c, u) else c) L.
Lemma poke_addr p u L : map addr (poke p u L) = map addr L.
Proof. unfold poke. rewrite map_map. apply map_ext. intros [[b q] ds]. cbn. now destruct (Nat.eqb q p). Qed.
Lemma poke_out p u L : ~ In p (map addr L) -> poke p u L = L.
Proof.
  intros N. unfold poke. rewrite <- (map_id L) at 2. apply map_ext_in. intros [[b q] ds] I. cbn. destruct (Nat.eqb_spec q p) as [->|]; [|reflexivity].
  exfalso. apply N. exact (in_map addr _ _ I).
Qed.
Lemma poke_perm p u L L' : Permutation L L' -> Permutation (poke p u L) (poke p u L').
Proof. apply Permutation_map. Qed.
Lemma poke_other p u L b q ds : q <> p -> In (b, q, ds) L -> In (b, q, ds) (poke p u L).
Proof. intros N I. unfold poke. apply in_map_iff. exists (b, q, ds). split; [|exact I]. cbn. destruct (Nat.eqb_spec q p); [contradiction|reflexivity]. Qed.
Lemma poke_owned p u L : map addr (owned (poke p u L)) = map addr (owned L).
Proof.
  unfold owned, poke. induction L as [|[[b q] ds] L IH]; [reflexivity|]. cbn [map filter]. cbn [addr fst snd]. destruct (Nat.eqb q p); cbn [fst]; destruct b; cbn [map]; rewrite ?IH; reflexivity.
Qed.

Lemma discards_safe {A} p l (h : HM A) post : forall L F m, NoDup (map addr L) -> safe h L post -> live m (L ++ F) -> discards p l h m = true ->
  exists ds, In (true, p, ds) L /\ (l < length ds)%nat /\ forall d, safe h (poke p (update l d ds) L) post.
Proof.
  induction h as [a| | | |ds k IH|q n k IH|q n k IH|q new k IH|n k IH]; intros L F m N Sf Hm D; cbn [discards safe] in *; try discriminate.
  - apply andb_prop in D as (Nq & D). destruct (Nat.eqb_spec q p) as [|Nq']; [discriminate|]. clear Nq. destruct Sf as (dq & L' & P & E & Sf).
    assert (Hm1 : live m ((true, q, dq) :: L' ++ F)).
    { eapply live_perm; [|exact Hm]. change ((true, q, dq) :: L' ++ F) with (((true, q, dq) :: L') ++ F). now apply Permutation_app_tail. }
    destruct (live_free m _ q dq n Hm1 E) as (m' & Ef & Hm'). rewrite Ef in D.
    assert (N1 : NoDup (map addr L')) by (apply (Permutation_NoDup (Permutation_map addr P)) in N; cbn in N; now apply NoDup_cons_iff in N).
    destruct (IH L' F m' N1 Sf Hm' D) as (ds & I & Ll & Sf'). exists ds. split; [apply (Permutation_in _ (Permutation_sym P)); now right|]. split; [exact Ll|].
    intros d. exists dq, (poke p (update l d ds) L'). split; [|auto]. rewrite (poke_perm p _ _ _ P). cbn. destruct (Nat.eqb_spec q p); [contradiction|reflexivity].
  - apply andb_prop in D as (Nq & D). destruct (Nat.eqb_spec q p) as [|Nq']; [discriminate|]. clear Nq. destruct Sf as (b & dq & I & E & Sf).
    rewrite (live_load m (L ++ F) b q dq n Hm ltac:(apply in_or_app; now left) E) in D.
    destruct (IH _ L F m N Sf Hm D) as (ds & I' & Ll & Sf'). exists ds. split; [exact I'|]. split; [exact Ll|].
    intros d. exists b, dq. split; [now apply poke_other|]. auto.
  - destruct Sf as (dq & L' & P & E & Sf).
    assert (N1 : NoDup (map addr ((true, q, dq) :: L'))) by exact (Permutation_NoDup (Permutation_map addr P) N). cbn [map addr fst snd] in N1.
    apply NoDup_cons_iff in N1 as (N1 & N2). destruct (Nat.eqb_spec q p) as [->|Nq].
    + apply Nat.ltb_lt in D. exists dq. split; [apply (Permutation_in _ (Permutation_sym P)); now left|]. split; [lia|].
      intros d. exists (update l d dq), L'. split; [|rewrite update_length; split; [exact E|]].
      * rewrite (poke_perm p _ _ _ P). cbn. rewrite Nat.eqb_refl. apply perm_skip. fold (poke p (update l d dq) L'). now rewrite (poke_out p _ L' N1).
      * rewrite update_skipn by exact D. exact Sf.
    + assert (Hm1 : live m ((true, q, dq) :: L' ++ F)).
      { eapply live_perm; [|exact Hm]. change ((true, q, dq) :: L' ++ F) with (((true, q, dq) :: L') ++ F). now apply Permutation_app_tail. }
      destruct (live_store m _ q dq new Hm1 E) as (m' & Es & Hm'). rewrite Es in D.
      destruct (IH ((true, q, new ++ skipn (length new) dq) :: L') F m') as (ds & I & Ll & Sf'); auto; [cbn; now constructor|].
      exists ds. destruct I as [I|I]; [exfalso; apply Nq; congruence|]. split; [apply (Permutation_in _ (Permutation_sym P)); now right|]. split; [exact Ll|].
      intros d. exists dq, (poke p (update l d ds) L'). split; [|split; [exact E|]].
      * rewrite (poke_perm p _ _ _ P). cbn. destruct (Nat.eqb_spec q p); [contradiction|reflexivity].
      * specialize (Sf' d). cbn in Sf'. destruct (Nat.eqb_spec q p); [contradiction|exact Sf'].
Qed.
Lemma firstn_update {A} (u : list A) j l d : (j <= l)%nat -> firstn j (update l d u) = firstn j u.
Proof. revert u l. induction j as [|j IH]; intros [|x u] [|l] H; cbn; try reflexivity; try lia. now rewrite IH by lia. Qed.
Lemma nodup_head {A} (l k : list A) : NoDup (l ++ k) -> NoDup l.
Proof. induction l as [|x l IH]; intros H; [constructor|]. cbn in H. apply NoDup_cons_iff in H as (H1 & H2). constructor; [|auto]. intros I. apply H1. apply in_or_app. now left. Qed.
Lemma ledger_nodup {R} S (posts : list (ends R)) Ls s i L : pool_ok S posts Ls s -> nth_error Ls i = Some L -> Permutation (lent L) S -> NoDup (map addr L).
Proof.
  intros [Hl Hs (N & _)] EL P. pose proof (pool_focus S Ls i L EL P L P) as Q. rewrite (update_id i L Ls EL) in Q.
  apply (Permutation_NoDup (Permutation_map addr Q)) in N. rewrite map_app in N. now apply nodup_head in N.
Qed.
Lemma scratch_discards {R} p l (t : dthread R) m : scratch p l t m = true -> discards p l (pending t) m = true.
Proof. destruct t; cbn [scratch pending]; intros H; [exact H|exact H|]. now apply andb_prop in H. Qed.
Lemma discards_reads {A} p l (h : HM A) m q n k : discards p l h m = true -> h = HLoad q n k -> q <> p.
Proof. intros D ->. cbn [discards] in D. apply andb_prop in D as (D & _). now destruct (Nat.eqb_spec q p). Qed.

Lemma scribble_ok {R} S (posts : list (ends R)) Ls m ts i t p l d : dpool_ok S posts Ls (m, ts) -> nth_error ts i = Some t -> scratch p l t m = true ->
  exists L L' m', nth_error Ls i = Some L /\ In p (map addr (owned L)) /\ map addr (owned L') = map addr (owned L) /\
    digit_store p l d m = Some m' /\ length (blocks m') = length (blocks m) /\ dpool_ok S posts (update i L' Ls) (m', ts).
Proof.
  intros H E D. pose proof H as [Hc Ha]. cbn [fst snd] in Hc, Ha. assert (Et : nth_error (map pending ts) i = Some (pending t)) by (now apply map_nth_error).
  pose proof (scratch_discards p l t m D) as D'.
  destruct (pool_safe _ _ _ _ Hc i _ Et) as (L & post & EL & EP & Sf & Pm). cbn [snd] in *.
  pose proof (ledger_nodup _ _ _ _ i L Hc EL Pm) as N.
  assert (Hm : live m (L ++ concat (map owned (update i [] Ls)))).
  { eapply live_perm; [|exact (pool_live _ _ _ _ Hc)]. rewrite <- (update_id i L Ls EL) at 1. exact (pool_focus S Ls i L EL Pm L Pm). }
  destruct (discards_safe p l (pending t) post L _ m N Sf Hm D') as (ds & I & Ll & Sf'). specialize (Sf' d).
  set (u := update l d ds) in *. assert (Lu : length u = length ds) by apply update_length.
  apply in_split in I as IS. destruct IS as (L1 & L2 & EqL).
  assert (Pl : Permutation L ((true, p, ds) :: L1 ++ L2)) by (rewrite EqL; symmetry; apply Permutation_middle).
  assert (N2 : ~ In p (map addr (L1 ++ L2))).
  { apply (Permutation_NoDup (Permutation_map addr Pl)) in N. cbn [map addr fst snd] in N. now apply NoDup_cons_iff in N. }
  assert (Pp : Permutation (poke p u L) ((true, p, u) :: L1 ++ L2)).
  { rewrite (poke_perm p u _ _ Pl). cbn. rewrite Nat.eqb_refl. apply perm_skip. fold (poke p u (L1 ++ L2)). now rewrite poke_out. }
  assert (Hm1 : live m ((true, p, ds) :: (L1 ++ L2) ++ concat (map owned (update i [] Ls)))).
  { eapply live_perm; [|exact Hm]. rewrite Pl. reflexivity. }
  pose proof (live_in m _ true p ds Hm1 ltac:(now left)) as (Eb & Lp).
  pose proof (live_digit m _ p ds u Hm1 Lu) as Hm2. set (m' := mk_mem (slack m) (update p (Some u) (blocks m))) in *.
  assert (Io : In p (map addr (owned L))) by (apply in_map_iff; exists (true, p, ds); split; [reflexivity|]; apply filter_In; auto).
  exists L, (poke p u L), m'. split; [exact EL|]. split; [exact Io|]. split; [apply poke_owned|].
  split; [unfold digit_store; rewrite Eb; destruct (Nat.ltb_spec l (length ds)); [reflexivity|lia]|]. split; [unfold m'; cbn [blocks]; apply update_length|].
  assert (Pm' : Permutation (lent (poke p u L)) S).
  { rewrite <- Pm. apply (filter_perm (fun c => negb (fst (fst c)))) in Pp. apply (filter_perm (fun c => negb (fst (fst c)))) in Pl. etransitivity; [exact Pp|]. symmetry. exact Pl. }
  assert (Other : forall j v, j <> i -> nth_error ts j = Some v -> ~ touches (pending v) p).
  { intros j v Nj Ej T. destruct (pool_safe _ _ _ _ Hc j (pending v) (map_nth_error pending j ts Ej)) as (L3 & post3 & E3 & _ & Sf3 & P3).
    exact (pool_apart S posts Ls _ i j L L3 p Hc ltac:(auto) EL E3 P3 Io (safe_touches _ _ _ _ Sf3 T)). }
  constructor; cbn [fst snd].
  - destruct Hc as [Hl Hs _]. constructor; cbn [fst snd] in *.
    + now rewrite update_length.
    + intros j h Ej. destruct (Nat.eq_dec i j) as [<-|Nj].
      * rewrite Et in Ej. injection Ej as <-. exists (poke p u L), post. split; [exact (nth_update_same _ _ _ _ EL)|]. auto.
      * rewrite nth_update_other by exact Nj. exact (Hs j h Ej).
    + eapply live_perm; [symmetry; exact (pool_focus S Ls i L EL Pm (poke p u L) Pm')|]. eapply live_perm; [|exact Hm2]. rewrite Pp. reflexivity.
  - intros j v Ej. specialize (Ha j v Ej). destruct v as [h|q n got k|q new c k]; [exact Logic.I| |].
    + destruct Ha as (A1 & es & A2 & A3). split; [exact A1|]. exists es. split; [|exact A3]. unfold m'. cbn [blocks].
      rewrite nth_update_other; [exact A2|]. intros <-. destruct (Nat.eq_dec j i) as [->|Nj].
      * rewrite E in Ej. injection Ej as ->. exact (discards_reads p l _ m p n k D' eq_refl eq_refl).
      * exact (Other j _ Nj Ej eq_refl).
    + destruct Ha as (A1 & es & A2 & A3). split; [exact A1|]. unfold m'. cbn [blocks]. destruct (Nat.eq_dec p q) as [<-|Nq].
      * exists u. split; [exact (nth_update_same _ _ _ _ Eb)|]. assert (es = ds) by congruence. subst es. destruct (Nat.eq_dec j i) as [->|Nj].
        -- rewrite E in Ej. injection Ej as ->. cbn [scratch] in D. apply andb_prop in D as (_ & D). rewrite Nat.eqb_refl in D. cbn in D.
           apply Nat.leb_le in D. unfold u. now rewrite firstn_update.
        -- exfalso. exact (Other j _ Nj Ej eq_refl).
      * exists es. rewrite nth_update_other by exact Nq. auto.
Qed.
Lemma done_ok {R} junk S (posts : list (ends R)) Ls s e : dpool_ok S posts Ls s -> exists Ls', dpool_ok S posts Ls' (done junk e s).
Proof.
  destruct e as [i|i p l d]; intros H; cbn [done].
  - destruct (dturn_ok junk i S posts Ls s H) as (L' & H'). eauto.
  - destruct s as [m ts]. cbn [fst snd]. destruct (nth_error ts i) as [t|] eqn:E; [|eauto]. destruct (scratch p l t m) eqn:D; [|eauto].
    destruct (scribble_ok S posts Ls m ts i t p l d H E D) as (L & L' & m' & _ & _ & _ & -> & _ & H'). eauto.
Qed.
Lemma carry_on_ok {R} junk S (posts : list (ends R)) history : forall Ls s, dpool_ok S posts Ls s -> exists Ls', dpool_ok S posts Ls' (carry_on junk history s).
Proof. induction history as [|e history IH]; intros Ls s H; [eauto|]. destruct (done_ok junk S posts Ls s e H) as (Ls' & H'). exact (IH _ _ H'). Qed.
Lemma carry_on_app {R} junk p q : forall s : dpool R, carry_on junk (p ++ q) s = carry_on junk q (carry_on junk p s).
Proof. induction p as [|e p IH]; intros s; [reflexivity|]. cbn [app carry_on]. apply IH. Qed.
Lemma carry_on_goes {R} junk sch : forall s : dpool R, carry_on junk (map Goes sch) s = dinterleave junk sch s.
Proof. induction sch as [|i sch IH]; intros s; [reflexivity|]. cbn [map carry_on done dinterleave]. apply IH. Qed.
Lemma carry_on_length {R} junk history : forall s : dpool R, length (snd (carry_on junk history s)) = length (snd s).
Proof.
  induction history as [|e history IH]; intros s; [reflexivity|]. cbn [carry_on]. rewrite IH. destruct e as [i|i p l d]; cbn [done].
  - exact (dinterleave_length junk [i] s).
  - destruct (nth_error (snd s) i); [|reflexivity]. destruct (scratch _ _ _ _); [|reflexivity]. now destruct (digit_store _ _ _ _).
Qed.
Lemma carry_on_progress {R} junk (s0 : dpool R) history i : (i < length (snd s0))%nat ->
  (forall h, let '(m', ts) := carry_on junk h s0 in ~ digit_race ts /\ ~ In (DAt HUndef) ts /\ ~ In (DAt HPanic) ts /\ ~ In (DAt HFuel) ts) ->
  exists n r, nth_error (snd (carry_on junk (history ++ map Goes (repeat i n)) s0)) i = Some (DAt (HRet r)).
Proof.
  intros Hi Q. destruct (dprogress junk (carry_on junk history s0) [] i) as (n & r & En); [now rewrite carry_on_length| |].
  - intros sch. specialize (Q (history ++ map Goes sch)). rewrite carry_on_app, carry_on_goes in Q. exact Q.
  - exists n, r. rewrite carry_on_app, carry_on_goes. exact En.
Qed.

(** * No conflicts *)
Lemma owned_only {R} S (posts : list (ends R)) Ls s i L p : dpool_ok S posts Ls s -> nth_error Ls i = Some L -> In p (map addr (owned L)) ->
  (p < length (blocks (fst s)))%nat /\ ~ In p (map addr S) /\ forall j L, j <> i -> nth_error Ls j = Some L -> ~ In p (map addr (owned L)).
Proof.
  intros [H _] EL Io. split; [|split; [exact (shared_not_owned _ _ _ _ i L _ H EL Io)|]].
  - destruct (owned_alive _ _ _ _ i L _ H EL Io) as (ds & X). cbn [fst] in X. apply nth_error_Some. congruence.
  - intros j L2 N E2 I2. assert (Hj : exists h, nth_error (snd (fst s, map pending (snd s))) j = Some h).
    { destruct (nth_error (snd (fst s, map pending (snd s))) j) eqn:X; [eauto|]. exfalso. apply nth_error_None in X. rewrite <- (pool_length _ _ _ _ H) in X.
      assert (j < length Ls)%nat by (apply nth_error_Some; congruence). lia. }
    destruct Hj as (h & Ej). destruct (pool_safe _ _ _ _ H j h Ej) as (L3 & _ & E3 & _ & _ & P3). assert (L3 = L2) by congruence. subst L3.
    apply (pool_apart S posts Ls _ i j L L2 p H ltac:(auto) EL E2 P3 Io).
    apply in_map_iff in I2 as (c & Ec & I2). apply in_map_iff. exists c. split; [exact Ec|]. now apply filter_In in I2.
Qed.
Lemma deed_ok {R} junk S (posts : list (ends R)) Ls s e : dpool_ok S posts Ls s ->
  exists i L', dpool_ok S posts (update i L' Ls) (done junk e s) /\ (length (blocks (fst s)) <= length (blocks (fst (done junk e s))))%nat /\
    (forall L p, nth_error Ls i = Some L -> In p (map addr (owned L')) -> (p < length (blocks (fst s)))%nat -> In p (map addr (owned L))) /\
    forall k a, In (k, a) (access_of e s) -> k = i /\ exists L, nth_error Ls i = Some L /\ (buffer a < length (blocks (fst s)))%nat /\
      (In (buffer a) (map addr S) /\ harmless a \/ ~ In (buffer a) (map addr S) /\ In (buffer a) (map addr (owned L)) /\
        forall j L, j <> i -> nth_error Ls j = Some L -> ~ In (buffer a) (map addr (owned L))).
Proof.
  intros H. destruct e as [i|i p l d]; cbn [done access_of].
  - destruct (dturn_ok junk i S posts Ls s H) as (L' & H'). exists i, L'. split; [exact H'|]. split; [|split].
    + destruct (le_lt_dec (length (blocks (fst s))) 0) as [|B]; [lia|]. pose proof (proj1 (dead_stays junk i s (length (blocks (fst s)) - 1) ltac:(lia))). lia.
    + intros L p EL I B. exact (owned_before junk S posts Ls s i L L' p H H' EL I B).
    + intros k a I. destruct (nth_error (snd s) i) as [t|] eqn:E; [|destruct I]. destruct (next_access t) as [b|] eqn:Eb; [|destruct I].
      destruct I as [I|[]]. injection I as <- <-. split; [reflexivity|]. exact (next_mine S posts Ls s i t b H E Eb).
  - assert (Idle : exists i L', dpool_ok S posts (update i L' Ls) s /\ (length (blocks (fst s)) <= length (blocks (fst s)))%nat /\
      (forall L p, nth_error Ls i = Some L -> In p (map addr (owned L')) -> (p < length (blocks (fst s)))%nat -> In p (map addr (owned L)))).
    { exists (length Ls), []. rewrite update_out by (apply nth_error_None; lia). split; [exact H|]. split; [lia|]. intros L q X. exfalso.
      assert (length Ls < length Ls)%nat by (apply nth_error_Some; congruence). lia. }
    destruct s as [m ts]. cbn [fst snd] in *. destruct (nth_error ts i) as [t|] eqn:E.
    2: { destruct Idle as (k & L' & A & B & C). exists k, L'. split; [exact A|]. split; [exact B|]. split; [exact C|]. intros ? ? []. }
    destruct (scratch p l t m) eqn:D.
    2: { destruct Idle as (k & L' & A & B & C). exists k, L'. split; [exact A|]. split; [exact B|]. split; [exact C|]. intros ? ? []. }
    destruct (scribble_ok S posts Ls m ts i t p l d H E D) as (L & L' & m' & EL & Io & Eo & -> & Lb & H'). exists i, L'. split; [exact H'|]. cbn [fst].
    split; [lia|]. split; [intros L0 q EL0 I _; assert (L0 = L) by congruence; subst L0; now rewrite Eo in I|].
    intros k a [I|[]]. injection I as <- <-. split; [reflexivity|]. exists L. split; [exact EL|]. cbn [buffer].
    destruct (owned_only S posts Ls (m, ts) i L p H EL Io) as (B & C & F). split; [exact B|]. right. auto.
Qed.
Lemma accesses_of_apart {R} junk S (posts : list (ends R)) history : forall Ls s log, dpool_ok S posts Ls s -> logged S Ls s log -> apart S log ->
  apart S (log ++ accesses_of junk history s).
Proof.
  induction history as [|e history IH]; intros Ls s log H Hl Ha; [cbn [accesses_of]; now rewrite app_nil_r|]. cbn [accesses_of]. rewrite app_assoc.
  destruct (deed_ok junk S posts Ls s e H) as (i & L' & H' & Grow & Before & Mine). apply (IH (update i L' Ls)); [exact H'| |].
  - intros k a I. assert (B : (buffer a < length (blocks (fst s)))%nat /\ (In (buffer a) (map addr S) /\ harmless a \/
      ~ In (buffer a) (map addr S) /\ forall j L, j <> k -> nth_error Ls j = Some L -> ~ In (buffer a) (map addr (owned L)))).
    { apply in_app_or in I as [I|I]; [exact (Hl k a I)|]. destruct (Mine k a I) as (-> & L & _ & B & C). split; [exact B|]. tauto. }
    clear I. destruct B as (B & C). split; [lia|]. destruct C as [C|(C & D)]; [now left|right]. split; [exact C|].
    intros j L N E I. destruct (Nat.eq_dec i j) as [<-|N'].
    + destruct (nth_error Ls i) as [L0|] eqn:E0.
      * rewrite (nth_update_same _ _ _ _ E0) in E. injection E as <-. apply (D i L0 N E0). exact (Before L0 _ eq_refl I B).
      * rewrite update_out in E by exact E0. congruence.
    + rewrite nth_update_other in E by exact N'. exact (D j L N E I).
  - assert (Mix : forall j a b, In (j, a) log -> j <> i -> forall k, In (k, b) (access_of e s) ->
      buffer a = buffer b -> In (buffer a) (map addr S) /\ harmless a /\ harmless b).
    { intros j a b Ia N k Ib Eq. destruct (Mine k b Ib) as (-> & L & EL & _ & C). destruct (Hl j a Ia) as (_ & D). rewrite Eq in *.
      destruct C as [C|C], D as [D|D]; try tauto. exfalso. exact (proj2 D i L ltac:(auto) EL (proj1 (proj2 C))). }
    intros k j a b Ia Ib N Eq. destruct (in_app_or _ _ _ Ia) as [Ka|Ka], (in_app_or _ _ _ Ib) as [Jb|Jb]; clear Ia; rename Ka into Ia.
    + exact (Ha k j a b Ia Jb N Eq).
    + destruct (Mine j b Jb) as (-> & _). exact (Mix k a b Ia N i Jb Eq).
    + destruct (Mine k a Ia) as (-> & _). destruct (Mix j b a Jb ltac:(auto) i Ia ltac:(auto)) as (X & Y & Z). rewrite Eq. auto.
    + destruct (Mine k a Ia) as (-> & _), (Mine j b Jb) as (-> & _). contradiction.
Qed.

(** * [ApInt] *)
Lemma scratch_race_free_fact junk setup slack give programs vs m history : forked_catching setup slack give programs vs m ->
  let '(m', ts) := carry_on junk history (m, map DAt (spawn_catching 0 give vs programs)) in
  ~ digit_race ts /\ ~ In (DAt HUndef) ts /\ ~ In (DAt HPanic) ts /\ ~ In (DAt HFuel) ts.
Proof.
  intros H. destruct (forked_catching_ok _ _ _ _ _ _ H) as (cs & S & Ls & _ & _ & P & _).
  destruct (carry_on_ok junk _ _ history _ _ (dpool_start _ _ _ _ _ P)) as (Ls' & [P' _]). destruct (carry_on junk history _) as (m' & ts).
  apply pending_race. exact (catching_race_free_pool _ _ _ _ _ _ _ P').
Qed.
Lemma scratch_isolated_fact junk setup slack give programs vs m history m' ts i p vs' r : forked_catching setup slack give programs vs m ->
  carry_on junk history (m, map DAt (spawn_catching 0 give vs programs)) = (m', ts) ->
  nth_error programs i = Some p -> nth_error ts i = Some (DAt (HRet (vs', r))) ->
  let (s', r') := athread (keeper give) (hand i give (fst (acatches [] setup))) p in
  r = r' /\ exists cs', Forall2 holds cs' s' /\ Forall2 (stored m') vs' cs'.
Proof.
  intros H Ei Ep Er. destruct (forked_catching_ok _ _ _ _ _ _ H) as (cs & S & Ls & _ & _ & P & _).
  destruct (carry_on_ok junk _ _ history _ _ (dpool_start _ _ _ _ _ P)) as (Ls' & [P' _]). rewrite Ei in P'. cbn [fst snd] in P'.
  apply (catching_isolated_pool _ _ _ _ _ _ _ i p vs' r P' Ep). now rewrite nth_error_map, Er.
Qed.
Lemma scratch_lent_fact junk setup slack give programs vs m history : forked_catching setup slack give programs vs m ->
  exists cs, Forall2 holds cs (fst (acatches [] setup)) /\ Forall2 (stored m) vs cs /\
  let '(m', ts) := carry_on junk history (m, map DAt (spawn_catching 0 give vs programs)) in
  forall x v c, borrowed give x -> nth_error vs x = Some v -> nth_error cs x = Some c -> stored m' v c.
Proof.
  intros H. destruct (forked_catching_ok _ _ _ _ _ _ H) as (cs & S & Ls & Hh & St & P & KO & K6 & KU).
  exists cs. split; [exact Hh|]. split; [exact St|].
  destruct (carry_on_ok junk _ _ history _ _ (dpool_start _ _ _ _ _ P)) as (Ls' & [P' _]). destruct (carry_on junk history _) as (m' & ts).
  exact (lent_pool S _ Ls m _ Ls' m' _ vs cs give P P' K6 St).
Qed.
Lemma scratch_progress_fact junk setup slack give programs vs m history i : forked_catching setup slack give programs vs m -> (i < length programs)%nat ->
  exists n r, nth_error (snd (carry_on junk (history ++ map Goes (repeat i n)) (m, map DAt (spawn_catching 0 give vs programs)))) i = Some (DAt (HRet r)).
Proof.
  intros H Hi. apply carry_on_progress; [cbn [snd]; now rewrite map_length, spawn_catching_length|].
  intros sch. exact (scratch_race_free_fact junk _ _ _ _ _ _ sch H).
Qed.
Lemma scratch_join_fact junk setup slack give programs vs m history m' ts : forked_catching setup slack give programs vs m ->
  carry_on junk history (m, map DAt (spawn_catching 0 give vs programs)) = (m', ts) -> Forall (fun t => exists r, t = DAt (HRet r)) ts ->
  forall p ds, nth_error (blocks m') p = Some (Some ds) -> exists! o, owner give vs (map pending ts) o p.
Proof.
  intros H Ei Hr. destruct (forked_catching_ok _ _ _ _ _ _ H) as (cs & S & Ls & _ & _ & P & KO & K6 & KU).
  destruct (carry_on_ok junk _ _ history _ _ (dpool_start _ _ _ _ _ P)) as (Ls' & [P' _]). rewrite Ei in P'.
  exact (catching_join_pool _ _ _ _ _ _ _ _ P' K6 KU (pending_all _ Hr)).
Qed.
Lemma scratch_trace_fact junk setup slack give programs vs m history i j a b : forked_catching setup slack give programs vs m ->
  let log := accesses_of junk history (m, map DAt (spawn_catching 0 give vs programs)) in
  In (i, a) log -> In (j, b) log -> i <> j -> buffer a = buffer b ->
  harmless a /\ harmless b /\ exists x, borrowed give x /\ points_to vs x (buffer a).
Proof.
  intros H log Ia Ib N E. destruct (forked_catching_ok _ _ _ _ _ _ H) as (cs & S & Ls & _ & _ & P & _ & B & _).
  destruct (accesses_of_apart junk S _ history Ls _ [] (dpool_start _ _ _ _ _ P)) with (i := i) (j := j) (a := a) (b := b) as (X & Y & Z); auto.
  - intros k c [].
  - intros k l c d [].
  - apply B in X. auto.
Qed.

(** * [UInt] and [Int] *)
Lemma tscratch_race_free_fact junk setup slack give programs vs m history : tforked setup slack give programs vs m ->
  let '(m', ts) := carry_on junk history (m, map DAt (tspawn 0 give vs programs)) in
  ~ digit_race ts /\ ~ In (DAt HUndef) ts /\ ~ In (DAt HPanic) ts /\ ~ In (DAt HFuel) ts.
Proof.
  intros H. destruct (tforked_ok _ _ _ _ _ _ H) as (cs & S & Ls & _ & _ & _ & P & _).
  destruct (carry_on_ok junk _ _ history _ _ (dpool_start _ _ _ _ _ P)) as (Ls' & [P' _]). destruct (carry_on junk history _) as (m' & ts).
  apply pending_race. exact (typed_race_free_pool _ _ _ _ _ _ _ P').
Qed.
Lemma tscratch_isolated_fact junk setup slack give programs vs m history m' ts i p vs' r : tforked setup slack give programs vs m ->
  carry_on junk history (m, map DAt (tspawn 0 give vs programs)) = (m', ts) ->
  nth_error programs i = Some p -> nth_error ts i = Some (DAt (HRet (vs', r))) ->
  let (s', r') := tathread (keeper give) (hand i give (fst (tacatches [] setup))) p in
  r = r' /\ Forall2 (in_memory m') vs' s'.
Proof.
  intros H Ei Ep Er. destruct (tforked_ok _ _ _ _ _ _ H) as (cs & S & Ls & _ & _ & _ & P & _).
  destruct (carry_on_ok junk _ _ history _ _ (dpool_start _ _ _ _ _ P)) as (Ls' & [P' _]). rewrite Ei in P'. cbn [fst snd] in P'.
  apply (typed_isolated_pool _ _ _ _ _ _ _ i p vs' r P' Ep). now rewrite nth_error_map, Er.
Qed.
Lemma tscratch_lent_fact junk setup slack give programs vs m history : tforked setup slack give programs vs m ->
  let '(m', ts) := carry_on junk history (m, map DAt (tspawn 0 give vs programs)) in
  forall x v t, borrowed give x -> nth_error vs x = Some v -> nth_error (fst (tacatches [] setup)) x = Some t -> in_memory m' v t.
Proof.
  intros H. destruct (tforked_ok _ _ _ _ _ _ H) as (cs & S & Ls & Hh & Kd & St & P & KO & K6 & KU).
  destruct (carry_on_ok junk _ _ history _ _ (dpool_start _ _ _ _ _ P)) as (Ls' & [P' _]). destruct (carry_on junk history _) as (m' & ts).
  exact (typed_lent_pool S _ Ls m _ Ls' m' _ vs cs _ give P P' K6 St Hh Kd).
Qed.
Lemma tscratch_progress_fact junk setup slack give programs vs m history i : tforked setup slack give programs vs m -> (i < length programs)%nat ->
  exists n r, nth_error (snd (carry_on junk (history ++ map Goes (repeat i n)) (m, map DAt (tspawn 0 give vs programs)))) i = Some (DAt (HRet r)).
Proof.
  intros H Hi. apply carry_on_progress; [cbn [snd]; now rewrite map_length, tspawn_length|].
  intros sch. exact (tscratch_race_free_fact junk _ _ _ _ _ _ sch H).
Qed.
Lemma tscratch_join_fact junk setup slack give programs vs m history m' ts : tforked setup slack give programs vs m ->
  carry_on junk history (m, map DAt (tspawn 0 give vs programs)) = (m', ts) -> Forall (fun t => exists r, t = DAt (HRet r)) ts ->
  forall p ds, nth_error (blocks m') p = Some (Some ds) -> exists! o, towner give vs (map pending ts) o p.
Proof.
  intros H Ei Hr. destruct (tforked_ok _ _ _ _ _ _ H) as (cs & S & Ls & _ & _ & _ & P & KO & K6 & KU).
  destruct (carry_on_ok junk _ _ history _ _ (dpool_start _ _ _ _ _ P)) as (Ls' & [P' _]). rewrite Ei in P'.
  exact (typed_join_pool _ _ _ _ _ _ _ _ P' K6 KU (pending_all _ Hr)).
Qed.
Lemma tscratch_trace_fact junk setup slack give programs vs m history i j a b : tforked setup slack give programs vs m ->
  let log := accesses_of junk history (m, map DAt (tspawn 0 give vs programs)) in
  In (i, a) log -> In (j, b) log -> i <> j -> buffer a = buffer b ->
  harmless a /\ harmless b /\ exists x, borrowed give x /\ points_to (inside vs) x (buffer a).
Proof.
  intros H log Ia Ib N E. destruct (tforked_ok _ _ _ _ _ _ H) as (cs & S & Ls & _ & _ & _ & P & _ & B & _).
  destruct (accesses_of_apart junk S _ history Ls _ [] (dpool_start _ _ _ _ _ P)) with (i := i) (j := j) (a := a) (b := b) as (X & Y & Z); auto.
  - intros k c [].
  - intros k l c d [].
  - apply B in X. auto.
Qed.
