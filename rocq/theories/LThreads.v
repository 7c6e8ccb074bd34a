(** Threads: facts about all schedules. *)
From Coq Require Import Permutation.
From Verif Require Export LHeap5 MThreads SpecThreads.

Definition lent (L : list cell) : list cell := filter (fun c => negb (fst (fst c))) L.
Definition owned (L : list cell) : list cell := filter (fun c => fst (fst c)) L.

Lemma filter_perm {A} (f : A -> bool) l l' : Permutation l l' -> Permutation (filter f l) (filter f l').
Proof.
  induction 1 as [|x l l' _ IH|x y l|l l' l'' _ IH1 _ IH2]; cbn.
  - constructor.
  - destruct (f x); [now constructor|exact IH].
  - destruct (f x), (f y); try reflexivity. apply perm_swap.
  - now transitivity (filter f l').
Qed.
Lemma owned_app L K : owned (L ++ K) = owned L ++ owned K.
Proof. apply filter_app. Qed.
Lemma lent_app L K : lent (L ++ K) = lent L ++ lent K.
Proof. apply filter_app. Qed.
Lemma partition_perm L : Permutation L (lent L ++ owned L).
Proof.
  induction L as [|[[b p] ds] L IH]; [constructor|]. cbn. destruct b; cbn.
  - etransitivity; [apply perm_skip, IH|]. apply Permutation_middle.
  - now constructor.
Qed.

(** * One turn *)
Lemma safe_tick {A} (h : HM A) post L F m : safe h L post -> live m (L ++ F) ->
  exists L', safe (fst (tick h m)) L' post /\ live (snd (tick h m)) (L' ++ F) /\ Permutation (lent L') (lent L).
Proof.
  intros H Hm. destruct h as [a| | | |ds k|p n k|p n k|p new k|n k]; cbn [tick safe fst snd] in *; try (exists L; auto; fail).
  - destruct (live_malloc m (L ++ F) ds Hm) as (N & Hm'). destruct (mem_malloc ds m) as (p & m'). cbn [fst snd] in *.
    exists ((true, p, ds) :: L). split; [|split; [exact Hm'|reflexivity]]. apply H. intros I. apply N. rewrite map_app. apply in_or_app. now left.
  - destruct H as (ds & L' & P & E & H). assert (Hm1 : live m ((true, p, ds) :: L' ++ F)).
    { eapply live_perm; [|exact Hm]. change ((true, p, ds) :: L' ++ F) with (((true, p, ds) :: L') ++ F). now apply Permutation_app_tail. }
    destruct (live_free m _ p ds n Hm1 E) as (m' & -> & Hm'). exists L'. split; [exact H|]. split; [exact Hm'|].
    apply (filter_perm (fun c => negb (fst (fst c)))) in P. symmetry. exact P.
  - destruct H as (b & ds & I & E & H). rewrite (live_load m (L ++ F) b p ds n Hm ltac:(apply in_or_app; now left) E).
    exists L. auto.
  - destruct H as (ds & L' & P & E & H). assert (Hm1 : live m ((true, p, ds) :: L' ++ F)).
    { eapply live_perm; [|exact Hm]. change ((true, p, ds) :: L' ++ F) with (((true, p, ds) :: L') ++ F). now apply Permutation_app_tail. }
    destruct (live_store m _ p ds new Hm1 E) as (m' & -> & Hm'). eexists. split; [exact H|]. split; [exact Hm'|].
    apply (filter_perm (fun c => negb (fst (fst c)))) in P. symmetry. exact P.
Qed.

(** * All threads *)
Definition ends (R : Type) : Type := outcome R -> list cell -> Prop.
(** [Ls] says what every thread may use: everything lent, and what it owns. *)
Record pool_ok {R : Type} (S : list cell) (posts : list (ends R)) (Ls : list (list cell)) (s : pool R) : Prop := mk_pool_ok {
  pool_length : length Ls = length (snd s);
  pool_safe : forall i h, nth_error (snd s) i = Some h ->
    exists L post, nth_error Ls i = Some L /\ nth_error posts i = Some post /\ safe h L post /\ Permutation (lent L) S;
  pool_live : live (fst s) (S ++ concat (map owned Ls)) }.

Lemma concat_update i (L L0 : list cell) Ls : nth_error Ls i = Some L0 ->
  Permutation (concat (map owned (update i L Ls))) (owned L ++ concat (map owned (update i [] Ls))).
Proof.
  revert i. induction Ls as [|L1 Ls IH]; intros [|i] E; cbn in *; try discriminate; [reflexivity|].
  rewrite (IH i E), !app_assoc. apply Permutation_app_tail, Permutation_app_comm.
Qed.

Lemma pool_focus S Ls i L : nth_error Ls i = Some L -> Permutation (lent L) S ->
  forall L', Permutation (lent L') S -> Permutation (S ++ concat (map owned (update i L' Ls))) (L' ++ concat (map owned (update i [] Ls))).
Proof.
  intros E P L' P'. rewrite (concat_update i L' L Ls E), app_assoc. apply Permutation_app_tail.
  rewrite (partition_perm L') at 2. apply Permutation_app_tail. now symmetry.
Qed.

Lemma update_out {A} i (a : A) l : nth_error l i = None -> update i a l = l.
Proof. revert i. induction l as [|x l IH]; intros [|i] H; cbn in *; try reflexivity; [discriminate|]. now rewrite IH. Qed.
(** Only what the thread may use changes. *)
Lemma turn_ok {R} i S (posts : list (ends R)) Ls s : pool_ok S posts Ls s -> exists L', pool_ok S posts (update i L' Ls) (turn i s).
Proof.
  intros [Hl Hs Hm]. unfold turn. destruct (nth_error (snd s) i) as [h|] eqn:E.
  2:{ exists []. rewrite update_out; [now constructor|]. apply nth_error_None in E. apply nth_error_None. lia. }
  destruct (Hs i h E) as (L & post & EL & EP & Sf & Pm).
  assert (Hm1 : live (fst s) (L ++ concat (map owned (update i [] Ls)))).
  { eapply live_perm; [|exact Hm]. rewrite <- (update_id i L Ls EL) at 1. exact (pool_focus S Ls i L EL Pm L Pm). }
  destruct (safe_tick h post L _ (fst s) Sf Hm1) as (L' & Sf' & Hm' & P'). destruct (tick h (fst s)) as (h' & m'). cbn [fst snd] in *.
  assert (Pm' : Permutation (lent L') S) by (now rewrite P').
  exists L'. constructor; cbn [fst snd].
  - now rewrite !update_length.
  - intros j k. destruct (Nat.eq_dec i j) as [<-|N].
    + rewrite (nth_update_same i h' h) by exact E. intros K. injection K as <-. exists L', post.
      rewrite (nth_update_same i L' L) by exact EL. auto.
    + rewrite !nth_update_other by exact N. apply Hs.
  - eapply live_perm; [symmetry; exact (pool_focus S Ls i L EL Pm L' Pm')|exact Hm'].
Qed.

Lemma interleave_ok {R} schedule : forall S (posts : list (ends R)) Ls s, pool_ok S posts Ls s -> exists Ls', pool_ok S posts Ls' (interleave schedule s).
Proof.
  induction schedule as [|i schedule IH]; intros S posts Ls s H; cbn [interleave]; [eauto|].
  destruct (turn_ok i S posts Ls s H) as (L1 & H1). exact (IH S posts _ _ H1).
Qed.

(** A thread has what it is about to use. *)
Lemma safe_touches {A} (h : HM A) L post p : safe h L post -> touches h p -> In p (map addr L).
Proof.
  intros H T. destruct h; cbn [safe touches] in *; try contradiction; subst.
  - destruct H as (ds & L' & P & _). apply (Permutation_in _ (Permutation_map addr (Permutation_sym P))). now left.
  - destruct H as (b & ds & I & _). apply in_map_iff. exists (b, p, ds). auto.
  - destruct H as (ds & L' & P & _). apply (Permutation_in _ (Permutation_map addr (Permutation_sym P))). now left.
Qed.
Lemma safe_overwrites {A} (h : HM A) L post p : safe h L post -> overwrites h p -> In p (map addr (owned L)).
Proof.
  intros H T. destruct h; cbn [safe overwrites] in *; try contradiction; subst; destruct H as (ds & L' & P & _);
    apply (filter_perm (fun c => fst (fst c))) in P; apply (Permutation_in _ (Permutation_map addr (Permutation_sym P))); now left.
Qed.

Lemma nodup_apart {A} (l k : list A) x : NoDup (l ++ k) -> In x l -> In x k -> False.
Proof.
  induction l as [|a l IH]; cbn [app]; intros N I J; [contradiction|]. apply NoDup_cons_iff in N as (N1 & N2).
  destruct I as [->|I]; [|eauto]. apply N1, in_or_app. now right.
Qed.

Lemma in_owned_other i j L Ls p : i <> j -> nth_error Ls j = Some L -> In p (map addr (owned L)) ->
  In p (map addr (concat (map owned (update i [] Ls)))).
Proof.
  intros N E I. rewrite in_map_iff in *. destruct I as (c & Ec & I). exists c. split; [exact Ec|]. apply in_concat.
  exists (owned L). split; [|exact I]. apply in_map. apply (nth_error_In _ j). rewrite nth_update_other; auto.
Qed.

(** What thread [i] owns, no other thread has. *)
Lemma pool_apart {R} S (posts : list (ends R)) Ls s i j L L' p : pool_ok S posts Ls s -> i <> j -> nth_error Ls i = Some L -> nth_error Ls j = Some L' ->
  Permutation (lent L') S -> In p (map addr (owned L)) -> ~ In p (map addr L').
Proof.
  intros [Hl Hs Hm] N E E' P I I'. destruct Hm as (ND & _).
  assert (I1 : In p (map addr (concat (map owned Ls)))).
  { apply in_map_iff in I as (c & Ec & I). apply in_map_iff. exists c. split; [exact Ec|]. apply in_concat. exists (owned L).
    split; [|exact I]. apply in_map, (nth_error_In _ i), E. }
  rewrite map_app in ND. apply (Permutation_in _ (Permutation_map addr (partition_perm L'))) in I'. rewrite map_app in I'.
  apply in_app_or in I' as [I'|I'].
  - apply (nodup_apart _ _ p ND); [|exact I1]. exact (Permutation_in _ (Permutation_map addr P) I').
  - apply nodup_tail in ND. rewrite <- (update_id i L Ls E) in ND.
    apply (Permutation_NoDup (Permutation_map addr (concat_update i L L Ls E))) in ND. rewrite map_app in ND.
    apply (nodup_apart _ _ p ND I). exact (in_owned_other i j L' Ls p N E' I').
Qed.

Lemma pool_race {R} S (posts : list (ends R)) Ls s : pool_ok S posts Ls s -> ~ data_race (snd s) /\ ~ In HUndef (snd s).
Proof.
  intros H. split.
  - intros (i & j & a & b & p & N & Ea & Eb & O & T).
    destruct (pool_safe _ _ _ _ H i a Ea) as (L & post & E1 & _ & S1 & _).
    destruct (pool_safe _ _ _ _ H j b Eb) as (L' & post' & E2 & _ & S2 & P).
    exact (pool_apart S posts Ls s i j L L' p H N E1 E2 P (safe_overwrites a L post p S1 O) (safe_touches b L' post' p S2 T)).
  - intros I. apply In_nth_error in I as (i & E). destruct (pool_safe _ _ _ _ H i _ E) as (L & post & _ & _ & S1 & _). exact S1.
Qed.

(** * Handing out the variables *)
Definition unown (c : cell) : cell := (false, addr c, snd c).
Definition core (c : cell) : nat * list Z := (addr c, snd c).

Lemma repr_lend a x L : repr a x L -> reprb false a x (map unown L).
Proof.
  intros (H1 & H2 & H3 & H4). unfold reprb. destruct (storage (len x)).
  - destruct H4 as (d & E1 & E2 & ->). split; [exact H1|]. split; [exact H2|]. split; [exact H3|]. eauto.
  - destruct H4 as (p & E & ->). split; [exact H1|]. split; [exact H2|]. split; [exact H3|]. eauto.
Qed.
Lemma repr_owned a x L : repr a x L -> owned L = L /\ lent L = [].
Proof. intros (_ & _ & _ & H). destruct (storage (len x)); [destruct H as (d & _ & _ & ->)|destruct H as (p & _ & ->)]; auto. Qed.

Lemma live_core m L L' : Permutation (map core L) (map core L') -> live m L -> live m L'.
Proof.
  intros P (N & H). assert (A : forall K, map addr K = map fst (map core K)) by (intros K; rewrite map_map; reflexivity). split.
  - rewrite A in *. eapply Permutation_NoDup; [|exact N]. now apply Permutation_map.
  - assert (X : forall K p ds, (exists b, In (b, p, ds) K) <-> In (p, ds) (map core K)).
    { intros K p ds. rewrite in_map_iff. split.
      - intros (b & I). exists (b, p, ds). auto.
      - intros (((b & q) & es) & E & I). unfold core, addr in E. cbn in E. injection E as -> ->. eauto. }
    intros p ds. rewrite H, !X. split; apply Permutation_in; [exact P|now symmetry].
Qed.

Lemma concat_at {A} j (La : list A) (O : nat -> list A) l : NoDup l ->
  Permutation (concat (map (fun i => if Nat.eqb i j then La ++ O i else O i) l)) ((if in_dec Nat.eq_dec j l then La else []) ++ concat (map O l)).
Proof.
  induction l as [|a l IH]; intros N; [reflexivity|]. apply NoDup_cons_iff in N as (N1 & N2). specialize (IH N2).
  cbn [map concat]. destruct (Nat.eqb_spec a j) as [->|D].
  - rewrite IH. destruct (in_dec Nat.eq_dec j l); [contradiction|]. destruct (in_dec Nat.eq_dec j (j :: l)) as [_|X]; [|exfalso; apply X; now left].
    cbn [app]. now rewrite app_assoc.
  - rewrite IH. destruct (in_dec Nat.eq_dec j l) as [I|I]; destruct (in_dec Nat.eq_dec j (a :: l)) as [J|J].
    + rewrite !app_assoc. apply Permutation_app_tail, Permutation_app_comm.
    + exfalso. apply J. now right.
    + exfalso. destruct J as [J|J]; [now apply D|contradiction].
    + reflexivity.
Qed.

Lemma lent_unown L : lent (map unown L) = map unown L.
Proof. induction L as [|c L IH]; [reflexivity|]. cbn [map]. change (lent (unown c :: map unown L)) with (unown c :: lent (map unown L)). now rewrite IH. Qed.
Lemma owned_unown L : owned (map unown L) = [].
Proof. induction L as [|c L IH]; [reflexivity|exact IH]. Qed.

Lemma hand_fact n vs cs L : srepr all_owned vs cs L -> forall give, length give = length vs ->
  (forall x i, nth_error give x = Some (Some i) -> (i < n)%nat) ->
  exists S O, (forall i, sown (keeper give) (hand i give vs) (hand i give cs) (S ++ O i)) /\
    (forall i, owned (O i) = O i /\ lent (O i) = []) /\ lent S = S /\ owned S = [] /\
    Permutation (map core L) (map core (S ++ concat (map O (seq 0 n)))) /\
    (forall p, In p (map addr S) <-> exists x, borrowed give x /\ points_to vs x p).
Proof.
  intros H. remember all_owned as g eqn:Eg.
  induction H as [g|g hs cs L H IH|g a x La hs cs L Ha H IH]; intros give El Hn.
  - exists [], (fun _ => []). destruct give; [|discriminate]. split; [intros i; exists []; split; [reflexivity|constructor]|].
    split; [auto|]. split; [reflexivity|]. split; [reflexivity|]. split.
    + cbn [app]. clear. generalize (seq 0 n). intros l. induction l; [reflexivity|exact IHl].
    + intros p. split; [contradiction|]. intros (x & B & _). destruct x; discriminate.
  - destruct give as [|w give]; [discriminate|]. cbn in El. injection El as El.
    assert (Hn' : forall x i, nth_error give x = Some (Some i) -> (i < n)%nat) by (intros x i; exact (Hn (S x) i)).
    subst g. destruct (IH eq_refl give El Hn') as (S & O & K1 & K2 & K3 & K4 & K5 & K6). exists S, O. split; [|split; [exact K2|]; split; [exact K3|]; split; [exact K4|]; split; [exact K5|]].
    + intros i. destruct (K1 i) as (L' & P & K). exists L'. split; [exact P|]. cbn [hand].
      assert (Z : forall A : Type, match w with Some j => if Nat.eqb i j then None else None | None => None end = @None A).
      { intros A. destruct w as [j|]; [|reflexivity]. destruct (Nat.eqb i j); reflexivity. }
      rewrite !Z. constructor. exact K.
    + intros p. rewrite K6. split.
      * intros (x & B & (b & Q)). exists (Datatypes.S x). split; [exact B|]. exists b. exact Q.
      * intros ([|x] & B & (b & Q & R)); [discriminate|]. exists x. split; [exact B|]. exists b. auto.
  - destruct give as [|w give]; [discriminate|]. cbn in El. injection El as El.
    assert (Hn' : forall x i, nth_error give x = Some (Some i) -> (i < n)%nat) by (intros y i; exact (Hn (S y) i)).
    subst g. destruct (IH eq_refl give El Hn') as (S & O & K1 & K2 & K3 & K4 & K5 & K6). change (reprb true a x La) in Ha.
    destruct (repr_owned a x La Ha) as (Oa & La0). destruct w as [j|].
    + exists S, (fun i => if Nat.eqb i j then La ++ O i else O i).
      split; [|split; [|split; [exact K3|]; split; [exact K4|]; split]].
      * intros i. cbn [hand]. destruct (K1 i) as (L' & P & K). destruct (Nat.eqb i j).
        -- exists (La ++ L'). split; [|apply srepr_some; [exact Ha|exact K]].
           rewrite <- P. rewrite !app_assoc. apply Permutation_app_tail, Permutation_app_comm.
        -- exists L'. split; [exact P|]. apply srepr_none. exact K.
      * intros i. destruct (K2 i) as (A1 & A2). destruct (Nat.eqb i j); [|auto]. rewrite owned_app, lent_app, A1, A2, Oa, La0. auto.
      * assert (J : In j (seq 0 n)) by (apply in_seq; pose proof (Hn 0%nat j eq_refl); lia).
        pose proof (concat_at j La O (seq 0 n) (seq_NoDup n 0)) as C. destruct (in_dec Nat.eq_dec j (seq 0 n)); [|contradiction].
        rewrite !map_app. rewrite (Permutation_map core C). rewrite map_app. rewrite K5. rewrite map_app, !app_assoc.
        apply Permutation_app_tail, Permutation_app_comm.
      * intros p. rewrite K6. split.
        -- intros (y & B & (b & Q)). exists (Datatypes.S y). split; [exact B|]. exists b. exact Q.
        -- intros ([|y] & B & (b & Q & R)); [discriminate|]. exists y. split; [exact B|]. exists b. auto.
    + exists (map unown La ++ S), O. split; [|split; [exact K2|split; [|split; [|split]]]].
      * intros i. cbn [hand]. destruct (K1 i) as (L' & P & K). exists (map unown La ++ L').
        split; [rewrite <- app_assoc; now apply Permutation_app_head|]. apply srepr_some; [exact (repr_lend a x La Ha)|exact K].
      * rewrite lent_app, K3, lent_unown. reflexivity.
      * rewrite owned_app, K4, owned_unown. reflexivity.
      * rewrite !map_app. rewrite K5, map_app, app_assoc. replace (map core (map unown La)) with (map core La); [reflexivity|].
        rewrite map_map. reflexivity.
      * intros p. rewrite map_app, in_app_iff, K6. pose proof Ha as (R1 & R2 & R3 & R4). split.
        -- intros [I|(y & B & (b & Q))].
           ++ exists 0%nat. split; [reflexivity|]. exists a. split; [reflexivity|]. destruct (storage (len x)).
              ** destruct R4 as (d & _ & _ & ->). contradiction.
              ** destruct R4 as (q & Eq & ->). destruct I as [I|[]]. unfold addr in I. cbn in I. congruence.
           ++ exists (Datatypes.S y). split; [exact B|]. exists b. exact Q.
        -- intros ([|y] & B & (b & Q & R)); [left|right; exists y; split; [exact B|]; exists b; auto]. cbn in Q. injection Q as ->.
           destruct (storage (len x)); [destruct R4 as (d & _ & E & _); congruence|]. destruct R4 as (q & Eq & ->).
           left. unfold addr. cbn. congruence.
Qed.

Lemma hand_length {A} i give : forall vs : list (option A), length give = length vs -> length (hand i give vs) = length vs.
Proof. induction give as [|w give IH]; intros [|v vs] E; cbn in *; try discriminate; auto. Qed.
Lemma hand_holds i give : forall cs s, Forall2 holds cs s -> Forall2 holds (hand i give cs) (hand i give s).
Proof.
  induction give as [|w give IH]; intros cs s H; [constructor|]. destruct H as [|c a cs s Ha H]; [constructor|]. cbn [hand].
  constructor; [|now apply IH]. destruct w as [j|]; [|exact Ha]. destruct (Nat.eqb i j); [exact Ha|exact Logic.I].
Qed.

Lemma spawn_nth give vs programs : forall k i, nth_error (spawn k give vs programs) i =
  match nth_error programs i with Some p => Some (hrun (hand (k + i) give vs) p) | None => None end.
Proof.
  induction programs as [|p programs IH]; intros k [|i]; cbn [spawn nth_error]; auto.
  - now rewrite Nat.add_0_r.
  - rewrite IH. now replace (S k + i)%nat with (k + S i)%nat by lia.
Qed.
Lemma spawn_length give vs programs : forall k, length (spawn k give vs programs) = length programs.
Proof. induction programs as [|p programs IH]; intros k; cbn; auto. Qed.

Definition thread_post (give : sharing) (cs : vars) (i : nat) (p : list cmd) : ends (hvars * list obs) :=
  ending (crun (hand i give cs) p) (rpost (keeper give)) [].
Fixpoint thread_posts (k : nat) (give : sharing) (cs : vars) (programs : list (list cmd)) : list (ends (hvars * list obs)) :=
  match programs with [] => [] | p :: programs => thread_post give cs k p :: thread_posts (S k) give cs programs end.
Lemma thread_posts_nth give cs programs : forall k i, nth_error (thread_posts k give cs programs) i =
  match nth_error programs i with Some p => Some (thread_post give cs (k + i) p) | None => None end.
Proof.
  induction programs as [|p programs IH]; intros k [|i]; cbn [thread_posts nth_error]; auto.
  - now rewrite Nat.add_0_r.
  - rewrite IH. now replace (S k + i)%nat with (k + S i)%nat by lia.
Qed.

Lemma nth_seq k n i : (i < n)%nat -> nth_error (seq k n) i = Some (k + i)%nat.
Proof. revert k i. induction n as [|n IH]; intros k [|i] H; cbn; try lia; [now rewrite Nat.add_0_r|]. rewrite IH by lia. f_equal. lia. Qed.

Lemma keeper_borrowed give x : borrowed give x <-> keeper give x = false.
Proof. unfold borrowed, keeper. destruct (nth_error give x) as [[j|]|]; split; congruence. Qed.
Lemma keeper_opens i give {A} (vs : list (option A)) : length give = length vs -> opens (keeper give) (length (hand i give vs)).
Proof.
  intros E k Hk. rewrite hand_length in Hk by exact E. unfold keeper.
  assert (nth_error give k = None) as -> by (apply nth_error_None; lia). reflexivity.
Qed.
Lemma keeper_allowed give c : (forall x, In x (writes c) -> ~ borrowed give x) -> allowed (keeper give) c.
Proof. intros H x Hx. specialize (H x Hx). rewrite keeper_borrowed in H. destruct (keeper give x); congruence. Qed.

(** Threads that are given what [give] says. *)
Lemma start_ok {R} give vs cs L0 m (posts : list (ends R)) threads : srepr all_owned vs cs L0 -> live m L0 -> length give = length vs ->
  (forall x i, nth_error give x = Some (Some i) -> (i < length threads)%nat) ->
  (forall i h, nth_error threads i = Some h -> exists post, nth_error posts i = Some post /\
     forall L, sown (keeper give) (hand i give vs) (hand i give cs) L -> safe h L post) ->
  exists S Ls, pool_ok S posts Ls (m, threads) /\
    owned S = [] /\ (forall p, In p (map addr S) <-> exists x, borrowed give x /\ points_to vs x p) /\
    (forall x y p, points_to vs x p -> points_to vs y p -> x = y).
Proof.
  intros Hs Hm H3 H4 H5. destruct (hand_fact (length threads) vs cs L0 Hs give H3 H4) as (S & O & K1 & K2 & K3 & K4 & K5 & K6).
  exists S, (map (fun i => S ++ O i) (seq 0 (length threads))).
  split; [|split; [exact K4|split; [exact K6|]]].
  - constructor; cbn [fst snd].
    + now rewrite map_length, seq_length.
    + intros i h Eh. destruct (H5 i h Eh) as (post & Ep & Hp). exists (S ++ O i), post.
      assert (Li : (i < length threads)%nat) by (apply nth_error_Some; congruence). split; [|split; [exact Ep|split]].
      * rewrite nth_error_map, nth_seq by exact Li. reflexivity.
      * apply Hp, K1.
      * destruct (K2 i) as (_ & K). rewrite lent_app, K3, K, app_nil_r. reflexivity.
    + assert (Q : map owned (map (fun i => S ++ O i) (seq 0 (length threads))) = map O (seq 0 (length threads))).
      { rewrite map_map. apply map_ext. intros i. destruct (K2 i) as (K & _). rewrite owned_app, K4, K. reflexivity. }
      rewrite Q. exact (live_core m L0 _ K5 Hm).
  - intros x y p. exact (srepr_unique _ vs cs L0 Hs (proj1 Hm) x y p).
Qed.

Lemma forked_ok setup slack give programs vs m : forked setup slack give programs vs m ->
  exists cs s os S Ls, crun [] setup = Val (cs, os) /\ arun [] setup = Some (s, os) /\ Forall2 holds cs s /\
    pool_ok S (thread_posts 0 give cs programs) Ls (m, spawn 0 give vs programs) /\
    owned S = [] /\ (forall p, In p (map addr S) <-> exists x, borrowed give x /\ points_to vs x p) /\
    (forall x y p, points_to vs x p -> points_to vs y p -> x = y).
Proof.
  intros (H1 & (os & H2) & H3 & H4 & H5). pose proof (setup_fact setup slack H1) as F. pose proof (simulation_fact setup H1) as Sm.
  destruct (crun [] setup) as [[cs os']| |]; [|congruence|contradiction]. destruct F as (vs' & m' & L & E & Hs & Hm).
  rewrite H2 in E. injection E as <- <- <-. destruct (arun [] setup) as [[s os']|]; [|discriminate]. destruct Sm as (cs' & Ec & Hc).
  apply Val_inj in Ec. injection Ec as <- <-. destruct Hs as (L0 & P0 & Hs). apply (live_perm m L L0 P0) in Hm.
  destruct (start_ok give vs cs L0 m (thread_posts 0 give cs programs) (spawn 0 give vs programs) Hs Hm H3) as (S & Ls & K).
  - rewrite spawn_length. exact H4.
  - intros i h. rewrite spawn_nth, thread_posts_nth. destruct (nth_error programs i) as [p|] eqn:Ep; [|discriminate]. intros E. injection E as <-.
    eexists. split; [reflexivity|]. intros L1 So. cbn [Nat.add].
    assert (Hp : Forall cmd_ok p /\ respects give p) by (rewrite Forall_forall in H5; apply H5; exact (nth_error_In _ i Ep)).
    destruct Hp as (Hp & Hr).
    assert (R : refines (hrun (hand i give vs) p) L1 (crun (hand i give cs) p) (rpost (keeper give))).
    { apply ref_run; [exact Hp| | |now apply keeper_opens|exact So].
      - unfold respects in Hr. eapply Forall_impl; [|exact Hr]. intros c. apply keeper_allowed.
      - exists (hand i give s). now apply hand_holds. }
    pose proof (R []) as R'. rewrite app_nil_r in R'. exact R'.
  - exists cs, s, os, S, Ls. auto.
Qed.

(** * Facts *)
Lemma race_free_fact setup slack give programs vs m schedule : forked setup slack give programs vs m ->
  let '(m', ts) := interleave schedule (m, spawn 0 give vs programs) in ~ data_race ts /\ ~ In HUndef ts.
Proof.
  intros H. destruct (forked_ok _ _ _ _ _ _ H) as (cs & s & os & S & Ls & _ & _ & _ & P & _).
  destruct (interleave_ok schedule _ _ _ _ P) as (Ls' & P'). destruct (interleave schedule _) as (m' & ts).
  exact (pool_race _ _ _ _ P').
Qed.

Lemma isolated_fact setup slack give programs vs m schedule : forked setup slack give programs vs m ->
  exists cs s os, crun [] setup = Val (cs, os) /\ arun [] setup = Some (s, os) /\
  let '(m', ts) := interleave schedule (m, spawn 0 give vs programs) in
  forall i p, nth_error programs i = Some p ->
    (nth_error ts i = Some HPanic -> arun (hand i give s) p = None) /\
    nth_error ts i <> Some HFuel /\
    forall vs' os', nth_error ts i = Some (HRet (vs', os')) ->
      exists cs' s', crun (hand i give cs) p = Val (cs', os') /\ arun (hand i give s) p = Some (s', os') /\
        Forall2 holds cs' s' /\ Forall2 (stored m') vs' cs'.
Proof.
  intros H. destruct (forked_ok _ _ _ _ _ _ H) as (cs & s & os & S & Ls & E1 & E2 & Hh & P & _).
  exists cs, s, os. split; [exact E1|]. split; [exact E2|].
  destruct (interleave_ok schedule _ _ _ _ P) as (Ls' & P'). destruct (interleave schedule _) as (m' & ts).
  intros i p Ep. destruct H as (_ & _ & _ & _ & H5). rewrite Forall_forall in H5. destruct (H5 p (nth_error_In _ i Ep)) as (Hp & _).
  pose proof (run_sim p Hp (hand i give cs) (hand i give s) (hand_holds i give cs s Hh)) as Sm.
  assert (T : forall h, nth_error ts i = Some h -> exists L, nth_error Ls' i = Some L /\ safe h L (thread_post give cs i p)).
  { intros h Eh. destruct (pool_safe _ _ _ _ P' i h Eh) as (L & post & EL & EP & Sf & _). exists L. split; [exact EL|].
    rewrite thread_posts_nth, Ep in EP. cbn [Nat.add] in EP. injection EP as <-. exact Sf. }
  unfold thread_post in T. split; [|split].
  - intros E. destruct (T _ E) as (L & _ & Sf). cbn [safe] in Sf. destruct (arun (hand i give s) p) as [[s' os']|]; [|reflexivity].
    destruct Sm as (cs' & Ec & _). rewrite Ec in Sf. destruct Sf as (? & ? & ? & _). discriminate.
  - intros E. destruct (T _ E) as (L & _ & Sf). cbn [safe] in Sf. destruct (arun (hand i give s) p) as [[s' os']|].
    + destruct Sm as (cs' & Ec & _). rewrite Ec in Sf. destruct Sf as (? & ? & ? & _). discriminate.
    + rewrite Sm in Sf. cbn in Sf. discriminate.
  - intros vs' os' E. destruct (T _ E) as (L & EL & Sf). cbn [safe] in Sf. destruct (arun (hand i give s) p) as [[s' os1]|].
    + destruct Sm as (cs' & Ec & Hh'). rewrite Ec in *. destruct Sf as ([vs1 os2] & L' & Ev & PL & (Eo & So)). cbn [fst snd] in *.
      rewrite app_nil_r in PL. apply Val_inj in Ev. injection Ev as <- <-. subst os1. exists cs', s'. split; [reflexivity|].
      split; [reflexivity|]. split; [exact Hh'|]. apply (sown_stored (keeper give) vs' cs' L' m'); [|exact So|exists s'; exact Hh'].
      intros b q ds I. apply (Permutation_in _ (Permutation_sym PL)) in I.
      pose proof (pool_live _ _ _ _ P') as Hm. cbn [fst] in Hm.
      destruct (pool_safe _ _ _ _ P' i _ E) as (L1 & post & EL1 & _ & _ & Pl). assert (L1 = L) by congruence. subst L1.
      apply (live_perm m' _ (L ++ concat (map owned (update i [] Ls')))) in Hm.
      * apply (live_in m' _ b q ds Hm). apply in_or_app. now left.
      * rewrite <- (update_id i L Ls' EL) at 1. exact (pool_focus S Ls' i L EL Pl L Pl).
    + rewrite Sm in Sf. cbn in Sf. discriminate.
Qed.

(** A thread on its own comes to an end. *)
Lemma tick_ends {A} (h : HM A) : forall m, exists n, match fst (Nat.iter n (fun '(h, m) => tick h m) (h, m)) with
  HRet _ | HPanic | HFuel | HUndef => True | _ => False end.
Proof.
  assert (Shift : forall n (x : HM A * mem), Nat.iter n (fun '(h, m) => tick h m) (tick (fst x) (snd x)) = Nat.iter (S n) (fun '(h, m) => tick h m) x).
  { intros n [h1 m1]. cbn [fst snd]. induction n as [|n IH]; [reflexivity|]. cbn [Nat.iter nat_rect] in *. unfold Nat.iter in *. cbn [nat_rect] in *.
    rewrite IH. reflexivity. }
  induction h as [a| | | |ds k IH|p n k IH|p n k IH|p new k IH|n k IH]; intros m; try (exists O; exact I).
  - destruct (IH (fst (mem_malloc ds m)) (snd (mem_malloc ds m))) as (j & H). exists (S j).
    rewrite <- Shift. cbn [fst snd tick]. destruct (mem_malloc ds m). exact H.
  - destruct (mem_free p n m) as [m'|] eqn:E.
    + destruct (IH m') as (j & H). exists (S j). rewrite <- Shift. cbn [fst snd tick]. rewrite E. exact H.
    + exists 1%nat. cbn. rewrite E. exact I.
  - destruct (mem_load p n m) as [ds|] eqn:E.
    + destruct (IH ds m) as (j & H). exists (S j). rewrite <- Shift. cbn [fst snd tick]. rewrite E. exact H.
    + exists 1%nat. cbn. rewrite E. exact I.
  - destruct (mem_store p new m) as [m'|] eqn:E.
    + destruct (IH m') as (j & H). exists (S j). rewrite <- Shift. cbn [fst snd tick]. rewrite E. exact H.
    + exists 1%nat. cbn. rewrite E. exact I.
  - destruct (IH (slack m n) m) as (j & H). exists (S j). rewrite <- Shift. exact H.
Qed.

Lemma interleave_app {R} p q : forall s : pool R, interleave (p ++ q) s = interleave q (interleave p s).
Proof. induction p as [|i p IH]; intros s; cbn; auto. Qed.

Lemma turns_iter {R} i n : forall (s : pool R) h, nth_error (snd s) i = Some h ->
  nth_error (snd (interleave (repeat i n) s)) i = Some (fst (Nat.iter n (fun '(h, m) => tick h m) (h, fst s))).
Proof.
  assert (Shift : forall n (x : HM R * mem), Nat.iter n (fun '(h, m) => tick h m) (tick (fst x) (snd x)) = Nat.iter (S n) (fun '(h, m) => tick h m) x).
  { intros k [h1 m1]. cbn [fst snd]. induction k as [|k IH]; [reflexivity|]. cbn [Nat.iter nat_rect] in *. unfold Nat.iter in *. cbn [nat_rect] in *.
    rewrite IH. reflexivity. }
  induction n as [|n IH]; intros s h E; [exact E|]. cbn [repeat interleave]. rewrite <- Shift. cbn [fst snd].
  unfold turn. rewrite E. destruct (tick h (fst s)) as (h' & m') eqn:Et.
  assert (E' : nth_error (snd (m', update i h' (snd s))) i = Some h') by (cbn [snd]; exact (nth_update_same i h' h (snd s) E)).
  rewrite (IH _ h' E'). reflexivity.
Qed.

Lemma progress_fact setup slack give programs vs m schedule i : forked setup slack give programs vs m -> (i < length programs)%nat ->
  exists n h, nth_error (snd (interleave (schedule ++ repeat i n) (m, spawn 0 give vs programs))) i = Some h /\ ended h.
Proof.
  intros H Hi. set (s0 := (m, spawn 0 give vs programs)).
  assert (X : exists h, nth_error (snd (interleave schedule s0)) i = Some h).
  { destruct (forked_ok _ _ _ _ _ _ H) as (cs & s & os & S & Ls & _ & _ & _ & P & _).
    assert (Ln : forall sch (s1 : pool (hvars * list obs)), length (snd (interleave sch s1)) = length (snd s1)).
    { clear. induction sch as [|j sch IH]; intros s1; [reflexivity|]. cbn [interleave]. rewrite IH. unfold turn.
      destruct (nth_error (snd s1) j); [|reflexivity]. destruct (tick h (fst s1)). cbn [snd]. apply update_length. }
    destruct (nth_error (snd (interleave schedule s0)) i) as [h|] eqn:E; [eauto|]. apply nth_error_None in E. rewrite Ln in E.
    unfold s0 in E. cbn [snd] in E. rewrite spawn_length in E. lia. }
  destruct X as (h & E). destruct (tick_ends h (fst (interleave schedule s0))) as (n & Hn).
  pose proof (turns_iter i n _ h E) as E'. rewrite <- interleave_app in E'. exists n. eexists. split; [exact E'|].
  pose proof (race_free_fact _ _ _ _ _ _ (schedule ++ repeat i n) H) as R. pose proof (isolated_fact _ _ _ _ _ _ (schedule ++ repeat i n) H) as Q.
  fold s0 in R, Q. destruct (interleave (schedule ++ repeat i n) s0) as (m' & ts). cbn [snd] in E'.
  destruct R as (_ & R). destruct Q as (cs & s & os & _ & _ & Q).
  destruct (nth_error programs i) as [p|] eqn:Ep; [|apply nth_error_None in Ep; lia]. destruct (Q i p Ep) as (_ & NF & _).
  destruct (fst (Nat.iter n _ _)) as [a| | | |ds k|q j k|q j k|q new k|j k]; cbn [ended]; auto; try contradiction.
  - exfalso. apply R. exact (nth_error_In _ i E').
Qed.

(** * Ownership when all threads have returned *)
(** [has i vs']: thread [i] has the variables [vs']. *)
Definition owner_by (has : nat -> hvars -> Prop) (give : sharing) (vs : hvars) (o : option nat * nat) (p : nat) : Prop :=
  match o with
  | (None, x) => borrowed give x /\ points_to vs x p
  | (Some i, x) => ~ borrowed give x /\ exists vs', has i vs' /\ points_to vs' x p
  end.
Lemma join_pool_by {R} (has : nat -> hvars -> Prop) S (posts : list (ends R)) Ls' m' ts give vs : pool_ok S posts Ls' (m', ts) ->
  (forall p, In p (map addr S) <-> exists x, borrowed give x /\ points_to vs x p) ->
  (forall x y p, points_to vs x p -> points_to vs y p -> x = y) ->
  (forall i vs', has i vs' -> (i < length ts)%nat) -> (forall i vs1 vs2, has i vs1 -> has i vs2 -> vs1 = vs2) ->
  (forall i L h post, nth_error ts i = Some h -> nth_error posts i = Some post -> safe h L post ->
    exists vs' cs' L', has i vs' /\ srepr (keeper give) vs' cs' L' /\ Permutation L L') ->
  forall p ds, nth_error (blocks m') p = Some (Some ds) -> exists! o, owner_by has give vs o p.
Proof.
  intros P' K6 KU Hl Hf HT p ds Hp. pose proof (keeper_borrowed give) as KK.
  assert (T : forall i L, nth_error Ls' i = Some L -> exists vs' cs' L', has i vs' /\ srepr (keeper give) vs' cs' L' /\
    Permutation L L' /\ Permutation (lent L) S).
  { intros i L E. assert (Li : (i < length ts)%nat).
    { rewrite <- (pool_length _ _ _ _ P' : length Ls' = length ts). apply nth_error_Some. congruence. }
    destruct (nth_error ts i) as [h|] eqn:Eh; [|apply nth_error_None in Eh; lia].
    destruct (pool_safe _ _ _ _ P' i _ Eh) as (L1 & post & EL & EP & Sf & Pl). assert (L1 = L) by congruence. subst L1.
    destruct (HT i L h post Eh EP Sf) as (vs' & cs' & L' & Hv & So & PL). exists vs', cs', L'. auto. }
  assert (ND : NoDup (map addr (S ++ concat (map owned Ls')))) by (exact (proj1 (pool_live _ _ _ _ P'))).
  assert (Own : forall i x, owner_by has give vs (Some i, x) p -> exists L, nth_error Ls' i = Some L /\ In p (map addr (owned L))).
  { intros i x (B & vs' & E & Q). assert (Li : (i < length Ls')%nat).
    { rewrite (pool_length _ _ _ _ P' : length Ls' = length ts). exact (Hl i vs' E). }
    destruct (nth_error Ls' i) as [L|] eqn:EL; [|apply nth_error_None in EL; lia]. exists L. split; [reflexivity|].
    destruct (T i L EL) as (vs1 & cs1 & L' & E' & So & PL & _). assert (vs1 = vs') by exact (Hf i _ _ E' E). subst vs1.
    destruct Q as (a & Ea & Pa). pose proof (srepr_focus _ _ _ _ So x) as F. rewrite Ea in F.
    destruct (nth_error cs1 x) as [[y|]|] eqn:Ey; try contradiction.
    assert (I : In (keeper give x, p, digits y) L') by (apply (srepr_in _ _ _ _ So); exists x, a, y; auto 6).
    assert (Kx : keeper give x = true) by (destruct (keeper give x) eqn:D; [reflexivity|]; exfalso; apply B, KK, D). rewrite Kx in I.
    apply in_map_iff. exists (true, p, digits y). split; [reflexivity|]. unfold owned. apply filter_In. split; [|reflexivity].
    exact (Permutation_in _ (Permutation_sym PL) I). }
  assert (Lst : forall L i, nth_error Ls' i = Some L -> In p (map addr (owned L)) -> In p (map addr (concat (map owned Ls')))).
  { intros L i E I. apply in_map_iff in I as (c & Ec & I). apply in_map_iff. exists c. split; [exact Ec|]. apply in_concat.
    exists (owned L). split; [apply in_map; exact (nth_error_In _ i E)|exact I]. }
  pose proof ND as ND'. rewrite map_app in ND'.
  assert (Uniq : forall o o', owner_by has give vs o p -> owner_by has give vs o' p -> o = o').
  { intros [[i|] x] [[j|] y] O1 O2.
    - destruct (Own i x O1) as (L1 & E1 & I1). destruct (Own j y O2) as (L2 & E2 & I2).
      assert (i = j) as ->.
      { destruct (Nat.eq_dec i j) as [->|N]; [reflexivity|]. exfalso. destruct (T j L2 E2) as (_ & _ & _ & _ & _ & _ & Pl).
        apply (pool_apart S _ Ls' _ i j L1 L2 p P' N E1 E2 Pl I1). apply in_map_iff in I2 as (c & Ec & I2). apply in_map_iff. exists c.
        split; [exact Ec|]. apply filter_In in I2. tauto. }
      destruct (T j L2 E2) as (vs1 & cs1 & L' & E' & So & PL & Pl). destruct O1 as (_ & va & Ea & Qa). destruct O2 as (_ & vb & Eb & Qb).
      assert (va = vs1) by exact (Hf j _ _ Ea E'). assert (vb = vs1) by exact (Hf j _ _ Eb E'). subst va vb. do 2 f_equal.
      apply (srepr_unique _ _ _ _ So) with (p := p); [|exact Qa|exact Qb].
      assert (N2 : NoDup (map addr (L2 ++ concat (map owned (update j [] Ls'))))).
      { eapply Permutation_NoDup; [|exact ND]. apply Permutation_map. rewrite <- (update_id j L2 Ls' E2) at 1. exact (pool_focus S Ls' j L2 E2 Pl L2 Pl). }
      rewrite map_app in N2. apply (Permutation_NoDup (Permutation_map addr PL)).
      clear - N2. induction (map addr L2) as [|a l IH]; [constructor|]. cbn in N2. apply NoDup_cons_iff in N2 as (A & C). constructor; [|auto].
      intros I. apply A, in_or_app. now left.
    - exfalso. destruct (Own i x O1) as (L1 & E1 & I1). apply (nodup_apart _ _ p ND'); [|exact (Lst L1 i E1 I1)]. apply K6. exists y. exact O2.
    - exfalso. destruct (Own j y O2) as (L1 & E1 & I1). apply (nodup_apart _ _ p ND'); [|exact (Lst L1 j E1 I1)]. apply K6. exists x. exact O1.
    - destruct O1 as (_ & Q1). destruct O2 as (_ & Q2). f_equal. exact (KU x y p Q1 Q2). }
  assert (Ex : exists o, owner_by has give vs o p).
  { apply (pool_live _ _ _ _ P') in Hp as (b & I). cbn [fst] in I. apply in_app_or in I as [I|I].
    - assert (J : In p (map addr S)) by (apply in_map_iff; exists (b, p, ds); auto). apply K6 in J as (x & J). exists (None, x). exact J.
    - apply in_concat in I as (M & IM & I). apply in_map_iff in IM as (L & <- & IL). apply In_nth_error in IL as (i & E).
      destruct (T i L E) as (vs' & cs' & L' & E' & So & PL & _). apply filter_In in I as (I & Ib). cbn in Ib. subst b.
      apply (Permutation_in _ PL) in I. apply (srepr_in _ _ _ _ So) in I as (x & a & y & E1 & _ & E3 & _ & E5).
      exists (Some i, x). split; [intros B; apply KK in B; congruence|]. exists vs'. split; [exact E'|]. exists a. auto. }
  destruct Ex as (o & O1). exists o. split; [exact O1|]. intros o' O2. exact (Uniq o o' O1 O2).
Qed.

Lemma join_pool {R} S (posts : list (ends (hvars * R))) Ls' m' ts give vs : pool_ok S posts Ls' (m', ts) ->
  (forall p, In p (map addr S) <-> exists x, borrowed give x /\ points_to vs x p) ->
  (forall x y p, points_to vs x p -> points_to vs y p -> x = y) ->
  Forall (fun h => exists r, h = HRet r) ts ->
  (forall i L vs' r post, nth_error ts i = Some (HRet (vs', r)) -> nth_error posts i = Some post -> safe (HRet (vs', r)) L post ->
    exists cs' L', srepr (keeper give) vs' cs' L' /\ Permutation L L') ->
  forall p ds, nth_error (blocks m') p = Some (Some ds) -> exists! o, owner give vs ts o p.
Proof.
  intros P' K6 KU Hr HT p ds Hp. set (has := fun i vs' => exists r, nth_error ts i = Some (HRet (vs', r))).
  assert (Eq : forall o, owner_by has give vs o p <-> owner give vs ts o p).
  { intros [[i|] x]; cbn [owner_by owner]; [|tauto]. split.
    - intros (B & vs' & (r & E) & Q). eauto 6.
    - intros (B & vs' & r & E & Q). split; [exact B|]. exists vs'. split; [now exists r|exact Q]. }
  destruct (join_pool_by has S posts Ls' m' ts give vs P' K6 KU) with (p := p) (ds := ds) as (o & O1 & U); [| | |exact Hp|].
  - intros i vs' (r & E). apply nth_error_Some. congruence.
  - intros i v1 v2 (r1 & E1) (r2 & E2). congruence.
  - intros i L h post Eh EP Sf. rewrite Forall_forall in Hr. destruct (Hr h (nth_error_In _ i Eh)) as ([vs' r] & ->).
    destruct (HT i L vs' r post Eh EP Sf) as (cs' & L' & K). exists vs', cs', L'. split; [now exists r|exact K].
  - exists o. split; [now apply Eq|]. intros o' O2. apply U. now apply Eq.
Qed.

Lemma join_fact setup slack give programs vs m schedule m' ts : forked setup slack give programs vs m ->
  interleave schedule (m, spawn 0 give vs programs) = (m', ts) -> Forall (fun h => exists r, h = HRet r) ts ->
  forall p ds, nth_error (blocks m') p = Some (Some ds) -> exists! o, owner give vs ts o p.
Proof.
  intros H Ei Hr. destruct (forked_ok _ _ _ _ _ _ H) as (cs & s & os & S & Ls & _ & _ & _ & P & KO & K6 & KU).
  destruct (interleave_ok schedule _ _ _ _ P) as (Ls' & P'). rewrite Ei in P'.
  apply (join_pool S _ Ls' m' ts give vs P' K6 KU Hr). intros i L vs' os' post Eh EP Sf.
  rewrite thread_posts_nth in EP. destruct (nth_error programs i) as [q|]; [|discriminate]. injection EP as <-.
  unfold thread_post in Sf. cbn [safe Nat.add] in Sf. destruct (crun (hand i give cs) q) as [[cs' os1]| |]; cbn [ending] in Sf; try discriminate.
  destruct Sf as ([vs1 os2] & L' & Ev & PL & (_ & L2 & P2 & So)). cbn [fst snd] in *. apply Val_inj in Ev. injection Ev as -> ->.
  rewrite app_nil_r in PL. exists cs', L2. split; [exact So|now transitivity L'].
Qed.

(** What was lent is as it was. *)

Lemma lent_pool {R} S (posts : list (ends R)) Ls m ts Ls' m' ts' vs cs give : pool_ok S posts Ls (m, ts) -> pool_ok S posts Ls' (m', ts') ->
  (forall p, In p (map addr S) <-> exists x, borrowed give x /\ points_to vs x p) -> Forall2 (stored m) vs cs ->
  forall x v c, borrowed give x -> nth_error vs x = Some v -> nth_error cs x = Some c -> stored m' v c.
Proof.
  intros P P' K6 St x v c B Ev Ec.
  assert (Sx : stored m v c).
  { clear - St Ev Ec. revert x Ev Ec. induction St as [|v0 c0 vs cs H0 St IH]; intros [|x] Ev Ec; cbn in *; try discriminate; [congruence|eauto]. }
  destruct v as [a|], c as [y|]; cbn [stored] in *; auto. destruct Sx as (A1 & A2 & A3 & A4). split; [exact A1|]. split; [exact A2|].
  split; [exact A3|]. intros G. destruct (A4 G) as (p & Ep & Eb). exists p. split; [exact Ep|].
  assert (I : In p (map addr S)) by (apply K6; exists x; split; [exact B|]; exists a; auto).
  apply in_map_iff in I as (((b & q) & ds) & Eq & I). unfold addr in Eq. cbn in Eq. subst q.
  pose proof (live_in m _ b p ds (pool_live _ _ _ _ P) (in_or_app _ _ _ (or_introl I))) as (X & _).
  pose proof (live_in m' _ b p ds (pool_live _ _ _ _ P') (in_or_app _ _ _ (or_introl I))) as (Y & _). cbn [fst] in *. congruence.
Qed.

Lemma lent_fact setup slack give programs vs m schedule : forked setup slack give programs vs m ->
  exists cs s os, crun [] setup = Val (cs, os) /\ arun [] setup = Some (s, os) /\ Forall2 holds cs s /\
  let '(m', ts) := interleave schedule (m, spawn 0 give vs programs) in
  forall x v c, borrowed give x -> nth_error vs x = Some v -> nth_error cs x = Some c -> stored m' v c.
Proof.
  intros H. destruct (forked_ok _ _ _ _ _ _ H) as (cs & s & os & S & Ls & E1 & E2 & Hh & P & KO & K6 & KU).
  exists cs, s, os. split; [exact E1|]. split; [exact E2|]. split; [exact Hh|].
  destruct (interleave_ok schedule _ _ _ _ P) as (Ls' & P'). destruct (interleave schedule _) as (m' & ts).
  destruct H as (H1 & (os' & H2) & _).
  assert (St : Forall2 (stored m) vs cs).
  { pose proof (setup_fact setup slack H1) as F. rewrite E1 in F. destruct F as (vs1 & m1 & L1 & E & So & Hm). rewrite H2 in E. injection E as <- _ <-.
    exact (proj1 (sown_order _ vs cs L1 m Hm So (ex_intro _ s Hh))). }
  exact (lent_pool S _ Ls m _ Ls' m' ts vs cs give P P' K6 St).
Qed.
