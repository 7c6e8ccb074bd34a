(** Threads on flat memory: facts about all schedules and all honest allocators. *)
From Coq Require Export Permutation.
From Verif Require Export LThreadsTyped LFlat MThreadsFlat SpecThreadsFlat.

(** * Flat memory and the memory of MHeap.v *)
Lemma apart_in l r s a : apart l -> In r l -> In s l -> r <> s -> within a r -> ~ within a s.
Proof.
  unfold apart. intros H. induction H as [|x l Hx H IH]; [intros []|]. rewrite Forall_forall in Hx.
  intros [<-|I] [<-|J] N A B; [contradiction|exact (Hx s J a A B)|exact (Hx r I a B A)|exact (IH I J N A B)].
Qed.
Lemma apart_nodup l : Forall (fun r => snd r <> O) l -> apart l -> NoDup (map fst l).
Proof.
  unfold apart. intros F H. induction H as [|x l Hx H IH]; [constructor|]. inversion F as [|? ? F1 F2]. subst. cbn [map]. constructor; [|auto].
  intros I. apply in_map_iff in I as (r & E & I). rewrite Forall_forall in Hx, F2. specialize (F2 r I).
  apply (Hx r I (fst x)); unfold within; lia.
Qed.
Lemma apart_app l k : apart (l ++ k) -> apart l.
Proof.
  unfold apart. induction l as [|x l IH]; cbn [app]; intros H; [constructor|]. inversion H as [|? ? H1 H2]. subst. constructor; [|auto].
  rewrite Forall_forall in *. intros y I. apply H1, in_or_app. now left.
Qed.
Lemma flive_nodup m0 m L : flive m0 m L -> NoDup (map addr L).
Proof.
  intros (A & B & C & _). apply (apart_perm _ _ A), apart_app in B.
  replace (map addr L) with (map fst (map region L)) by (rewrite map_map; reflexivity). apply apart_nodup; [|exact B].
  apply Forall_forall. intros r I. apply in_map_iff in I as ([[b p] ds] & <- & I). cbn. destruct (C b p ds I) as (N & _). destruct ds; [contradiction|cbn; lia].
Qed.
Lemma flive_core m0 m L L' : Permutation (map core L) (map core L') -> flive m0 m L -> flive m0 m L'.
Proof.
  intros P (A & B & C & D). split; [|split; [exact B|split; [|exact D]]].
  - rewrite A. apply Permutation_app_tail.
    assert (E : forall l, map region l = map (fun c => (fst c, length (snd c))) (map core l)) by (intros l; rewrite map_map; reflexivity).
    rewrite !E. now apply Permutation_map.
  - intros b p ds I. assert (J : In (p, ds) (map core L)).
    { apply (Permutation_in _ (Permutation_sym P)), in_map_iff. exists (b, p, ds). auto. }
    apply in_map_iff in J as ([[b' q] es] & E & J). unfold core, addr in E. cbn in E. injection E as -> ->. exact (C b' p ds J).
Qed.

(** The block memory with the cells [L]. *)
Definition find_cell (p : nat) (L : list cell) : option (list Z) := option_map snd (find (fun c => Nat.eqb (addr c) p) L).
Definition mirror (L : list cell) : mem := mk_mem (fun n => n) (map (fun p => find_cell p L) (seq 0 (S (list_max (map addr L))))).
Lemma find_cell_spec L : NoDup (map addr L) -> forall p ds, find_cell p L = Some ds <-> exists b, In (b, p, ds) L.
Proof.
  intros N p ds. unfold find_cell. induction L as [|[[b q] es] L IH]; cbn [find].
  - cbn. split; [discriminate|intros (? & [])].
  - cbn [map] in N. apply NoDup_cons_iff in N as (N1 & N2). change (addr (b, q, es)) with q in *. destruct (Nat.eqb_spec q p) as [->|Nq].
    + cbn. split; [intros E; injection E as ->; exists b; auto|]. intros (b' & [E|I]); [congruence|]. exfalso. apply N1, in_map_iff. exists (b', p, ds). auto.
    + rewrite (IH N2). split; intros (b' & I); exists b'; [now right|]. destruct I as [E|I]; [congruence|exact I].
Qed.
Lemma mirror_live L : NoDup (map addr L) -> live (mirror L) L.
Proof.
  intros N. split; [exact N|]. intros p ds. rewrite <- (find_cell_spec L N). unfold mirror. cbn [blocks].
  rewrite nth_error_map. destruct (Nat.lt_ge_cases p (S (list_max (map addr L)))) as [H|H].
  - rewrite (nth_error_nth' _ O) by (rewrite seq_length; exact H). rewrite seq_nth by exact H. cbn. split; [intros E; now injection E|now intros ->].
  - assert (E : nth_error (seq 0 (S (list_max (map addr L)))) p = None) by (apply nth_error_None; now rewrite seq_length).
    rewrite E. cbn [option_map]. split; [discriminate|]. intros F. apply (find_cell_spec L N) in F as (b & I).
    assert (p <= list_max (map addr L))%nat; [|lia]. pose proof (proj1 (list_max_le (map addr L) _) (le_n _)) as G.
    rewrite Forall_forall in G. apply G, in_map_iff. exists (b, p, ds). auto.
Qed.
Lemma live_core m L L' : live m L -> live m L' -> Permutation (map core L) (map core L').
Proof.
  assert (Nc : forall l, NoDup (map addr l) -> NoDup (map core l)).
  { intros l N. apply (NoDup_map_inv fst). rewrite map_map. exact N. }
  intros (N & H) (N' & H'). apply NoDup_Permutation; [auto|auto|]. intros [p ds].
  assert (E : forall l, In (p, ds) (map core l) <-> exists b, In (b, p, ds) l).
  { intros l. rewrite in_map_iff. split; [intros ([[b q] es] & E & I); unfold core, addr in E; cbn in E; injection E as -> ->; eauto|intros (b & I); exists (b, p, ds); auto]. }
  rewrite !E, <- H, <- H'. reflexivity.
Qed.

Lemma mirror_stored m0 m mb L v c : flive m0 m L -> live mb L -> stored mb v c -> fstored m v c.
Proof.
  intros F (_ & H) S. destruct v as [a|], c as [x|]; cbn [stored fstored] in *; auto. destruct S as (S1 & S2 & S3 & S4).
  split; [exact S1|]. split; [exact S2|]. split; [exact S3|]. intros G. destruct (S4 G) as (p & Ep & Eb). exists p. split; [exact Ep|].
  apply H in Eb as (b & I). split; [exact (flive_region m0 m L b p _ F I)|]. destruct F as (_ & _ & C & _). exact (proj2 (C b p _ I)).
Qed.
Lemma mirror_in_memory m0 m mb L v x : flive m0 m L -> live mb L -> in_memory mb v x -> fin_memory m v x.
Proof.
  intros F H S. destruct v as [a|], x as [t|]; cbn [in_memory fin_memory] in *; auto. destruct S as (K & c & A & S). split; [exact K|].
  exists c. split; [exact A|]. exact (mirror_stored m0 m mb L (Some (hval a)) (Some c) F H S).
Qed.
Lemma fstored_mirror m0 m L vs cs g : flive m0 m L -> sown g vs cs L -> inv cs -> Forall2 (stored (mirror L)) vs cs.
Proof.
  intros F So I. pose proof (mirror_live L (flive_nodup m0 m L F)) as Hm.
  apply (sown_stored g vs cs L); [|exact So|exact I]. intros b p ds J. exact (proj1 (live_in _ L b p ds Hm J)).
Qed.

Lemma forall2_weaken {A B} (P Q : A -> B -> Prop) l k : (forall a b, P a b -> Q a b) -> Forall2 P l k -> Forall2 Q l k.
Proof. intros H F. induction F; constructor; auto. Qed.

(** * One turn *)
Lemma safe_ftick {A} (w : world) t (h : HM A) post L F m0 m : honest w -> safe h L post -> flive m0 m (L ++ F) ->
  match ftick w t h m with
  | Some (h', m') => exists L', safe h' L' post /\ flive m0 m' (L' ++ F) /\ Permutation (lent L') (lent L)
  | None => ~ generous w
  end.
Proof.
  intros Hw H Hm. unfold ftick. apply (flive_disturbed w t) in Hm.
  destruct (killed w t) eqn:Ek; [intros (_ & G); specialize (G t); congruence|].
  destruct h as [a| | | |ds k|p n k|p n k|p new k|n k]; cbn [safe] in *; try (exists L; auto; fail).
  - destruct H as (Ne & H). destruct ds as [|d ds]; [contradiction|]. remember (d :: ds) as es eqn:Ees.
    destruct (place w t (disturbed w t m) (length es)) as [p|] eqn:Ep; [|intros (G & _); exact (G _ _ _ Ep)].
    destruct (flive_malloc m0 _ (L ++ F) p es Hm Ne (Hw _ _ _ _ Ep)) as (N & Hm'). exists ((true, p, es) :: L).
    split; [|split; [exact Hm'|reflexivity]]. apply H. intros I. apply N. rewrite map_app. apply in_or_app. now left.
  - destruct H as (ds & L' & P & E & H). pose proof (Permutation_app_tail F P) as P1. apply (flive_perm m0 _ _ _ P1) in Hm.
    destruct (flive_free m0 _ (L' ++ F) p ds Hm) as (l & El & Hm'). rewrite E in El. rewrite El. exists L'. split; [exact H|]. split; [exact Hm'|].
    apply (filter_perm (fun c => negb (fst (fst c)))) in P. symmetry. exact P.
  - destruct H as (b & ds & I & E & H). destruct (flive_load m0 _ (L ++ F) b p ds n Hm ltac:(apply in_or_app; now left) E) as (-> & ->).
    exists L. auto.
  - destruct H as (ds & L' & P & E & H). pose proof (Permutation_app_tail F P) as P1. apply (flive_perm m0 _ _ _ P1) in Hm.
    destruct (flive_store m0 _ (L' ++ F) p ds new Hm E) as (-> & Hm'). eexists. split; [exact H|]. split; [exact Hm'|].
    apply (filter_perm (fun c => negb (fst (fst c)))) in P. symmetry. exact P.
Qed.

(** * All threads *)
Record fpool_ok {R : Type} (m0 : flat) (S : list cell) (posts : list (ends R)) (Ls : list (list cell)) (s : fpool R) : Prop := mk_fpool_ok {
  fpool_length : length Ls = length (snd s);
  fpool_safe : forall i h, nth_error (snd s) i = Some h ->
    exists L post, nth_error Ls i = Some L /\ nth_error posts i = Some post /\ safe h L post /\ Permutation (lent L) S;
  fpool_live : flive m0 (fst s) (S ++ concat (map owned Ls)) }.

Definition pool_mirror (S : list cell) (Ls : list (list cell)) : mem := mirror (S ++ concat (map owned Ls)).
Lemma fpool_pool {R} m0 S (posts : list (ends R)) Ls m ts : fpool_ok m0 S posts Ls (m, ts) ->
  pool_ok S posts Ls (pool_mirror S Ls, ts).
Proof.
  intros [A B C]. cbn [fst snd] in *. constructor; cbn [fst snd]; auto. exact (mirror_live _ (flive_nodup _ _ _ C)).
Qed.

Lemma fturn_ok {R} w t i m0 S (posts : list (ends R)) Ls s : honest w -> fpool_ok m0 S posts Ls s ->
  match fturn w t i s with Some s' => exists L', fpool_ok m0 S posts (update i L' Ls) s' | None => ~ generous w end.
Proof.
  intros Hw [Hl Hs Hm]. unfold fturn. destruct (nth_error (snd s) i) as [h|] eqn:E.
  2:{ exists []. rewrite update_out; [now constructor|]. apply nth_error_None in E. apply nth_error_None. lia. }
  destruct (Hs i h E) as (L & post & EL & EP & Sf & Pm).
  assert (Hm1 : flive m0 (fst s) (L ++ concat (map owned (update i [] Ls)))).
  { eapply flive_perm; [|exact Hm]. rewrite <- (update_id i L Ls EL) at 1. exact (pool_focus S Ls i L EL Pm L Pm). }
  pose proof (safe_ftick w t h post L _ m0 (fst s) Hw Sf Hm1) as Q. destruct (ftick w t h (fst s)) as [(h' & m')|]; [|exact Q].
  destruct Q as (L' & Sf' & Hm' & P'). assert (Pm' : Permutation (lent L') S) by (now rewrite P').
  exists L'. constructor; cbn [fst snd].
  - now rewrite !update_length.
  - intros j k. destruct (Nat.eq_dec i j) as [<-|N].
    + rewrite (nth_update_same i h' h) by exact E. intros K. injection K as <-. exists L', post.
      rewrite (nth_update_same i L' L) by exact EL. auto.
    + rewrite !nth_update_other by exact N. apply Hs.
  - eapply flive_perm; [|exact Hm']. symmetry. exact (pool_focus S Ls i L EL Pm L' Pm').
Qed.
Lemma finterleave_ok {R} w sch : forall t m0 S (posts : list (ends R)) Ls s, honest w -> fpool_ok m0 S posts Ls s ->
  match finterleave w t sch s with Some s' => exists Ls', fpool_ok m0 S posts Ls' s' | None => ~ generous w end.
Proof.
  induction sch as [|i sch IH]; intros t m0 S posts Ls s Hw H; cbn [finterleave]; [eauto|].
  pose proof (fturn_ok w t i m0 S posts Ls s Hw H) as Q. destruct (fturn w t i s) as [s'|]; [|exact Q].
  destruct Q as (L' & Q). exact (IH (Datatypes.S t) m0 S posts _ s' Hw Q).
Qed.

(** * Races *)
Lemma safe_fuses {A} (h : HM A) L post a : safe h L post -> fuses h a -> exists b q ds, In (b, q, ds) L /\ touches h q /\ within a (q, length ds).
Proof.
  intros H T. destruct h as [x| | | |es k|q n k|q n k|q new k|n k]; cbn [safe fuses touches] in *; try contradiction.
  - destruct H as (ds & L' & P & E & _). exists true, q, ds. split; [apply (Permutation_in _ (Permutation_sym P)); now left|]. split; [reflexivity|]. now rewrite E.
  - destruct H as (b & ds & I & E & _). exists b, q, ds. split; [exact I|]. split; [reflexivity|]. unfold within in *. cbn [fst snd] in *. lia.
  - destruct H as (ds & L' & P & E & _). exists true, q, ds. split; [apply (Permutation_in _ (Permutation_sym P)); now left|]. split; [reflexivity|].
    unfold within in *. cbn [fst snd] in *. lia.
Qed.
Lemma fchanges_uses {A} (h : HM A) a : fchanges h a -> fuses h a.
Proof. intros C. destruct h; cbn in *; try contradiction; auto. Qed.
Lemma fchanges_overwrites {A} (h : HM A) a q : fchanges h a -> touches h q -> overwrites h q.
Proof. intros C T. destruct h; cbn in *; try contradiction; auto. Qed.

Lemma fpool_region {R} m0 S (posts : list (ends R)) Ls m ts i L b q ds : fpool_ok m0 S posts Ls (m, ts) -> nth_error Ls i = Some L -> In (b, q, ds) L ->
  In (q, length ds) (taken m).
Proof.
  intros P EL I. pose proof (fpool_pool _ _ _ _ _ _ P) as P'.
  destruct (pool_has S posts Ls _ ts i L b q ds P' EL I) as (Eb & _). pose proof (pool_live _ _ _ _ P') as (_ & H). cbn [fst] in H.
  apply H in Eb as (b' & J). pose proof (fpool_live _ _ _ _ _ P) as F. cbn [fst] in F. exact (flive_region m0 m _ b' q ds F J).
Qed.
Lemma fpool_race {R} m0 S (posts : list (ends R)) Ls m ts : fpool_ok m0 S posts Ls (m, ts) -> ~ fdata_race ts.
Proof.
  intros P (i & j & f & g & a & N & Ei & Ej & C & U). pose proof (fpool_pool _ _ _ _ _ _ P) as P'.
  destruct (fpool_safe _ _ _ _ _ P i f Ei) as (L & post & EL & _ & Sf & _). destruct (fpool_safe _ _ _ _ _ P j g Ej) as (L' & post' & EL' & _ & Sg & _).
  destruct (safe_fuses f L post a Sf (fchanges_uses f a C)) as (b & q & ds & I & T & W).
  destruct (safe_fuses g L' post' a Sg U) as (b' & q' & ds' & I' & T' & W').
  pose proof (fchanges_overwrites f a q C T) as O. pose proof (pool_race _ _ _ _ P') as (NR & _).
  assert (Nq : q <> q'). { intros <-. apply NR. exists i, j, f, g, q. auto 6. }
  pose proof (fpool_live _ _ _ _ _ P) as (_ & Ap & _). cbn [fst] in Ap.
  apply (apart_in _ (q, length ds) (q', length ds') a Ap); [exact (fpool_region _ _ _ _ _ _ _ _ _ _ _ P EL I)|exact (fpool_region _ _ _ _ _ _ _ _ _ _ _ P EL' I')| |exact W|exact W'].
  congruence.
Qed.

(** * Starting *)
Lemma fstart_ok {R} give vs cs L0 m0 m (posts : list (ends R)) threads : srepr all_owned vs cs L0 -> inv cs -> flive m0 m L0 -> length give = length vs ->
  (forall x i, nth_error give x = Some (Some i) -> (i < length threads)%nat) ->
  (forall i h, nth_error threads i = Some h -> exists post, nth_error posts i = Some post /\
     forall L, sown (keeper give) (hand i give vs) (hand i give cs) L -> safe h L post) ->
  exists S Ls mb, fpool_ok m0 S posts Ls (m, threads) /\ pool_ok S posts Ls (mb, threads) /\ Forall2 (stored mb) vs cs /\
    (forall p, In p (map addr S) <-> exists x, borrowed give x /\ points_to vs x p) /\
    (forall x y p, points_to vs x p -> points_to vs y p -> x = y).
Proof.
  intros Hs I Hm H3 H4 H5. pose proof (mirror_live L0 (flive_nodup m0 m L0 Hm)) as Hb.
  assert (So : sown all_owned vs cs L0) by (exists L0; auto). pose proof (fstored_mirror m0 m L0 vs cs _ Hm So I) as St.
  destruct (start_ok give vs cs L0 (mirror L0) posts threads Hs Hb H3 H4 H5) as (S & Ls & P & _ & K6 & KU).
  exists S, Ls, (mirror L0). split; [|auto]. pose proof (pool_live _ _ _ _ P) as Pl. cbn [fst] in Pl.
  destruct P as [P1 P2 _]. constructor; cbn [fst snd] in *; auto. exact (flive_core m0 m L0 _ (live_core _ _ _ Hb Pl) Hm).
Qed.

Lemma forked_flat_ok w m0 setup give programs vs m : forked_flat w m0 setup give programs vs m ->
  exists cs S Ls mb, Forall2 holds cs (fst (acatches [] setup)) /\ Forall2 (fstored m) vs cs /\ Forall2 (stored mb) vs cs /\
    fpool_ok m0 S (catching_posts 0 give (fst (acatches [] setup)) programs) Ls (m, spawn_catching 0 give vs programs) /\
    pool_ok S (catching_posts 0 give (fst (acatches [] setup)) programs) Ls (mb, spawn_catching 0 give vs programs) /\
    (forall p, In p (map addr S) <-> exists x, borrowed give x /\ points_to vs x p) /\
    (forall x y p, points_to vs x p -> points_to vs y p -> x = y).
Proof.
  intros (Hw & H0 & H1 & (os & H2) & H3 & H4 & H5). set (s := fst (acatches [] setup)).
  pose proof (catch_run setup H1 [] [] [] [] ltac:(constructor) (sown_nil _)) as R.
  destruct (ref_fexec w _ _ _ m0 m0 Hw R (flive_start m0 H0) 0) as [(X & _)|(r & m' & L & E & K & Hm)]; [rewrite H2 in X; discriminate|].
  destruct r as [vs' os']. destruct K as (_ & cs & Hcs & So). cbn [fst snd] in *.
  rewrite H2 in E. injection E as <- _ <-. fold s in Hcs. assert (Ic : inv cs) by (now exists s).
  pose proof (sown_fstored _ vs cs L m0 m Hm So Ic) as (St & _).
  destruct So as (L0 & P0 & Hs). apply (flive_perm m0 m L L0 P0) in Hm.
  destruct (fstart_ok give vs cs L0 m0 m (catching_posts 0 give s programs) (spawn_catching 0 give vs programs) Hs Ic Hm H3) as (S & Ls & mb & K).
  - rewrite spawn_catching_length. exact H4.
  - intros i h. rewrite spawn_catching_nth, catching_posts_nth. destruct (nth_error programs i) as [p|] eqn:Ep; [|discriminate]. intros E. injection E as <-.
    eexists. split; [reflexivity|]. intros L1 So. cbn [Nat.add].
    assert (Hp : Forall cmd_ok (map snd p) /\ respects give (map snd p)) by (rewrite Forall_forall in H5; apply H5; exact (nth_error_In _ i Ep)).
    destruct Hp as (Hp & Hr).
    assert (Rf : refines (hthread (keeper give) (hand i give vs) p) L1 (Val (snd (athread (keeper give) (hand i give s) p))) (LThreadsUnwind.tpost (keeper give) (fst (athread (keeper give) (hand i give s) p)))).
    { apply (ref_thread (keeper give) p Hp) with (cs := hand i give cs); [|now apply hand_holds|now apply keeper_opens|exact So].
      unfold respects in Hr. eapply Forall_impl; [|exact Hr]. intros c. apply keeper_allowed. }
    pose proof (Rf []) as R'. rewrite app_nil_r in R'. exact R'.
  - destruct K as (K1 & K2 & K3 & K4 & K5). exists cs, S, Ls, mb. auto 8.
Qed.

Lemma tforked_flat_ok w m0 setup give programs vs m : tforked_flat w m0 setup give programs vs m ->
  exists ts S Ls mb, Forall2 tholds ts (fst (tacatches [] setup)) /\ map (option_map hkind) vs = map (option_map kind_of) ts /\
    Forall2 (stored mb) (inside vs) (vinside ts) /\
    fpool_ok m0 S (typed_posts 0 give (fst (tacatches [] setup)) programs) Ls (m, tspawn 0 give vs programs) /\
    pool_ok S (typed_posts 0 give (fst (tacatches [] setup)) programs) Ls (mb, tspawn 0 give vs programs) /\
    (forall p, In p (map addr S) <-> exists x, borrowed give x /\ points_to (inside vs) x p) /\
    (forall x y p, points_to (inside vs) x p -> points_to (inside vs) y p -> x = y).
Proof.
  intros (Hw & H0 & H1 & (os & H2) & H3 & H4 & H5). set (s := fst (tacatches [] setup)).
  pose proof (tcatch_run setup H1 [] [] [] [] ltac:(constructor) tsown_nil) as R.
  destruct (ref_fexec w _ _ _ m0 m0 Hw R (flive_start m0 H0) 0) as [(X & _)|(r & m' & L & E & K & Hm)]; [rewrite H2 in X; discriminate|].
  destruct r as [vs' os']. destruct K as (_ & ts & Hts & So & Kd). cbn [fst snd] in *.
  rewrite H2 in E. injection E as <- _ <-. fold s in Hts.
  destruct So as (L0 & P0 & Hs). apply (flive_perm m0 m L L0 P0) in Hm.
  destruct (fstart_ok give (inside vs) (vinside ts) L0 m0 m (typed_posts 0 give s programs) (tspawn 0 give vs programs) Hs (inv_inside ts _ Hts) Hm) as (S & Ls & mb & K).
  - unfold inside. now rewrite map_length.
  - rewrite tspawn_length. exact H4.
  - intros i h. rewrite tspawn_nth, typed_posts_nth. destruct (nth_error programs i) as [p|] eqn:Ep; [|discriminate]. intros E. injection E as <-.
    eexists. split; [reflexivity|]. intros L1 So. cbn [Nat.add].
    assert (Hp : Forall tcmd_ok (map snd p) /\ trespects give (map snd p)) by (rewrite Forall_forall in H5; apply H5; exact (nth_error_In _ i Ep)).
    destruct Hp as (Hp & Hr).
    assert (Rf : refines (htthread (keeper give) (hand i give vs) p) L1 (Val (snd (tathread (keeper give) (hand i give s) p))) (ttpost (keeper give) (fst (tathread (keeper give) (hand i give s) p)))).
    { apply (ref_tthread (keeper give) p Hp) with (ts := hand i give ts); [|now apply hand_tholds|now apply keeper_opens|].
      - unfold trespects in Hr. eapply Forall_impl; [|exact Hr]. intros c. apply keeper_tallowed.
      - split; [|now rewrite <- !hand_map, Kd]. unfold inside, vinside in *. rewrite <- !hand_map. exact So. }
    pose proof (Rf []) as R'. rewrite app_nil_r in R'. exact R'.
  - destruct K as (K1 & K2 & K3 & K4 & K5). exists ts, S, Ls, mb. auto 8.
Qed.

(** * Facts *)
Lemma fthreads_race_free_fact w0 m0 setup give programs vs m w t schedule m' ts :
  forked_flat w0 m0 setup give programs vs m -> honest w ->
  finterleave w t schedule (m, spawn_catching 0 give vs programs) = Some (m', ts) ->
  ~ fdata_race ts /\ ~ In HUndef ts /\ ~ In HPanic ts /\ ~ In HFuel ts.
Proof.
  intros H Hw E. destruct (forked_flat_ok _ _ _ _ _ _ _ H) as (cs & S & Ls & mb & _ & _ & _ & P & _).
  pose proof (finterleave_ok w schedule t m0 S _ Ls _ Hw P) as Q. rewrite E in Q. destruct Q as (Ls' & Q).
  split; [exact (fpool_race _ _ _ _ _ _ Q)|]. exact (proj2 (catching_race_free_pool _ _ _ _ _ _ _ (fpool_pool _ _ _ _ _ _ Q))).
Qed.
Lemma tfthreads_race_free_fact w0 m0 setup give programs vs m w t schedule m' ts :
  tforked_flat w0 m0 setup give programs vs m -> honest w ->
  finterleave w t schedule (m, tspawn 0 give vs programs) = Some (m', ts) ->
  ~ fdata_race ts /\ ~ In HUndef ts /\ ~ In HPanic ts /\ ~ In HFuel ts.
Proof.
  intros H Hw E. destruct (tforked_flat_ok _ _ _ _ _ _ _ H) as (cs & S & Ls & mb & _ & _ & _ & P & _).
  pose proof (finterleave_ok w schedule t m0 S _ Ls _ Hw P) as Q. rewrite E in Q. destruct Q as (Ls' & Q).
  split; [exact (fpool_race _ _ _ _ _ _ Q)|]. exact (proj2 (typed_race_free_pool _ _ _ _ _ _ _ (fpool_pool _ _ _ _ _ _ Q))).
Qed.

Lemma fthreads_isolated_fact w0 m0 setup give programs vs m w t schedule m' ts i p vs' r :
  forked_flat w0 m0 setup give programs vs m -> honest w ->
  finterleave w t schedule (m, spawn_catching 0 give vs programs) = Some (m', ts) ->
  nth_error programs i = Some p -> nth_error ts i = Some (HRet (vs', r)) ->
  let (s', r') := athread (keeper give) (hand i give (fst (acatches [] setup))) p in
  r = r' /\ exists cs', Forall2 holds cs' s' /\ Forall2 (fstored m') vs' cs'.
Proof.
  intros H Hw E Ep Er. destruct (forked_flat_ok _ _ _ _ _ _ _ H) as (cs & S & Ls & mb & _ & _ & _ & P & _).
  pose proof (finterleave_ok w schedule t m0 S _ Ls _ Hw P) as Q. rewrite E in Q. destruct Q as (Ls' & Q).
  pose proof (fpool_pool _ _ _ _ _ _ Q) as Q'.
  pose proof (catching_isolated_pool _ _ _ _ _ _ _ _ _ _ _ Q' Ep Er) as K. destruct (athread _ _ p) as (s' & r').
  destruct K as (K1 & cs' & K2 & K3). split; [exact K1|]. exists cs'. split; [exact K2|].
  eapply forall2_weaken; [|exact K3]. intros v c. apply (mirror_stored m0 m' _ _ v c (fpool_live _ _ _ _ _ Q) (pool_live _ _ _ _ Q')).
Qed.
Lemma tfthreads_isolated_fact w0 m0 setup give programs vs m w t schedule m' ts i p vs' r :
  tforked_flat w0 m0 setup give programs vs m -> honest w ->
  finterleave w t schedule (m, tspawn 0 give vs programs) = Some (m', ts) ->
  nth_error programs i = Some p -> nth_error ts i = Some (HRet (vs', r)) ->
  let (s', r') := tathread (keeper give) (hand i give (fst (tacatches [] setup))) p in
  r = r' /\ Forall2 (fin_memory m') vs' s'.
Proof.
  intros H Hw E Ep Er. destruct (tforked_flat_ok _ _ _ _ _ _ _ H) as (cs & S & Ls & mb & _ & _ & _ & P & _).
  pose proof (finterleave_ok w schedule t m0 S _ Ls _ Hw P) as Q. rewrite E in Q. destruct Q as (Ls' & Q).
  pose proof (fpool_pool _ _ _ _ _ _ Q) as Q'.
  pose proof (typed_isolated_pool _ _ _ _ _ _ _ _ _ _ _ Q' Ep Er) as K. destruct (tathread _ _ p) as (s' & r').
  destruct K as (K1 & K3). split; [exact K1|].
  eapply forall2_weaken; [|exact K3]. intros v c. apply (mirror_in_memory m0 m' _ _ v c (fpool_live _ _ _ _ _ Q) (pool_live _ _ _ _ Q')).
Qed.

Lemma fthreads_lent_fact w0 m0 setup give programs vs m w : forked_flat w0 m0 setup give programs vs m -> honest w ->
  exists cs, Forall2 holds cs (fst (acatches [] setup)) /\ Forall2 (fstored m) vs cs /\
  forall t schedule m' ts, finterleave w t schedule (m, spawn_catching 0 give vs programs) = Some (m', ts) ->
  forall x v c, borrowed give x -> nth_error vs x = Some v -> nth_error cs x = Some c -> fstored m' v c.
Proof.
  intros H Hw. destruct (forked_flat_ok _ _ _ _ _ _ _ H) as (cs & S & Ls & mb & Hh & Sf & St & P & Pb & K6 & _). exists cs.
  split; [exact Hh|]. split; [exact Sf|]. intros t schedule m' ts E x v c B Ev Ec.
  pose proof (finterleave_ok w schedule t m0 S _ Ls _ Hw P) as Q. rewrite E in Q. destruct Q as (Ls' & Q).
  pose proof (fpool_pool _ _ _ _ _ _ Q) as Q'.
  pose proof (lent_pool S _ Ls mb _ Ls' _ ts vs cs give Pb Q' K6 St x v c B Ev Ec) as K.
  exact (mirror_stored m0 m' _ _ v c (fpool_live _ _ _ _ _ Q) (pool_live _ _ _ _ Q') K).
Qed.
Lemma tfthreads_lent_fact w0 m0 setup give programs vs m w t schedule m' ts :
  tforked_flat w0 m0 setup give programs vs m -> honest w ->
  finterleave w t schedule (m, tspawn 0 give vs programs) = Some (m', ts) ->
  forall x v z, borrowed give x -> nth_error vs x = Some v -> nth_error (fst (tacatches [] setup)) x = Some z -> fin_memory m' v z.
Proof.
  intros H Hw E x v z B Ev Ez. destruct (tforked_flat_ok _ _ _ _ _ _ _ H) as (cs & S & Ls & mb & Hh & Kd & St & P & Pb & K6 & _).
  pose proof (finterleave_ok w schedule t m0 S _ Ls _ Hw P) as Q. rewrite E in Q. destruct Q as (Ls' & Q).
  pose proof (fpool_pool _ _ _ _ _ _ Q) as Q'.
  pose proof (typed_lent_pool S _ Ls mb _ Ls' _ ts vs cs _ give Pb Q' K6 St Hh Kd x v z B Ev Ez) as K.
  exact (mirror_in_memory m0 m' _ _ v z (fpool_live _ _ _ _ _ Q) (pool_live _ _ _ _ Q') K).
Qed.

(** * Nothing but lack of memory stops the threads *)
Lemma fthreads_aborts_fact w0 m0 setup give programs vs m w t schedule : forked_flat w0 m0 setup give programs vs m -> honest w -> generous w ->
  finterleave w t schedule (m, spawn_catching 0 give vs programs) <> None.
Proof.
  intros H Hw G E. destruct (forked_flat_ok _ _ _ _ _ _ _ H) as (cs & S & Ls & mb & _ & _ & _ & P & _).
  pose proof (finterleave_ok w schedule t m0 S _ Ls _ Hw P) as Q. rewrite E in Q. exact (Q G).
Qed.

Lemma finterleave_app {R} w s1 : forall t s2 (s : fpool R), finterleave w t (s1 ++ s2) s =
  match finterleave w t s1 s with Some s => finterleave w (t + length s1) s2 s | None => None end.
Proof.
  induction s1 as [|i s1 IH]; intros t s2 s; cbn [app finterleave length]; [now rewrite Nat.add_0_r|].
  destruct (fturn w t i s) as [s'|]; [|reflexivity]. rewrite IH. now replace (S t + length s1)%nat with (t + S (length s1))%nat by lia.
Qed.
Lemma fturn_length {R} w t i (s s' : fpool R) : fturn w t i s = Some s' -> length (snd s') = length (snd s).
Proof.
  unfold fturn. destruct (nth_error (snd s) i); [|intros E; now injection E as <-]. destruct (ftick w t h (fst s)) as [(h' & m')|]; [|discriminate].
  intros E. injection E as <-. apply update_length.
Qed.
Lemma finterleave_length {R} w sch : forall t (s s' : fpool R), finterleave w t sch s = Some s' -> length (snd s') = length (snd s).
Proof.
  induction sch as [|i sch IH]; intros t s s'; cbn [finterleave]; [intros E; now injection E as <-|].
  destruct (fturn w t i s) as [s1|] eqn:E1; [|discriminate]. intros E. rewrite (IH _ _ _ E). exact (fturn_length w t i s s1 E1).
Qed.
Definition at_end {A} (h : HM A) : Prop := match h with HRet _ | HPanic | HFuel | HUndef => True | _ => False end.
Lemma fturns_end {R} w i : generous w -> forall (h : HM R) t m ts, nth_error ts i = Some h ->
  exists n m' ts' h', finterleave w t (repeat i n) (m, ts) = Some (m', ts') /\ nth_error ts' i = Some h' /\ at_end h'.
Proof.
  intros (G1 & G2).
  assert (Done : forall (h : HM R) t m ts, nth_error ts i = Some h -> at_end h ->
    exists n m' ts' h', finterleave w t (repeat i n) (m, ts) = Some (m', ts') /\ nth_error ts' i = Some h' /\ at_end h').
  { intros h t m ts E D. exists O, m, ts, h. auto. }
  assert (Step : forall (h h1 : HM R) t m m1 ts, nth_error ts i = Some h -> ftick w t h m = Some (h1, m1) ->
    (forall t m ts, nth_error ts i = Some h1 -> exists n m' ts' h', finterleave w t (repeat i n) (m, ts) = Some (m', ts') /\ nth_error ts' i = Some h' /\ at_end h') ->
    exists n m' ts' h', finterleave w t (repeat i n) (m, ts) = Some (m', ts') /\ nth_error ts' i = Some h' /\ at_end h').
  { intros h h1 t m m1 ts E T K. destruct (K (S t) m1 (update i h1 ts) (nth_update_same i h1 h ts E)) as (n & m' & ts' & h' & F & Q).
    exists (S n), m', ts', h'. split; [|exact Q]. cbn [repeat finterleave]. unfold fturn. cbn [fst snd]. rewrite E, T. exact F. }
  assert (Und : forall t m (ts : list (HM R)), nth_error ts i = Some HUndef -> exists n m' ts' h', finterleave w t (repeat i n) (m, ts) = Some (m', ts') /\ nth_error ts' i = Some h' /\ at_end h').
  { intros t m ts E. apply (Done HUndef t m ts E). exact I. }
  induction h as [a| | | |ds k IH|p n k IH|p n k IH|p new k IH|n k IH]; intros t m ts E; try (apply (Done _ t m ts E); exact I);
    set (m1 := disturbed w t m).
  - destruct ds as [|d ds]; [apply (Step _ HUndef t m m1 ts E); [unfold ftick; now rewrite G2|exact Und]|].
    remember (d :: ds) as es eqn:Ees. destruct (place w t m1 (length es)) as [p|] eqn:Ep; [|exfalso; exact (G1 _ _ _ Ep)].
    apply (Step _ (k p) t m (mk_flat (overwrite p es (words m1)) ((p, length es) :: taken m1)) ts E); [|exact (IH p)].
    unfold ftick. fold m1. rewrite G2, Ees in *. now rewrite Ep.
  - destruct (give_back p n (taken m1)) as [l|] eqn:El.
    + apply (Step _ k t m (mk_flat (words m1) l) ts E); [|exact IH]. unfold ftick. fold m1. now rewrite G2, El.
    + apply (Step _ HUndef t m m1 ts E); [|exact Und]. unfold ftick. fold m1. now rewrite G2, El.
  - destruct (covers m1 p n) eqn:Ec.
    + apply (Step _ (k (words_at m1 p n)) t m m1 ts E); [|apply IH]. unfold ftick. fold m1. now rewrite G2, Ec.
    + apply (Step _ HUndef t m m1 ts E); [|exact Und]. unfold ftick. fold m1. now rewrite G2, Ec.
  - destruct (covers m1 p (length new)) eqn:Ec.
    + apply (Step _ k t m (mk_flat (overwrite p new (words m1)) (taken m1)) ts E); [|exact IH]. unfold ftick. fold m1. now rewrite G2, Ec.
    + apply (Step _ HUndef t m m1 ts E); [|exact Und]. unfold ftick. fold m1. now rewrite G2, Ec.
  - apply (Step _ (k (room w t n)) t m m1 ts E); [|apply IH]. unfold ftick. fold m1. now rewrite G2.
Qed.

Lemma fthreads_progress_fact w0 m0 setup give programs vs m w t schedule i : forked_flat w0 m0 setup give programs vs m -> honest w -> generous w ->
  (i < length programs)%nat ->
  exists n m' ts r, finterleave w t (schedule ++ repeat i n) (m, spawn_catching 0 give vs programs) = Some (m', ts) /\ nth_error ts i = Some (HRet r).
Proof.
  intros H Hw G Hi. set (s0 := (m, spawn_catching 0 give vs programs)).
  destruct (finterleave w t schedule s0) as [(m1 & ts1)|] eqn:E; [|exfalso; exact (fthreads_aborts_fact _ _ _ _ _ _ _ w t schedule H Hw G E)].
  destruct (nth_error ts1 i) as [h|] eqn:Eh.
  2:{ exfalso. apply nth_error_None in Eh. apply finterleave_length in E. unfold s0 in E. cbn [snd] in E. rewrite spawn_catching_length in E. lia. }
  destruct (fturns_end w i G h (t + length schedule) m1 ts1 Eh) as (n & m' & ts & h' & F & Eh' & D). exists n, m', ts.
  assert (F' : finterleave w t (schedule ++ repeat i n) s0 = Some (m', ts)) by (rewrite finterleave_app, E; exact F).
  destruct (fthreads_race_free_fact _ _ _ _ _ _ _ w t _ _ _ H Hw F') as (_ & N1 & N2 & N3). apply nth_error_In in Eh' as J.
  destruct h' as [r| | | | | | | |]; try contradiction. exists r. auto.
Qed.
Lemma tfthreads_aborts_fact w0 m0 setup give programs vs m w t schedule : tforked_flat w0 m0 setup give programs vs m -> honest w -> generous w ->
  finterleave w t schedule (m, tspawn 0 give vs programs) <> None.
Proof.
  intros H Hw G E. destruct (tforked_flat_ok _ _ _ _ _ _ _ H) as (cs & S & Ls & mb & _ & _ & _ & P & _).
  pose proof (finterleave_ok w schedule t m0 S _ Ls _ Hw P) as Q. rewrite E in Q. exact (Q G).
Qed.
Lemma tfthreads_progress_fact w0 m0 setup give programs vs m w t schedule i : tforked_flat w0 m0 setup give programs vs m -> honest w -> generous w ->
  (i < length programs)%nat ->
  exists n m' ts r, finterleave w t (schedule ++ repeat i n) (m, tspawn 0 give vs programs) = Some (m', ts) /\ nth_error ts i = Some (HRet r).
Proof.
  intros H Hw G Hi. set (s0 := (m, tspawn 0 give vs programs)).
  destruct (finterleave w t schedule s0) as [(m1 & ts1)|] eqn:E; [|exfalso; exact (tfthreads_aborts_fact _ _ _ _ _ _ _ w t schedule H Hw G E)].
  destruct (nth_error ts1 i) as [h|] eqn:Eh.
  2:{ exfalso. apply nth_error_None in Eh. apply finterleave_length in E. unfold s0 in E. cbn [snd] in E. rewrite tspawn_length in E. lia. }
  destruct (fturns_end w i G h (t + length schedule) m1 ts1 Eh) as (n & m' & ts & h' & F & Eh' & D). exists n, m', ts.
  assert (F' : finterleave w t (schedule ++ repeat i n) s0 = Some (m', ts)) by (rewrite finterleave_app, E; exact F).
  destruct (tfthreads_race_free_fact _ _ _ _ _ _ _ w t _ _ _ H Hw F') as (_ & N1 & N2 & N3). apply nth_error_In in Eh' as J.
  destruct h' as [r| | | | | | | |]; try contradiction. exists r. auto.
Qed.

(** * What is allocated *)
Lemma fpool_tidy {R} m0 S (posts : list (ends R)) Ls m ts : fpool_ok m0 S posts Ls (m, ts) ->
  apart (taken m) /\ (forall a, occupied m0 a -> words m a = words m0 a) /\ (forall r, In r (taken m0) -> In r (taken m)) /\
  (forall p n, In (p, n) (taken m) -> In (p, n) (taken m0) \/ exists ds, n = length ds /\ nth_error (blocks (pool_mirror S Ls)) p = Some (Some ds)).
Proof.
  intros P. pose proof (fpool_live _ _ _ _ _ P) as F. pose proof F as (A & B & _ & D). cbn [fst] in *. split; [exact B|]. split; [exact D|].
  split; [intros r; exact (flive_before m0 m _ r F)|]. intros p n I. apply (Permutation_in _ A) in I. apply in_app_or in I as [I|I]; [right|now left].
  apply in_map_iff in I as ([[b q] ds] & E & I). unfold region, addr in E. cbn in E. injection E as -> <-. exists ds. split; [reflexivity|].
  pose proof (mirror_live _ (flive_nodup _ _ _ F)) as (_ & H). apply H. eauto.
Qed.
Lemma fthreads_join_fact w0 m0 setup give programs vs m w t schedule m' ts :
  forked_flat w0 m0 setup give programs vs m -> honest w ->
  finterleave w t schedule (m, spawn_catching 0 give vs programs) = Some (m', ts) ->
  apart (taken m') /\ (forall a, occupied m0 a -> words m' a = words m0 a) /\ (forall r, In r (taken m0) -> In r (taken m')) /\
  (Forall (fun h => exists r, h = HRet r) ts ->
     forall p n, In (p, n) (taken m') -> In (p, n) (taken m0) \/ exists! o, owner give vs ts o p).
Proof.
  intros H Hw E. destruct (forked_flat_ok _ _ _ _ _ _ _ H) as (cs & S & Ls & mb & _ & _ & _ & P & _ & K6 & KU).
  pose proof (finterleave_ok w schedule t m0 S _ Ls _ Hw P) as Q. rewrite E in Q. destruct Q as (Ls' & Q).
  destruct (fpool_tidy _ _ _ _ _ _ Q) as (A & B & C & D). split; [exact A|]. split; [exact B|]. split; [exact C|].
  intros Hr p n I. destruct (D p n I) as [J|(ds & _ & J)]; [now left|right].
  exact (catching_join_pool _ _ _ _ _ _ _ _ (fpool_pool _ _ _ _ _ _ Q) K6 KU Hr p ds J).
Qed.
Lemma tfthreads_join_fact w0 m0 setup give programs vs m w t schedule m' ts :
  tforked_flat w0 m0 setup give programs vs m -> honest w ->
  finterleave w t schedule (m, tspawn 0 give vs programs) = Some (m', ts) ->
  apart (taken m') /\ (forall a, occupied m0 a -> words m' a = words m0 a) /\ (forall r, In r (taken m0) -> In r (taken m')) /\
  (Forall (fun h => exists r, h = HRet r) ts ->
     forall p n, In (p, n) (taken m') -> In (p, n) (taken m0) \/ exists! o, towner give vs ts o p).
Proof.
  intros H Hw E. destruct (tforked_flat_ok _ _ _ _ _ _ _ H) as (cs & S & Ls & mb & _ & _ & _ & P & _ & K6 & KU).
  pose proof (finterleave_ok w schedule t m0 S _ Ls _ Hw P) as Q. rewrite E in Q. destruct Q as (Ls' & Q).
  destruct (fpool_tidy _ _ _ _ _ _ Q) as (A & B & C & D). split; [exact A|]. split; [exact B|]. split; [exact C|].
  intros Hr p n I. destruct (D p n I) as [J|(ds & _ & J)]; [now left|right].
  exact (typed_join_pool _ _ _ _ _ _ _ _ (fpool_pool _ _ _ _ _ _ Q) K6 KU Hr p ds J).
Qed.
