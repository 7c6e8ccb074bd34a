(** All accesses of an execution. *)
From Verif Require Export LThreadsDigits SpecTrace.
From Coq Require Import Lia Permutation.

(** * What the accesses say is what the turns do *)
Lemma load_update p q k l m : nth_error (blocks m) q <> None -> digit_load p k (mk_mem (slack m) (update q l (blocks m))) =
  if Nat.eqb q p then match l with Some ds => nth_error ds k | None => None end else digit_load p k m.
Proof.
  intros H. unfold digit_load. cbn [blocks]. destruct (Nat.eqb_spec q p) as [->|N].
  - destruct (nth_error (blocks m) p) as [o|] eqn:E; [|contradiction]. rewrite (nth_update_same _ _ _ _ E). now destruct l.
  - now rewrite nth_update_other.
Qed.
Lemma store_only p j d m m' q k : digit_store p j d m = Some m' -> (p, j) <> (q, k) -> digit_load q k m' = digit_load q k m.
Proof.
  unfold digit_store. destruct (nth_error (blocks m) p) as [[ds|]|] eqn:E; try discriminate. destruct (Nat.ltb j (length ds)) eqn:L; [|discriminate].
  intros H N. injection H as <-. rewrite load_update by congruence. destruct (Nat.eqb_spec p q) as [->|]; [|reflexivity].
  unfold digit_load. rewrite E. apply nth_update_other. congruence.
Qed.
Lemma accesses_only_fact {R} junk (t : dthread R) m q k : (q < length (blocks m))%nat ->
  next_access t <> Some (Writes q k) -> next_access t <> Some (Frees q) -> digit_load q k (snd (dtick junk t m)) = digit_load q k m.
Proof.
  intros Hq Nw Nf. destruct t as [h|p n got c|p new j c].
  - destruct h as [a| | | |ds c|p n c|p n c|p new c|n c]; try reflexivity; cbn [dtick].
    + cbn. unfold digit_load. cbn [blocks]. rewrite nth_error_app1 by exact Hq. reflexivity.
    + cbn [tick]. unfold mem_free. destruct (nth_error (blocks m) p) as [[ds|]|] eqn:E; try reflexivity.
      destruct (Nat.eqb (length ds) n); [|reflexivity]. cbn [snd]. rewrite load_update by congruence.
      destruct (Nat.eqb_spec p q) as [->|]; [now contradiction Nf|reflexivity].
    + destruct (Nat.ltb 0 n); [|reflexivity]. unfold go_load. now destruct (digit_load p _ m).
    + unfold go_store. destruct new as [|d new]; [reflexivity|]. cbn [nth_error]. destruct (digit_store p 0 d m) as [m'|] eqn:E; [|reflexivity].
      cbn [snd]. apply (store_only p 0 d m m' q k E). intros X. injection X as <- <-. now apply Nw.
  - cbn [dtick]. unfold go_load. now destruct (digit_load p _ m).
  - cbn [dtick]. unfold go_store. destruct (nth_error new j) as [d|]; [|reflexivity]. destruct (digit_store p j d m) as [m'|] eqn:E; [|reflexivity].
    cbn [snd]. apply (store_only p j d m m' q k E). intros X. injection X as <- <-. now apply Nw.
Qed.
Lemma same_at m1 m2 p : same_buffers m1 m2 -> option_map (option_map (@length Z)) (nth_error (blocks m1) p) = option_map (option_map (@length Z)) (nth_error (blocks m2) p).
Proof. intros (_ & H). now rewrite <- !nth_error_map, H. Qed.
Lemma same_store m1 m2 p j d : same_buffers m1 m2 -> (digit_store p j d m1 = None <-> digit_store p j d m2 = None).
Proof.
  intros H. pose proof (same_at m1 m2 p H) as E. unfold digit_store.
  destruct (nth_error (blocks m1) p) as [[d1|]|], (nth_error (blocks m2) p) as [[d2|]|]; cbn in E; try discriminate E; try tauto.
  injection E as ->. destruct (Nat.ltb j (length d2)); [|tauto]. split; discriminate.
Qed.
Lemma same_free m1 m2 p n : same_buffers m1 m2 -> (mem_free p n m1 = None <-> mem_free p n m2 = None).
Proof.
  intros H. pose proof (same_at m1 m2 p H) as E. unfold mem_free.
  destruct (nth_error (blocks m1) p) as [[d1|]|], (nth_error (blocks m2) p) as [[d2|]|]; cbn in E; try discriminate E; try tauto.
  injection E as ->. destruct (Nat.eqb (length d2) n); [|tauto]. split; discriminate.
Qed.
Lemma accesses_reads_fact {R} junk (t : dthread R) m1 m2 : same_buffers m1 m2 ->
  (forall p k, next_access t = Some (Reads p k) -> digit_load p k m1 = digit_load p k m2) -> fst (dtick junk t m1) = fst (dtick junk t m2).
Proof.
  intros H Hr. destruct t as [h|p n got c|p new j c].
  - destruct h as [a| | | |ds c|p n c|p n c|p new c|n c]; try reflexivity; cbn [dtick].
    + cbn. destruct H as (_ & H). apply (f_equal (@length _)) in H. rewrite !map_length in H. rewrite H. reflexivity.
    + cbn [tick]. pose proof (same_free m1 m2 p n H) as E. destruct (mem_free p n m1), (mem_free p n m2); cbn [fst]; try reflexivity.
      * discriminate (proj2 E eq_refl).
      * discriminate (proj1 E eq_refl).
    + destruct n as [|n]; [reflexivity|]. cbn [Nat.ltb Nat.leb]. unfold go_load. cbn [length]. rewrite (Hr p 0%nat eq_refl). now destruct (digit_load p 0 m2).
    + unfold go_store. destruct new as [|d new]; [reflexivity|]. cbn [nth_error]. pose proof (same_store m1 m2 p 0%nat d H) as E.
      destruct (digit_store p 0 d m1), (digit_store p 0 d m2); try reflexivity.
      * discriminate (proj2 E eq_refl).
      * discriminate (proj1 E eq_refl).
    + cbn. destruct H as (H & _). now rewrite H.
  - cbn [dtick]. unfold go_load. rewrite (Hr p (length got) eq_refl). now destruct (digit_load p _ m2).
  - cbn [dtick]. unfold go_store. destruct (nth_error new j) as [d|]; [|reflexivity]. pose proof (same_store m1 m2 p j d H) as E.
    destruct (digit_store p j d m1), (digit_store p j d m2); try reflexivity.
    * discriminate (proj2 E eq_refl).
    * discriminate (proj1 E eq_refl).
Qed.

(** * No conflicts *)
Lemma dead_stays {R} junk i (s : dpool R) p : (p < length (blocks (fst s)))%nat ->
  (p < length (blocks (fst (dturn junk i s))))%nat /\
  ((exists ds, nth_error (blocks (fst (dturn junk i s))) p = Some (Some ds)) -> exists ds, nth_error (blocks (fst s)) p = Some (Some ds)).
Proof.
  destruct s as [m ts]. cbn [fst]. intros Hp. unfold dturn. cbn [fst snd]. destruct (nth_error ts i) as [t|]; [|auto].
  assert (St : forall q j d m', digit_store q j d m = Some m' -> (p < length (blocks m'))%nat /\
    ((exists ds, nth_error (blocks m') p = Some (Some ds)) -> exists ds, nth_error (blocks m) p = Some (Some ds))).
  { intros q j d m'. unfold digit_store. destruct (nth_error (blocks m) q) as [[ds|]|] eqn:E; try discriminate.
    destruct (Nat.ltb j (length ds)); [|discriminate]. intros X. injection X as <-. cbn [blocks]. rewrite update_length. split; [exact Hp|].
    intros (es & X). destruct (Nat.eq_dec q p) as [->|N]; [eauto|]. rewrite nth_update_other in X by exact N. eauto. }
  assert (Same : (p < length (blocks m))%nat /\ ((exists ds, nth_error (blocks m) p = Some (Some ds)) -> exists ds, nth_error (blocks m) p = Some (Some ds))) by auto.
  destruct t as [h|q n got c|q new j c].
  - destruct h as [a| | | |ds c|q n c|q n c|q new c|n c]; cbn [dtick tick]; try exact Same.
    + cbn. rewrite app_length. split; [lia|]. intros (es & X). rewrite nth_error_app1 in X by exact Hp. eauto.
    + unfold mem_free. destruct (nth_error (blocks m) q) as [[ds|]|] eqn:E; try exact Same. destruct (Nat.eqb (length ds) n); [|exact Same].
      cbn [fst blocks]. rewrite update_length. split; [exact Hp|]. intros (es & X). destruct (Nat.eq_dec q p) as [->|N]; [eauto|].
      rewrite nth_update_other in X by exact N. eauto.
    + destruct (Nat.ltb 0 n); [|exact Same]. unfold go_load. destruct (digit_load q _ m); exact Same.
    + unfold go_store. destruct (nth_error new 0) as [d|]; [|exact Same]. destruct (digit_store q 0 d m) as [m'|] eqn:E; [|exact Same]. exact (St _ _ _ _ E).
  - cbn [dtick]. unfold go_load. destruct (digit_load q _ m); exact Same.
  - cbn [dtick]. unfold go_store. destruct (nth_error new j) as [d|]; [|exact Same]. destruct (digit_store q j d m) as [m'|] eqn:E; [|exact Same]. exact (St _ _ _ _ E).
Qed.
Lemma owned_alive {R} S (posts : list (ends R)) Ls s i L p : pool_ok S posts Ls s -> nth_error Ls i = Some L -> In p (map addr (owned L)) ->
  exists ds, nth_error (blocks (fst s)) p = Some (Some ds).
Proof.
  intros [Hl Hs Hm] EL I. apply in_map_iff in I as (((b & q) & ds) & E & I). cbn in E. subst q. exists ds.
  apply Hm. exists b. apply in_or_app. right. apply in_concat. exists (owned L). split; [|exact I].
  apply in_map. now apply nth_error_In in EL.
Qed.
Lemma shared_alive {R} S (posts : list (ends R)) Ls s p : pool_ok S posts Ls s -> In p (map addr S) -> exists ds, nth_error (blocks (fst s)) p = Some (Some ds).
Proof.
  intros [Hl Hs Hm] I. apply in_map_iff in I as (((b & q) & ds) & E & I). cbn in E. subst q. exists ds.
  apply Hm. exists b. apply in_or_app. now left.
Qed.
Lemma shared_not_owned {R} S (posts : list (ends R)) Ls s i L p : pool_ok S posts Ls s -> nth_error Ls i = Some L -> In p (map addr (owned L)) -> ~ In p (map addr S).
Proof.
  intros [Hl Hs Hm] EL I IS. destruct Hm as (ND & _). rewrite map_app in ND. apply (nodup_apart _ _ p ND IS).
  apply in_map_iff in I as (c & Ec & I). apply in_map_iff. exists c. split; [exact Ec|]. apply in_concat. exists (owned L).
  split; [|exact I]. apply in_map, (nth_error_In _ i), EL.
Qed.
(** What a thread owns after its turn is new or was its own before. *)
Lemma owned_before {R} junk S (posts : list (ends R)) Ls s i L L' p : dpool_ok S posts Ls s -> dpool_ok S posts (update i L' Ls) (dturn junk i s) ->
  nth_error Ls i = Some L -> In p (map addr (owned L')) -> (p < length (blocks (fst s)))%nat -> In p (map addr (owned L)).
Proof.
  intros [H _] [H' _] EL I Hp. assert (EL' : nth_error (update i L' Ls) i = Some L') by exact (nth_update_same _ _ _ _ EL).
  destruct (proj2 (dead_stays junk i s p Hp) (owned_alive _ _ _ _ i L' p H' EL' I)) as (ds & X).
  destruct H as [Hl Hs Hm]. cbn [fst snd] in *. apply Hm in X as (b & X). apply in_app_or in X as [X|X].
  - exfalso. apply (shared_not_owned _ _ _ _ i L' p H' EL' I). apply (in_map addr) in X. exact X.
  - apply in_concat in X as (l & Il & Ip). apply in_map_iff in Il as (M & <- & IM). apply In_nth_error in IM as (j & Ej).
    apply (in_map addr) in Ip. cbn in Ip. destruct (Nat.eq_dec i j) as [<-|N]; [congruence|]. exfalso.
    assert (Ej' : nth_error (update i L' Ls) j = Some M) by (rewrite nth_update_other; auto).
    destruct H' as [Hl' Hs' (ND & Hm')]. rewrite map_app in ND. apply nodup_tail in ND.
    assert (U : update i L' Ls = update i L' (update i L' Ls)).
    { clear. revert i. induction Ls as [|x l IH]; intros [|i]; cbn; try reflexivity. now rewrite <- IH. }
    rewrite U in ND. apply (Permutation_NoDup (Permutation_map addr (concat_update i L' L' _ EL'))) in ND. rewrite map_app in ND.
    apply (nodup_apart _ _ p ND I). exact (in_owned_other i j M _ p N Ej' Ip).
Qed.

Definition logged {R} (S : list cell) (Ls : list (list cell)) (s : dpool R) (log : list (nat * access)) : Prop :=
  forall i a, In (i, a) log -> (buffer a < length (blocks (fst s)))%nat /\
    (In (buffer a) (map addr S) /\ harmless a \/
     ~ In (buffer a) (map addr S) /\ forall j L, j <> i -> nth_error Ls j = Some L -> ~ In (buffer a) (map addr (owned L))).
Definition apart (S : list cell) (log : list (nat * access)) : Prop :=
  forall i j a b, In (i, a) log -> In (j, b) log -> i <> j -> buffer a = buffer b -> In (buffer a) (map addr S) /\ harmless a /\ harmless b.
Lemma next_touches {R} (t : dthread R) a : next_access t = Some a -> touches (pending t) (buffer a) /\ (harmless a \/ overwrites (pending t) (buffer a)).
Proof.
  destruct t as [[ | | | | |p n c|p n c|p new c|]|p n got c|p new j c]; cbn [next_access pending]; try discriminate;
    try (intros X; injection X as <-; cbn; auto; fail).
  - destruct n; [discriminate|]. intros X; injection X as <-; cbn; auto.
  - destruct new; [discriminate|]. intros X; injection X as <-; cbn; auto.
Qed.
Lemma next_mine {R} S (posts : list (ends R)) Ls s i t a : dpool_ok S posts Ls s -> nth_error (snd s) i = Some t -> next_access t = Some a ->
  exists L, nth_error Ls i = Some L /\ (buffer a < length (blocks (fst s)))%nat /\
    (In (buffer a) (map addr S) /\ harmless a \/ ~ In (buffer a) (map addr S) /\ In (buffer a) (map addr (owned L)) /\
      forall j L, j <> i -> nth_error Ls j = Some L -> ~ In (buffer a) (map addr (owned L))).
Proof.
  intros [H _] E Ea. apply next_touches in Ea as (T & O). assert (Et : nth_error (snd (fst s, map pending (snd s))) i = Some (pending t)) by (cbn [snd]; now apply map_nth_error).
  destruct (pool_safe _ _ _ _ H i _ Et) as (L & post & EL & _ & Sf & Pm). exists L. split; [exact EL|].
  pose proof (safe_touches _ _ _ _ Sf T) as I. apply (Permutation_in _ (Permutation_map addr (partition_perm L))) in I. rewrite map_app in I.
  assert (Ow : In (buffer a) (map addr (owned L)) -> (buffer a < length (blocks (fst s)))%nat /\ ~ In (buffer a) (map addr S) /\ In (buffer a) (map addr (owned L)) /\
    forall j L, j <> i -> nth_error Ls j = Some L -> ~ In (buffer a) (map addr (owned L))).
  { intros Io. split; [|split; [exact (shared_not_owned _ _ _ _ i L _ H EL Io)|split; [exact Io|]]].
    - destruct (owned_alive _ _ _ _ i L _ H EL Io) as (ds & X). cbn [fst] in X. apply nth_error_Some. congruence.
    - intros j L2 N E2 I2. assert (Hj : exists h, nth_error (snd (fst s, map pending (snd s))) j = Some h).
      { destruct (nth_error (snd (fst s, map pending (snd s))) j) eqn:X; [eauto|]. exfalso. apply nth_error_None in X. rewrite <- (pool_length _ _ _ _ H) in X.
        assert (j < length Ls)%nat by (apply nth_error_Some; congruence). lia. }
      destruct Hj as (h & Ej). destruct (pool_safe _ _ _ _ H j h Ej) as (L3 & _ & E3 & _ & _ & P3). assert (L3 = L2) by congruence. subst L3.
      apply (pool_apart S posts Ls _ i j L L2 (buffer a) H ltac:(auto) EL E2 P3 Io).
      apply in_map_iff in I2 as (c & Ec & I2). apply in_map_iff. exists c. split; [exact Ec|]. now apply filter_In in I2. }
  apply in_app_or in I as [I|I]; [|specialize (Ow I); tauto].
  assert (IS : In (buffer a) (map addr S)) by exact (Permutation_in _ (Permutation_map addr Pm) I).
  destruct O as [O|O].
  - split; [|left; auto]. destruct (shared_alive _ _ _ _ _ H IS) as (ds & X). cbn [fst] in X. apply nth_error_Some. congruence.
  - specialize (Ow (safe_overwrites _ _ _ _ Sf O)). tauto.
Qed.
Lemma accesses_apart {R} junk S (posts : list (ends R)) schedule : forall Ls s log, dpool_ok S posts Ls s -> logged S Ls s log -> apart S log ->
  apart S (log ++ accesses junk schedule s).
Proof.
  induction schedule as [|i schedule IH]; intros Ls s log H Hl Ha; [cbn [accesses]; now rewrite app_nil_r|]. cbn [accesses].
  rewrite app_assoc. destruct (dturn_ok junk i S posts Ls s H) as (L' & H'). apply (IH (update i L' Ls)); [exact H'| |].
  - intros k a I. assert (B : (buffer a < length (blocks (fst s)))%nat /\ (In (buffer a) (map addr S) /\ harmless a \/
      ~ In (buffer a) (map addr S) /\ forall j L, j <> k -> nth_error Ls j = Some L -> ~ In (buffer a) (map addr (owned L)))).
    { apply in_app_or in I as [I|I]; [exact (Hl k a I)|]. destruct (nth_error (snd s) i) as [t|] eqn:E; [|destruct I].
      destruct (next_access t) as [b|] eqn:Eb; [|destruct I]. destruct I as [I|[]]. injection I as <- <-.
      destruct (next_mine S posts Ls s i t b H E Eb) as (L & _ & B & C). split; [exact B|]. tauto. }
    clear I. destruct B as (B & C). split; [exact (proj1 (dead_stays junk i s _ B))|]. destruct C as [C|(C & D)]; [now left|right]. split; [exact C|].
    intros j L N E I. destruct (Nat.eq_dec i j) as [<-|N'].
    + destruct (nth_error Ls i) as [L0|] eqn:E0.
      * rewrite (nth_update_same _ _ _ _ E0) in E. injection E as <-. apply (D i L0 N E0). exact (owned_before junk S posts Ls s i L0 L' _ H H' E0 I B).
      * rewrite update_out in E by exact E0. congruence.
    + rewrite nth_update_other in E by exact N'. exact (D j L N E I).
  - assert (Mine : forall k a, In (k, a) match nth_error (snd s) i with Some t => match next_access t with Some a => [(i, a)] | None => [] end | None => [] end ->
      k = i /\ exists L, nth_error Ls i = Some L /\ (In (buffer a) (map addr S) /\ harmless a \/ ~ In (buffer a) (map addr S) /\ In (buffer a) (map addr (owned L)))).
    { intros k a I. destruct (nth_error (snd s) i) as [t|] eqn:E; [|destruct I].
      destruct (next_access t) as [b|] eqn:Eb; [|destruct I]. destruct I as [I|[]]. injection I as <- <-. split; [reflexivity|].
      destruct (next_mine S posts Ls s i t b H E Eb) as (L & EL & _ & C). exists L. split; [exact EL|]. tauto. }
    assert (Mix : forall j a b, In (j, a) log -> j <> i -> forall k, In (k, b) match nth_error (snd s) i with Some t => match next_access t with Some a => [(i, a)] | None => [] end | None => [] end ->
      buffer a = buffer b -> In (buffer a) (map addr S) /\ harmless a /\ harmless b).
    { intros j a b Ia N k Ib Eq. destruct (Mine k b Ib) as (-> & L & EL & C). destruct (Hl j a Ia) as (_ & D). rewrite Eq in *.
      destruct C as [C|C], D as [D|D]; try tauto. exfalso. exact (proj2 D i L ltac:(auto) EL (proj2 C)). }
    intros k j a b Ia Ib N Eq. destruct (in_app_or _ _ _ Ia) as [Ka|Ka], (in_app_or _ _ _ Ib) as [Jb|Jb]; clear Ia; rename Ka into Ia.
    + exact (Ha k j a b Ia Jb N Eq).
    + destruct (Mine j b Jb) as (-> & _). exact (Mix k a b Ia N i Jb Eq).
    + destruct (Mine k a Ia) as (-> & _). destruct (Mix j b a Jb ltac:(auto) i Ia ltac:(auto)) as (X & Y & Z). rewrite Eq. auto.
    + destruct (Mine k a Ia) as (-> & _), (Mine j b Jb) as (-> & _). contradiction.
Qed.
Lemma trace_fact junk setup slack give programs vs m schedule i j a b : forked_catching setup slack give programs vs m ->
  let log := accesses junk schedule (m, map DAt (spawn_catching 0 give vs programs)) in
  In (i, a) log -> In (j, b) log -> i <> j -> buffer a = buffer b ->
  harmless a /\ harmless b /\ exists x, borrowed give x /\ points_to vs x (buffer a).
Proof.
  intros H log Ia Ib N E. destruct (forked_catching_ok _ _ _ _ _ _ H) as (cs & S & Ls & _ & _ & P & _ & B & _).
  destruct (accesses_apart junk S _ schedule Ls _ [] (dpool_start _ _ _ _ _ P)) with (i := i) (j := j) (a := a) (b := b) as (X & Y & Z); auto.
  - intros k c [].
  - intros k l c d [].
  - apply B in X. auto.
Qed.
Lemma ttrace_fact junk setup slack give programs vs m schedule i j a b : tforked setup slack give programs vs m ->
  let log := accesses junk schedule (m, map DAt (tspawn 0 give vs programs)) in
  In (i, a) log -> In (j, b) log -> i <> j -> buffer a = buffer b ->
  harmless a /\ harmless b /\ exists x, borrowed give x /\ points_to (inside vs) x (buffer a).
Proof.
  intros H log Ia Ib N E. destruct (tforked_ok _ _ _ _ _ _ H) as (cs & S & Ls & _ & _ & _ & P & _ & B & _).
  destruct (accesses_apart junk S _ schedule Ls _ [] (dpool_start _ _ _ _ _ P)) with (i := i) (j := j) (a := a) (b := b) as (X & Y & Z); auto.
  - intros k c [].
  - intros k l c d [].
  - apply B in X. auto.
Qed.
