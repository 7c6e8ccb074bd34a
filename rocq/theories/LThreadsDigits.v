(** Threads that take turns before every digit. *)
From Verif Require Export LThreadsTyped MThreadsDigits SpecThreadsDigits.
From Coq Require Import Lia Permutation.

(** What a thread amid an access has done of it. *)
Definition amid {A} (m : mem) (t : dthread A) : Prop :=
  match t with
  | DAt _ => True
  | DLoad p n got _ => (length got < n)%nat /\ exists ds, nth_error (blocks m) p = Some (Some ds) /\ got = firstn (length got) ds
  | DStore p new j _ => (j < length new)%nat /\ exists ds, nth_error (blocks m) p = Some (Some ds) /\ firstn j ds = firstn j new
  end.
Record dpool_ok {R : Type} (S : list cell) (posts : list (ends R)) (Ls : list (list cell)) (s : dpool R) : Prop := mk_dpool_ok {
  dpool_coarse : pool_ok S posts Ls (fst s, map pending (snd s));
  dpool_amid : forall i t, nth_error (snd s) i = Some t -> amid (fst s) t }.

(** One thread and the memory change. *)
Lemma pool_replace {R} i S (posts : list (ends R)) Ls m ts h : pool_ok S posts Ls (m, ts) -> nth_error ts i = Some h ->
  exists L post F, safe h L post /\ live m (L ++ F) /\
    forall h' m' L', safe h' L' post -> live m' (L' ++ F) -> Permutation (lent L') (lent L) ->
      pool_ok S posts (update i L' Ls) (m', update i h' ts).
Proof.
  intros [Hl Hs Hm] E. cbn [fst snd] in *. destruct (Hs i h E) as (L & post & EL & EP & Sf & Pm).
  exists L, post, (concat (map owned (update i [] Ls))). split; [exact Sf|]. split.
  { eapply live_perm; [|exact Hm]. rewrite <- (update_id i L Ls EL) at 1. exact (pool_focus S Ls i L EL Pm L Pm). }
  intros h' m' L' Sf' Hm' P'. assert (Pm' : Permutation (lent L') S) by (now rewrite P').
  constructor; cbn [fst snd].
  - now rewrite !update_length.
  - intros j k. destruct (Nat.eq_dec i j) as [<-|N].
    + rewrite (nth_update_same i h' h) by exact E. intros K. injection K as <-. exists L', post.
      rewrite (nth_update_same i L' L) by exact EL. auto.
    + rewrite !nth_update_other by exact N. apply Hs.
  - eapply live_perm; [symmetry; exact (pool_focus S Ls i L EL Pm L' Pm')|exact Hm'].
Qed.

Lemma firstn_grow {A} (l : list A) i d : nth_error l i = Some d -> firstn i l ++ [d] = firstn (S i) l.
Proof. revert l. induction i as [|i IH]; intros [|x l] E; cbn in *; try discriminate; [congruence|]. now rewrite (IH l E). Qed.
Lemma update_firstn {A} (l k : list A) j d : nth_error k j = Some d -> (j < length l)%nat -> firstn j l = firstn j k ->
  firstn (S j) (update j d l) = firstn (S j) k.
Proof.
  revert l k. induction j as [|j IH]; intros [|x l] [|y k] E H F; cbn in *; try discriminate; try lia; [congruence|].
  injection F as -> F. f_equal. apply IH; auto. lia.
Qed.
Lemma update_skipn {A} (l : list A) j n d : (j < n)%nat -> skipn n (update j d l) = skipn n l.
Proof. revert l n. induction j as [|j IH]; intros [|x l] [|n] H; cbn in *; try lia; auto. apply IH. lia. Qed.

(** Writing one digit of a buffer one owns. *)
Lemma live_digit m L p ds ds' : live m ((true, p, ds) :: L) -> length ds' = length ds ->
  live (mk_mem (slack m) (update p (Some ds') (blocks m))) ((true, p, ds') :: L).
Proof.
  intros H E. destruct (live_store m L p ds ds' H ltac:(lia)) as (m' & Em & H').
  unfold mem_store in Em. pose proof (live_in m _ true p ds H ltac:(now left)) as (X & _). rewrite X in Em.
  destruct (Nat.leb_spec (length ds') (length ds)); [|lia]. injection Em as <-.
  rewrite skipn_all2, app_nil_r in * by lia. exact H'.
Qed.

(** What the others are amid is not disturbed. *)
Lemma others_amid {R} i S (posts : list (ends R)) Ls m m' ts t : dpool_ok S posts Ls (m, ts) -> nth_error ts i = Some t ->
  (forall q ds, nth_error (blocks m) q = Some (Some ds) -> overwrites (pending t) q \/ nth_error (blocks m') q = Some (Some ds)) ->
  forall j u, i <> j -> nth_error ts j = Some u -> amid m' u.
Proof.
  intros [Hc Ha] E K j u N Eu. cbn [fst snd] in *. pose proof (Ha j u Eu) as A. pose proof (pool_race _ _ _ _ Hc) as (Rc & _). cbn [snd] in Rc.
  assert (X : forall q, touches (pending u) q -> ~ overwrites (pending t) q).
  { intros q T O. apply Rc. exists i, j, (pending t), (pending u), q. split; [exact N|].
    split; [now rewrite nth_error_map, E|]. split; [now rewrite nth_error_map, Eu|]. auto. }
  destruct u as [h|q n got k|q new c k]; cbn [amid pending touches] in *; [exact I| |];
    destruct A as (A1 & ds & A2 & A3); (split; [exact A1|]); exists ds; (split; [|exact A3]);
    (destruct (K q ds A2) as [O|O]; [destruct (X q eq_refl O)|exact O]).
Qed.

Lemma dpool_step {R} i S (posts : list (ends R)) Ls Ls' m m' ts t t' : dpool_ok S posts Ls (m, ts) -> nth_error ts i = Some t ->
  (forall q ds, nth_error (blocks m) q = Some (Some ds) -> overwrites (pending t) q \/ nth_error (blocks m') q = Some (Some ds)) ->
  amid m' t' -> pool_ok S posts Ls' (m', update i (pending t') (map pending ts)) -> dpool_ok S posts Ls' (m', update i t' ts).
Proof.
  intros H E K A P. constructor; cbn [fst snd].
  - now rewrite map_update.
  - intros j u Eu. destruct (Nat.eq_dec i j) as [<-|N].
    + rewrite (nth_update_same i t' t) in Eu by exact E. now injection Eu as <-.
    + rewrite nth_update_other in Eu by exact N. exact (others_amid i S posts Ls m m' ts t H E K j u N Eu).
Qed.

Lemma go_load_ok {R} i S (posts : list (ends R)) Ls m ts t p n got k : dpool_ok S posts Ls (m, ts) -> nth_error ts i = Some t ->
  pending t = HLoad p n k -> (length got < n)%nat ->
  (forall ds, nth_error (blocks m) p = Some (Some ds) -> got = firstn (length got) ds) ->
  exists L', dpool_ok S posts (update i L' Ls) (snd (go_load p n got k m), update i (fst (go_load p n got k m)) ts).
Proof.
  intros H E Ep Hn Hg. pose proof H as [Hc _]. cbn [fst snd] in Hc.
  assert (Eh : nth_error (map pending ts) i = Some (HLoad p n k)) by (rewrite nth_error_map, E; cbn; now rewrite Ep).
  destruct (pool_replace i _ _ _ _ _ _ Hc Eh) as (L & post & F & Sf & Hm & Up). cbn [safe] in Sf.
  destruct Sf as (b & ds & I & Ln & Sf). pose proof (live_in m _ b p ds Hm (in_or_app _ _ _ (or_introl I))) as (Eb & _).
  specialize (Hg ds Eb). unfold go_load, digit_load. rewrite Eb.
  destruct (nth_error ds (length got)) as [d|] eqn:Ed; [|apply nth_error_None in Ed; lia].
  assert (Eg : got ++ [d] = firstn (Datatypes.S (length got)) ds) by (rewrite Hg at 1; now apply firstn_grow).
  assert (Lg : length (got ++ [d]) = Datatypes.S (length got)) by (rewrite app_length; cbn; lia).
  destruct (Nat.ltb_spec (length (got ++ [d])) n) as [Hlt|Hge]; cbn [fst snd].
  - exists L. apply (dpool_step i S posts Ls _ m m ts t); auto.
    + cbn [amid]. split; [exact Hlt|]. exists ds. split; [exact Eb|]. now rewrite Lg.
    + cbn [pending]. apply Up; auto. cbn [safe]. exists b, ds. auto.
  - exists L. apply (dpool_step i S posts Ls _ m m ts t); auto; [exact Logic.I|].
    cbn [pending]. apply Up; auto. rewrite Eg. replace (Datatypes.S (length got)) with n by lia. exact Sf.
Qed.

Lemma go_store_ok {R} i S (posts : list (ends R)) Ls m ts t p new j k : dpool_ok S posts Ls (m, ts) -> nth_error ts i = Some t ->
  pending t = HStore p new k -> (j < length new \/ new = [])%nat ->
  (forall ds, nth_error (blocks m) p = Some (Some ds) -> firstn j ds = firstn j new) ->
  exists L', dpool_ok S posts (update i L' Ls) (snd (go_store p new j k m), update i (fst (go_store p new j k m)) ts).
Proof.
  intros H E Ep Hj Hg. pose proof H as [Hc _]. cbn [fst snd] in Hc.
  assert (Eh : nth_error (map pending ts) i = Some (HStore p new k)) by (rewrite nth_error_map, E; cbn; now rewrite Ep).
  destruct (pool_replace i _ _ _ _ _ _ Hc Eh) as (L & post & F & Sf & Hm & Up). cbn [safe] in Sf.
  destruct Sf as (ds & L' & P & Ln & Sf).
  assert (Hm1 : live m ((true, p, ds) :: L' ++ F)).
  { eapply live_perm; [|exact Hm]. change ((true, p, ds) :: L' ++ F) with (((true, p, ds) :: L') ++ F). now apply Permutation_app_tail. }
  pose proof (live_in m _ true p ds Hm1 ltac:(now left)) as (Eb & Lp).
  assert (Pl : forall x, Permutation (lent ((true, p, x) :: L')) (lent L)).
  { intros x. apply (filter_perm (fun c => negb (fst (fst c)))) in P. symmetry. exact P. }
  specialize (Hg ds Eb). unfold go_store, digit_store. rewrite Eb.
  destruct (nth_error new j) as [d|] eqn:Ed.
  - assert (Hjn : (j < length new)%nat) by (apply nth_error_Some; congruence).
    destruct (Nat.ltb_spec j (length ds)); [|lia].
    pose proof (live_digit m (L' ++ F) p ds (update j d ds) Hm1 ltac:(apply update_length)) as Hm2.
    set (m' := mk_mem (slack m) (update p (Some (update j d ds)) (blocks m))) in *.
    assert (K : forall q es, nth_error (blocks m) q = Some (Some es) -> overwrites (pending t) q \/ nth_error (blocks m') q = Some (Some es)).
    { intros q es Eq. rewrite Ep. cbn [overwrites]. destruct (Nat.eq_dec p q) as [<-|N]; [now left|right].
      unfold m'. cbn [blocks]. now rewrite nth_update_other by exact N. }
    assert (Eb' : nth_error (blocks m') p = Some (Some (update j d ds))) by (unfold m'; cbn [blocks]; exact (nth_update_same _ _ _ _ Eb)).
    pose proof (update_firstn ds new j d Ed ltac:(lia) Hg) as F1.
    destruct (Nat.ltb_spec (Datatypes.S j) (length new)) as [Hlt|Hge]; cbn [fst snd].
    + exists ((true, p, update j d ds) :: L'). apply (dpool_step i S posts Ls _ m m' ts t); auto.
      * cbn [amid]. split; [exact Hlt|]. eauto.
      * cbn [pending]. apply Up; auto. cbn [safe]. exists (update j d ds), L'. split; [reflexivity|]. rewrite update_length. split; [exact Ln|].
        rewrite update_skipn by lia. exact Sf.
    + exists ((true, p, update j d ds) :: L'). apply (dpool_step i S posts Ls _ m m' ts t); auto; [exact Logic.I|].
      cbn [pending]. apply Up; auto. replace (update j d ds) with (new ++ skipn (length new) ds); [exact Sf|].
      replace (Datatypes.S j) with (length new) in F1 by lia. rewrite firstn_all in F1.
      rewrite <- (firstn_skipn (length new) (update j d ds)), F1, update_skipn by lia. reflexivity.
  - apply nth_error_None in Ed. destruct Hj as [Hj| ->]; [lia|]. cbn [fst snd].
    exists ((true, p, ds) :: L'). apply (dpool_step i S posts Ls _ m m ts t); [exact H|exact E|auto|exact Logic.I|].
    cbn [pending]. apply Up; auto.
Qed.

Lemma dturn_ok {R} junk i S (posts : list (ends R)) Ls s : dpool_ok S posts Ls s -> exists L', dpool_ok S posts (update i L' Ls) (dturn junk i s).
Proof.
  destruct s as [m ts]. intros H. unfold dturn. cbn [fst snd]. destruct (nth_error ts i) as [t|] eqn:E.
  2:{ exists []. rewrite update_out; [exact H|]. apply nth_error_None. apply nth_error_None in E.
      rewrite (pool_length _ _ _ _ (dpool_coarse _ _ _ _ H)). cbn [fst snd]. now rewrite map_length. }
  assert (Am : amid m t) by exact (dpool_amid _ _ _ _ H i t E).
  assert (Go : forall h, t = DAt h -> (forall q ds, nth_error (blocks m) q = Some (Some ds) -> overwrites h q \/ nth_error (blocks (snd (tick h m))) q = Some (Some ds)) ->
    exists L', dpool_ok S posts (update i L' Ls) (snd (tick h m), update i (DAt (fst (tick h m))) ts)).
  { intros h -> K. destruct (turn_ok i _ _ _ _ (dpool_coarse _ _ _ _ H)) as (Ls' & P). exists Ls'. cbn [fst snd] in P.
    unfold turn in P. cbn [fst snd] in P. rewrite nth_error_map, E in P. cbn [option_map pending] in P.
    destruct (tick h m) as (h' & m'). cbn [fst snd] in *. apply (dpool_step i S posts Ls _ m m' ts (DAt h)); [exact H|exact E|exact K|exact Logic.I|exact P]. }
  destruct t as [h|p n got k|p new j k].
  - destruct h as [a| | | |ds k|p n k|p n k|p new k|n k]; cbn [dtick].
    + apply (Go (HRet a)); auto.
    + apply (Go HPanic); auto.
    + apply (Go HFuel); auto.
    + apply (Go HUndef); auto.
    + pose proof (dpool_coarse _ _ _ _ H) as Hc. cbn [fst snd] in Hc.
      assert (Eh : nth_error (map pending ts) i = Some (HMalloc ds k)) by (now rewrite nth_error_map, E).
      destruct (pool_replace i _ _ _ _ _ _ Hc Eh) as (L & post & F & Sf & Hm & Up). cbn [safe] in Sf.
      set (u := uninit junk (length (blocks m)) (length ds)).
      assert (Lu : length u = length ds) by (unfold u, uninit; now rewrite map_length, seq_length).
      destruct (live_malloc m (L ++ F) u Hm) as (N & Hm'). cbn [mem_malloc fst snd] in *.
      set (p := length (blocks m)) in *. set (m' := mk_mem (slack m) (blocks m ++ [Some u])) in *.
      assert (K : forall q es, nth_error (blocks m) q = Some (Some es) -> nth_error (blocks m') q = Some (Some es)).
      { intros q es Eq. unfold m'. cbn [blocks]. rewrite nth_error_app1; [exact Eq|]. apply nth_error_Some. congruence. }
      assert (Eb : nth_error (blocks m') p = Some (Some u)) by (unfold m', p; cbn [blocks]; rewrite nth_error_app2, Nat.sub_diag by lia; reflexivity).
      destruct Sf as (_ & Sf). specialize (Sf p ltac:(intros I; apply N; rewrite map_app; apply in_or_app; now left)).
      exists ((true, p, u) :: L).
      destruct (Nat.ltb_spec 0 (length ds)) as [Hp|Hp].
      * apply (dpool_step i S posts Ls _ m m' ts (DAt (HMalloc ds k))); auto.
        -- cbn [amid]. split; [exact Hp|]. exists u. auto.
        -- cbn [pending]. apply Up; auto. cbn [safe]. exists u, L. split; [reflexivity|]. split; [lia|].
           rewrite skipn_all2, app_nil_r by lia. exact Sf.
      * apply (dpool_step i S posts Ls _ m m' ts (DAt (HMalloc ds k))); [exact H|exact E|auto|exact Logic.I|].
        cbn [pending]. apply Up; auto. destruct ds; [|cbn in Hp; lia]. destruct u; [|discriminate]. exact Sf.
    + pose proof (Go (HFree p n k) eq_refl) as G. destruct (tick (HFree p n k) m) as (h' & m') eqn:Et. apply G. clear G.
      intros q es Eq. cbn [overwrites]. destruct (Nat.eq_dec p q) as [->|Nq]; [now left|right].
      cbn [tick] in Et. destruct (mem_free p n m) as [m1|] eqn:Ef; injection Et as _ <-; cbn [snd]; [|exact Eq].
      unfold mem_free in Ef. destruct (nth_error (blocks m) p) as [[x|]|]; try discriminate. destruct (Nat.eqb _ _); [|discriminate].
      injection Ef as <-. cbn [blocks]. now rewrite nth_update_other by exact Nq.
    + destruct (Nat.ltb_spec 0 n) as [Hn|Hn].
      * destruct (go_load_ok i S posts Ls m ts (DAt (HLoad p n k)) p n [] k H E eq_refl Hn) as (Ls' & P); [reflexivity|].
        exists Ls'. destruct (go_load p n [] k m) as (t' & m'). exact P.
      * pose proof (dpool_coarse _ _ _ _ H) as Hc. cbn [fst snd] in Hc.
        assert (Eh : nth_error (map pending ts) i = Some (HLoad p n k)) by (now rewrite nth_error_map, E).
        destruct (pool_replace i _ _ _ _ _ _ Hc Eh) as (L & post & F & Sf & Hm & Up). cbn [safe] in Sf.
        destruct Sf as (b & ds & I & Ln & Sf). exists L.
        apply (dpool_step i S posts Ls _ m m ts (DAt (HLoad p n k))); [exact H|exact E|auto|exact Logic.I|].
        cbn [pending]. apply Up; auto. replace n with 0%nat in Sf by lia. exact Sf.
    + destruct (go_store_ok i S posts Ls m ts (DAt (HStore p new k)) p new 0 k H E eq_refl) as (Ls' & P); [|reflexivity|].
      * destruct new; [now right|left; cbn; lia].
      * exists Ls'. destruct (go_store p new 0 k m) as (t' & m'). exact P.
    + apply (Go (HSlack n k)); auto.
  - cbn [dtick amid] in *. destruct Am as (A1 & ds & A2 & A3).
    destruct (go_load_ok i S posts Ls m ts (DLoad p n got k) p n got k H E eq_refl A1) as (Ls' & P); [intros es Ee; congruence|].
    exists Ls'. destruct (go_load p n got k m) as (t' & m'). exact P.
  - cbn [dtick amid] in *. destruct Am as (A1 & ds & A2 & A3).
    destruct (go_store_ok i S posts Ls m ts (DStore p new j k) p new j k H E eq_refl) as (Ls' & P); [now left|intros es Ee; congruence|].
    exists Ls'. destruct (go_store p new j k m) as (t' & m'). exact P.
Qed.

Lemma dinterleave_ok {R} junk schedule : forall S (posts : list (ends R)) Ls s, dpool_ok S posts Ls s ->
  exists Ls', dpool_ok S posts Ls' (dinterleave junk schedule s).
Proof.
  induction schedule as [|i schedule IH]; intros S posts Ls s H; cbn [dinterleave]; [eauto|].
  destruct (dturn_ok junk i S posts Ls s H) as (L1 & H1). exact (IH S posts _ _ H1).
Qed.
Lemma dpool_start {R} S (posts : list (ends R)) Ls m ts : pool_ok S posts Ls (m, ts) -> dpool_ok S posts Ls (m, map DAt ts).
Proof.
  intros H. constructor; cbn [fst snd].
  - rewrite map_map, map_id. exact H.
  - intros i t E. rewrite nth_error_map in E. destruct (nth_error ts i); [|discriminate]. injection E as <-. exact I.
Qed.

(** * A thread on its own comes to an end *)
Definition dtick2 {A} junk (x : dthread A * mem) : dthread A * mem := dtick junk (fst x) (snd x).
Definition over {A} (t : dthread A) : Prop :=
  match t with DAt (HRet _) | DAt HPanic | DAt HFuel | DAt HUndef => True | _ => False end.
Definition comes_to_end {A} junk (t : dthread A) (m : mem) : Prop := exists n, over (fst (Nat.iter n (dtick2 junk) (t, m))).
Lemma iter_shift {X} (f : X -> X) n x : Nat.iter n f (f x) = Nat.iter (S n) f x.
Proof. induction n as [|n IH]; [reflexivity|]. cbn [Nat.iter nat_rect] in *. unfold Nat.iter in *. cbn [nat_rect] in *. now rewrite IH. Qed.
Lemma ends_step {A} junk (t : dthread A) m : comes_to_end junk (fst (dtick junk t m)) (snd (dtick junk t m)) -> comes_to_end junk t m.
Proof.
  intros (n & H). exists (S n). rewrite <- iter_shift. unfold dtick2 at 2. cbn [fst snd].
  now destruct (dtick junk t m).
Qed.
Lemma ends_load {A} junk p n (k : list Z -> HM A) : (forall ds m, comes_to_end junk (DAt (k ds)) m) ->
  forall c got m, (n <= length got + c)%nat -> comes_to_end junk (DLoad p n got k) m.
Proof.
  intros K c. induction c as [|c IH]; intros got m H; apply ends_step; cbn [dtick]; unfold go_load;
    (destruct (digit_load p (length got) m) as [d|]; cbn [fst snd]; [|now exists O]);
    (destruct (Nat.ltb_spec (length (got ++ [d])) n) as [Hl|Hl]; [|apply K]); rewrite app_length in Hl; cbn in Hl; [lia|].
  apply IH. rewrite app_length. cbn. lia.
Qed.
Lemma ends_store {A} junk p new (k : HM A) : (forall m, comes_to_end junk (DAt k) m) ->
  forall c j m, (length new <= j + c)%nat -> comes_to_end junk (DStore p new j k) m.
Proof.
  intros K c. induction c as [|c IH]; intros j m H; apply ends_step; cbn [dtick]; unfold go_store;
    (destruct (nth_error new j) as [d|] eqn:E; [|apply K]); (destruct (digit_store p j d m) as [m'|]; cbn [fst snd]; [|now exists O]);
    (destruct (Nat.ltb_spec (S j) (length new)) as [Hl|Hl]; [|apply K]); [lia|].
  apply IH. lia.
Qed.
Lemma dtick_ends {A} junk (h : HM A) : forall m, comes_to_end junk (DAt h) m.
Proof.
  induction h as [a| | | |ds k IH|p n k IH|p n k IH|p new k IH|n k IH]; intros m; try (exists O; exact I); apply ends_step; cbn [dtick].
  - cbn [mem_malloc]. destruct (Nat.ltb 0 (length ds)); cbn [fst snd]; [|apply IH].
    apply (ends_store junk _ ds (k _) (IH _) (length ds)). lia.
  - cbn [tick]. destruct (mem_free p n m); cbn [fst snd]; [apply IH|now exists O].
  - destruct (Nat.ltb 0 n); cbn [fst snd]; [|apply IH]. unfold go_load. destruct (digit_load p _ m) as [d|]; cbn [fst snd]; [|now exists O].
    destruct (Nat.ltb _ n); cbn [fst snd]; [|apply IH]. apply (ends_load junk p n k IH n). lia.
  - unfold go_store. destruct (nth_error new 0) as [d|]; cbn [fst snd]; [|apply IH]. destruct (digit_store p 0 d m) as [m'|]; cbn [fst snd]; [|now exists O].
    destruct (Nat.ltb _ _); cbn [fst snd]; [|apply IH]. apply (ends_store junk p new k IH (length new)). lia.
  - cbn [tick fst snd]. apply IH.
Qed.
Lemma dthread_ends {A} junk (t : dthread A) m : comes_to_end junk t m.
Proof.
  destruct t as [h|p n got k|p new j k]; [apply dtick_ends| |].
  - apply (ends_load junk p n k (fun ds => dtick_ends junk (k ds)) n). lia.
  - apply (ends_store junk p new k (dtick_ends junk k) (length new)). lia.
Qed.

Lemma dinterleave_app {R} junk p q : forall s : dpool R, dinterleave junk (p ++ q) s = dinterleave junk q (dinterleave junk p s).
Proof. induction p as [|i p IH]; intros s; cbn; auto. Qed.
Lemma dinterleave_length {R} junk sch : forall s : dpool R, length (snd (dinterleave junk sch s)) = length (snd s).
Proof.
  induction sch as [|j sch IH]; intros s1; [reflexivity|]. cbn [dinterleave]. rewrite IH. unfold dturn.
  destruct (nth_error (snd s1) j) as [t|]; [|reflexivity]. destruct (dtick junk t (fst s1)). cbn [snd]. apply update_length.
Qed.
Lemma dturns_iter {R} junk i n : forall (s : dpool R) t, nth_error (snd s) i = Some t ->
  nth_error (snd (dinterleave junk (repeat i n) s)) i = Some (fst (Nat.iter n (dtick2 junk) (t, fst s))).
Proof.
  induction n as [|n IH]; intros s t E; [exact E|]. cbn [repeat dinterleave]. rewrite <- iter_shift. unfold dtick2 at 2. cbn [fst snd].
  unfold dturn. rewrite E. destruct (dtick junk t (fst s)) as (t' & m') eqn:Et.
  assert (E' : nth_error (snd (m', update i t' (snd s))) i = Some t') by (cbn [snd]; exact (nth_update_same i t' t (snd s) E)).
  rewrite (IH _ t' E'). reflexivity.
Qed.
Lemma dprogress {R} junk (s0 : dpool R) schedule i : (i < length (snd s0))%nat ->
  (forall sch, let '(m', ts) := dinterleave junk sch s0 in ~ digit_race ts /\ ~ In (DAt HUndef) ts /\ ~ In (DAt HPanic) ts /\ ~ In (DAt HFuel) ts) ->
  exists n r, nth_error (snd (dinterleave junk (schedule ++ repeat i n) s0)) i = Some (DAt (HRet r)).
Proof.
  intros Hi Q. destruct (nth_error (snd (dinterleave junk schedule s0)) i) as [t|] eqn:E;
    [|apply nth_error_None in E; rewrite dinterleave_length in E; lia].
  destruct (dthread_ends junk t (fst (dinterleave junk schedule s0))) as (n & Hn).
  pose proof (dturns_iter junk i n _ t E) as E'. rewrite <- dinterleave_app in E'. exists n.
  specialize (Q (schedule ++ repeat i n)). destruct (dinterleave junk (schedule ++ repeat i n) s0) as (m' & ts). cbn [snd] in *.
  destruct Q as (_ & R1 & R2 & R3). apply nth_error_In in E' as I.
  destruct (fst (Nat.iter n _ _)) as [h|p k got c|p new j c]; try contradiction. destruct h; try contradiction. eauto.
Qed.

Lemma pending_at {A} (h : HM A) ts : In (DAt h) ts -> In h (map pending ts).
Proof. intros I. exact (in_map pending _ _ I). Qed.
Lemma pending_race {R} ts : (~ data_race (map (@pending R) ts) /\ ~ In HUndef (map pending ts) /\ ~ In HPanic (map pending ts) /\ ~ In HFuel (map pending ts)) ->
  ~ digit_race ts /\ ~ In (DAt HUndef) ts /\ ~ In (DAt HPanic) ts /\ ~ In (DAt HFuel) ts.
Proof.
  intros (A & B & C & D). split; [exact A|].
  split; [intros I; exact (B (pending_at _ _ I))|]. split; intros I; [exact (C (pending_at _ _ I))|exact (D (pending_at _ _ I))].
Qed.
Lemma pending_all {R} (ts : list (dthread R)) : Forall (fun t => exists r, t = DAt (HRet r)) ts -> Forall (fun h => exists r, h = HRet r) (map pending ts).
Proof. induction 1 as [|t ts (r & ->) H IH]; cbn; constructor; eauto. Qed.

(** * [ApInt] *)
Lemma digits_race_free_fact junk setup slack give programs vs m schedule : forked_catching setup slack give programs vs m ->
  let '(m', ts) := dinterleave junk schedule (m, map DAt (spawn_catching 0 give vs programs)) in
  ~ digit_race ts /\ ~ In (DAt HUndef) ts /\ ~ In (DAt HPanic) ts /\ ~ In (DAt HFuel) ts.
Proof.
  intros H. destruct (forked_catching_ok _ _ _ _ _ _ H) as (cs & S & Ls & _ & _ & P & _).
  destruct (dinterleave_ok junk schedule _ _ _ _ (dpool_start _ _ _ _ _ P)) as (Ls' & [P' _]). destruct (dinterleave junk schedule _) as (m' & ts).
  apply pending_race. exact (catching_race_free_pool _ _ _ _ _ _ _ P').
Qed.
Lemma digits_isolated_fact junk setup slack give programs vs m schedule m' ts i p vs' r : forked_catching setup slack give programs vs m ->
  dinterleave junk schedule (m, map DAt (spawn_catching 0 give vs programs)) = (m', ts) ->
  nth_error programs i = Some p -> nth_error ts i = Some (DAt (HRet (vs', r))) ->
  let (s', r') := athread (keeper give) (hand i give (fst (acatches [] setup))) p in
  r = r' /\ exists cs', Forall2 holds cs' s' /\ Forall2 (stored m') vs' cs'.
Proof.
  intros H Ei Ep Er. destruct (forked_catching_ok _ _ _ _ _ _ H) as (cs & S & Ls & _ & _ & P & _).
  destruct (dinterleave_ok junk schedule _ _ _ _ (dpool_start _ _ _ _ _ P)) as (Ls' & [P' _]). rewrite Ei in P'. cbn [fst snd] in P'.
  apply (catching_isolated_pool _ _ _ _ _ _ _ i p vs' r P' Ep). now rewrite nth_error_map, Er.
Qed.
Lemma digits_lent_fact junk setup slack give programs vs m schedule : forked_catching setup slack give programs vs m ->
  exists cs, Forall2 holds cs (fst (acatches [] setup)) /\ Forall2 (stored m) vs cs /\
  let '(m', ts) := dinterleave junk schedule (m, map DAt (spawn_catching 0 give vs programs)) in
  forall x v c, borrowed give x -> nth_error vs x = Some v -> nth_error cs x = Some c -> stored m' v c.
Proof.
  intros H. destruct (forked_catching_ok _ _ _ _ _ _ H) as (cs & S & Ls & Hh & St & P & KO & K6 & KU).
  exists cs. split; [exact Hh|]. split; [exact St|].
  destruct (dinterleave_ok junk schedule _ _ _ _ (dpool_start _ _ _ _ _ P)) as (Ls' & [P' _]). destruct (dinterleave junk schedule _) as (m' & ts).
  exact (lent_pool S _ Ls m _ Ls' m' _ vs cs give P P' K6 St).
Qed.
Lemma digits_progress_fact junk setup slack give programs vs m schedule i : forked_catching setup slack give programs vs m -> (i < length programs)%nat ->
  exists n r, nth_error (snd (dinterleave junk (schedule ++ repeat i n) (m, map DAt (spawn_catching 0 give vs programs)))) i = Some (DAt (HRet r)).
Proof.
  intros H Hi. apply dprogress; [cbn [snd]; now rewrite map_length, spawn_catching_length|].
  intros sch. exact (digits_race_free_fact junk _ _ _ _ _ _ sch H).
Qed.
Lemma digits_join_fact junk setup slack give programs vs m schedule m' ts : forked_catching setup slack give programs vs m ->
  dinterleave junk schedule (m, map DAt (spawn_catching 0 give vs programs)) = (m', ts) -> Forall (fun t => exists r, t = DAt (HRet r)) ts ->
  forall p ds, nth_error (blocks m') p = Some (Some ds) -> exists! o, owner give vs (map pending ts) o p.
Proof.
  intros H Ei Hr. destruct (forked_catching_ok _ _ _ _ _ _ H) as (cs & S & Ls & _ & _ & P & KO & K6 & KU).
  destruct (dinterleave_ok junk schedule _ _ _ _ (dpool_start _ _ _ _ _ P)) as (Ls' & [P' _]). rewrite Ei in P'.
  exact (catching_join_pool _ _ _ _ _ _ _ _ P' K6 KU (pending_all _ Hr)).
Qed.

(** * [UInt] and [Int] *)
Lemma tdigits_race_free_fact junk setup slack give programs vs m schedule : tforked setup slack give programs vs m ->
  let '(m', ts) := dinterleave junk schedule (m, map DAt (tspawn 0 give vs programs)) in
  ~ digit_race ts /\ ~ In (DAt HUndef) ts /\ ~ In (DAt HPanic) ts /\ ~ In (DAt HFuel) ts.
Proof.
  intros H. destruct (tforked_ok _ _ _ _ _ _ H) as (cs & S & Ls & _ & _ & _ & P & _).
  destruct (dinterleave_ok junk schedule _ _ _ _ (dpool_start _ _ _ _ _ P)) as (Ls' & [P' _]). destruct (dinterleave junk schedule _) as (m' & ts).
  apply pending_race. exact (typed_race_free_pool _ _ _ _ _ _ _ P').
Qed.
Lemma tdigits_isolated_fact junk setup slack give programs vs m schedule m' ts i p vs' r : tforked setup slack give programs vs m ->
  dinterleave junk schedule (m, map DAt (tspawn 0 give vs programs)) = (m', ts) ->
  nth_error programs i = Some p -> nth_error ts i = Some (DAt (HRet (vs', r))) ->
  let (s', r') := tathread (keeper give) (hand i give (fst (tacatches [] setup))) p in
  r = r' /\ Forall2 (in_memory m') vs' s'.
Proof.
  intros H Ei Ep Er. destruct (tforked_ok _ _ _ _ _ _ H) as (cs & S & Ls & _ & _ & _ & P & _).
  destruct (dinterleave_ok junk schedule _ _ _ _ (dpool_start _ _ _ _ _ P)) as (Ls' & [P' _]). rewrite Ei in P'. cbn [fst snd] in P'.
  apply (typed_isolated_pool _ _ _ _ _ _ _ i p vs' r P' Ep). now rewrite nth_error_map, Er.
Qed.
Lemma tdigits_lent_fact junk setup slack give programs vs m schedule : tforked setup slack give programs vs m ->
  let '(m', ts) := dinterleave junk schedule (m, map DAt (tspawn 0 give vs programs)) in
  forall x v t, borrowed give x -> nth_error vs x = Some v -> nth_error (fst (tacatches [] setup)) x = Some t -> in_memory m' v t.
Proof.
  intros H. destruct (tforked_ok _ _ _ _ _ _ H) as (cs & S & Ls & Hh & Kd & St & P & KO & K6 & KU).
  destruct (dinterleave_ok junk schedule _ _ _ _ (dpool_start _ _ _ _ _ P)) as (Ls' & [P' _]). destruct (dinterleave junk schedule _) as (m' & ts).
  exact (typed_lent_pool S _ Ls m _ Ls' m' _ vs cs _ give P P' K6 St Hh Kd).
Qed.
Lemma tdigits_progress_fact junk setup slack give programs vs m schedule i : tforked setup slack give programs vs m -> (i < length programs)%nat ->
  exists n r, nth_error (snd (dinterleave junk (schedule ++ repeat i n) (m, map DAt (tspawn 0 give vs programs)))) i = Some (DAt (HRet r)).
Proof.
  intros H Hi. apply dprogress; [cbn [snd]; now rewrite map_length, tspawn_length|].
  intros sch. exact (tdigits_race_free_fact junk _ _ _ _ _ _ sch H).
Qed.
Lemma tdigits_join_fact junk setup slack give programs vs m schedule m' ts : tforked setup slack give programs vs m ->
  dinterleave junk schedule (m, map DAt (tspawn 0 give vs programs)) = (m', ts) -> Forall (fun t => exists r, t = DAt (HRet r)) ts ->
  forall p ds, nth_error (blocks m') p = Some (Some ds) -> exists! o, towner give vs (map pending ts) o p.
Proof.
  intros H Ei Hr. destruct (tforked_ok _ _ _ _ _ _ H) as (cs & S & Ls & _ & _ & _ & P & KO & K6 & KU).
  destruct (dinterleave_ok junk schedule _ _ _ _ (dpool_start _ _ _ _ _ P)) as (Ls' & [P' _]). rewrite Ei in P'.
  exact (typed_join_pool _ _ _ _ _ _ _ _ P' K6 KU (pending_all _ Hr)).
Qed.
