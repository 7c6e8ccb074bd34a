(** Threads whose writes are delayed. *)
From Verif Require Export LThreadsDigits MThreadsBuffers SpecThreadsBuffers.
From Coq Require Import Lia Permutation.

(** * Store buffers *)
Lemma newest_app p i ws w : newest p i (ws ++ [w]) = if writes_to p i w then Some (wdigit w) else newest p i ws.
Proof.
  induction ws as [|v ws IH]; cbn [app newest]; [destruct (writes_to p i w); reflexivity|].
  rewrite IH. destruct (writes_to p i w); [reflexivity|]. reflexivity.
Qed.
Lemma newest_none p i ws : newest p i ws = None <-> existsb (writes_to p i) ws = false.
Proof.
  induction ws as [|w ws IH]; cbn [newest existsb]; [tauto|].
  rewrite orb_false_iff, <- IH. destruct (newest p i ws), (writes_to p i w); intuition discriminate.
Qed.
Lemma newest_in p i ws d : newest p i ws = Some d -> exists w, In w ws /\ wblock w = p /\ windex w = i.
Proof.
  intros H. destruct (existsb (writes_to p i) ws) eqn:E.
  - apply existsb_exists in E as (w & I & W). unfold writes_to in W. apply andb_true_iff in W as (W1 & W2).
    apply Nat.eqb_eq in W1, W2. eauto.
  - apply newest_none in E. congruence.
Qed.
Lemma newest_split p i a b : newest p i (a ++ b) = match newest p i b with Some d => Some d | None => newest p i a end.
Proof.
  induction a as [|w a IH]; cbn [app newest]; [destruct (newest p i b); reflexivity|].
  rewrite IH. destruct (newest p i b); reflexivity.
Qed.
Lemma take_out {A} n (ws : list A) w : nth_error ws n = Some w -> ws = firstn n ws ++ w :: skipn (S n) ws.
Proof. revert ws. induction n as [|n IH]; intros [|x ws] H; cbn in *; try discriminate; [congruence|]. f_equal. now apply IH. Qed.

(** * Memory, digit by digit *)
Definition shape_of (m : mem) (p : nat) : option (option nat) := option_map (option_map (@length Z)) (nth_error (blocks m) p).
Lemma digit_shape m m0 p i : shape_of m p = shape_of m0 p -> (digit_load p i m = None <-> digit_load p i m0 = None).
Proof.
  unfold shape_of, digit_load. destruct (nth_error (blocks m) p) as [[ds|]|], (nth_error (blocks m0) p) as [[ds0|]|]; cbn; intros H; try discriminate; try tauto.
  injection H as H. rewrite !nth_error_None, H. tauto.
Qed.
Lemma digit_store_some p i d m : digit_load p i m <> None -> exists m', digit_store p i d m = Some m'.
Proof.
  unfold digit_load, digit_store. destruct (nth_error (blocks m) p) as [[ds|]|]; try congruence. intros H. apply nth_error_Some in H.
  destruct (Nat.ltb_spec i (length ds)); [eauto|lia].
Qed.
Lemma digit_store_load p i d m m' : digit_store p i d m = Some m' ->
  slack m' = slack m /\ (forall q, shape_of m' q = shape_of m q) /\ length (blocks m') = length (blocks m) /\
  digit_load p i m <> None /\
  forall q j, digit_load q j m' = if Nat.eqb p q && Nat.eqb i j then Some d else digit_load q j m.
Proof.
  unfold digit_store, shape_of, digit_load. destruct (nth_error (blocks m) p) as [[ds|]|] eqn:E; try discriminate.
  destruct (Nat.ltb_spec i (length ds)) as [H|H]; [|discriminate]. intros K. injection K as <-. cbn [slack blocks].
  split; [reflexivity|]. split; [|split; [apply update_length|split; [now apply nth_error_Some|]]].
  - intros q. destruct (Nat.eq_dec p q) as [<-|N].
    + rewrite (nth_update_same _ _ _ _ E), E. cbn. now rewrite update_length.
    + now rewrite nth_update_other by exact N.
  - intros q j. destruct (Nat.eqb_spec p q) as [<-|N]; cbn [andb].
    + rewrite (nth_update_same _ _ _ _ E), E. destruct (Nat.eqb_spec i j) as [<-|Nj].
      * destruct (nth_error ds i) as [x|] eqn:Ex; [|apply nth_error_None in Ex; lia].
        exact (nth_update_same _ _ _ _ Ex).
      * now rewrite nth_update_other by exact Nj.
    + now rewrite nth_update_other by exact N.
Qed.
Lemma nth_ext_Z (a b : list Z) : length a = length b -> (forall i, nth_error a i = nth_error b i) -> a = b.
Proof.
  revert b. induction a as [|x a IH]; intros [|y b] H K; cbn in H; try discriminate; [reflexivity|].
  pose proof (K O) as K0. cbn in K0. injection K0 as ->. f_equal. apply IH; [lia|]. intros i. exact (K (S i)).
Qed.
Lemma block_same m m0 p : shape_of m p = shape_of m0 p -> (forall i, digit_load p i m = digit_load p i m0) ->
  nth_error (blocks m) p = nth_error (blocks m0) p.
Proof.
  unfold shape_of, digit_load. destruct (nth_error (blocks m) p) as [[ds|]|], (nth_error (blocks m0) p) as [[ds0|]|]; cbn; intros H K; try discriminate; try reflexivity.
  injection H as H. do 2 f_equal. now apply nth_ext_Z.
Qed.
Lemma list_ext {A} (a b : list A) : (forall i, nth_error a i = nth_error b i) -> a = b.
Proof.
  revert b. induction a as [|x a IH]; intros [|y b] K.
  - reflexivity.
  - discriminate (K O).
  - discriminate (K O).
  - pose proof (K O) as K0. cbn in K0. injection K0 as ->. f_equal. apply IH. intros i. exact (K (S i)).
Qed.

(** * The machine with delays and the one without *)
Record delayed {R : Type} (Ls : list (list cell)) (s : bpool R) (m0 : mem) : Prop := mk_delayed {
  del_slack : slack (fst s) = slack m0;
  del_length : length (blocks (fst s)) = length (blocks m0);
  del_shape : forall p, shape_of (fst s) p = shape_of m0 p;
  del_pending : forall j t ws p i d, nth_error (snd s) j = Some (t, ws) -> newest p i ws = Some d -> digit_load p i m0 = Some d;
  del_settled : forall p i, (forall j t ws, nth_error (snd s) j = Some (t, ws) -> newest p i ws = None) -> digit_load p i (fst s) = digit_load p i m0;
  del_own : forall j t ws L w, nth_error (snd s) j = Some (t, ws) -> nth_error Ls j = Some L -> In w ws -> In (wblock w) (map addr (owned L)) }.

Definition behind {R : Type} S (posts : list (ends R)) Ls (s : bpool R) (s0 : dpool R) : Prop :=
  map fst (snd s) = snd s0 /\ dpool_ok S posts Ls s0 /\ delayed Ls s (fst s0).

(** What a thread may use, nobody else has writes under way to. *)
Lemma nobody_else {R} S (posts : list (ends R)) Ls s s0 i L t ws p : behind S posts Ls s s0 ->
  nth_error (snd s) i = Some (t, ws) -> nth_error Ls i = Some L -> In p (map addr L) ->
  forall j u vs, i <> j -> nth_error (snd s) j = Some (u, vs) -> forall k, newest p k vs = None.
Proof.
  intros (E & Hok & Hd) Ei EL I j u vs N Ej k. destruct (newest p k vs) as [d|] eqn:En; [|reflexivity]. exfalso.
  apply newest_in in En as (w & Iw & <- & _). pose proof (dpool_coarse _ _ _ _ Hok) as Hc.
  assert (Ej0 : nth_error (map pending (snd s0)) j = Some (pending u)) by (apply map_nth_error; rewrite <- E; exact (map_nth_error fst j (snd s) Ej)).
  destruct (pool_safe _ _ _ _ Hc j _ Ej0) as (L2 & post & E2 & _).
  assert (Ei0 : nth_error (map pending (snd s0)) i = Some (pending t)) by (apply map_nth_error; rewrite <- E; exact (map_nth_error fst i (snd s) Ei)).
  destruct (pool_safe _ _ _ _ Hc i _ Ei0) as (L1 & post1 & E1 & _ & _ & P1).
  assert (L1 = L) by congruence. subst L1.
  exact (pool_apart S posts Ls _ j i L2 L (wblock w) Hc ltac:(auto) E2 EL P1 (del_own _ _ _ Hd j u vs L2 w Ej E2 Iw) I).
Qed.
Lemma sees {R} S (posts : list (ends R)) Ls s s0 i L t ws p k : behind S posts Ls s s0 ->
  nth_error (snd s) i = Some (t, ws) -> nth_error Ls i = Some L -> In p (map addr L) ->
  seen ws p k (fst s) = digit_load p k (fst s0).
Proof.
  intros H Ei EL I. pose proof H as (E & Hok & Hd). unfold seen.
  pose proof (digit_shape (fst s) (fst s0) p k (del_shape _ _ _ Hd p)) as Sh.
  destruct (newest p k ws) as [d|] eqn:En.
  - pose proof (del_pending _ _ _ Hd i t ws p k d Ei En) as Ed. rewrite Ed in *.
    destruct (digit_load p k (fst s)); [reflexivity|]. discriminate (proj1 Sh eq_refl).
  - rewrite (del_settled _ _ _ Hd p k); [now destruct (digit_load p k (fst s0))|].
    intros j u vs Ej. destruct (Nat.eq_dec i j) as [<-|N]; [congruence|].
    exact (nobody_else _ _ _ _ _ i L t ws p H Ei EL I j u vs N Ej k).
Qed.

(** What a thread owns it keeps unless it frees it. *)
Lemma keeps_own {R} S (posts : list (ends R)) Ls s s' i L L' p : pool_ok S posts Ls s -> pool_ok S posts (update i L' Ls) s' ->
  nth_error Ls i = Some L -> In p (map addr (owned L)) -> shape_of (fst s') p <> Some None -> shape_of (fst s') p <> None ->
  In p (map addr (owned L')).
Proof.
  intros [Hl Hs Hm] [Hl' Hs' Hm'] EL I N1 N2.
  assert (X : exists ds, nth_error (blocks (fst s')) p = Some (Some ds)).
  { unfold shape_of in *. destruct (nth_error (blocks (fst s')) p) as [[ds|]|]; cbn in *; try congruence. eauto. }
  destruct X as (ds & X). apply Hm' in X as (b & X). destruct Hm as (Nd & Hm).
  rewrite !map_app in Nd. rewrite concat_map, map_map in Nd.
  apply in_app_or in X as [X|X].
  - exfalso. apply in_map with (f := addr) in X. cbn in X.
    apply in_split in X as (l1 & l2 & X). rewrite X in Nd. rewrite <- app_assoc in Nd. cbn in Nd. apply NoDup_remove_2 in Nd.
    apply Nd. apply in_or_app. right. apply in_or_app. right. apply in_concat. exists (map addr (owned L)).
    split; [|exact I]. apply in_map_iff. exists L. split; [reflexivity|]. now apply nth_error_In in EL.
  - apply in_concat in X as (l & Il & Ip). apply in_map_iff in Il as (M & <- & IM). apply In_nth_error in IM as (j & Ej).
    destruct (Nat.eq_dec i j) as [<-|N].
    + rewrite (nth_update_same _ _ _ _ EL) in Ej. injection Ej as <-. now apply in_map with (f := addr) in Ip.
    + exfalso. rewrite nth_update_other in Ej by exact N. apply in_map with (f := addr) in Ip. cbn [addr fst snd] in Ip.
      assert (Nd2 : NoDup (concat (map (fun L => map addr (owned L)) Ls))).
      { clear -Nd. induction (map addr S) as [|x l IH]; [exact Nd|]. inversion Nd. auto. }
      clear -Nd2 EL I Ej Ip N. revert i j EL Ej N. induction Ls as [|M0 Ls IH]; intros i j EL Ej N; [destruct i; discriminate|].
      cbn [map concat] in Nd2.
      assert (D : forall x, In x (map addr (owned M0)) -> ~ In x (concat (map (fun L => map addr (owned L)) Ls))).
      { clear -Nd2. induction (map addr (owned M0)) as [|y l IH]; intros x Hx Hy; [destruct Hx|]. inversion Nd2. subst.
        destruct Hx as [<-|Hx]; [|exact (IH H2 x Hx Hy)]. apply H1. apply in_or_app. auto. }
      assert (Nd3 : NoDup (concat (map (fun L => map addr (owned L)) Ls))).
      { clear -Nd2. induction (map addr (owned M0)) as [|y l IH]; [exact Nd2|]. inversion Nd2. auto. }
      assert (C : forall x M k, nth_error Ls k = Some M -> In x (map addr (owned M)) -> In x (concat (map (fun L => map addr (owned L)) Ls))).
      { intros x M0' k Ek Ix. apply in_concat. exists (map addr (owned M0')). split; [|exact Ix]. apply in_map_iff. exists M0'. split; [reflexivity|]. now apply nth_error_In in Ek. }
      destruct i as [|i], j as [|j]; cbn in EL, Ej; [congruence| | |].
      * injection EL as ->. exact (D p I (C p M j Ej Ip)).
      * injection Ej as ->. exact (D p Ip (C p L i EL I)).
      * apply (IH Nd3 i j EL Ej). congruence.
Qed.

Lemma own_alive {R} S (posts : list (ends R)) Ls s i L p : pool_ok S posts Ls s -> nth_error Ls i = Some L -> In p (map addr (owned L)) ->
  exists ds, nth_error (blocks (fst s)) p = Some (Some ds).
Proof.
  intros [Hl Hs Hm] EL I. apply in_map_iff in I as (((b & q) & ds) & E & I). cbn in E. subst q. exists ds.
  apply Hm. exists b. apply in_or_app. right. apply in_concat. exists (owned L). split; [|exact I].
  apply in_map. now apply nth_error_In in EL.
Qed.

(** One step of both machines. *)
Lemma both_step {R} S (posts : list (ends R)) Ls m tbs m0 ts0 i L t ws t' ws' m' m0' L' :
  behind S posts Ls (m, tbs) (m0, ts0) -> nth_error tbs i = Some (t, ws) -> nth_error Ls i = Some L ->
  dpool_ok S posts (update i L' Ls) (m0', update i t' ts0) ->
  slack m' = slack m0' -> length (blocks m') = length (blocks m0') -> (forall p, shape_of m' p = shape_of m0' p) ->
  (forall p k d, newest p k ws' = Some d -> digit_load p k m0' = Some d) ->
  (forall q k, ~ In q (map addr (owned L)) -> digit_load q k m0 <> None -> digit_load q k m0' = digit_load q k m0) ->
  (forall p k, newest p k ws' = None -> (newest p k ws = None -> digit_load p k m = digit_load p k m0) ->
     digit_load p k m' = digit_load p k m0') ->
  (forall w, In w ws' -> In (wblock w) (map addr (owned L'))) ->
  behind S posts (update i L' Ls) (m', update i (t', ws') tbs) (m0', update i t' ts0).
Proof.
  intros H Ei EL Hok' Hs Hl Hsh Hp Ho Hset Hown. pose proof H as (E & Hok & Hd). cbn [fst snd] in *.
  split; [|split; [exact Hok'|]].
  - cbn [fst snd]. rewrite map_update. cbn [fst]. now rewrite E.
  - constructor; cbn [fst snd]; auto.
    + intros j u vs p k d Ej En. destruct (Nat.eq_dec i j) as [<-|N].
      * rewrite (nth_update_same _ _ _ _ Ei) in Ej. injection Ej as <- <-. eauto.
      * rewrite nth_update_other in Ej by exact N. pose proof (del_pending _ _ _ Hd j u vs p k d Ej En) as X. cbn [fst] in X.
        rewrite Ho; [exact X| |congruence]. intros I.
        assert (I2 : In p (map addr L)).
        { apply in_map_iff in I as (c & Ec & I). apply in_map_iff. exists c. split; [exact Ec|]. apply filter_In in I. apply I. }
        pose proof (nobody_else _ _ _ _ _ i L t ws p H Ei EL I2 j u vs N Ej k). congruence.
    + intros p k Hn. apply (Hset p k).
      * apply (Hn i t' ws'). exact (nth_update_same _ _ _ _ Ei).
      * intros Hw. apply (del_settled _ _ _ Hd). intros j u vs Ej. cbn [snd] in Ej. destruct (Nat.eq_dec i j) as [<-|N]; [congruence|].
        apply (Hn j u vs). now rewrite nth_update_other by exact N.
    + intros j u vs M w Ej EM I. destruct (Nat.eq_dec i j) as [<-|N].
      * rewrite (nth_update_same _ _ _ _ Ei) in Ej. injection Ej as <- <-. rewrite (nth_update_same _ _ _ _ EL) in EM. injection EM as <-. auto.
      * rewrite nth_update_other in Ej by exact N. rewrite nth_update_other in EM by exact N. exact (del_own _ _ _ Hd j u vs M w Ej EM I).
Qed.

(** The memories stay as they are. *)
Lemma quiet_step {R} S (posts : list (ends R)) Ls m tbs m0 ts0 i L t ws t' L' :
  behind S posts Ls (m, tbs) (m0, ts0) -> nth_error tbs i = Some (t, ws) -> nth_error Ls i = Some L ->
  dpool_ok S posts (update i L' Ls) (m0, update i t' ts0) ->
  behind S posts (update i L' Ls) (m, update i (t', ws) tbs) (m0, update i t' ts0).
Proof.
  intros H Ei EL Hok'. pose proof H as (E & Hok & Hd). cbn [fst snd] in *.
  apply (both_step S posts Ls m tbs m0 ts0 i L t ws t' ws m m0 L'); auto.
  - exact (del_slack _ _ _ Hd).
  - exact (del_length _ _ _ Hd).
  - exact (del_shape _ _ _ Hd).
  - intros p k d. exact (del_pending _ _ _ Hd i t ws p k d Ei).
  - intros w I. pose proof (del_own _ _ _ Hd i t ws L w Ei EL I) as O.
    destruct (own_alive S posts Ls _ i L (wblock w) (dpool_coarse _ _ _ _ Hok) EL O) as (ds & X). cbn [fst] in X.
    apply (keeps_own S posts Ls _ _ i L L' (wblock w) (dpool_coarse _ _ _ _ Hok) (dpool_coarse _ _ _ _ Hok') EL O);
      cbn [fst]; unfold shape_of; rewrite X; discriminate.
Qed.

Lemma b_load_eq {A} p n got (k : list Z -> HM A) ws m m0 : seen ws p (length got) m = digit_load p (length got) m0 ->
  b_load p n got k ws m = ((fst (go_load p n got k m0), ws), m) /\ snd (go_load p n got k m0) = m0.
Proof. intros E. unfold b_load, go_load. rewrite E. destruct (digit_load p (length got) m0); [|auto]. cbn [fst snd]. auto. Qed.

Lemma load_step {R} junk S (posts : list (ends R)) Ls m tbs m0 ts0 i L t ws p n got k L' :
  behind S posts Ls (m, tbs) (m0, ts0) -> nth_error tbs i = Some (t, ws) -> nth_error Ls i = Some L ->
  In p (map addr L) -> dtick junk t m0 = go_load p n got k m0 ->
  dpool_ok S posts (update i L' Ls) (snd (dtick junk t m0), update i (fst (dtick junk t m0)) ts0) ->
  behind S posts (update i L' Ls) (snd (b_load p n got k ws m), update i (fst (b_load p n got k ws m)) tbs)
    (snd (dtick junk t m0), update i (fst (dtick junk t m0)) ts0).
Proof.
  intros H Ei EL I Ed Hok'. rewrite Ed in *.
  destruct (b_load_eq p n got k ws m m0 (sees S posts Ls (m, tbs) (m0, ts0) i L t ws p (length got) H Ei EL I)) as (-> & E2).
  rewrite E2 in *. cbn [fst snd]. eapply quiet_step; eauto.
Qed.

Lemma store_step {R} junk S (posts : list (ends R)) Ls m tbs m0 ts0 i L t ws p new j k L' :
  behind S posts Ls (m, tbs) (m0, ts0) -> nth_error tbs i = Some (t, ws) -> nth_error Ls i = Some L ->
  In p (map addr (owned L)) -> dtick junk t m0 = go_store p new j k m0 ->
  dpool_ok S posts (update i L' Ls) (snd (dtick junk t m0), update i (fst (dtick junk t m0)) ts0) ->
  behind S posts (update i L' Ls) (snd (b_store p new j k ws m), update i (fst (b_store p new j k ws m)) tbs)
    (snd (dtick junk t m0), update i (fst (dtick junk t m0)) ts0).
Proof.
  intros H Ei EL I Ed Hok'. rewrite Ed in *. pose proof H as (E & Hok & Hd). cbn [fst snd] in *.
  unfold b_store, go_store in *. destruct (nth_error new j) as [d|]; [|cbn [fst snd] in *; eapply quiet_step; eauto].
  pose proof (digit_shape m m0 p j (del_shape _ _ _ Hd p)) as Sh.
  destruct (digit_store p j d m0) as [m0'|] eqn:Es.
  2:{ destruct (digit_load p j m0) as [x|] eqn:El.
      - destruct (digit_store_some p j d m0) as (y & Ey); congruence.
      - rewrite (proj2 Sh eq_refl). cbn [fst snd] in *. eapply quiet_step; eauto. }
  destruct (digit_store_load p j d m0 m0' Es) as (S1 & S2 & S3 & S4 & S5).
  destruct (digit_load p j m) as [x|] eqn:El; [|destruct S4; now apply Sh].
  cbn [fst snd] in *. apply (both_step S posts Ls m tbs m0 ts0 i L t ws _ _ m m0' L'); auto.
  - rewrite S1. exact (del_slack _ _ _ Hd).
  - rewrite S3. exact (del_length _ _ _ Hd).
  - intros q. rewrite S2. exact (del_shape _ _ _ Hd q).
  - intros q c e. rewrite newest_app, S5. unfold writes_to. cbn [wblock windex wdigit].
    destruct (Nat.eqb p q && Nat.eqb j c); [auto|]. exact (del_pending _ _ _ Hd i t ws q c e Ei).
  - intros q c Nq _. rewrite S5. destruct (Nat.eqb_spec p q) as [->|]; [contradiction|]. reflexivity.
  - intros q c. rewrite newest_app, S5. unfold writes_to. cbn [wblock windex wdigit].
    destruct (Nat.eqb p q && Nat.eqb j c); [discriminate|]. auto.
  - intros w Iw. assert (O : In (wblock w) (map addr (owned L))).
    { apply in_app_or in Iw as [Iw|[<-|[]]]; [|exact I]. exact (del_own _ _ _ Hd i t ws L w Ei EL Iw). }
    destruct (own_alive S posts Ls _ i L (wblock w) (dpool_coarse _ _ _ _ Hok) EL O) as (ds & X). cbn [fst] in X.
    apply (keeps_own S posts Ls _ _ i L L' (wblock w) (dpool_coarse _ _ _ _ Hok) (dpool_coarse _ _ _ _ Hok') EL O);
      cbn [fst]; rewrite S2; unfold shape_of; rewrite X; discriminate.
Qed.

Lemma shape_app m x p : shape_of (mk_mem (slack m) (blocks m ++ [Some x])) p =
  if Nat.eqb p (length (blocks m)) then Some (Some (length x)) else shape_of m p.
Proof.
  unfold shape_of. cbn [blocks]. destruct (Nat.eqb_spec p (length (blocks m))) as [->|N].
  - rewrite nth_error_app2, Nat.sub_diag by lia. reflexivity.
  - destruct (Nat.lt_ge_cases p (length (blocks m))).
    + now rewrite nth_error_app1.
    + rewrite nth_error_app2 by lia. replace (nth_error (blocks m) p) with (@None (option (list Z))) by (symmetry; apply nth_error_None; lia).
      destruct (p - length (blocks m))%nat as [|[|]] eqn:D; [lia|reflexivity|reflexivity].
Qed.
Lemma load_app m x p k : digit_load p k (mk_mem (slack m) (blocks m ++ [Some x])) =
  if Nat.eqb p (length (blocks m)) then nth_error x k else digit_load p k m.
Proof.
  unfold digit_load. cbn [blocks]. destruct (Nat.eqb_spec p (length (blocks m))) as [->|N].
  - rewrite nth_error_app2, Nat.sub_diag by lia. reflexivity.
  - destruct (Nat.lt_ge_cases p (length (blocks m))).
    + now rewrite nth_error_app1.
    + rewrite nth_error_app2 by lia. replace (nth_error (blocks m) p) with (@None (option (list Z))) by (symmetry; apply nth_error_None; lia).
      destruct (p - length (blocks m))%nat as [|[|]] eqn:D; [lia|reflexivity|reflexivity].
Qed.
Lemma load_fresh m k : digit_load (length (blocks m)) k m = None.
Proof. unfold digit_load. rewrite (proj2 (nth_error_None _ _)) by lia. reflexivity. Qed.

Lemma malloc_step {R} S (posts : list (ends R)) Ls m tbs m0 ts0 i L t ws t' x L' :
  behind S posts Ls (m, tbs) (m0, ts0) -> nth_error tbs i = Some (t, ws) -> nth_error Ls i = Some L ->
  dpool_ok S posts (update i L' Ls) (mk_mem (slack m0) (blocks m0 ++ [Some x]), update i t' ts0) ->
  behind S posts (update i L' Ls) (mk_mem (slack m) (blocks m ++ [Some x]), update i (t', ws) tbs)
    (mk_mem (slack m0) (blocks m0 ++ [Some x]), update i t' ts0).
Proof.
  intros H Ei EL Hok'. pose proof H as (E & Hok & Hd). cbn [fst snd] in *.
  pose proof (del_length _ _ _ Hd) as Hl. cbn [fst] in Hl.
  assert (F : forall p k d, digit_load p k m0 = Some d -> p <> length (blocks m0)).
  { intros p k d X ->. rewrite load_fresh in X. discriminate. }
  apply (both_step S posts Ls m tbs m0 ts0 i L t ws t' ws _ _ L'); auto.
  - exact (del_slack _ _ _ Hd).
  - cbn [blocks]. rewrite !app_length. lia.
  - intros p. rewrite !shape_app, Hl. destruct (Nat.eqb p (length (blocks m0))); [reflexivity|]. exact (del_shape _ _ _ Hd p).
  - intros p k d En. pose proof (del_pending _ _ _ Hd i t ws p k d Ei En) as X. rewrite load_app.
    destruct (Nat.eqb_spec p (length (blocks m0))); [|exact X]. destruct (F p k d X e).
  - intros q k _ X. rewrite load_app. destruct (Nat.eqb_spec q (length (blocks m0))) as [->|]; [|reflexivity].
    now rewrite load_fresh in X.
  - intros p k N X. rewrite !load_app, Hl. destruct (Nat.eqb p (length (blocks m0))); auto.
  - intros w I. pose proof (del_own _ _ _ Hd i t ws L w Ei EL I) as O.
    destruct (own_alive S posts Ls _ i L (wblock w) (dpool_coarse _ _ _ _ Hok) EL O) as (ds & X). cbn [fst] in X.
    assert (Y : shape_of (mk_mem (slack m0) (blocks m0 ++ [Some x])) (wblock w) = Some (Some (length ds))).
    { rewrite shape_app. destruct (Nat.eqb_spec (wblock w) (length (blocks m0))) as [Eq|].
      - rewrite Eq in X. rewrite (proj2 (nth_error_None _ _)) in X by lia. discriminate.
      - unfold shape_of. now rewrite X. }
    apply (keeps_own S posts Ls _ _ i L L' (wblock w) (dpool_coarse _ _ _ _ Hok) (dpool_coarse _ _ _ _ Hok') EL O);
      cbn [fst]; rewrite Y; discriminate.
Qed.

Lemma mem_free_shape m m0 p n : shape_of m p = shape_of m0 p ->
  match mem_free p n m, mem_free p n m0 with
  | Some m', Some m0' => m' = mk_mem (slack m) (update p None (blocks m)) /\ m0' = mk_mem (slack m0) (update p None (blocks m0)) /\
      shape_of m p = Some (Some n)
  | None, None => True
  | _, _ => False
  end.
Proof.
  unfold mem_free, shape_of. destruct (nth_error (blocks m) p) as [[ds|]|], (nth_error (blocks m0) p) as [[ds0|]|]; cbn; intros H; try discriminate; try exact I.
  injection H as H. rewrite <- H. destruct (Nat.eqb_spec (length ds) n) as [<-|]; [|exact I]. auto.
Qed.
Lemma shape_free m p q : (p < length (blocks m))%nat -> shape_of (mk_mem (slack m) (update p None (blocks m))) q = if Nat.eqb p q then Some None else shape_of m q.
Proof.
  intros H. unfold shape_of. cbn [blocks]. destruct (Nat.eqb_spec p q) as [<-|N].
  - destruct (nth_error (blocks m) p) as [x|] eqn:E; [|apply nth_error_None in E; lia]. now rewrite (nth_update_same _ _ _ _ E).
  - now rewrite nth_update_other by exact N.
Qed.
Lemma load_free m p q k : (p < length (blocks m))%nat -> digit_load q k (mk_mem (slack m) (update p None (blocks m))) = if Nat.eqb p q then None else digit_load q k m.
Proof.
  intros H. unfold digit_load. cbn [blocks]. destruct (Nat.eqb_spec p q) as [<-|N].
  - destruct (nth_error (blocks m) p) as [x|] eqn:E; [|apply nth_error_None in E; lia]. now rewrite (nth_update_same _ _ _ _ E).
  - now rewrite nth_update_other by exact N.
Qed.
Lemma shape_lt m p x : shape_of m p = Some x -> (p < length (blocks m))%nat.
Proof. unfold shape_of. intros H. apply nth_error_Some. destruct (nth_error (blocks m) p); [discriminate|discriminate H]. Qed.

Lemma free_step {R} S (posts : list (ends R)) Ls m tbs m0 ts0 i L p n k ws L' :
  behind S posts Ls (m, tbs) (m0, ts0) -> nth_error tbs i = Some (DAt (HFree p n k), ws) -> nth_error Ls i = Some L ->
  existsb (fun w => Nat.eqb (wblock w) p) ws = false -> In p (map addr (owned L)) ->
  dpool_ok S posts (update i L' Ls) (snd (tick (HFree p n k) m0), update i (DAt (fst (tick (HFree p n k) m0))) ts0) ->
  behind S posts (update i L' Ls) (snd (tick (HFree p n k) m), update i (DAt (fst (tick (HFree p n k) m)), ws) tbs)
    (snd (tick (HFree p n k) m0), update i (DAt (fst (tick (HFree p n k) m0))) ts0).
Proof.
  intros H Ei EL Nw O Hok'. pose proof H as (E & Hok & Hd). cbn [fst snd] in *. cbn [tick] in *.
  pose proof (mem_free_shape m m0 p n (del_shape _ _ _ Hd p)) as F.
  destruct (mem_free p n m) as [m'|], (mem_free p n m0) as [m0'|]; try contradiction; cbn [fst snd] in *;
    [|eapply quiet_step; eauto].
  destruct F as (-> & -> & Sp). pose proof (del_shape _ _ _ Hd p) as Sp0. cbn [fst] in Sp0. rewrite Sp in Sp0. symmetry in Sp0.
  pose proof (shape_lt _ _ _ Sp) as L1. pose proof (shape_lt _ _ _ Sp0) as L0.
  assert (Nw2 : forall w, In w ws -> wblock w <> p).
  { intros w I Ew. assert (X : existsb (fun w => Nat.eqb (wblock w) p) ws = true); [|congruence].
    apply existsb_exists. exists w. split; [exact I|]. now apply Nat.eqb_eq. }
  apply (both_step S posts Ls m tbs m0 ts0 i L (DAt (HFree p n k)) ws (DAt k) ws _ _ L'); auto.
  - exact (del_slack _ _ _ Hd).
  - cbn [blocks]. rewrite !update_length. exact (del_length _ _ _ Hd).
  - intros q. rewrite !shape_free by assumption. destruct (Nat.eqb p q); [reflexivity|]. exact (del_shape _ _ _ Hd q).
  - intros q c d En. pose proof (del_pending _ _ _ Hd i _ ws q c d Ei En) as X. rewrite load_free by assumption.
    destruct (Nat.eqb_spec p q) as [<-|]; [|exact X]. apply newest_in in En as (w & I & Ew & _). destruct (Nw2 w I Ew).
  - intros q c Nq _. rewrite load_free by assumption. destruct (Nat.eqb_spec p q) as [<-|]; [contradiction|reflexivity].
  - intros q c N X. rewrite !load_free by assumption. destruct (Nat.eqb p q); auto.
  - intros w I. pose proof (del_own _ _ _ Hd i _ ws L w Ei EL I) as Ow.
    destruct (own_alive S posts Ls _ i L (wblock w) (dpool_coarse _ _ _ _ Hok) EL Ow) as (ds & X). cbn [fst] in X.
    assert (Y : shape_of (mk_mem (slack m0) (update p None (blocks m0))) (wblock w) = Some (Some (length ds))).
    { rewrite shape_free by assumption. destruct (Nat.eqb_spec p (wblock w)) as [Eq|]; [destruct (Nw2 w I); auto|].
      unfold shape_of. now rewrite X. }
    apply (keeps_own S posts Ls _ _ i L L' (wblock w) (dpool_coarse _ _ _ _ Hok) (dpool_coarse _ _ _ _ Hok') EL Ow);
      cbn [fst]; rewrite Y; discriminate.
Qed.

Lemma turn_step {R} junk i S (posts : list (ends R)) Ls s s0 : behind S posts Ls s s0 ->
  exists Ls' s0', behind S posts Ls' (happen junk (Turn i) s) s0' /\
    (s0' = dturn junk i s0 \/ (s0' = s0 /\ exists t ws, nth_error (snd s) i = Some (t, ws) /\ ws <> [])).
Proof.
  destruct s as (m & tbs), s0 as (m0 & ts0). intros H. pose proof H as (E & Hok & Hd). cbn [happen fst snd] in *.
  destruct (nth_error tbs i) as [(t & ws)|] eqn:Ei.
  2:{ exists Ls, (m0, ts0). split; [exact H|]. left. unfold dturn. cbn [fst snd]. rewrite <- E.
      replace (nth_error (map fst tbs) i) with (@None (dthread R)); [reflexivity|]. symmetry. apply nth_error_None. rewrite map_length. now apply nth_error_None. }
  assert (Et : nth_error ts0 i = Some t) by (rewrite <- E; exact (map_nth_error fst i tbs Ei)).
  assert (Ep : nth_error (map pending ts0) i = Some (pending t)) by (now apply map_nth_error).
  destruct (pool_safe _ _ _ _ (dpool_coarse _ _ _ _ Hok) i _ Ep) as (L & post & EL & _ & Sf & _).
  destruct (dturn_ok junk i S posts Ls (m0, ts0) Hok) as (L' & Hok').
  unfold dturn in *. cbn [fst snd] in *. rewrite Et in *.
  assert (G : forall x : bthread R * mem, behind S posts (update i L' Ls) (snd x, update i (fst x) tbs) (snd (dtick junk t m0), update i (fst (dtick junk t m0)) ts0) ->
     exists Ls' s0', behind S posts Ls' (let (t, m) := x in (m, update i t tbs)) s0' /\
    (s0' = (let (t, m) := dtick junk t m0 in (m, update i t ts0)) \/ (s0' = (m0, ts0) /\ exists t0 ws0, Some (t, ws) = Some (t0, ws0) /\ ws0 <> []))).
  { intros x B. exists (update i L' Ls), (snd (dtick junk t m0), update i (fst (dtick junk t m0)) ts0).
    destruct x as (t1 & m1). split; [exact B|]. left. now destruct (dtick junk t m0). }
  assert (Hok2 : dpool_ok S posts (update i L' Ls) (snd (dtick junk t m0), update i (fst (dtick junk t m0)) ts0)) by (now destruct (dtick junk t m0)).
  clear Hok'. destruct t as [h|p n got k|p new j k].
  - destruct h as [a| | | |ds k|p n k|p n k|p new k|n k]; cbn [btick].
    + apply G. cbn [dtick tick fst snd] in *. eapply quiet_step; eauto.
    + apply G. cbn [dtick tick fst snd] in *. eapply quiet_step; eauto.
    + apply G. cbn [dtick tick fst snd] in *. eapply quiet_step; eauto.
    + apply G. cbn [dtick tick fst snd] in *. eapply quiet_step; eauto.
    + apply G. cbn [dtick mem_malloc fst snd] in *. pose proof (del_length _ _ _ Hd) as Hl. cbn [fst] in Hl. rewrite Hl.
      eapply malloc_step; eauto.
    + destruct (existsb (fun w => Nat.eqb (wblock w) p) ws) eqn:Ex.
      * exists Ls, (m0, ts0). rewrite update_id by exact Ei. split; [exact H|]. right. split; [reflexivity|].
        exists (DAt (HFree p n k)), ws. split; [reflexivity|]. intros ->. discriminate Ex.
      * assert (O : In p (map addr (owned L))) by exact (safe_overwrites _ L post p Sf eq_refl).
        assert (Ed : dtick junk (DAt (HFree p n k)) m0 = (DAt (fst (tick (HFree p n k) m0)), snd (tick (HFree p n k) m0))).
        { cbn [dtick]. now destruct (tick (HFree p n k) m0). }
        rewrite Ed in *. cbn [fst snd] in *.
        pose proof (free_step S posts Ls m tbs m0 ts0 i L p n k ws L' H Ei EL Ex O Hok2) as B.
        destruct (tick (HFree p n k) m) as (h1 & m1). exact (G ((DAt h1, ws), m1) B).
    + destruct (Nat.ltb_spec 0 n) as [Hn|Hn].
      * apply G. apply (load_step junk S posts Ls m tbs m0 ts0 i L (DAt (HLoad p n k)) ws p n [] k L'); auto.
        -- exact (safe_touches _ L post p Sf eq_refl).
        -- cbn [dtick]. destruct (Nat.ltb_spec 0 n); [reflexivity|lia].
      * apply (G ((DAt (k []), ws), m)). cbn [dtick] in *. destruct (Nat.ltb_spec 0 n); [lia|]. cbn [fst snd] in *. eapply quiet_step; eauto.
    + apply G. apply (store_step junk S posts Ls m tbs m0 ts0 i L (DAt (HStore p new k)) ws p new 0 k L'); auto.
      exact (safe_overwrites _ L post p Sf eq_refl).
    + apply (G ((DAt (k (slack m n)), ws), m)). cbn [dtick tick fst snd] in *. pose proof (del_slack _ _ _ Hd) as Es. cbn [fst] in Es. rewrite Es. eapply quiet_step; eauto.
  - cbn [btick]. apply G. apply (load_step junk S posts Ls m tbs m0 ts0 i L (DLoad p n got k) ws p n got k L'); auto.
    exact (safe_touches _ L post p Sf eq_refl).
  - cbn [btick]. apply G. apply (store_step junk S posts Ls m tbs m0 ts0 i L (DStore p new j k) ws p new j k L'); auto.
    exact (safe_overwrites _ L post p Sf eq_refl).
Qed.

(** A write that reaches the memory changes nothing that a thread sees. *)
Lemma reach_step {R} junk i n S (posts : list (ends R)) Ls s s0 : behind S posts Ls s s0 -> behind S posts Ls (happen junk (Reach i n) s) s0.
Proof.
  destruct s as (m & tbs), s0 as (m0 & ts0). intros H. pose proof H as (E & Hok & Hd). cbn [happen fst snd] in *.
  destruct (nth_error tbs i) as [(t & ws)|] eqn:Ei; [|exact H]. cbn [bflush].
  assert (Same : behind S posts Ls (m, update i (t, ws) tbs) (m0, ts0)) by (now rewrite update_id by exact Ei).
  destruct (nth_error ws n) as [w|] eqn:Ew; [|exact Same].
  destruct (existsb (writes_to (wblock w) (windex w)) (firstn n ws)) eqn:Ex; [exact Same|]. clear Same.
  apply newest_none in Ex. pose proof (take_out n ws w Ew) as Es.
  set (a := firstn n ws) in *. set (b := skipn (Datatypes.S n) ws) in *. clearbody a b.
  assert (Ww : writes_to (wblock w) (windex w) w = true) by (unfold writes_to; now rewrite !Nat.eqb_refl).
  assert (X : exists d, newest (wblock w) (windex w) ws = Some d).
  { rewrite Es, newest_split. cbn [newest]. rewrite Ww. destruct (newest (wblock w) (windex w) b); eauto. }
  destruct X as (d & X). pose proof (del_pending _ _ _ Hd i t ws _ _ d Ei X) as Ld. cbn [fst] in Ld.
  pose proof (digit_shape m m0 (wblock w) (windex w) (del_shape _ _ _ Hd (wblock w))) as Sh.
  destruct (digit_store_some (wblock w) (windex w) (wdigit w) m) as (m' & Em'); [rewrite Sh; congruence|]. rewrite Em'.
  destruct (digit_store_load _ _ _ _ _ Em') as (S1 & S2 & S3 & S4 & S5).
  split; [cbn [snd]; rewrite map_update; cbn [fst]; rewrite E; apply update_id; rewrite <- E; exact (map_nth_error fst i tbs Ei)|].
  split; [exact Hok|]. constructor; cbn [fst snd].
  - rewrite S1. exact (del_slack _ _ _ Hd).
  - rewrite S3. exact (del_length _ _ _ Hd).
  - intros p. rewrite S2. exact (del_shape _ _ _ Hd p).
  - intros j u vs p k e Ej En. destruct (Nat.eq_dec i j) as [<-|N].
    + rewrite (nth_update_same _ _ _ _ Ei) in Ej. injection Ej as <- <-.
      apply (del_pending _ _ _ Hd i t ws p k e Ei). rewrite Es. rewrite newest_split in *. cbn [newest].
      destruct (newest p k b) as [z|]; [exact En|]. destruct (writes_to p k w) eqn:Wk; [|exact En]. exfalso.
      unfold writes_to in Wk. apply andb_true_iff in Wk as (W1 & W2). apply Nat.eqb_eq in W1, W2. subst p k. congruence.
    + rewrite nth_update_other in Ej by exact N. exact (del_pending _ _ _ Hd j u vs p k e Ej En).
  - intros p k Hn. rewrite S5. pose proof (Hn i t (a ++ b) (nth_update_same _ _ _ _ Ei)) as Hi. rewrite newest_split in Hi.
    destruct (newest p k b) as [z|] eqn:Eb; [discriminate|].
    destruct (Nat.eqb (wblock w) p && Nat.eqb (windex w) k) eqn:Wk.
    + apply andb_true_iff in Wk as (W1 & W2). apply Nat.eqb_eq in W1, W2. subst p k. rewrite Ld. f_equal.
      rewrite Es, newest_split in X. cbn [newest] in X. rewrite Eb, Ww in X. now injection X.
    + apply (del_settled _ _ _ Hd). intros j u vs Ej. cbn [snd] in Ej. destruct (Nat.eq_dec i j) as [<-|N].
      * rewrite Ei in Ej. injection Ej as <- <-. rewrite Es, newest_split. cbn [newest]. unfold writes_to. now rewrite Eb, Wk.
      * apply (Hn j u vs). now rewrite nth_update_other by exact N.
  - intros j u vs M v Ej EM I. destruct (Nat.eq_dec i j) as [<-|N].
    + rewrite (nth_update_same _ _ _ _ Ei) in Ej. injection Ej as <- <-. apply (del_own _ _ _ Hd i t ws M v Ei EM). rewrite Es.
      apply in_or_app. apply in_app_or in I as [I|I]; [now left|right; now right].
    + rewrite nth_update_other in Ej by exact N. exact (del_own _ _ _ Hd j u vs M v Ej EM I).
Qed.

Lemma unfolds_ok {R} junk S (posts : list (ends R)) history : forall Ls s s0, behind S posts Ls s s0 ->
  exists Ls' schedule, behind S posts Ls' (unfolds junk history s) (dinterleave junk schedule s0).
Proof.
  induction history as [|[i|i n] history IH]; intros Ls s s0 H; cbn [unfolds].
  - exists Ls, []. exact H.
  - destruct (turn_step junk i S posts Ls s s0 H) as (Ls1 & s1 & H1 & [->|(-> & _)]).
    + destruct (IH _ _ _ H1) as (Ls' & sch & H'). exists Ls', (i :: sch). exact H'.
    + exact (IH _ _ _ H1).
  - exact (IH _ _ _ (reach_step junk i n S posts Ls s s0 H)).
Qed.
Lemma unfolds_app {R} junk p q : forall s : bpool R, unfolds junk (p ++ q) s = unfolds junk q (unfolds junk p s).
Proof. induction p as [|e p IH]; intros s; cbn; auto. Qed.

Lemma behind_start {R} S (posts : list (ends R)) Ls m ts : pool_ok S posts Ls (m, ts) ->
  behind S posts Ls (m, started ts) (m, map DAt ts).
Proof.
  intros H. unfold started. split; [cbn [snd]; rewrite map_map; reflexivity|]. split; [exact (dpool_start _ _ _ _ _ H)|].
  assert (X : forall j t ws, nth_error (map (fun h : HM R => (DAt h, @nil write)) ts) j = Some (t, ws) -> ws = []).
  { intros j t ws Ej. apply nth_error_In, in_map_iff in Ej as (h & Eh & _). congruence. }
  constructor; cbn [fst snd]; auto.
  - intros j t ws p i d Ej En. apply X in Ej. subst ws. discriminate En.
  - intros j t ws L w Ej EL I. apply X in Ej. subst ws. destruct I.
Qed.

(** What has settled. *)
Lemma settled_block {R} S (posts : list (ends R)) Ls s s0 p : behind S posts Ls s s0 ->
  (forall j t ws k, nth_error (snd s) j = Some (t, ws) -> newest p k ws = None) ->
  nth_error (blocks (fst s)) p = nth_error (blocks (fst s0)) p.
Proof.
  intros (E & Hok & Hd) H. apply block_same; [exact (del_shape _ _ _ Hd p)|].
  intros i. apply (del_settled _ _ _ Hd). intros j t ws Ej. exact (H j t ws i Ej).
Qed.
Lemma drained_same {R} S (posts : list (ends R)) Ls s s0 : behind S posts Ls s s0 -> settled (snd s) -> fst s = fst s0.
Proof.
  intros H Dr. assert (X : blocks (fst s) = blocks (fst s0)).
  { apply list_ext. intros p. apply (settled_block S posts Ls s s0 p H). intros j t ws k Ej.
    unfold settled in Dr. rewrite Forall_forall in Dr. apply nth_error_In in Ej. apply Dr in Ej. cbn [snd] in Ej. now subst ws. }
  destruct H as (_ & _ & Hd). pose proof (del_slack _ _ _ Hd) as Y. destruct (fst s), (fst s0). cbn in *. congruence.
Qed.
Lemma own_settled {R} S (posts : list (ends R)) Ls s s0 i L t p : behind S posts Ls s s0 ->
  nth_error (snd s) i = Some (t, []) -> nth_error Ls i = Some L -> In p (map addr L) ->
  nth_error (blocks (fst s)) p = nth_error (blocks (fst s0)) p.
Proof.
  intros H Ei EL I. apply (settled_block S posts Ls s s0 p H). intros j u vs k Ej. destruct (Nat.eq_dec i j) as [<-|N].
  - rewrite Ei in Ej. injection Ej as <- <-. reflexivity.
  - exact (nobody_else _ _ _ _ _ i L t [] p H Ei EL I j u vs N Ej k).
Qed.
Lemma lent_settled {R} S (posts : list (ends R)) Ls s s0 p : behind S posts Ls s s0 -> In p (map addr S) ->
  nth_error (blocks (fst s)) p = nth_error (blocks (fst s0)) p.
Proof.
  intros H I. apply (settled_block S posts Ls s s0 p H). intros j t ws k Ej.
  destruct (newest p k ws) as [d|] eqn:En; [|reflexivity]. exfalso. apply newest_in in En as (w & Iw & <- & _).
  pose proof H as (E & Hok & Hd). pose proof (dpool_coarse _ _ _ _ Hok) as Hc.
  assert (Ej0 : nth_error (map pending (snd s0)) j = Some (pending t)) by (apply map_nth_error; rewrite <- E; exact (map_nth_error fst j (snd s) Ej)).
  destruct (pool_safe _ _ _ _ Hc j _ Ej0) as (L & post & EL & _).
  pose proof (del_own _ _ _ Hd j t ws L w Ej EL Iw) as O. destruct Hc as [_ _ (Nd & _)].
  rewrite map_app in Nd. apply in_split in I as (l1 & l2 & I). rewrite I, <- app_assoc in Nd. cbn in Nd. apply NoDup_remove_2 in Nd.
  apply Nd. apply in_or_app. right. apply in_or_app. right. rewrite concat_map, map_map. apply in_concat.
  exists (map addr (owned L)). split; [|exact O]. apply in_map_iff. exists L. split; [reflexivity|]. now apply nth_error_In in EL.
Qed.

(** A thread's writes reach the memory if they are let. *)
Lemma drain {R} junk i S (posts : list (ends R)) Ls s0 t : forall ws s, behind S posts Ls s s0 -> nth_error (snd s) i = Some (t, ws) ->
  exists later, Forall (fun e => e = Turn i \/ e = Reach i 0) later /\ behind S posts Ls (unfolds junk later s) s0 /\
    nth_error (snd (unfolds junk later s)) i = Some (t, []).
Proof.
  induction ws as [|w ws IH]; intros s H Ei; [exists []; auto|].
  pose proof (reach_step junk i 0 S posts Ls s s0 H) as H1.
  assert (E1 : nth_error (snd (happen junk (Reach i 0) s)) i = Some (t, ws) \/ nth_error (snd (happen junk (Reach i 0) s)) i = Some (DAt HUndef, w :: ws)).
  { cbn [happen]. rewrite Ei. cbn [bflush nth_error firstn existsb skipn app].
    destruct (digit_store (wblock w) (windex w) (wdigit w) (fst s)); cbn [snd]; [left|right]; exact (nth_update_same _ _ _ _ Ei). }
  destruct E1 as [E1|E1].
  - destruct (IH _ H1 E1) as (later & F & H' & E'). exists (Reach i 0 :: later). split; [constructor; auto|]. split; assumption.
  - exfalso. pose proof H1 as (Em & Hok & _).
    assert (Eu : nth_error (map pending (snd s0)) i = Some HUndef) by (apply (map_nth_error pending i (snd s0) (d := DAt HUndef)); rewrite <- Em; exact (map_nth_error fst i _ E1)).
    destruct (pool_safe _ _ _ _ (dpool_coarse _ _ _ _ Hok) i _ Eu) as (L & post & _ & _ & Sf & _). inversion Sf.
Qed.
Lemma catch_up {R} junk i S (posts : list (ends R)) n : forall Ls s s0 t, behind S posts Ls s s0 -> nth_error (snd s) i = Some (t, []) ->
  exists later Ls' t', Forall (fun e => e = Turn i \/ e = Reach i 0) later /\
    behind S posts Ls' (unfolds junk later s) (dinterleave junk (repeat i n) s0) /\ nth_error (snd (unfolds junk later s)) i = Some (t', []).
Proof.
  induction n as [|n IH]; intros Ls s s0 t H Ei; [exists [], Ls, t; auto|]. cbn [repeat dinterleave].
  destruct (turn_step junk i S posts Ls s s0 H) as (Ls1 & s1 & H1 & [->|(_ & t1 & ws1 & E1 & N)]); [|congruence].
  assert (X : exists t1 ws1, nth_error (snd (happen junk (Turn i) s)) i = Some (t1, ws1)).
  { cbn [happen]. rewrite Ei. destruct (btick junk (t, []) (fst s)) as ((t1 & ws1) & m1). exists t1, ws1. exact (nth_update_same _ _ _ _ Ei). }
  destruct X as (t1 & ws1 & E1). destruct (drain junk i S posts Ls1 _ t1 ws1 _ H1 E1) as (l1 & F1 & H2 & E2).
  destruct (IH _ _ _ _ H2 E2) as (l2 & Ls' & t' & F2 & H3 & E3). exists ((Turn i :: l1) ++ l2), Ls', t'.
  rewrite unfolds_app. split; [|split; assumption]. apply Forall_app. split; [constructor; auto|exact F2].
Qed.
Lemma bprogress {R} junk S (posts : list (ends R)) Ls s s0 history i : behind S posts Ls s s0 -> (i < length (snd s))%nat ->
  (forall sch, let '(m', ts) := dinterleave junk sch s0 in ~ digit_race ts /\ ~ In (DAt HUndef) ts /\ ~ In (DAt HPanic) ts /\ ~ In (DAt HFuel) ts) ->
  exists later r, Forall (fun e => e = Turn i \/ e = Reach i 0) later /\ nth_error (snd (unfolds junk (history ++ later) s)) i = Some (DAt (HRet r), []).
Proof.
  intros H Hi Q. destruct (unfolds_ok junk S posts history Ls s s0 H) as (Ls1 & sch & H1).
  assert (Hi0 : (i < length (snd s0))%nat) by (destruct H as (E & _); rewrite <- E, map_length; exact Hi).
  destruct (dprogress junk s0 sch i Hi0 Q) as (n & r & En). rewrite dinterleave_app in En.
  assert (X : exists t ws, nth_error (snd (unfolds junk history s)) i = Some (t, ws)).
  { destruct (nth_error (snd (unfolds junk history s)) i) as [(t & ws)|] eqn:Et; [eauto|]. apply nth_error_None in Et.
    destruct H1 as (E & _).
    assert (Q2 : length (snd (unfolds junk history s)) = length (snd s0)).
    { rewrite <- (dinterleave_length junk sch s0), <- E. symmetry. apply map_length. }
    lia. }
  destruct X as (t & ws & Et). destruct (drain junk i S posts Ls1 _ t ws _ H1 Et) as (l1 & F1 & H2 & E2).
  destruct (catch_up junk i S posts n _ _ _ _ H2 E2) as (l2 & Ls' & t' & F2 & H3 & E3).
  exists (l1 ++ l2), r. rewrite !unfolds_app. split; [now apply Forall_app|]. rewrite E3. f_equal. f_equal.
  destruct H3 as (E & _). rewrite <- E in En. pose proof (map_nth_error fst i _ E3) as E4. cbn [fst] in E4. congruence.
Qed.

Lemma no_delayed_race {R} S (posts : list (ends R)) Ls s s0 : behind S posts Ls s s0 -> ~ delayed_race (snd s).
Proof.
  intros H (i & j & (t & ws) & (u & vs) & w & N & Ei & Ej & Iw & T). pose proof H as (E & Hok & Hd). pose proof (dpool_coarse _ _ _ _ Hok) as Hc.
  assert (Ei0 : nth_error (map pending (snd s0)) i = Some (pending t)) by (apply map_nth_error; rewrite <- E; exact (map_nth_error fst i (snd s) Ei)).
  assert (Ej0 : nth_error (map pending (snd s0)) j = Some (pending u)) by (apply map_nth_error; rewrite <- E; exact (map_nth_error fst j (snd s) Ej)).
  destruct (pool_safe _ _ _ _ Hc i _ Ei0) as (L & post & EL & _). destruct (pool_safe _ _ _ _ Hc j _ Ej0) as (L2 & post2 & EL2 & _ & Sf & P2).
  cbn [fst snd] in *. pose proof (del_own _ _ _ Hd i t ws L w Ei EL Iw) as O.
  refine (pool_apart S posts Ls _ i j L L2 (wblock w) Hc N EL EL2 P2 O _).
  destruct T as [T|(v & Iv & <-)]; [exact (safe_touches _ L2 post2 (wblock w) Sf T)|].
  pose proof (del_own _ _ _ Hd j u vs L2 v Ej EL2 Iv) as O2. apply in_map_iff in O2 as (c & Ec & I). apply in_map_iff. exists c. split; [exact Ec|].
  apply filter_In in I. apply I.
Qed.

(** * [ApInt] *)
Lemma behind_end {R} S (posts : list (ends R)) Ls s s0 i t ws : behind S posts Ls s s0 -> nth_error (snd s) i = Some (t, ws) -> nth_error (map pending (snd s0)) i = Some (pending t).
Proof. intros (E & _) Ei. apply map_nth_error. rewrite <- E. exact (map_nth_error fst i _ Ei). Qed.
Lemma buffers_same_fact junk setup slack give programs vs m history m' ts : forked_catching setup slack give programs vs m ->
  unfolds junk history (m, started (spawn_catching 0 give vs programs)) = (m', ts) ->
  exists schedule m0, dinterleave junk schedule (m, map DAt (spawn_catching 0 give vs programs)) = (m0, map fst ts) /\
    (settled ts -> m' = m0).
Proof.
  intros H Eu. destruct (forked_catching_ok _ _ _ _ _ _ H) as (cs & S & Ls & _ & _ & P & _).
  destruct (unfolds_ok junk _ _ history _ _ _ (behind_start _ _ _ _ _ P)) as (Ls' & sch & B). rewrite Eu in B.
  exists sch. destruct (dinterleave junk sch _) as (m0 & ts0). exists m0. pose proof B as (E & _). cbn [fst snd] in E. rewrite E. split; [reflexivity|].
  intros Dr. exact (drained_same _ _ _ _ _ B Dr).
Qed.
Lemma buffers_race_free_fact junk setup slack give programs vs m history : forked_catching setup slack give programs vs m ->
  let '(m', ts) := unfolds junk history (m, started (spawn_catching 0 give vs programs)) in
  ~ digit_race (map fst ts) /\ ~ delayed_race ts /\ ~ In (DAt HUndef) (map fst ts) /\ ~ In (DAt HPanic) (map fst ts) /\ ~ In (DAt HFuel) (map fst ts).
Proof.
  intros H. destruct (forked_catching_ok _ _ _ _ _ _ H) as (cs & S & Ls & _ & _ & P & _).
  destruct (unfolds_ok junk _ _ history _ _ _ (behind_start _ _ _ _ _ P)) as (Ls' & sch & B).
  pose proof (digits_race_free_fact junk _ _ _ _ _ _ sch H) as Q; revert Q.
  destruct (unfolds junk history _) as (m' & ts). destruct (dinterleave junk sch _) as (m0 & ts0). pose proof B as (E & _). cbn [snd] in E. rewrite E.
  intros (Q1 & Q2). split; [exact Q1|]. split; [exact (no_delayed_race _ _ _ _ _ B)|exact Q2].
Qed.
Lemma buffers_isolated_fact junk setup slack give programs vs m history m' ts i p vs' r ws : forked_catching setup slack give programs vs m ->
  unfolds junk history (m, started (spawn_catching 0 give vs programs)) = (m', ts) ->
  nth_error programs i = Some p -> nth_error ts i = Some (DAt (HRet (vs', r)), ws) ->
  let (s', r') := athread (keeper give) (hand i give (fst (acatches [] setup))) p in
  r = r' /\ (ws = [] -> exists cs', Forall2 holds cs' s' /\ Forall2 (stored m') vs' cs').
Proof.
  intros H Eu Ep Er. destruct (forked_catching_ok _ _ _ _ _ _ H) as (cs & S & Ls & _ & _ & P & _).
  destruct (unfolds_ok junk _ _ history _ _ _ (behind_start _ _ _ _ _ P)) as (Ls' & sch & B). rewrite Eu in B.
  destruct (dinterleave junk sch _) as (m0 & ts0). pose proof (behind_end _ _ _ _ _ i _ _ B Er) as E0. pose proof B as (_ & Hok & _).
  destruct (pool_safe _ _ _ _ (dpool_coarse _ _ _ _ Hok) i _ E0) as (L & post & EL & EP & Sf & _). cbn [pending] in Sf.
  rewrite catching_posts_nth, Ep in EP. cbn [Nat.add] in EP. injection EP as <-. apply catching_end in Sf.
  destruct (athread (keeper give) (hand i give (fst (acatches [] setup))) p) as [s' r']. cbn [fst snd] in Sf.
  destruct Sf as (Eo & cs' & Hh & So). split; [exact Eo|]. intros ->. exists cs'. split; [exact Hh|].
  apply (sown_stored (keeper give) vs' cs' L m'); [|exact So|exists s'; exact Hh].
  intros b q ds I. destruct (pool_has S _ Ls' m0 _ i L b q ds (dpool_coarse _ _ _ _ Hok) EL I) as (X & Y).
  pose proof (own_settled _ _ _ _ _ i L _ q B Er EL (in_map addr _ _ I)) as Z. cbn [fst] in Z. rewrite Z.
  apply (live_in m0 _ b q ds Y). apply in_or_app. now left.
Qed.
Lemma stored_same m m0 v c : (forall a p, v = Some a -> hdata a = UExt p -> nth_error (blocks m) p = nth_error (blocks m0) p) -> stored m0 v c -> stored m v c.
Proof.
  intros H. destruct v as [a|], c as [x|]; cbn [stored]; auto. intros (A1 & A2 & A3 & A4). split; [exact A1|]. split; [exact A2|].
  split; [exact A3|]. intros G. destruct (A4 G) as (p & Ep & Eb). exists p. split; [exact Ep|]. now rewrite (H a p eq_refl Ep).
Qed.
Lemma buffers_lent_fact junk setup slack give programs vs m history : forked_catching setup slack give programs vs m ->
  exists cs, Forall2 holds cs (fst (acatches [] setup)) /\ Forall2 (stored m) vs cs /\
  let '(m', ts) := unfolds junk history (m, started (spawn_catching 0 give vs programs)) in
  forall x v c, borrowed give x -> nth_error vs x = Some v -> nth_error cs x = Some c -> stored m' v c.
Proof.
  intros H. destruct (forked_catching_ok _ _ _ _ _ _ H) as (cs & S & Ls & Hh & St & P & KO & K6 & KU).
  exists cs. split; [exact Hh|]. split; [exact St|].
  destruct (unfolds_ok junk _ _ history _ _ _ (behind_start _ _ _ _ _ P)) as (Ls' & sch & B).
  destruct (unfolds junk history _) as (m' & ts). destruct (dinterleave junk sch _) as (m0 & ts0). pose proof B as (_ & Hok & _).
  intros x v c Bx Ev Ec. apply (stored_same m' m0).
  - intros a p -> Ep. apply (lent_settled _ _ _ _ _ p B). apply K6. exists x. split; [exact Bx|]. exists a. auto.
  - exact (lent_pool S _ Ls m _ Ls' m0 _ vs cs give P (dpool_coarse _ _ _ _ Hok) K6 St x v c Bx Ev Ec).
Qed.
Lemma buffers_progress_fact junk setup slack give programs vs m history i : forked_catching setup slack give programs vs m -> (i < length programs)%nat ->
  exists later r, Forall (fun e => e = Turn i \/ e = Reach i 0) later /\
    nth_error (snd (unfolds junk (history ++ later) (m, started (spawn_catching 0 give vs programs)))) i = Some (DAt (HRet r), []).
Proof.
  intros H Hi. destruct (forked_catching_ok _ _ _ _ _ _ H) as (cs & S & Ls & _ & _ & P & _).
  apply (bprogress junk _ _ _ _ _ history i (behind_start _ _ _ _ _ P)); [unfold started; cbn [snd]; now rewrite map_length, spawn_catching_length|].
  intros sch. exact (digits_race_free_fact junk _ _ _ _ _ _ sch H).
Qed.
Lemma buffers_join_fact junk setup slack give programs vs m history m' ts : forked_catching setup slack give programs vs m ->
  unfolds junk history (m, started (spawn_catching 0 give vs programs)) = (m', ts) -> Forall (fun t => exists r, t = (DAt (HRet r), [])) ts ->
  forall p ds, nth_error (blocks m') p = Some (Some ds) -> exists! o, owner give vs (map pending (map fst ts)) o p.
Proof.
  intros H Eu Hr. destruct (buffers_same_fact junk _ _ _ _ _ _ _ _ _ H Eu) as (sch & m0 & E & Em).
  rewrite Em; [|unfold settled; revert Hr; apply Forall_impl; intros t (r & ->); reflexivity].
  apply (digits_join_fact junk _ _ _ _ _ _ sch m0 (map fst ts) H E).
  rewrite Forall_map. revert Hr. apply Forall_impl. intros t (r & ->). exists r. reflexivity.
Qed.

(** * [UInt] and [Int] *)
Lemma tbuffers_same_fact junk setup slack give programs vs m history m' ts : tforked setup slack give programs vs m ->
  unfolds junk history (m, started (tspawn 0 give vs programs)) = (m', ts) ->
  exists schedule m0, dinterleave junk schedule (m, map DAt (tspawn 0 give vs programs)) = (m0, map fst ts) /\
    (settled ts -> m' = m0).
Proof.
  intros H Eu. destruct (tforked_ok _ _ _ _ _ _ H) as (cs & S & Ls & _ & _ & _ & P & _).
  destruct (unfolds_ok junk _ _ history _ _ _ (behind_start _ _ _ _ _ P)) as (Ls' & sch & B). rewrite Eu in B.
  exists sch. destruct (dinterleave junk sch _) as (m0 & ts0). exists m0. pose proof B as (E & _). cbn [fst snd] in E. rewrite E. split; [reflexivity|].
  intros Dr. exact (drained_same _ _ _ _ _ B Dr).
Qed.
Lemma tbuffers_race_free_fact junk setup slack give programs vs m history : tforked setup slack give programs vs m ->
  let '(m', ts) := unfolds junk history (m, started (tspawn 0 give vs programs)) in
  ~ digit_race (map fst ts) /\ ~ delayed_race ts /\ ~ In (DAt HUndef) (map fst ts) /\ ~ In (DAt HPanic) (map fst ts) /\ ~ In (DAt HFuel) (map fst ts).
Proof.
  intros H. destruct (tforked_ok _ _ _ _ _ _ H) as (cs & S & Ls & _ & _ & _ & P & _).
  destruct (unfolds_ok junk _ _ history _ _ _ (behind_start _ _ _ _ _ P)) as (Ls' & sch & B).
  pose proof (tdigits_race_free_fact junk _ _ _ _ _ _ sch H) as Q; revert Q.
  destruct (unfolds junk history _) as (m' & ts). destruct (dinterleave junk sch _) as (m0 & ts0). pose proof B as (E & _). cbn [snd] in E. rewrite E.
  intros (Q1 & Q2). split; [exact Q1|]. split; [exact (no_delayed_race _ _ _ _ _ B)|exact Q2].
Qed.
Lemma tbuffers_isolated_fact junk setup slack give programs vs m history m' ts i p vs' r ws : tforked setup slack give programs vs m ->
  unfolds junk history (m, started (tspawn 0 give vs programs)) = (m', ts) ->
  nth_error programs i = Some p -> nth_error ts i = Some (DAt (HRet (vs', r)), ws) ->
  let (s', r') := tathread (keeper give) (hand i give (fst (tacatches [] setup))) p in
  r = r' /\ (ws = [] -> Forall2 (in_memory m') vs' s').
Proof.
  intros H Eu Ep Er. destruct (tforked_ok _ _ _ _ _ _ H) as (cs & S & Ls & _ & _ & _ & P & _).
  destruct (unfolds_ok junk _ _ history _ _ _ (behind_start _ _ _ _ _ P)) as (Ls' & sch & B). rewrite Eu in B.
  destruct (dinterleave junk sch _) as (m0 & ts0). pose proof (behind_end _ _ _ _ _ i _ _ B Er) as E0. pose proof B as (_ & Hok & _).
  destruct (pool_safe _ _ _ _ (dpool_coarse _ _ _ _ Hok) i _ E0) as (L & post & EL & EP & Sf & _). cbn [pending] in Sf.
  rewrite typed_posts_nth, Ep in EP. cbn [Nat.add] in EP. injection EP as <-. apply typed_end in Sf.
  destruct (tathread (keeper give) (hand i give (fst (tacatches [] setup))) p) as [s' r']. cbn [fst snd] in Sf.
  destruct Sf as (Eo & ts' & Hh & So & Kd). split; [exact Eo|]. intros ->. apply (in_memory_fact m' ts' s' vs' Hh Kd).
  apply (sown_stored (keeper give) (inside vs') (vinside ts') L m'); [|exact So|exact (inv_inside ts' s' Hh)].
  intros b q ds I. destruct (pool_has S _ Ls' m0 _ i L b q ds (dpool_coarse _ _ _ _ Hok) EL I) as (X & Y).
  pose proof (own_settled _ _ _ _ _ i L _ q B Er EL (in_map addr _ _ I)) as Z. cbn [fst] in Z. rewrite Z.
  apply (live_in m0 _ b q ds Y). apply in_or_app. now left.
Qed.
Lemma tbuffers_lent_fact junk setup slack give programs vs m history : tforked setup slack give programs vs m ->
  let '(m', ts) := unfolds junk history (m, started (tspawn 0 give vs programs)) in
  forall x v t, borrowed give x -> nth_error vs x = Some v -> nth_error (fst (tacatches [] setup)) x = Some t -> in_memory m' v t.
Proof.
  intros H. destruct (tforked_ok _ _ _ _ _ _ H) as (cs & S & Ls & Hh & Kd & St & P & KO & K6 & KU).
  destruct (unfolds_ok junk _ _ history _ _ _ (behind_start _ _ _ _ _ P)) as (Ls' & sch & B).
  destruct (unfolds junk history _) as (m' & ts). destruct (dinterleave junk sch _) as (m0 & ts0). pose proof B as (_ & Hok & _).
  intros x v t Bx Ev Et.
  pose proof (typed_lent_pool S _ Ls m _ Ls' m0 _ vs cs _ give P (dpool_coarse _ _ _ _ Hok) K6 St Hh Kd x v t Bx Ev Et) as Q.
  destruct v as [a|], t as [y|]; cbn [in_memory] in *; auto. destruct Q as (Q1 & c & Q2 & Q3). split; [exact Q1|]. exists c. split; [exact Q2|].
  apply (stored_same m' m0); [|exact Q3]. intros b p Eb Ep. injection Eb as <-. apply (lent_settled _ _ _ _ _ p B). apply K6. exists x. split; [exact Bx|].
  exists (hval a). split; [|exact Ep]. unfold inside. now rewrite nth_error_map, Ev.
Qed.
Lemma tbuffers_progress_fact junk setup slack give programs vs m history i : tforked setup slack give programs vs m -> (i < length programs)%nat ->
  exists later r, Forall (fun e => e = Turn i \/ e = Reach i 0) later /\
    nth_error (snd (unfolds junk (history ++ later) (m, started (tspawn 0 give vs programs)))) i = Some (DAt (HRet r), []).
Proof.
  intros H Hi. destruct (tforked_ok _ _ _ _ _ _ H) as (cs & S & Ls & _ & _ & _ & P & _).
  apply (bprogress junk _ _ _ _ _ history i (behind_start _ _ _ _ _ P)); [unfold started; cbn [snd]; now rewrite map_length, tspawn_length|].
  intros sch. exact (tdigits_race_free_fact junk _ _ _ _ _ _ sch H).
Qed.
Lemma tbuffers_join_fact junk setup slack give programs vs m history m' ts : tforked setup slack give programs vs m ->
  unfolds junk history (m, started (tspawn 0 give vs programs)) = (m', ts) -> Forall (fun t => exists r, t = (DAt (HRet r), [])) ts ->
  forall p ds, nth_error (blocks m') p = Some (Some ds) -> exists! o, towner give vs (map pending (map fst ts)) o p.
Proof.
  intros H Eu Hr. destruct (tbuffers_same_fact junk _ _ _ _ _ _ _ _ _ H Eu) as (sch & m0 & E & Em).
  rewrite Em; [|unfold settled; revert Hr; apply Forall_impl; intros t (r & ->); reflexivity].
  apply (tdigits_join_fact junk _ _ _ _ _ _ sch m0 (map fst ts) H E).
  rewrite Forall_map. revert Hr. apply Forall_impl. intros t (r & ->). exists r. reflexivity.
Qed.
