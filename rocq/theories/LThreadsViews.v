(** Threads on a machine whose reads may return old values. *)
From Verif Require Export LThreadsTrace MThreadsViews SpecThreadsViews.
From Coq Require Import Lia Permutation.

Lemma update_same {A} i (a b : A) l : update i a (update i b l) = update i a l.
Proof. revert i. induction l as [|x l IH]; intros [|i]; cbn; try reflexivity. now rewrite IH. Qed.

(** * Messages *)
Lemma latest_in xs x : latest xs = Some x -> In x xs.
Proof.
  revert x. induction xs as [|y xs IH]; intros x H; [discriminate|]. cbn in H. destruct (latest xs) as [z|].
  - destruct (Nat.leb (stamp y) (stamp z)); injection H as <-; [right; now apply IH|now left].
  - injection H as <-. now left.
Qed.
Lemma latest_some xs y : In y xs -> exists x, latest xs = Some x.
Proof. destruct xs as [|z xs]; [intros []|]. intros _. cbn. destruct (latest xs); [destruct (Nat.leb _ _)|]; eauto. Qed.
Lemma latest_max xs x y : latest xs = Some x -> In y xs -> (stamp y <= stamp x)%nat.
Proof.
  revert x. induction xs as [|z xs IH]; intros x H I; [destruct I|]. cbn in H. destruct (latest xs) as [u|] eqn:E.
  - destruct I as [->|I].
    + destruct (Nat.leb_spec (stamp y) (stamp u)); injection H as <-; lia.
    + pose proof (IH u eq_refl I). destruct (Nat.leb_spec (stamp z) (stamp u)); injection H as <-; lia.
  - injection H as <-. destruct I as [->|I]; [lia|]. destruct (latest_some xs y I) as (x & X). congruence.
Qed.
Lemma latest_app xs x : (forall y, In y xs -> (stamp y < stamp x)%nat) -> latest (xs ++ [x]) = Some x.
Proof.
  induction xs as [|y xs IH]; intros H; [reflexivity|]. cbn [app latest]. rewrite IH by (intros z I; apply H; now right).
  destruct (Nat.leb_spec (stamp y) (stamp x)) as [|L]; [reflexivity|]. pose proof (H y (or_introl eq_refl)). lia.
Qed.
Lemma stamps_unique xs x y : NoDup (map stamp xs) -> In x xs -> In y xs -> stamp x = stamp y -> x = y.
Proof.
  induction xs as [|z xs IH]; intros N I J E; [destruct I|]. cbn in N. apply NoDup_cons_iff in N as (N1 & N2).
  destruct I as [<-|I], J as [<-|J]; [reflexivity| | |auto]; exfalso; apply N1; [rewrite E|rewrite <- E]; now apply in_map.
Qed.
Lemma nodup_snoc {A} (l : list A) x : NoDup l -> ~ In x l -> NoDup (l ++ [x]).
Proof. intros N I. apply (Permutation_NoDup (Permutation_cons_append l x)). now constructor. Qed.

(** * The memory *)
Lemma current_length m : length (blocks (current m)) = length (vblocks m).
Proof. unfold current. cbn [blocks]. apply map_length. Qed.
Lemma load_current p k m : digit_load p k (current m) = option_map latest_value (written p k m).
Proof.
  unfold digit_load, written, current. cbn [blocks]. rewrite nth_error_map. destruct (nth_error (vblocks m) p) as [[ds|]|]; cbn; try reflexivity.
  apply nth_error_map.
Qed.
Lemma store_none p k d m : written p k m = None -> digit_store p k d (current m) = None.
Proof.
  unfold digit_store, written, current. cbn [blocks]. rewrite nth_error_map. destruct (nth_error (vblocks m) p) as [[ds|]|]; cbn [option_map]; try reflexivity.
  intros E. apply nth_error_None in E. rewrite map_length. destruct (Nat.ltb_spec k (length ds)); [lia|reflexivity].
Qed.
Lemma store_current p k x m xs : written p k m = Some xs -> latest_value (xs ++ [x]) = value x ->
  digit_store p k (value x) (current m) = Some (current (add_message p k x m)).
Proof.
  unfold digit_store, written, current, add_message. cbn [blocks]. rewrite nth_error_map.
  destruct (nth_error (vblocks m) p) as [[ds|]|] eqn:Ep; cbn [option_map]; try discriminate. intros E H. rewrite E.
  assert (L : (k < length ds)%nat) by (apply nth_error_Some; congruence). rewrite map_length. destruct (Nat.ltb_spec k (length ds)) as [_|]; [|lia].
  cbn [vblocks vslack slack]. f_equal. f_equal. rewrite map_update. cbn [option_map]. rewrite map_update. now rewrite H.
Qed.
Lemma written_add p k x m xs q j : written p k m = Some xs ->
  written q j (add_message p k x m) = if Nat.eqb p q && Nat.eqb k j then Some (xs ++ [x]) else written q j m.
Proof.
  unfold written, add_message. destruct (nth_error (vblocks m) p) as [[ds|]|] eqn:Ep; try discriminate. intros E. rewrite E. cbn [vblocks].
  destruct (Nat.eqb_spec p q) as [<-|N]; cbn [andb]; [|now rewrite nth_update_other]. rewrite (nth_update_same _ _ _ _ Ep), Ep.
  destruct (Nat.eqb_spec k j) as [<-|N]; [exact (nth_update_same _ _ _ _ E)|now rewrite nth_update_other].
Qed.
Lemma add_length p k x m : length (vblocks (add_message p k x m)) = length (vblocks m).
Proof. unfold add_message. destruct (nth_error (vblocks m) p) as [[ds|]|]; try reflexivity. destruct (nth_error ds k); [|reflexivity]. cbn. apply update_length. Qed.
Lemma free_current p n m : mem_free p n (current m) = option_map current (v_free p n m).
Proof.
  unfold mem_free, v_free, current. cbn [blocks]. rewrite nth_error_map. destruct (nth_error (vblocks m) p) as [[ds|]|]; cbn [option_map]; try reflexivity.
  rewrite map_length. destruct (Nat.eqb (length ds) n); [|reflexivity]. cbn. now rewrite map_update.
Qed.
Lemma free_written p n m m' : v_free p n m = Some m' -> length (vblocks m') = length (vblocks m) /\
  forall q k xs, written q k m' = Some xs -> written q k m = Some xs.
Proof.
  unfold v_free. destruct (nth_error (vblocks m) p) as [[ds|]|] eqn:E; try discriminate. destruct (Nat.eqb (length ds) n); [|discriminate].
  intros X. injection X as <-. cbn. split; [apply update_length|]. intros q k xs. unfold written. cbn [vblocks].
  destruct (Nat.eq_dec p q) as [<-|N]; [rewrite (nth_update_same _ _ _ _ E); discriminate|now rewrite nth_update_other].
Qed.
Lemma written_lt p k m xs : written p k m = Some xs -> (p < length (vblocks m))%nat.
Proof. unfold written. intros H. apply nth_error_Some. intros E. rewrite E in H. discriminate. Qed.
Lemma written_new new m q k : written q k (mk_vmem (vslack m) (vblocks m ++ [Some new])) =
  if Nat.eqb q (length (vblocks m)) then nth_error new k else written q k m.
Proof.
  unfold written. cbn [vblocks]. destruct (Nat.eqb_spec q (length (vblocks m))) as [->|N].
  - rewrite nth_error_app2, Nat.sub_diag by lia. reflexivity.
  - destruct (Nat.lt_ge_cases q (length (vblocks m))) as [L|L]; [now rewrite nth_error_app1|].
    replace (nth_error (vblocks m ++ [Some new]) q) with (@None (option (list (list message)))) by (symmetry; apply nth_error_None; rewrite app_length; cbn; lia).
    replace (nth_error (vblocks m) q) with (@None (option (list (list message)))) by (symmetry; apply nth_error_None; lia). reflexivity.
Qed.
Lemma current_new junk m n : current (mk_vmem (vslack m) (vblocks m ++ [Some (map (fun d => [mk_message 0 d]) (uninit junk (length (vblocks m)) n))])) =
  mk_mem (slack (current m)) (blocks (current m) ++ [Some (uninit junk (length (blocks (current m))) n)]).
Proof.
  rewrite current_length. unfold current. cbn [vblocks vslack blocks slack]. rewrite map_app. cbn [map option_map].
  rewrite map_map. cbn. rewrite map_id. reflexivity.
Qed.
Lemma current_settled m : current (settled_memory m) = m.
Proof.
  unfold current, settled_memory. cbn. destruct m as [sl bs]. cbn. f_equal. rewrite map_map. rewrite <- (map_id bs) at 2. apply map_ext.
  intros [ds|]; [|reflexivity]. cbn. f_equal. rewrite map_map. cbn. apply map_id.
Qed.

(** * One step *)
Record abreast {R : Type} (S : list cell) (posts : list (ends R)) (Ls : list (list cell)) (s : vpool R) : Prop := mk_abreast {
  ab_sc : dpool_ok S posts Ls (current (fst s), map fst (snd s));
  ab_unique : forall p k xs, written p k (fst s) = Some xs -> NoDup (map stamp xs);
  ab_view : forall i t v L p k xs, nth_error (snd s) i = Some (t, v) -> nth_error Ls i = Some L -> In p (map addr L) -> written p k (fst s) = Some xs ->
    exists x, latest xs = Some x /\ v p k = stamp x;
  ab_fresh : forall i t v p k, nth_error (snd s) i = Some (t, v) -> (length (vblocks (fst s)) <= p)%nat -> v p k = O }.

Lemma ledger {R} S (posts : list (ends R)) Ls s i t : pool_ok S posts Ls s -> nth_error (snd s) i = Some t ->
  exists L post, nth_error Ls i = Some L /\ safe t L post /\ Permutation (lent L) S.
Proof. intros H E. destruct (pool_safe _ _ _ _ H i t E) as (L & post & A & _ & B & C). eauto. Qed.
Lemma addr_split L p : In p (map addr L) <-> In p (map addr (lent L)) \/ In p (map addr (owned L)).
Proof.
  split.
  - intros I. apply (Permutation_in _ (Permutation_map addr (partition_perm L))) in I. rewrite map_app in I. now apply in_app_or in I.
  - intros I. apply (Permutation_in _ (Permutation_map addr (Permutation_sym (partition_perm L)))). rewrite map_app. now apply in_or_app.
Qed.
Lemma vpool_nth {R} (ts : list (vthread R)) i t v : nth_error ts i = Some (t, v) -> nth_error (map pending (map fst ts)) i = Some (pending t).
Proof. intros E. apply map_nth_error. exact (map_nth_error fst i ts E). Qed.
Lemma vpool_nth_inv {R} S (posts : list (ends R)) Ls (s : vpool R) i L : dpool_ok S posts Ls (current (fst s), map fst (snd s)) -> nth_error Ls i = Some L ->
  exists t v, nth_error (snd s) i = Some (t, v).
Proof.
  intros [H _] E. destruct (nth_error (snd s) i) as [[t v]|] eqn:X; [eauto|]. exfalso. apply nth_error_None in X.
  pose proof (pool_length _ _ _ _ H) as Y. cbn [fst snd] in Y. assert (Z : length (map pending (map fst (snd s))) = length (snd s)) by (rewrite map_length; apply map_length).
  assert (i < length Ls)%nat by (apply nth_error_Some; congruence). rewrite Y, Z in H0. lia.
Qed.

Lemma advance {R} junk S (posts : list (ends R)) Ls m ts i t v t' v' m' :
  abreast S posts Ls (m, ts) -> nth_error ts i = Some (t, v) ->
  dtick junk t (current m) = (t', current m') ->
  (forall p k ys, written p k m' = Some ys -> NoDup (map stamp ys)) ->
  (forall p k ys, written p k m' = Some ys ->
     written p k m = Some ys /\ (v' p k = v p k \/ exists x, latest ys = Some x /\ v' p k = stamp x) \/
     overwrites (pending t) p /\ (exists x, latest ys = Some x /\ v' p k = stamp x) \/
     p = length (vblocks m) /\ v' p k = v p k /\ exists d, ys = [mk_message 0 d]) ->
  (forall p k, (length (vblocks m') <= p)%nat -> v' p k = O) -> (length (vblocks m) <= length (vblocks m'))%nat ->
  (current m', map fst (update i (t', v') ts)) = dturn junk i (current m, map fst ts) /\
  exists L', abreast S posts (update i L' Ls) (m', update i (t', v') ts).
Proof.
  intros [Hsc Hu Hv Hf] Ei Et U W F Len. cbn [fst snd] in *.
  assert (Ed : (current m', map fst (update i (t', v') ts)) = dturn junk i (current m, map fst ts)).
  { unfold dturn. cbn [fst snd]. rewrite (map_nth_error fst i ts Ei). cbn [fst]. rewrite Et. f_equal. apply map_update. }
  split; [exact Ed|]. destruct (dturn_ok junk i S posts Ls _ Hsc) as (L' & Hsc'). exists L'. pose proof Hsc' as Hsc2. rewrite <- Ed in Hsc'.
  pose proof Hsc as [Hp _]. pose proof Hsc' as [Hp' _].
  destruct (ledger _ _ _ _ i _ Hp (vpool_nth ts i t v Ei)) as (L & post & EL & Sf & Pm).
  assert (Ei' : nth_error (update i (t', v') ts) i = Some (t', v')) by exact (nth_update_same _ _ _ _ Ei).
  assert (EL' : nth_error (update i L' Ls) i = Some L') by exact (nth_update_same _ _ _ _ EL).
  destruct (ledger _ _ _ _ i _ Hp' (vpool_nth _ i t' v' Ei')) as (L2 & post2 & EL2 & _ & Pm'). rewrite EL' in EL2. injection EL2 as <-.
  constructor; cbn [fst snd]; [exact Hsc'|exact U| |].
  - intros j u w M p k ys Ej EM Ip Ew. specialize (W p k ys Ew). destruct (Nat.eq_dec i j) as [<-|N].
    + pose proof (eq_trans (eq_sym Ei') Ej) as X. injection X as <- <-. rewrite EL' in EM. injection EM as <-.
      destruct W as [(Ew0 & [Ev|K])|[(_ & K)|(-> & Ev & d & ->)]]; [|exact K|exact K|].
      * rewrite Ev. apply (Hv i t v L p k ys Ei EL); [|exact Ew0]. apply addr_split. apply addr_split in Ip as [Ip|Ip].
        { left. apply (Permutation_in _ (Permutation_map addr (Permutation_trans Pm' (Permutation_sym Pm)))). exact Ip. }
        right. apply (owned_before junk S posts Ls _ i L L' p Hsc Hsc2 EL Ip). cbn [fst]. rewrite current_length. exact (written_lt _ _ _ _ Ew0).
      * exists (mk_message 0 d). split; [reflexivity|]. rewrite Ev. exact (Hf i t v _ k Ei (le_n _)).
    + rewrite nth_update_other in EM by exact N. apply (eq_trans (eq_sym (nth_update_other i j _ ts N))) in Ej.
      destruct (ledger _ _ _ _ j _ Hp (vpool_nth ts j u w Ej)) as (M2 & postj & EM2 & _ & PmM). rewrite EM in EM2. injection EM2 as <-.
      destruct W as [(Ew0 & _)|[(Ov & _)|(-> & _)]].
      * exact (Hv j u w M p k ys Ej EM Ip Ew0).
      * exfalso. exact (pool_apart S posts Ls _ i j L M p Hp N EL EM PmM (safe_overwrites _ _ _ _ Sf Ov) Ip).
      * exfalso. assert (A : exists ds, nth_error (blocks (current m)) (length (vblocks m)) = Some (Some ds)).
        { apply addr_split in Ip as [Ip|Ip]; [apply (shared_alive _ _ _ _ _ Hp); exact (Permutation_in _ (Permutation_map addr PmM) Ip)|].
          exact (owned_alive _ _ _ _ j M _ Hp EM Ip). }
        destruct A as (ds & A). rewrite <- current_length in A. assert (X : (length (blocks (current m)) < length (blocks (current m)))%nat) by (apply nth_error_Some; congruence). lia.
  - intros j u w p k Ej Hlen. destruct (Nat.eq_dec i j) as [<-|N].
    + pose proof (eq_trans (eq_sym Ei') Ej) as X. injection X as <- <-. now apply F.
    + apply (eq_trans (eq_sym (nth_update_other i j _ ts N))) in Ej. apply (Hf j u w p k Ej). lia.
Qed.

Lemma vpool_same {R} (m : vmem) (ts : list (vthread R)) i x : nth_error ts i = Some x -> (m, update i x ts) = (m, ts).
Proof. intros E. f_equal. exact (update_id i x ts E). Qed.
Definition stepped {R} junk S (posts : list (ends R)) Ls i (m : vmem) (ts : list (vthread R)) (x : vthread R * vmem) : Prop :=
  (current (snd x), map fst (update i (fst x) ts)) = dturn junk i (current m, map fst ts) /\ exists L', abreast S posts (update i L' Ls) (snd x, update i (fst x) ts).
(** The memory stays as it is, and the thread sees nothing new. *)
Lemma stepped_quiet {R} junk S (posts : list (ends R)) Ls m ts i t v t' :
  abreast S posts Ls (m, ts) -> nth_error ts i = Some (t, v) -> dtick junk t (current m) = (t', current m) -> stepped junk S posts Ls i m ts ((t', v), m).
Proof.
  intros H E Et. apply (advance junk S posts Ls m ts i t v t' v m H E Et).
  - exact (ab_unique _ _ _ _ H).
  - intros p k ys Ew. left. auto.
  - intros p k. exact (ab_fresh _ _ _ _ H i t v p k E).
  - lia.
Qed.
Lemma view_of {R} S (posts : list (ends R)) Ls m ts i t v p k xs : abreast S posts Ls (m, ts) -> nth_error ts i = Some (t, v) -> touches (pending t) p ->
  written p k m = Some xs -> exists x, latest xs = Some x /\ v p k = stamp x.
Proof.
  intros H E T W. pose proof (ab_sc _ _ _ _ H) as [Hp _]. destruct (ledger _ _ _ _ i _ Hp (vpool_nth ts i t v E)) as (L & post & EL & Sf & _).
  exact (ab_view _ _ _ _ H i t v L p k xs E EL (safe_touches _ _ _ _ Sf T) W).
Qed.
Lemma v_load_step {R} junk S (posts : list (ends R)) Ls m ts i t v c p n got k :
  abreast S posts Ls (m, ts) -> nth_error ts i = Some (t, v) -> touches (pending t) p -> dtick junk t (current m) = go_load p n got k (current m) ->
  (v_load c t p n got k v m = ((t, v), m) /\ exists xs, written p (length got) m = Some xs /\ forall x, nth_error xs c = Some x -> (stamp x < v p (length got))%nat) \/
  stepped junk S posts Ls i m ts (v_load c t p n got k v m).
Proof.
  intros H E T Et. unfold v_load. unfold go_load in Et. rewrite load_current in Et. destruct (written p (length got) m) as [xs|] eqn:W; cbn [option_map] in Et.
  2:{ right. now apply (stepped_quiet junk S posts Ls m ts i t v). }
  destruct (nth_error xs c) as [x|] eqn:Ec; [|left; split; [reflexivity|]; exists xs; now rewrite Ec].
  destruct (Nat.leb_spec (v p (length got)) (stamp x)) as [Le|Le]; [|left; split; [reflexivity|]; exists xs; split; [reflexivity|]; rewrite Ec; intros ? X; now injection X as <-]. right.
  destruct (view_of S posts Ls m ts i t v p (length got) xs H E T W) as (y & Ey & Ev).
  assert (x = y).
  { apply (stamps_unique xs); [exact (ab_unique _ _ _ _ H _ _ _ W)|exact (nth_error_In _ _ Ec)|exact (latest_in _ _ Ey)|].
    pose proof (latest_max xs y x Ey (nth_error_In _ _ Ec)). lia. }
  subst y. assert (Lv : latest_value xs = value x) by (unfold latest_value; now rewrite Ey). rewrite Lv in Et.
  apply (advance junk S posts Ls m ts i t v _ (sees_at p (length got) (stamp x) v) m H E Et).
  - exact (ab_unique _ _ _ _ H).
  - intros q j ys Ew. left. split; [exact Ew|]. unfold sees_at. destruct (Nat.eqb_spec q p) as [->|]; cbn [andb]; [|now left].
    destruct (Nat.eqb_spec j (length got)) as [->|]; [|now left]. right. exists x. split; [congruence|reflexivity].
  - intros q j Hq. unfold sees_at. destruct (Nat.eqb_spec q p) as [->|]; cbn [andb].
    + pose proof (written_lt _ _ _ _ W). cbn [fst] in *. lia.
    + exact (ab_fresh _ _ _ _ H i t v q j E Hq).
  - lia.
Qed.
Lemma v_store_step {R} junk S (posts : list (ends R)) Ls m ts i t v c p new j k :
  abreast S posts Ls (m, ts) -> nth_error ts i = Some (t, v) -> overwrites (pending t) p -> dtick junk t (current m) = go_store p new j k (current m) ->
  (v_store c t p new j k v m = ((t, v), m) /\ exists xs, written p j m = Some xs /\ ((c <= v p j)%nat \/ existsb (fun x => Nat.eqb (stamp x) c) xs = true)) \/
  stepped junk S posts Ls i m ts (v_store c t p new j k v m).
Proof.
  intros H E O Et. assert (T : touches (pending t) p) by (destruct (pending t); cbn in *; try contradiction; exact O).
  unfold v_store. unfold go_store in Et. destruct (nth_error new j) as [d|]; [|right; now apply (stepped_quiet junk S posts Ls m ts i t v)].
  destruct (written p j m) as [xs|] eqn:W.
  2:{ rewrite (store_none p j d m W) in Et. right. now apply (stepped_quiet junk S posts Ls m ts i t v). }
  destruct (Nat.ltb_spec (v p j) c) as [Lt|]; cbn [andb]; [|left; split; [reflexivity|]; exists xs; split; [reflexivity|now left]].
  destruct (existsb (fun x => Nat.eqb (stamp x) c) xs) eqn:Ex; cbn [negb]; [left; split; [reflexivity|]; exists xs; split; [reflexivity|now right]|]. right.
  destruct (view_of S posts Ls m ts i t v p j xs H E T W) as (y & Ey & Ev).
  assert (La : latest (xs ++ [mk_message c d]) = Some (mk_message c d)).
  { apply latest_app. intros z I. cbn [stamp]. pose proof (latest_max xs y z Ey I). lia. }
  assert (St : digit_store p j d (current m) = Some (current (add_message p j (mk_message c d) m))).
  { apply (store_current p j (mk_message c d) m xs W). unfold latest_value. now rewrite La. }
  rewrite St in Et. apply (advance junk S posts Ls m ts i t v _ (sees_at p j c v) _ H E Et).
  - intros q l ys. rewrite (written_add p j _ m xs q l W). destruct (Nat.eqb p q && Nat.eqb j l).
    + intros X. injection X as <-. rewrite map_app. cbn [map stamp]. apply nodup_snoc; [exact (ab_unique _ _ _ _ H _ _ _ W)|].
      intros I. apply in_map_iff in I as (z & Ez & I). assert (existsb (fun x => Nat.eqb (stamp x) c) xs = true); [|congruence].
      apply existsb_exists. exists z. split; [exact I|]. now apply Nat.eqb_eq.
    + intros X. exact (ab_unique _ _ _ _ H _ _ _ X).
  - intros q l ys. rewrite (written_add p j _ m xs q l W). unfold sees_at. destruct (Nat.eqb_spec p q) as [<-|N]; cbn [andb].
    + rewrite Nat.eqb_refl. cbn [andb]. destruct (Nat.eqb_spec j l) as [<-|N].
      * intros X. injection X as <-. right. left. split; [exact O|]. exists (mk_message c d). rewrite Nat.eqb_refl. auto.
      * intros X. left. split; [exact X|]. left. destruct (Nat.eqb_spec l j) as [->|]; [contradiction|reflexivity].
    + intros X. left. split; [exact X|]. left. destruct (Nat.eqb_spec q p) as [->|]; [contradiction|reflexivity].
  - intros q l. rewrite add_length. intros Hq. unfold sees_at. destruct (Nat.eqb_spec q p) as [->|]; cbn [andb].
    + pose proof (written_lt _ _ _ _ W). lia.
    + exact (ab_fresh _ _ _ _ H i t v q l E Hq).
  - rewrite add_length. lia.
Qed.
(** A turn that passes: the thread has ended, or what it wants to do cannot be done with this choice. *)
Definition waits {R : Type} (c : nat) (t : dthread R) (v : horizon) (m : vmem) : Prop :=
  (exists h, t = DAt h /\ match h with HRet _ | HPanic | HFuel | HUndef => True | _ => False end) \/
  (exists p k xs, touches (pending t) p /\ next_access t = Some (Reads p k) /\ written p k m = Some xs /\ forall x, nth_error xs c = Some x -> (stamp x < v p k)%nat) \/
  (exists p k xs, touches (pending t) p /\ next_access t = Some (Writes p k) /\ written p k m = Some xs /\ ((c <= v p k)%nat \/ existsb (fun x => Nat.eqb (stamp x) c) xs = true)).
Lemma vtick_step {R} junk S (posts : list (ends R)) Ls m ts i t v c : abreast S posts Ls (m, ts) -> nth_error ts i = Some (t, v) ->
  (vtick junk c (t, v) m = ((t, v), m) /\ waits c t v m) \/ stepped junk S posts Ls i m ts (vtick junk c (t, v) m).
Proof.
  intros H E. destruct t as [h|p n got k|p new j k]; cbn [vtick].
  - destruct h as [a| | | |ds k|p n k|p n k|p new k|n k]; try (left; split; [reflexivity|]; left; eexists; split; [reflexivity|exact Logic.I]).
    + right. unfold stepped. cbn [fst snd]. apply (advance junk S posts Ls m ts i (DAt (HMalloc ds k)) v _ v); [exact H|exact E| | | | |].
      * cbn [dtick]. unfold mem_malloc. rewrite <- (current_new junk m (length ds)), current_length. reflexivity.
      * intros p j ys. rewrite written_new. destruct (Nat.eqb p (length (vblocks m))); [|apply (ab_unique _ _ _ _ H)].
        rewrite nth_error_map. destruct (nth_error _ j); [|discriminate]. cbn. intros X. injection X as <-. cbn. constructor; [intros []|constructor].
      * intros p j ys. rewrite written_new. destruct (Nat.eqb_spec p (length (vblocks m))) as [->|]; [|left; auto].
        rewrite nth_error_map. destruct (nth_error _ j); [|discriminate]. cbn. intros X. injection X as <-. right. right. eauto.
      * intros p j. cbn [vblocks]. rewrite app_length. cbn. intros Hp. apply (ab_fresh _ _ _ _ H i _ v p j E). cbn [fst]. lia.
      * cbn [vblocks]. rewrite app_length. lia.
    + right. destruct (v_free p n m) as [m'|] eqn:Ef.
      * destruct (free_written p n m m' Ef) as (Ln & Wr). unfold stepped. cbn [fst snd]. apply (advance junk S posts Ls m ts i (DAt (HFree p n k)) v _ v); [exact H|exact E| | | | |].
        -- cbn [dtick tick]. rewrite free_current, Ef. reflexivity.
        -- intros q j ys Ew. exact (ab_unique _ _ _ _ H _ _ _ (Wr _ _ _ Ew)).
        -- intros q j ys Ew. left. split; [exact (Wr _ _ _ Ew)|now left].
        -- intros q j. rewrite Ln. exact (ab_fresh _ _ _ _ H i _ v q j E).
        -- lia.
      * apply (stepped_quiet junk S posts Ls m ts i (DAt (HFree p n k)) v); [exact H|exact E|]. cbn [dtick tick]. now rewrite free_current, Ef.
    + destruct (Nat.ltb 0 n) eqn:En.
      * destruct (v_load_step junk S posts Ls m ts i (DAt (HLoad p n k)) v c p n [] k H E) as [(X & xs & W & B)|X]; [reflexivity|cbn [dtick]; now rewrite En| |now right].
        left. split; [exact X|]. right. left. exists p, O, xs. repeat split; [|exact W|exact B]. cbn [next_access]. now destruct n.
      * right. apply (stepped_quiet junk S posts Ls m ts i (DAt (HLoad p n k)) v); [exact H|exact E|]. cbn [dtick]. now rewrite En.
    + destruct (v_store_step junk S posts Ls m ts i (DAt (HStore p new k)) v c p new 0 k H E) as [(X & xs & W & B)|X]; [reflexivity|reflexivity| |now right].
      destruct new as [|d new].
      * right. cbn [v_store nth_error]. apply (stepped_quiet junk S posts Ls m ts i (DAt (HStore p [] k)) v); [exact H|exact E|reflexivity].
      * left. split; [exact X|]. right. right. exists p, O, xs. repeat split; assumption.
    + right. apply (stepped_quiet junk S posts Ls m ts i (DAt (HSlack n k)) v); [exact H|exact E|]. reflexivity.
  - destruct (v_load_step junk S posts Ls m ts i (DLoad p n got k) v c p n got k H E) as [(X & xs & W & B)|X]; [reflexivity|reflexivity| |now right].
    left. split; [exact X|]. right. left. exists p, (length got), xs. repeat split; assumption.
  - destruct (v_store_step junk S posts Ls m ts i (DStore p new j k) v c p new j k H E) as [(X & xs & W & B)|X]; [reflexivity|reflexivity| |now right].
    left. split; [exact X|]. right. right. exists p, j, xs. repeat split; assumption.
Qed.
Lemma vstep {R} junk S (posts : list (ends R)) Ls s i c : abreast S posts Ls s ->
  (vturn junk (i, c) s = s /\ forall t v, nth_error (snd s) i = Some (t, v) -> waits c t v (fst s)) \/
  let s' := vturn junk (i, c) s in (current (fst s'), map fst (snd s')) = dturn junk i (current (fst s), map fst (snd s)) /\ exists L', abreast S posts (update i L' Ls) s'.
Proof.
  destruct s as [m ts]. intros H. cbn [vturn fst snd]. destruct (nth_error ts i) as [[t v]|] eqn:E; [|left; split; [reflexivity|discriminate]].
  destruct (vtick_step junk S posts Ls m ts i t v c H E) as [(-> & B)|Go].
  - left. split; [exact (vpool_same m ts i (t, v) E)|]. intros t' v' X. now injection X as <- <-.
  - right. destruct (vtick junk c (t, v) m) as [x m']. exact Go.
Qed.
Lemma evolves_ok {R} junk S (posts : list (ends R)) history : forall Ls s, abreast S posts Ls s ->
  exists schedule Ls', dinterleave junk schedule (current (fst s), map fst (snd s)) = (current (fst (evolves junk history s)), map fst (snd (evolves junk history s))) /\
    abreast S posts Ls' (evolves junk history s).
Proof.
  induction history as [|[i c] history IH]; intros Ls s H; [exists [], Ls; split; [reflexivity|exact H]|]. cbn [evolves].
  destruct (vstep junk S posts Ls s i c H) as [(-> & _)|(Eq & L' & H')]; [exact (IH Ls s H)|].
  destruct (IH _ _ H') as (schedule & Ls' & Eq' & H2). exists (i :: schedule), Ls'. split; [|exact H2]. cbn [dinterleave]. rewrite <- Eq. exact Eq'.
Qed.
Lemma abreast_start {R} S (posts : list (ends R)) Ls m ts : pool_ok S posts Ls (m, ts) -> abreast S posts Ls (settled_memory m, viewing ts).
Proof.
  intros H. assert (Em : map fst (viewing ts) = map DAt ts) by (unfold viewing; rewrite map_map; reflexivity).
  assert (Wr : forall p k xs, written p k (settled_memory m) = Some xs -> exists d, xs = [mk_message 0 d]).
  { intros p k xs. unfold written, settled_memory. cbn [vblocks]. rewrite nth_error_map. destruct (nth_error (blocks m) p) as [[ds|]|]; cbn [option_map]; try discriminate.
    rewrite nth_error_map. destruct (nth_error ds k) as [d|]; [|discriminate]. cbn. intros X. injection X as <-. eauto. }
  assert (Vw : forall i t v, nth_error (viewing ts) i = Some (t, v) -> forall p k, v p k = O).
  { intros i t v. unfold viewing. rewrite nth_error_map. destruct (nth_error ts i); [|discriminate]. cbn. intros X. injection X as <- <-. reflexivity. }
  constructor; cbn [fst snd].
  - rewrite current_settled, Em. now apply dpool_start.
  - intros p k xs W. destruct (Wr p k xs W) as (d & ->). cbn. constructor; [intros []|constructor].
  - intros i t v L p k xs E _ _ W. destruct (Wr p k xs W) as (d & ->). exists (mk_message 0 d). split; [reflexivity|]. exact (Vw i t v E p k).
  - intros i t v p k E _. exact (Vw i t v E p k).
Qed.

(** * Progress *)
(** There is always a choice with which a thread can go on. *)
Lemma some_choice {R} junk S (posts : list (ends R)) Ls s i : abreast S posts Ls s -> exists c,
  let s' := vturn junk (i, c) s in (current (fst s'), map fst (snd s')) = dturn junk i (current (fst s), map fst (snd s)) /\ exists Ls', abreast S posts Ls' s'.
Proof.
  intros H. destruct (nth_error (snd s) i) as [[t v]|] eqn:E.
  2:{ exists O. destruct s as [m ts]. unfold dturn. cbn [vturn fst snd] in *. rewrite E. cbn [fst snd]. split; [|eauto].
    assert (X : nth_error (map fst ts) i = None) by (rewrite nth_error_map; unfold vthread in *; now rewrite E). now rewrite X. }
  assert (C : exists c, waits c t v (fst s) -> exists h, t = DAt h /\ match h with HRet _ | HPanic | HFuel | HUndef => True | _ => False end).
  { destruct s as [m ts]. cbn [fst snd] in *. destruct (next_access t) as [[p k|p k|p]|] eqn:Ea.
    - destruct (written p k m) as [xs|] eqn:W.
      + assert (Tp : touches (pending t) p).
        { destruct t as [[]| |]; cbn in Ea |- *; try discriminate; try (destruct n; discriminate); try (destruct new; discriminate).
          - destruct n; [discriminate|]. now injection Ea as -> _.
          - now injection Ea as -> _. }
        destruct (view_of S posts Ls m ts i t v p k xs H E Tp W) as (y & Ey & Ev). destruct (In_nth_error _ _ (latest_in _ _ Ey)) as (c & Ec). exists c.
        intros [X|[(q & j & ys & _ & Eq & Wq & B)|(q & j & ys & _ & Eq & _)]]; [exact X| |congruence]. assert (q = p /\ j = k) as [-> ->] by (split; congruence).
        rewrite W in Wq. injection Wq as <-. specialize (B y Ec). lia.
      + exists O. intros [X|[(q & j & ys & _ & Eq & Wq & B)|(q & j & ys & _ & Eq & _)]]; [exact X| |congruence]. assert (q = p /\ j = k) as [-> ->] by (split; congruence). congruence.
    - exists (Datatypes.S (v p k)). intros [X|[(q & j & ys & _ & Eq & _)|(q & j & ys & Tp & Eq & Wq & B)]]; [exact X|congruence|]. assert (q = p /\ j = k) as [-> ->] by (split; congruence).
      destruct (view_of S posts Ls m ts i t v p k ys H E Tp Wq) as (y & Ey & Ev). destruct B as [B|B]; [lia|].
      apply existsb_exists in B as (z & I & Ez). apply Nat.eqb_eq in Ez. pose proof (latest_max ys y z Ey I). lia.
    - exists O. intros [X|[(q & j & ys & _ & Eq & _)|(q & j & ys & _ & Eq & _)]]; [exact X|congruence|congruence].
    - exists O. intros [X|[(q & j & ys & _ & Eq & _)|(q & j & ys & _ & Eq & _)]]; [exact X|congruence|congruence]. }
  destruct C as (c & C). exists c. destruct (vstep junk S posts Ls s i c H) as [(X & B)|(X & L' & H')]; [|eauto]. cbv zeta. rewrite X. split; [|eauto].
  destruct (C (B t v E)) as (h & -> & Th). destruct s as [m ts]. cbn [fst snd] in *. unfold dturn. cbn [fst snd]. pose proof (map_nth_error fst i ts E) as Ef. cbn [fst] in Ef. rewrite Ef.
  assert (Ed : dtick junk (DAt h) (current m) = (DAt h, current m)) by (destruct h; try reflexivity; contradiction).
  rewrite Ed. f_equal. symmetry. exact (update_id i (DAt h) (map fst ts) Ef).
Qed.
Lemma evolves_app {R} junk p q : forall s : vpool R, evolves junk (p ++ q) s = evolves junk q (evolves junk p s).
Proof. induction p as [|e p IH]; intros s; [reflexivity|]. cbn [app evolves]. apply IH. Qed.
Lemma some_choices {R} junk S (posts : list (ends R)) i n : forall Ls s, abreast S posts Ls s -> exists later, Forall (fun e => fst e = i) later /\
  let s' := evolves junk later s in (current (fst s'), map fst (snd s')) = dinterleave junk (repeat i n) (current (fst s), map fst (snd s)).
Proof.
  induction n as [|n IH]; intros Ls s H; [exists []; split; [constructor|reflexivity]|]. destruct (some_choice junk S posts Ls s i H) as (c & Eq & Ls' & H').
  destruct (IH _ _ H') as (later & F & Eq'). exists ((i, c) :: later). split; [constructor; [reflexivity|exact F]|]. cbv zeta in *. cbn [evolves repeat dinterleave].
  rewrite <- Eq. exact Eq'.
Qed.
Lemma vprogress {R} junk S (posts : list (ends R)) Ls s history i : abreast S posts Ls s -> (i < length (snd s))%nat ->
  (forall sch, let '(m', ts) := dinterleave junk sch (current (fst s), map fst (snd s)) in ~ digit_race ts /\ ~ In (DAt HUndef) ts /\ ~ In (DAt HPanic) ts /\ ~ In (DAt HFuel) ts) ->
  exists later r v, Forall (fun e => fst e = i) later /\ nth_error (snd (evolves junk (history ++ later) s)) i = Some (DAt (HRet r), v).
Proof.
  intros H Hi Q. destruct (evolves_ok junk S posts history Ls s H) as (sch & Ls1 & Eq & H1).
  destruct (dprogress junk (current (fst s), map fst (snd s)) sch i) as (n & r & En); [cbn [snd]; now rewrite map_length|exact Q|].
  destruct (some_choices junk S posts i n _ _ H1) as (later & F & Eq2). rewrite dinterleave_app, Eq in En. cbv zeta in Eq2. rewrite <- Eq2 in En. cbn [snd] in En.
  rewrite <- evolves_app in En. exists later, r. destruct (nth_error (snd (evolves junk (history ++ later) s)) i) as [[t v]|] eqn:E.
  - exists v. split; [exact F|]. pose proof (map_nth_error fst i _ E) as E2. cbn [fst] in E2. assert (t = DAt (HRet r)) by congruence. now subst t.
  - exfalso. apply nth_error_None in E. assert (X : nth_error (map fst (snd (evolves junk (history ++ later) s))) i = None) by (apply nth_error_None; rewrite map_length; exact E). congruence.
Qed.
Lemma evolves_sc {R} junk S (posts : list (ends R)) Ls m (ts0 : list (HM R)) history m' ts : pool_ok S posts Ls (m, ts0) -> evolves junk history (settled_memory m, viewing ts0) = (m', ts) ->
  exists schedule, dinterleave junk schedule (m, map DAt ts0) = (current m', map fst ts).
Proof.
  intros P E. destruct (evolves_ok junk S posts history Ls _ (abreast_start _ _ _ _ _ P)) as (sch & Ls' & Eq & _). rewrite E in Eq. exists sch.
  cbn [fst snd] in Eq. rewrite current_settled in Eq. unfold viewing in Eq. rewrite map_map in Eq. exact Eq.
Qed.

(** * After joining *)
Record seen {R} (s : vpool R) : Prop := {
  seen_all : forall p k xs, written p k (fst s) = Some xs -> NoDup (map stamp xs) /\
    (forall x, In x xs -> (stamp x <= joined (snd s) p k)%nat) /\ exists x, In x xs /\ (joined (snd s) p k <= stamp x)%nat;
  seen_none : forall p k, (length (vblocks (fst s)) <= p)%nat -> joined (snd s) p k = O }.
Lemma joined_max {R} (ts : list (vthread R)) i t v p k : nth_error ts i = Some (t, v) -> (v p k <= joined ts p k)%nat.
Proof. revert i. induction ts as [|[t0 v0] ts IH]; intros [|i] E; cbn in *; try discriminate; [injection E as -> ->; lia|]. specialize (IH i E). unfold joined in IH. lia. Qed.
Lemma joined_update {R} (ts : list (vthread R)) i t v t' v' p k : nth_error ts i = Some (t, v) -> (v p k <= v' p k)%nat ->
  joined (update i (t', v') ts) p k = Nat.max (joined ts p k) (v' p k).
Proof.
  revert i. induction ts as [|[t0 v0] ts IH]; intros [|i] E Le; cbn in *; try discriminate; [injection E as -> ->; unfold joined; cbn; lia|].
  specialize (IH i E Le). unfold joined in *. cbn. lia.
Qed.
(** What a turn may do to the view and to the messages. *)
Definition grows (v v' : horizon) (m m' : vmem) : Prop :=
  (length (vblocks m) <= length (vblocks m'))%nat /\
  (forall q j, v' q j = v q j \/ (v q j < v' q j)%nat /\ exists ys x, written q j m' = Some ys /\ In x ys /\ v' q j = stamp x) /\
  forall q j ys, written q j m' = Some ys -> written q j m = Some ys \/ ((length (vblocks m) <= q)%nat /\ v' q j = v q j /\ exists d, ys = [mk_message 0 d]) \/
    exists xs d, written q j m = Some xs /\ ys = xs ++ [mk_message (v' q j) d] /\ existsb (fun x => Nat.eqb (stamp x) (v' q j)) xs = false.
Lemma load_grows {R} c (t : dthread R) p n got k v m : let '((t', v'), m') := v_load c t p n got k v m in grows v v' m m'.
Proof.
  unfold v_load. assert (Q : grows v v m m) by (split; [|split]; auto). destruct (written p (length got) m) as [xs|] eqn:W; [|auto]. destruct (nth_error xs c) as [x|] eqn:Ec; [|auto].
  destruct (Nat.leb_spec (v p (length got)) (stamp x)); [|auto].
  split; [auto|]. split; [|auto]. intros q j. unfold sees_at. destruct (Nat.eqb_spec q p) as [->|]; cbn [andb]; [|auto]. destruct (Nat.eqb_spec j (length got)) as [->|]; [|auto].
  destruct (Nat.eq_dec (v p (length got)) (stamp x)) as [->|]; [auto|]. right. split; [lia|]. exists xs, x. repeat split; [exact W|exact (nth_error_In _ _ Ec)].
Qed.
Lemma store_grows {R} c (t : dthread R) p new j k v m : let '((t', v'), m') := v_store c t p new j k v m in grows v v' m m'.
Proof.
  unfold v_store. assert (Q : grows v v m m) by (split; [|split]; auto). destruct (nth_error new j) as [d|]; [|exact Q]. destruct (written p j m) as [xs|] eqn:W; [|exact Q].
  destruct (Nat.ltb_spec (v p j) c) as [Lt|]; cbn [andb]; [|exact Q]. destruct (existsb _ xs) eqn:Ex; cbn [negb]; [exact Q|]. split; [rewrite add_length; lia|]. split.
  - intros q l. unfold sees_at. destruct (Nat.eqb_spec q p) as [->|]; cbn [andb]; [|auto]. destruct (Nat.eqb_spec l j) as [->|]; [|auto].
    right. split; [lia|]. exists (xs ++ [mk_message c d]), (mk_message c d). rewrite (written_add p j _ m xs p j W), !Nat.eqb_refl. cbn [andb].
    repeat split. apply in_or_app. right. now left.
  - intros q l ys. rewrite (written_add p j _ m xs q l W). destruct (Nat.eqb_spec p q) as [<-|N]; cbn [andb]; [|auto]. destruct (Nat.eqb_spec j l) as [<-|N]; [|auto].
    intros X. injection X as <-. right. right. exists xs, d. unfold sees_at. rewrite !Nat.eqb_refl. auto.
Qed.
Lemma vtick_grows {R} junk c (t : dthread R) v m : let '((t', v'), m') := vtick junk c (t, v) m in grows v v' m m'.
Proof.
  assert (Q : grows v v m m) by (split; [|split]; auto).
  destruct t as [h|p n got k|p new j k]; cbn [vtick]; [|apply load_grows|apply store_grows].
  destruct h as [a| | | |ds k|p n k|p n k|p new k|n k]; try exact Q.
  - split; [cbn [vblocks]; rewrite app_length; lia|]. split; [auto|]. intros q j ys. rewrite written_new. destruct (Nat.eqb_spec q (length (vblocks m))) as [->|]; [|auto].
    rewrite nth_error_map. destruct (nth_error _ j); [|discriminate].
    cbn. intros X. injection X as <-. right. left. eauto.
  - destruct (v_free p n m) as [m'|] eqn:Ef; [|exact Q]. destruct (free_written p n m m' Ef) as (Ln & Wr). split; [lia|]. split; [auto|]. intros q j ys Ew. left. now apply Wr.
  - destruct (Nat.ltb 0 n); [apply load_grows|exact Q].
  - apply store_grows.
Qed.
Lemma vturn_seen {R} junk e (s : vpool R) : seen s -> seen (vturn junk e s).
Proof.
  destruct e as [i c], s as [m ts]. intros H. cbn [vturn fst snd]. destruct (nth_error ts i) as [[t v]|] eqn:E; [|exact H].
  pose proof (vtick_grows junk c t v m) as G. destruct (vtick junk c (t, v) m) as [[t' v'] m']. destruct G as (Gl & Gv & Gw).
  assert (J : forall p k, joined (update i (t', v') ts) p k = Nat.max (joined ts p k) (v' p k)).
  { intros p k. apply (joined_update ts i t v t' v' p k E). destruct (Gv p k) as [->|(L & _)]; lia. }
  assert (Vj : forall p k, (v p k <= joined ts p k)%nat) by (intros p k; exact (joined_max ts i t v p k E)).
  pose proof (seen_all _ H) as Ha. pose proof (seen_none _ H) as Hn. cbn [fst snd] in Ha, Hn. clear H. constructor; cbn [fst snd].
  - intros p k ys W. rewrite J. specialize (Vj p k). destruct (Gw p k ys W) as [W'|[(Lq & Ev & d & ->)|(xs & d & W' & -> & Ex)]].
    + destruct (Ha p k ys W') as (U & Le & x & Ix & Lx). split; [exact U|]. split; [intros y I; specialize (Le y I); lia|].
      destruct (Gv p k) as [->|(_ & ys' & x' & W2 & I2 & E2)]; [exists x; split; [exact Ix|lia]|].
      rewrite W in W2. injection W2 as <-. pose proof (Le x' I2). exists x. split; [exact Ix|lia].
    + rewrite (Hn p k Lq) in *. split; [constructor; [intros []|constructor]|]. split; [intros x [<-|[]]; cbn; lia|]. eexists. split; [now left|]. cbn. lia.
    + destruct (Ha p k xs W') as (U & Le & x & Ix & Lx). split; [|split].
      * rewrite map_app. cbn [map stamp]. apply nodup_snoc; [exact U|]. intros I. apply in_map_iff in I as (z & Ez & I).
        assert (existsb (fun x => Nat.eqb (stamp x) (v' p k)) xs = true); [|congruence]. apply existsb_exists. exists z. split; [exact I|]. now apply Nat.eqb_eq.
      * intros y I. destruct (in_app_or _ _ _ I) as [I'|[<-|[]]]; [specialize (Le y I'); lia|]. cbn [stamp]. lia.
      * destruct (Nat.le_ge_cases (joined ts p k) (v' p k)) as [L|L].
        -- exists (mk_message (v' p k) d). split; [apply in_or_app; right; now left|]. cbn. lia.
        -- exists x. split; [apply in_or_app; now left|]. lia.
  - intros p k L. rewrite J, (Hn p k) by lia. destruct (Gv p k) as [->|(_ & ys & x & W & _)].
    + specialize (Vj p k). rewrite (Hn p k) in Vj by lia. lia.
    + apply written_lt in W. lia.
Qed.
Lemma evolves_seen {R} junk history : forall s : vpool R, seen s -> seen (evolves junk history s).
Proof. induction history as [|e history IH]; intros s H; [exact H|]. apply IH. now apply vturn_seen. Qed.
Lemma joined_viewing {R} (ts : list (HM R)) p k : joined (viewing ts) p k = O.
Proof. unfold joined, viewing. rewrite map_map. cbn. induction ts as [|t ts IH]; [reflexivity|]. cbn. exact IH. Qed.
Lemma joined_fact {R} junk history m threads m' ts : @evolves R junk history (settled_memory m, viewing threads) = (m', ts) ->
  forall p k xs, written p k m' = Some xs -> exists x, In x xs /\ (joined ts p k <= stamp x)%nat /\ value x = latest_value xs /\
    forall y, In y xs -> (joined ts p k <= stamp y)%nat -> y = x.
Proof.
  intros E p k xs W.
  assert (H : seen (settled_memory m, viewing threads)).
  { constructor; cbn [fst snd]; [|intros; apply joined_viewing]. intros q j ys. rewrite joined_viewing. unfold written, settled_memory. cbn [vblocks]. rewrite nth_error_map.
    destruct (nth_error (blocks m) q) as [[ds|]|]; cbn [option_map]; try discriminate. rewrite nth_error_map. destruct (nth_error ds j) as [d|]; [|discriminate].
    cbn. intros X. injection X as <-. split; [constructor; [intros []|constructor]|]. split; [intros x [<-|[]]; cbn; lia|]. eexists. split; [now left|]. cbn. lia. }
  apply (evolves_seen junk history) in H. rewrite E in H. destruct (seen_all _ H p k xs W) as (U & Le & x & Ix & Lx). cbn [snd] in *.
  assert (La : latest xs = Some x).
  { destruct (latest xs) as [y|] eqn:Ey.
    - f_equal. apply (stamps_unique xs _ _ U); [exact (latest_in _ _ Ey)|exact Ix|]. pose proof (latest_max xs y x Ey Ix). pose proof (Le y (latest_in _ _ Ey)). lia.
    - destruct xs as [|z zs]; [destruct Ix|]. cbn in Ey. destruct (latest zs); [destruct (Nat.leb _ _)|]; discriminate. }
  exists x. split; [exact Ix|]. split; [exact Lx|]. split; [unfold latest_value; now rewrite La|].
  intros y Iy Ly. apply (stamps_unique xs _ _ U); [exact Iy|exact Ix|]. pose proof (Le x Ix). pose proof (Le y Iy). lia.
Qed.

(** * [ApInt] *)
Lemma views_same_fact junk setup slack give programs vs m history m' ts : forked_catching setup slack give programs vs m ->
  evolves junk history (settled_memory m, viewing (spawn_catching 0 give vs programs)) = (m', ts) ->
  exists schedule, dinterleave junk schedule (m, map DAt (spawn_catching 0 give vs programs)) = (current m', map fst ts).
Proof. intros H E. destruct (forked_catching_ok _ _ _ _ _ _ H) as (cs & S & Ls & _ & _ & P & _). exact (evolves_sc junk _ _ _ m _ history m' ts P E). Qed.
Lemma views_race_free_fact junk setup slack give programs vs m history : forked_catching setup slack give programs vs m ->
  let '(m', ts) := evolves junk history (settled_memory m, viewing (spawn_catching 0 give vs programs)) in
  ~ digit_race (map fst ts) /\ ~ In (DAt HUndef) (map fst ts) /\ ~ In (DAt HPanic) (map fst ts) /\ ~ In (DAt HFuel) (map fst ts).
Proof.
  intros H. destruct (evolves junk history _) as (m' & ts) eqn:E. destruct (views_same_fact junk _ _ _ _ _ _ _ _ _ H E) as (sch & Eq).
  pose proof (digits_race_free_fact junk _ _ _ _ _ _ sch H) as Q. rewrite Eq in Q. exact Q.
Qed.
Lemma views_isolated_fact junk setup slack give programs vs m history m' ts i p vs' r v : forked_catching setup slack give programs vs m ->
  evolves junk history (settled_memory m, viewing (spawn_catching 0 give vs programs)) = (m', ts) ->
  nth_error programs i = Some p -> nth_error ts i = Some (DAt (HRet (vs', r)), v) ->
  let (s', r') := athread (keeper give) (hand i give (fst (acatches [] setup))) p in
  r = r' /\ exists cs', Forall2 holds cs' s' /\ Forall2 (stored (current m')) vs' cs'.
Proof.
  intros H E Ep Er. destruct (views_same_fact junk _ _ _ _ _ _ _ _ _ H E) as (sch & Eq).
  exact (digits_isolated_fact junk _ _ _ _ _ _ sch _ _ i p vs' r H Eq Ep (map_nth_error fst i ts Er)).
Qed.
Lemma views_lent_fact junk setup slack give programs vs m history : forked_catching setup slack give programs vs m ->
  exists cs, Forall2 holds cs (fst (acatches [] setup)) /\ Forall2 (stored m) vs cs /\
  let '(m', ts) := evolves junk history (settled_memory m, viewing (spawn_catching 0 give vs programs)) in
  forall x v c, borrowed give x -> nth_error vs x = Some v -> nth_error cs x = Some c -> stored (current m') v c.
Proof.
  intros H. destruct (evolves junk history _) as (m' & ts) eqn:E. destruct (views_same_fact junk _ _ _ _ _ _ _ _ _ H E) as (sch & Eq).
  destruct (digits_lent_fact junk _ _ _ _ _ _ sch H) as (cs & Hh & St & Q). rewrite Eq in Q. exists cs. auto.
Qed.
Lemma views_progress_fact junk setup slack give programs vs m history i : forked_catching setup slack give programs vs m -> (i < length programs)%nat ->
  exists later r v, Forall (fun e => fst e = i) later /\
    nth_error (snd (evolves junk (history ++ later) (settled_memory m, viewing (spawn_catching 0 give vs programs)))) i = Some (DAt (HRet r), v).
Proof.
  intros H Hi. destruct (forked_catching_ok _ _ _ _ _ _ H) as (cs & S & Ls & _ & _ & P & _).
  apply (vprogress junk _ _ _ _ history i (abreast_start _ _ _ _ _ P)); [unfold viewing; cbn [snd]; now rewrite map_length, spawn_catching_length|].
  intros sch. pose proof (digits_race_free_fact junk _ _ _ _ _ _ sch H) as Q. cbn [fst snd]. rewrite current_settled. unfold viewing. rewrite map_map. exact Q.
Qed.
Lemma views_join_fact junk setup slack give programs vs m history m' ts : forked_catching setup slack give programs vs m ->
  evolves junk history (settled_memory m, viewing (spawn_catching 0 give vs programs)) = (m', ts) -> Forall (fun t => exists r, fst t = DAt (HRet r)) ts ->
  forall p ds, nth_error (blocks (current m')) p = Some (Some ds) -> exists! o, owner give vs (map pending (map fst ts)) o p.
Proof.
  intros H E Hr. destruct (views_same_fact junk _ _ _ _ _ _ _ _ _ H E) as (sch & Eq).
  apply (digits_join_fact junk _ _ _ _ _ _ sch (current m') (map fst ts) H Eq). rewrite Forall_map. exact Hr.
Qed.

(** * [UInt] and [Int] *)
Lemma tviews_same_fact junk setup slack give programs vs m history m' ts : tforked setup slack give programs vs m ->
  evolves junk history (settled_memory m, viewing (tspawn 0 give vs programs)) = (m', ts) ->
  exists schedule, dinterleave junk schedule (m, map DAt (tspawn 0 give vs programs)) = (current m', map fst ts).
Proof. intros H E. destruct (tforked_ok _ _ _ _ _ _ H) as (cs & S & Ls & _ & _ & _ & P & _). exact (evolves_sc junk _ _ _ m _ history m' ts P E). Qed.
Lemma tviews_race_free_fact junk setup slack give programs vs m history : tforked setup slack give programs vs m ->
  let '(m', ts) := evolves junk history (settled_memory m, viewing (tspawn 0 give vs programs)) in
  ~ digit_race (map fst ts) /\ ~ In (DAt HUndef) (map fst ts) /\ ~ In (DAt HPanic) (map fst ts) /\ ~ In (DAt HFuel) (map fst ts).
Proof.
  intros H. destruct (evolves junk history _) as (m' & ts) eqn:E. destruct (tviews_same_fact junk _ _ _ _ _ _ _ _ _ H E) as (sch & Eq).
  pose proof (tdigits_race_free_fact junk _ _ _ _ _ _ sch H) as Q. rewrite Eq in Q. exact Q.
Qed.
Lemma tviews_isolated_fact junk setup slack give programs vs m history m' ts i p vs' r v : tforked setup slack give programs vs m ->
  evolves junk history (settled_memory m, viewing (tspawn 0 give vs programs)) = (m', ts) ->
  nth_error programs i = Some p -> nth_error ts i = Some (DAt (HRet (vs', r)), v) ->
  let (s', r') := tathread (keeper give) (hand i give (fst (tacatches [] setup))) p in
  r = r' /\ Forall2 (in_memory (current m')) vs' s'.
Proof.
  intros H E Ep Er. destruct (tviews_same_fact junk _ _ _ _ _ _ _ _ _ H E) as (sch & Eq).
  exact (tdigits_isolated_fact junk _ _ _ _ _ _ sch _ _ i p vs' r H Eq Ep (map_nth_error fst i ts Er)).
Qed.
Lemma tviews_lent_fact junk setup slack give programs vs m history : tforked setup slack give programs vs m ->
  let '(m', ts) := evolves junk history (settled_memory m, viewing (tspawn 0 give vs programs)) in
  forall x v t, borrowed give x -> nth_error vs x = Some v -> nth_error (fst (tacatches [] setup)) x = Some t -> in_memory (current m') v t.
Proof.
  intros H. destruct (evolves junk history _) as (m' & ts) eqn:E. destruct (tviews_same_fact junk _ _ _ _ _ _ _ _ _ H E) as (sch & Eq).
  pose proof (tdigits_lent_fact junk _ _ _ _ _ _ sch H) as Q. rewrite Eq in Q. exact Q.
Qed.
Lemma tviews_progress_fact junk setup slack give programs vs m history i : tforked setup slack give programs vs m -> (i < length programs)%nat ->
  exists later r v, Forall (fun e => fst e = i) later /\
    nth_error (snd (evolves junk (history ++ later) (settled_memory m, viewing (tspawn 0 give vs programs)))) i = Some (DAt (HRet r), v).
Proof.
  intros H Hi. destruct (tforked_ok _ _ _ _ _ _ H) as (cs & S & Ls & _ & _ & _ & P & _).
  apply (vprogress junk _ _ _ _ history i (abreast_start _ _ _ _ _ P)); [unfold viewing; cbn [snd]; now rewrite map_length, tspawn_length|].
  intros sch. pose proof (tdigits_race_free_fact junk _ _ _ _ _ _ sch H) as Q. cbn [fst snd]. rewrite current_settled. unfold viewing. rewrite map_map. exact Q.
Qed.
Lemma tviews_join_fact junk setup slack give programs vs m history m' ts : tforked setup slack give programs vs m ->
  evolves junk history (settled_memory m, viewing (tspawn 0 give vs programs)) = (m', ts) -> Forall (fun t => exists r, fst t = DAt (HRet r)) ts ->
  forall p ds, nth_error (blocks (current m')) p = Some (Some ds) -> exists! o, towner give vs (map pending (map fst ts)) o p.
Proof.
  intros H E Hr. destruct (tviews_same_fact junk _ _ _ _ _ _ _ _ _ H E) as (sch & Eq).
  apply (tdigits_join_fact junk _ _ _ _ _ _ sch (current m') (map fst ts) H Eq). rewrite Forall_map. exact Hr.
Qed.
