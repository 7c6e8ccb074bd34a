(** Heap programs on a flat memory. *)
From Coq Require Export Permutation.
From Verif Require Export LForeignTyped MFlat SpecFlat.

Definition region (c : cell) : nat * nat := (addr c, length (snd c)).
(** The regions that are allocated are those of the cells and those of [m0], and
    the cells have their digits. *)
Definition flive (m0 m : flat) (L : list cell) : Prop :=
  Permutation (taken m) (map region L ++ taken m0) /\ apart (taken m) /\
  (forall b p ds, In (b, p, ds) L -> ds <> [] /\ forall i, (i < length ds)%nat -> words m (p + i)%nat = nth i ds 0) /\
  (forall a, occupied m0 a -> words m a = words m0 a).

Lemma apart_perm l l' : Permutation l l' -> apart l -> apart l'.
Proof.
  unfold apart. induction 1 as [|x l l' P IH|x y l|l l' l'' P1 IH1 P2 IH2]; intros H.
  - constructor.
  - inversion H as [|? ? Hx Hl]; subst. constructor; [|auto]. revert Hx. apply Permutation_Forall. exact P.
  - inversion H as [|? ? Hy Hl]; subst. inversion Hl as [|? ? Hx Hl']; subst. inversion Hy as [|? ? Hyx Hyl]; subst.
    constructor; [constructor; [intros a A B; exact (Hyx a B A)|exact Hx]|]. constructor; assumption.
  - auto.
Qed.
Lemma is_taken_spec m a : is_taken m a = true <-> occupied m a.
Proof.
  unfold is_taken, occupied, within. rewrite existsb_exists. split; intros (r & I & K); exists r; (split; [exact I|]).
  - apply andb_prop in K as (A & B). apply Nat.leb_le in A. apply Nat.ltb_lt in B. auto.
  - apply andb_true_intro. split; [apply Nat.leb_le|apply Nat.ltb_lt]; lia.
Qed.
Lemma covers_spec m p n : covers m p n = true <-> exists r, In r (taken m) /\ (fst r <= p /\ p + n <= fst r + snd r)%nat.
Proof.
  unfold covers. rewrite existsb_exists. split; intros (r & I & K); exists r; (split; [exact I|]).
  - apply andb_prop in K as (A & B). apply Nat.leb_le in A, B. auto.
  - apply andb_true_intro. split; apply Nat.leb_le; lia.
Qed.
Lemma give_back_perm p n l : In (p, n) l -> exists l', give_back p n l = Some l' /\ Permutation l ((p, n) :: l').
Proof.
  induction l as [|[q k] l IH]; [intros []|]. intros I. cbn [give_back].
  destruct (Nat.eqb_spec q p) as [->|Nq]; cbn [andb].
  - destruct (Nat.eqb_spec k n) as [->|Nk]; [exists l; auto|]. destruct I as [I|I]; [congruence|].
    destruct (IH I) as (l' & -> & P). exists ((p, k) :: l'). split; [reflexivity|]. rewrite P. apply perm_swap.
  - destruct I as [I|I]; [congruence|]. destruct (IH I) as (l' & -> & P). exists ((q, k) :: l'). split; [reflexivity|]. rewrite P. apply perm_swap.
Qed.

Lemma flive_perm m0 m L L' : Permutation L L' -> flive m0 m L -> flive m0 m L'.
Proof.
  intros P (A & B & C & D). split; [|split; [exact B|split; [|exact D]]].
  - rewrite A. apply Permutation_app_tail. now apply Permutation_map.
  - intros b p ds I. apply (C b). revert I. apply Permutation_in. now symmetry.
Qed.
Lemma flive_region m0 m L b p ds : flive m0 m L -> In (b, p, ds) L -> In (p, length ds) (taken m).
Proof.
  intros (A & _) I. apply (Permutation_in _ (Permutation_sym A)), in_or_app. left. apply in_map_iff. exists (b, p, ds). auto.
Qed.
Lemma flive_before m0 m L r : flive m0 m L -> In r (taken m0) -> In r (taken m).
Proof. intros (A & _) I. apply (Permutation_in _ (Permutation_sym A)), in_or_app. now right. Qed.
Lemma flive_disturbed w t m0 m L : flive m0 m L -> flive m0 (disturbed w t m) L.
Proof.
  intros H. pose proof H as (A & B & C & D). split; [exact A|]. split; [exact B|]. split.
  - intros b p ds I. destruct (C b p ds I) as (Ne & W). split; [exact Ne|]. intros i Hi. unfold disturbed. cbn [words].
    assert (K : is_taken m (p + i) = true).
    { apply is_taken_spec. exists (p, length ds). split; [exact (flive_region m0 m L b p ds H I)|]. unfold within. cbn. lia. }
    rewrite K. auto.
  - intros a (r & I & Wi). unfold disturbed. cbn [words].
    assert (K : is_taken m a = true) by (apply is_taken_spec; exists r; split; [exact (flive_before m0 m L r H I)|exact Wi]).
    rewrite K. apply D. exists r. auto.
Qed.
Lemma overwrite_in p ds f i : (i < length ds)%nat -> overwrite p ds f (p + i) = nth i ds 0.
Proof.
  intros H. unfold overwrite. destruct (Nat.leb_spec p (p + i)); [|lia]. destruct (Nat.ltb_spec (p + i) (p + length ds)); [|lia].
  cbn [andb]. f_equal. lia.
Qed.
Lemma overwrite_out p ds f a : ~ within a (p, length ds) -> overwrite p ds f a = f a.
Proof.
  intros H. unfold overwrite, within in *. cbn [fst snd] in H. destruct (Nat.leb_spec p a); [|reflexivity].
  destruct (Nat.ltb_spec a (p + length ds)); [exfalso; lia|reflexivity].
Qed.

Lemma flive_malloc m0 m L p ds : flive m0 m L -> ds <> [] -> (forall a, within a (p, length ds) -> ~ occupied m a) ->
  ~ In p (map addr L) /\ flive m0 (mk_flat (overwrite p ds (words m)) ((p, length ds) :: taken m)) ((true, p, ds) :: L).
Proof.
  intros H Ne Fr. pose proof H as (A & B & C & D). assert (Ln : (0 < length ds)%nat) by (destruct ds; [contradiction|cbn; lia]). split.
  - intros I. apply in_map_iff in I as ([[b q] es] & E & I). cbn in E. subst q. destruct (C b p es I) as (Ne' & _).
    apply (Fr p); [unfold within; cbn; lia|]. exists (p, length es). split; [exact (flive_region m0 m L b p es H I)|].
    unfold within. cbn. destruct es; [contradiction|cbn; lia].
  - split; [|split; [|split]]; cbn [taken words].
    + cbn [map app]. apply perm_skip. exact A.
    + unfold apart. constructor; [|exact B]. apply Forall_forall. intros r I a W1 W2. apply (Fr a W1). exists r. auto.
    + intros b q es [E|I].
      * injection E as <- <- <-. split; [exact Ne|]. intros i Hi. now apply overwrite_in.
      * destruct (C b q es I) as (Ne' & W). split; [exact Ne'|]. intros i Hi. rewrite overwrite_out; [auto|].
        intros K. apply (Fr _ K). exists (q, length es). split; [exact (flive_region m0 m L b q es H I)|]. unfold within. cbn. lia.
    + intros a (r & I & Wi). rewrite overwrite_out; [apply D; exists r; auto|]. intros K. apply (Fr _ K). exists r.
      split; [exact (flive_before m0 m L r H I)|exact Wi].
Qed.
Lemma flive_free m0 m L p ds : flive m0 m ((true, p, ds) :: L) ->
  exists l, give_back p (length ds) (taken m) = Some l /\ flive m0 (mk_flat (words m) l) L.
Proof.
  intros H. pose proof H as (A & B & C & D).
  destruct (give_back_perm p (length ds) (taken m) (flive_region m0 m _ true p ds H ltac:(now left))) as (l & E & P).
  exists l. split; [exact E|]. split; [|split; [|split]]; cbn [taken words].
  - apply (Permutation_cons_inv (a := (p, length ds))). rewrite <- P. exact A.
  - apply (apart_perm _ _ P) in B. unfold apart in B. now inversion B.
  - intros b q es I. apply (C b). now right.
  - exact D.
Qed.
Lemma flive_load m0 m L b p ds n : flive m0 m L -> In (b, p, ds) L -> (n <= length ds)%nat ->
  covers m p n = true /\ words_at m p n = firstn n ds.
Proof.
  intros H I Hn. split.
  - apply covers_spec. exists (p, length ds). split; [exact (flive_region m0 m L b p ds H I)|]. cbn. lia.
  - destruct H as (_ & _ & C & _). destruct (C b p ds I) as (_ & W). unfold words_at.
    apply (nth_ext _ _ (words m O) 0).
    + rewrite map_length, seq_length, firstn_length. lia.
    + intros i Hi. rewrite map_length, seq_length in Hi. rewrite map_nth, seq_nth by exact Hi.
      rewrite W by lia. rewrite <- (firstn_skipn n ds) at 1. rewrite app_nth1; [reflexivity|]. rewrite firstn_length. lia.
Qed.
Lemma flive_store m0 m L p ds new : flive m0 m ((true, p, ds) :: L) -> (length new <= length ds)%nat ->
  covers m p (length new) = true /\
  flive m0 (mk_flat (overwrite p new (words m)) (taken m)) ((true, p, new ++ skipn (length new) ds) :: L).
Proof.
  intros H Hn. pose proof H as (A & B & C & D). pose proof (flive_region m0 m _ true p ds H ltac:(now left)) as Ip. split.
  - apply covers_spec. exists (p, length ds). split; [exact Ip|]. cbn. lia.
  - assert (Ln : length (new ++ skipn (length new) ds) = length ds) by (rewrite app_length, skipn_length; lia).
    assert (Ap : apart ((p, length ds) :: map region L ++ taken m0)) by (apply (apart_perm _ _ A) in B; exact B).
    unfold apart in Ap. inversion Ap as [|? ? Hp _]; subst. rewrite Forall_forall in Hp.
    assert (Out : forall r a, In r (map region L ++ taken m0) -> within a r -> ~ within a (p, length new)).
    { intros r a I W K. apply (Hp r I a); [unfold within in *; cbn in *; lia|exact W]. }
    split; [|split; [|split]]; cbn [taken words].
    + cbn [map]. unfold region at 1. cbn [addr fst snd]. rewrite Ln. exact A.
    + exact B.
    + intros b q es [E|I].
      * injection E as <- <- <-. destruct (C true p ds ltac:(now left)) as (Ne & W). split.
        { intros K. rewrite K in Ln. destruct ds; [contradiction|discriminate]. }
        intros i Hi. rewrite Ln in Hi. destruct (Nat.lt_ge_cases i (length new)) as [Li|Li].
        -- rewrite overwrite_in by exact Li. now rewrite app_nth1.
        -- rewrite overwrite_out by (unfold within; cbn; lia). rewrite W by exact Hi. rewrite app_nth2 by exact Li.
           rewrite <- (firstn_skipn (length new) ds) at 1. rewrite app_nth2; rewrite firstn_length, Nat.min_l by lia; [reflexivity|exact Li].
      * destruct (C b q es ltac:(now right)) as (Ne & W). split; [exact Ne|]. intros i Hi. rewrite overwrite_out; [auto|].
        apply (Out (q, length es)); [apply in_or_app; left; apply in_map_iff; exists (b, q, es); auto|]. unfold within. cbn. lia.
    + intros a (r & I & Wi). rewrite overwrite_out; [apply D; exists r; auto|]. apply (Out r); [apply in_or_app; now right|exact Wi].
Qed.

(** What is safe runs. *)
Lemma safe_fexec {A} (w : world) (h : HM A) post m0 : honest w -> forall t L m, safe h L post -> flive m0 m L ->
  match fexec w t h m with
  | FVal a m' => exists L', post (Val a) L' /\ flive m0 m' L'
  | FPanic => exists L', post Panic L'
  | FFuel => exists L', post OutOfFuel L'
  | FUndefined => False
  | FAborted => ~ generous w
  end.
Proof.
  intros Hw. induction h as [a| | | |ds k' IH|p n k' IH|p n k' IH|p new k' IH|n k' IH]; intros t L m H Hm; cbn [fexec safe] in *;
    apply (flive_disturbed w t) in Hm; (destruct (killed w t) eqn:Ek; [intros (_ & G); specialize (G t); congruence|]); eauto.
  - destruct H as (Ne & H). destruct ds as [|d ds]; [contradiction|]. remember (d :: ds) as es eqn:Ees.
    destruct (place w t (disturbed w t m) (length es)) as [p|] eqn:Ep; [|intros (G & _); exact (G _ _ _ Ep)].
    destruct (flive_malloc m0 _ L p es Hm Ne (Hw _ _ _ _ Ep)) as (N & Hm'). exact (IH p (S t) _ _ (H p N) Hm').
  - destruct H as (ds & L' & P & E & H). apply (flive_perm m0 _ _ _ P) in Hm. destruct (flive_free m0 _ L' p ds Hm) as (l & El & Hm').
    rewrite E in El. rewrite El. exact (IH (S t) L' _ H Hm').
  - destruct H as (b & ds & I & E & H). destruct (flive_load m0 _ L b p ds n Hm I E) as (-> & ->). exact (IH _ (S t) L _ H Hm).
  - destruct H as (ds & L' & P & E & H). apply (flive_perm m0 _ _ _ P) in Hm. destruct (flive_store m0 _ L' p ds new Hm E) as (-> & Hm').
    exact (IH (S t) _ _ H Hm').
  - exact (IH _ (S t) L _ (H _) Hm).
Qed.
Lemma ref_fexec {A B} (w : world) (h : HM A) (f : outcome B) Q m0 m : honest w -> refines h [] f Q -> flive m0 m [] -> forall t,
  (fexec w t h m = FAborted /\ ~ generous w) \/
  match f with
  | Val b => exists a m' L', fexec w t h m = FVal a m' /\ Q a b L' /\ flive m0 m' L'
  | Stop _ => fexec w t h m = FPanic
  | OutOfFuel => fexec w t h m = FFuel
  end.
Proof.
  intros Hw H Hm t. pose proof (safe_fexec w h _ m0 Hw t [] m (H []) Hm) as R.
  destruct (fexec w t h m) as [a m'| | | |]; [| | |contradiction|left; auto]; right.
  - destruct R as (L1 & R & Hm'). destruct f as [b| |]; cbn [ending] in R; [|discriminate|discriminate].
    destruct R as (a' & L' & E & P & HQ). rewrite app_nil_r in P. exists a, m', L'. split; [reflexivity|]. split; [congruence|].
    now apply (flive_perm m0 m' L1).
  - destruct R as (L1 & R). destruct f as [b| |]; cbn [ending] in R; [destruct R as (? & ? & ? & _); discriminate|reflexivity|discriminate].
  - destruct R as (L1 & R). destruct f as [b| |]; cbn [ending] in R; [destruct R as (? & ? & ? & _); discriminate|discriminate|reflexivity].
Qed.
Lemma flive_start m0 : apart (taken m0) -> flive m0 m0 [].
Proof. intros H. split; [reflexivity|]. split; [exact H|]. split; [intros b p ds []|auto]. Qed.

(** * Variables *)
Lemma srepr_regions g hs cs L : srepr g hs cs L -> map region L = regions hs.
Proof.
  induction 1 as [g|g hs cs L H IH|g a x La hs cs L Ha H IH]; [reflexivity|exact IH|].
  rewrite map_app, IH. unfold regions. cbn [map concat]. f_equal. destruct Ha as (R1 & R2 & R3 & R4). unfold region_of. rewrite R1.
  destruct (storage (len x)) eqn:S.
  - destruct R4 as (d & _ & -> & ->). reflexivity.
  - destruct R4 as (p & -> & ->). cbn. unfold region. cbn. rewrite R3. unfold required_digits. do 2 f_equal.
    replace (len x + 63) with (len x - 1 + 1 * 64) by lia. rewrite Z.div_add by lia. pose proof (Z.div_pos (len x - 1) 64). lia.
Qed.
Lemma sown_fstored g hs cs L m0 m : flive m0 m L -> sown g hs cs L -> inv cs -> Forall2 (fstored m) hs cs /\ tidy m0 m hs.
Proof.
  intros Hm (L' & P & H) I. apply (flive_perm m0 m _ _ P) in Hm. split.
  - assert (W : forall x, In (Some x) cs -> wf x).
    { intros x Hx. apply In_nth_error in Hx as (i & E). destruct (inv_rel cs i x I E) as (v & Hv). now destruct (rel_open x v Hv). }
    assert (S' : forall b p ds, In (b, p, ds) L' -> In (p, length ds) (taken m) /\ forall i, (i < length ds)%nat -> words m (p + i)%nat = nth i ds 0).
    { intros b p ds K. split; [exact (flive_region m0 m L' b p ds Hm K)|]. destruct Hm as (_ & _ & C & _). exact (proj2 (C b p ds K)). }
    clear P I Hm L. induction H as [g|g hs cs L' H IH|g a x La hs cs L' Ha H IH].
    + constructor.
    + constructor; [exact Logic.I|]. apply IH; auto. intros x Hx. apply W. now right.
    + constructor; [|apply IH; [intros y Hy; apply W; now right|intros b p ds Hp; apply (S' b), in_or_app; auto]].
      pose proof (W x ltac:(now left)) as (_ & Wl & _). pose proof Ha as (R1 & R2 & R3 & R4). cbn [fstored].
      split; [exact R1|]. split; [exact Wl|]. destruct (Z.le_gt_cases (len x) 64) as [B|B].
      * rewrite (storage_inl _ B) in R4. destruct R4 as (d & E1 & E2 & _). split; [eauto|lia].
      * rewrite (storage_ext _ B) in R4. destruct R4 as (p & E1 & ->). split; [lia|]. intros _. exists p. split; [exact E1|].
        apply (S' (g O)), in_or_app. left. now left.
  - destruct Hm as (A & B & _ & D). unfold tidy. rewrite <- (srepr_regions g hs cs L' H). auto.
Qed.
Lemma fin_memory_fact m ts s vs : Forall2 tholds ts s -> map (option_map hkind) vs = map (option_map kind_of) ts ->
  Forall2 (fstored m) (inside vs) (vinside ts) -> Forall2 (fin_memory m) vs s.
Proof.
  intros H. revert vs. induction H as [|a v ts s Ha H IH]; intros [|h vs] K St; cbn [map] in K; try discriminate; [constructor|].
  cbn [inside vinside map] in St. inversion St as [|? ? ? ? S1 S2]. subst. injection K as K1 K2. constructor; [|exact (IH vs K2 S2)].
  destruct a as [a|], v as [[k w z]|], h as [h|]; cbn [option_map] in *; try (destruct a; contradiction); try contradiction; try discriminate; [|exact I].
  assert (kind_of a = k) by (destruct a, k; cbn in *; auto; contradiction). subst k. injection K1 as K1.
  cbn [fin_memory tkind twidth tvalue]. split; [exact K1|]. exists (inner a). split; [|exact S1].
  rewrite <- (wrap_inner a) in Ha. rewrite kind_wrap in Ha. apply tholds_apint in Ha. exact Ha.
Qed.

(** * Programs *)
Lemma flat_fact {S : Type} (next : S -> drawn S) g p w m0 : generator_ok next -> Forall fcmd_ok p -> honest w -> apart (taken m0) ->
  (fexec w 0 (hrun_foreign next [] g p) m0 = FAborted /\ ~ generous w) \/
  exists vs m cs, fexec w 0 (hrun_foreign next [] g p) m0 = FVal (vs, snd (arun_foreign next [] g p)) m /\
    Forall2 holds cs (fst (arun_foreign next [] g p)) /\ Forall2 (fstored m) vs cs /\ tidy m0 m vs.
Proof.
  intros Hn Hp Hw H0. pose proof (foreign_run next p Hn Hp [] [] [] [] g ltac:(constructor) (sown_nil _)) as R.
  destruct (ref_fexec w _ _ _ m0 m0 Hw R (flive_start m0 H0) 0) as [X|(r & m & L & E & K & Hm)]; [left; exact X|right].
  destruct r as [vs os]. destruct K as (Eo & cs & Hcs & So). cbn [fst snd] in *. subst os.
  exists vs, m, cs. split; [exact E|]. split; [exact Hcs|].
  exact (sown_fstored _ vs cs L m0 m Hm So ltac:(now exists (fst (arun_foreign next [] g p)))).
Qed.
Lemma tflat_fact {S : Type} (next : S -> drawn S) g p w m0 : generator_ok next -> Forall tfcmd_ok p -> honest w -> apart (taken m0) ->
  (fexec w 0 (htrun_foreign next [] g p) m0 = FAborted /\ ~ generous w) \/
  exists vs m, fexec w 0 (htrun_foreign next [] g p) m0 = FVal (vs, snd (tarun_foreign next [] g p)) m /\
    Forall2 (fin_memory m) vs (fst (tarun_foreign next [] g p)) /\ tidy m0 m (inside vs).
Proof.
  intros Hn Hp Hw H0. pose proof (tforeign_run next p Hn Hp [] [] [] [] g ltac:(constructor) tsown_nil) as R.
  destruct (ref_fexec w _ _ _ m0 m0 Hw R (flive_start m0 H0) 0) as [X|(r & m & L & E & K & Hm)]; [left; exact X|right].
  destruct r as [vs os]. destruct K as (Eo & ts & Hts & So & Kd). cbn [fst snd] in *. subst os.
  destruct (sown_fstored _ _ _ L m0 m Hm So (inv_inside ts _ Hts)) as (A & C).
  exists vs, m. split; [exact E|]. split; [|exact C]. exact (fin_memory_fact m ts _ vs Hts Kd A).
Qed.
Lemma flat_uncaught_fact p w m0 : Forall cmd_ok p -> honest w -> apart (taken m0) ->
  (fexec w 0 (hrun [] p) m0 = FAborted /\ ~ generous w) \/
  match arun [] p with
  | None => fexec w 0 (hrun [] p) m0 = FPanic
  | Some (s, os) => exists vs m cs, fexec w 0 (hrun [] p) m0 = FVal (vs, os) m /\ Forall2 holds cs s /\ Forall2 (fstored m) vs cs /\ tidy m0 m vs
  end.
Proof.
  intros Hp Hw H0. pose proof (ref_run all_owned p Hp (allowed_all p) [] [] [] inv_nil ltac:(intros k _; reflexivity) (sown_nil _)) as R.
  destruct (ref_fexec w _ _ _ m0 m0 Hw R (flive_start m0 H0) 0) as [X|X]; [left; exact X|right].
  pose proof (simulation_fact p Hp) as Sm. destruct (arun [] p) as [[s os]|].
  - destruct Sm as (cs & E & F). rewrite E in X. destruct X as ([vs os'] & m & L & E' & (Eo & So) & Hm). cbn [fst snd] in *. subst os'.
    exists vs, m, cs. split; [exact E'|]. split; [exact F|]. exact (sown_fstored _ vs cs L m0 m Hm So ltac:(now exists s)).
  - rewrite Sm in X. exact X.
Qed.
Lemma tflat_uncaught_fact p w m0 : Forall tcmd_ok p -> honest w -> apart (taken m0) ->
  (fexec w 0 (htrun [] p) m0 = FAborted /\ ~ generous w) \/
  match tarun [] p with
  | None => fexec w 0 (htrun [] p) m0 = FPanic
  | Some (s, os) => exists vs m, fexec w 0 (htrun [] p) m0 = FVal (vs, os) m /\ Forall2 (fin_memory m) vs s /\ tidy m0 m (inside vs)
  end.
Proof.
  intros Hp Hw H0. pose proof (ref_trun p Hp [] [] [] tinv_nil tsown_nil) as R.
  destruct (ref_fexec w _ _ _ m0 m0 Hw R (flive_start m0 H0) 0) as [X|X]; [left; exact X|right].
  pose proof (typed_simulation_fact p Hp) as Sm. destruct (tarun [] p) as [[s os]|].
  - destruct Sm as (ts & E & F). rewrite E in X. destruct X as ([vs os'] & m & L & E' & (Eo & So & Kd) & Hm). cbn [fst snd] in *. subst os'.
    destruct (sown_fstored _ _ _ L m0 m Hm So (inv_inside ts _ F)) as (A & C).
    exists vs, m. split; [exact E'|]. split; [|exact C]. exact (fin_memory_fact m ts _ vs F Kd A).
  - rewrite Sm in X. exact X.
Qed.
Lemma regions_none vs : Forall (eq None) vs -> regions vs = [].
Proof. induction 1 as [|v vs <- H IH]; [reflexivity|exact IH]. Qed.
Lemma flat_no_leak_fact {S : Type} (next : S -> drawn S) g p w m0 : generator_ok next -> Forall fcmd_ok p -> honest w -> apart (taken m0) ->
  (fexec w 0 (hrun_foreign next [] g (p ++ map (fun i => FCall (Drop i)) (seq 0 (length (fst (arun_foreign next [] g p)))))) m0 = FAborted /\ ~ generous w) \/
  exists vs r m,
    fexec w 0 (hrun_foreign next [] g (p ++ map (fun i => FCall (Drop i)) (seq 0 (length (fst (arun_foreign next [] g p)))))) m0 = FVal (vs, r) m /\
    Permutation (taken m) (taken m0).
Proof.
  intros Hn Hp Hw H0. set (n := length (fst (arun_foreign next [] g p))). set (q := map (fun i => FCall (Drop i)) (seq 0 n)).
  assert (Hq : Forall fcmd_ok (p ++ q)).
  { apply Forall_app. split; [exact Hp|]. unfold q. clear. induction (seq 0 n); constructor; [exact Logic.I|exact IHl]. }
  assert (E : fst (arun_foreign next [] g (p ++ q)) = repeat None n).
  { rewrite arun_foreign_app. unfold n, q, n. destruct (arun_foreign next [] g p) as [s [g' os]]. cbn [fst].
    pose proof (acatches_drops s (length s) 0 ltac:(lia) ltac:(intros; lia)) as D.
    pose proof (arun_foreign_calls next (map Drop (seq 0 (length s))) s g') as F. rewrite map_map, D in F.
    destruct (arun_foreign next s g' (map (fun i => FCall (Drop i)) (seq 0 (length s)))) as [s2 [g2 os2]]. exact F. }
  destruct (flat_fact next g (p ++ q) w m0 Hn Hq Hw H0) as [X|(vs & m & cs & X & Hc & S' & (T & _))]; [left; exact X|right].
  rewrite E in Hc. eexists. eexists. exists m. split; [exact X|]. rewrite regions_none in T; [exact T|].
  clear - S' Hc. revert Hc. generalize n. clear n. induction S' as [|v c vs cs Hv S' IH]; intros n Hc; [constructor|].
  destruct n as [|n]; cbn [repeat] in Hc; inversion Hc as [|? ? ? ? H1 H2]; subst. constructor; [|exact (IH n H2)].
  destruct c; [contradiction|]. destruct v; [contradiction|reflexivity].
Qed.
Lemma tflat_no_leak_fact {S : Type} (next : S -> drawn S) g p w m0 : generator_ok next -> Forall tfcmd_ok p -> honest w -> apart (taken m0) ->
  (fexec w 0 (htrun_foreign next [] g (p ++ map (fun i => TFCall (TDrop i)) (seq 0 (length (fst (tarun_foreign next [] g p)))))) m0 = FAborted /\ ~ generous w) \/
  exists vs r m,
    fexec w 0 (htrun_foreign next [] g (p ++ map (fun i => TFCall (TDrop i)) (seq 0 (length (fst (tarun_foreign next [] g p)))))) m0 = FVal (vs, r) m /\
    Permutation (taken m) (taken m0).
Proof.
  intros Hn Hp Hw H0. set (n := length (fst (tarun_foreign next [] g p))). rewrite <- (map_map TDrop TFCall). set (q := map TDrop (seq 0 n)).
  assert (Hq : Forall tfcmd_ok (p ++ map TFCall q)).
  { apply Forall_app. split; [exact Hp|]. unfold q. clear. induction (seq 0 n); constructor; [exact Logic.I|exact IHl]. }
  assert (E : fst (tarun_foreign next [] g (p ++ map TFCall q)) = repeat None n).
  { rewrite tarun_foreign_app. unfold n, q, n. destruct (tarun_foreign next [] g p) as [s [g1 os]]. cbn [fst].
    pose proof (tarun_foreign_calls next (map TDrop (seq 0 (length s))) s g1) as Q.
    destruct (tarun_foreign next s g1 _) as [s2 [g2 os2]]. cbn [fst] in *. rewrite Q.
    destruct (tarun_drops s (length s) 0 ltac:(lia) ltac:(intros; lia)) as (os3 & D). rewrite (tacatches_some _ _ _ _ D). reflexivity. }
  destruct (tflat_fact next g (p ++ map TFCall q) w m0 Hn Hq Hw H0) as [X|(vs & m & X & S' & (T & _))]; [left; exact X|right].
  rewrite E in S'. eexists. eexists. exists m. split; [exact X|]. rewrite regions_none in T; [exact T|].
  clear - S'. revert S'. generalize n. clear n. induction vs as [|v vs IH]; intros n S'; [constructor|].
  destruct n as [|n]; cbn [repeat] in S'; inversion S' as [|? ? ? ? H1 H2]; subst. unfold inside. cbn [map]. constructor; [|exact (IH n H2)].
  destruct v; [contradiction|reflexivity].
Qed.
