(** Lemmas for C52 and C53. *)
From Verif Require Export LHeap5 SpecAlloc.

(** A call that does not touch the heap. *)
Definition quiet {A : Type} (h : HM A) (P : A -> Prop) : Prop :=
  match h with HRet a => P a | HPanic | HFuel | HUndef => True | _ => False end.
Lemma quiet_bind {A B} (h : HM A) (k : A -> HM B) P Q :
  quiet h P -> (forall a, P a -> quiet (k a) Q) -> quiet (hbind h k) Q.
Proof. destruct h; cbn; auto; contradiction. Qed.
Lemma quiet_weak {A} (h : HM A) (P Q : A -> Prop) : quiet h P -> (forall a, P a -> Q a) -> quiet h Q.
Proof. destruct h; cbn; auto. Qed.
Lemma quiet_lift {A} (o : outcome A) : quiet (lift o) (fun _ => True).
Proof. destruct o; exact I. Qed.
Lemma quiet_exec {A} (h : HM A) P m a m' : quiet h P -> exec h m = MVal a m' -> m' = m /\ P a.
Proof. destruct h; cbn; try contradiction; try discriminate. intros H E. injection E as -> ->. auto. Qed.

Definition small (a : hapint) : Prop := 0 < hlen a <= 64.
Definition small1 {R : Type} (x : hapint * R) : Prop := small (fst x).
Definition small_res (r : result hapint) : Prop := match r with Ok a => small a | Err _ => True end.
Lemma storage_small w : w <= 64 -> storage w = SInl.
Proof. intros H. unfold storage. destruct (Z.leb_spec w 64); [reflexivity|lia]. Qed.

Ltac inl := unfold small in *; rewrite ?storage_small by (cbn in *; lia).
Lemma quiet_slice a : small a -> quiet (h_as_digit_slice a) (fun _ => True).
Proof. intros H. unfold h_as_digit_slice, h_read_inl. inl. destruct (hdata a); exact I. Qed.
Lemma quiet_write a ds : small a -> quiet (h_write_digits a ds) (fun b => hlen b = hlen a).
Proof. intros H. unfold h_write_digits, h_read_inl. inl. destruct (hdata a); [|exact I]. destruct ds as [|x [|? ?]]; cbn; auto. Qed.
Lemma quiet_drop a : small a -> quiet (h_drop_digits a) (fun _ => True).
Proof. intros H. unfold h_drop_digits. inl. exact I. Qed.
Lemma quiet_new w d : 0 < w <= 64 -> quiet (h_new_inl w d) small.
Proof. intros H. unfold h_new_inl. inl. exact H. Qed.
Lemma quiet_clone a : small a -> quiet (h_clone a) small.
Proof. intros H. unfold h_clone, h_read_inl. inl. destruct (hdata a); [|exact I]. now apply quiet_new. Qed.
Lemma quiet_ask {R} (f : apint -> outcome R) a : small a -> quiet (h_ask f a) (fun _ => True).
Proof. intros H. eapply quiet_bind; [now apply quiet_slice|]. intros. apply quiet_lift. Qed.
Lemma quiet_ask2 {R} (f : apint -> apint -> outcome R) a b : small a -> small b -> quiet (h_ask2 f a b) (fun _ => True).
Proof.
  intros H H'. eapply quiet_bind; [now apply quiet_slice|]. intros. eapply quiet_bind; [now apply quiet_slice|]. intros. apply quiet_lift.
Qed.
Lemma quiet_modify {R} (f : apint -> outcome (apint * R)) a : small a -> quiet (h_modify f a) small1.
Proof.
  intros H. eapply quiet_bind; [now apply quiet_slice|]. intros ds _. eapply quiet_bind; [apply quiet_lift|]. intros [x r] _.
  eapply quiet_bind; [now apply quiet_write|]. cbn. intros b E. unfold small1, small in *. cbn. lia.
Qed.
Lemma quiet_modify_by f a b : small a -> small b -> quiet (h_modify_by f a b) small1.
Proof. intros H H'. eapply quiet_bind; [now apply (quiet_slice b)|]. intros. now apply quiet_modify. Qed.
Lemma quiet_both f a b : small a -> small b -> quiet (h_modify_both f a b) (fun x => small (fst (fst x)) /\ small (snd (fst x))).
Proof.
  intros H H'. eapply quiet_bind; [now apply (quiet_slice a)|]. intros ds _. eapply quiet_bind; [now apply (quiet_slice b)|]. intros es _.
  eapply quiet_bind; [apply quiet_lift|]. intros [[x y] r] _.
  eapply quiet_bind; [now apply (quiet_write a)|]. intros a' Ea. eapply quiet_bind; [now apply (quiet_write b)|]. intros b' Eb.
  cbn. unfold small in *. lia.
Qed.
Lemma quiet_from_iter ds : (length ds <= 1)%nat -> quiet (h_from_iter ds) small_res.
Proof.
  destruct ds as [|d [|? ?]]; cbn [length]; intros H; [exact I| |lia].
  cbn. unfold small, small_res. cbn. unfold small. cbn. lia.
Qed.
Lemma quiet_error_copy a o : small a -> quiet (h_error_copy a o) (fun _ => True).
Proof.
  intros H. assert (quiet (let* c := h_clone a in h_drop_digits c) (fun _ => True)).
  { eapply quiet_bind; [now apply quiet_clone|]. apply quiet_drop. }
  unfold h_error_copy. destruct o as [|[]| | | |]; auto; exact I.
Qed.
Lemma quiet_bin o a b : small a -> small b -> quiet (h_bin o a b) small1.
Proof.
  intros H H'. unfold h_bin. eapply quiet_bind with (P := fun _ => True).
  { destruct o; try exact I; now apply quiet_ask. }
  intros z _. eapply quiet_bind with (P := small1).
  - destruct z; [now apply quiet_modify_by|]. eapply quiet_bind; [now apply (quiet_clone b)|]. intros c Hc.
    eapply quiet_bind; [now apply quiet_modify_by|]. intros [a' r] Ha.
    eapply quiet_bind; [now apply (quiet_drop c)|]. intros _ _. exact Ha.
  - intros [a' r] Ha. eapply quiet_bind; [now apply quiet_error_copy|]. intros _ _. exact Ha.
Qed.
Lemma quiet_assign a b : small a -> small b -> quiet (h_assign a b) small.
Proof.
  intros H H'. unfold h_assign. destruct (Nat.eqb _ _).
  - eapply quiet_bind; [now apply (quiet_slice a)|]. intros ds _. eapply quiet_bind; [now apply (quiet_slice b)|]. intros es _.
    eapply quiet_bind; [apply quiet_lift|]. intros x _. eapply quiet_bind; [now apply (quiet_write a)|]. intros y _. exact H'.
  - eapply quiet_bind; [now apply (quiet_drop a)|]. intros _ _. inl. unfold h_read_inl. destruct (hdata b); [|exact I]. exact H'.
Qed.

Lemma required_small w : 0 < w <= 64 -> required_digits w = 1%nat.
Proof.
  intros H. unfold required_digits. assert ((w - 1) / 64 = 0) as ->; [|reflexivity]. apply Z.div_small. lia.
Qed.
Lemma required_gt w : 64 < w -> (1 < required_digits w)%nat.
Proof.
  intros H. unfold required_digits. assert (1 <= (w - 1) / 64) by (apply Z.div_le_lower_bound; lia). lia.
Qed.
Lemma quiet_replace a b : small a -> small b -> quiet (h_replace a b) small1.
Proof. intros H H'. eapply quiet_bind; [now apply quiet_drop|]. intros _ _. exact H'. Qed.
Lemma quiet_truncate_fuel n : forall a t, small a -> 0 < t -> quiet (h_truncate_fuel n a t) small1.
Proof.
  induction n as [|n IH]; intros a t H Ht; [exact I|]. cbn [h_truncate_fuel].
  destruct (Z.eqb_spec t (hlen a)); [exact H|]. destruct (Z.ltb_spec (hlen a) t); [exact H|].
  rewrite (required_small (hlen a)) by exact H. rewrite (required_small t) by (unfold small in H; lia).
  rewrite Nat.eqb_refl. eapply quiet_bind; [apply quiet_lift|]. intros e _.
  eapply quiet_bind; [now apply quiet_modify|]. intros [b r] Hb. unfold small1, small in *. cbn in *. lia.
Qed.
Lemma quiet_truncate a t : small a -> 0 < t -> quiet (h_truncate a t) small1.
Proof. apply quiet_truncate_fuel. Qed.
Lemma quiet_zero_extend a t : small a -> 0 < t <= 64 -> quiet (h_zero_extend a t) small1.
Proof.
  intros H Ht. unfold h_zero_extend. destruct (Z.eqb_spec t (hlen a)); [exact H|]. destruct (Z.ltb_spec t (hlen a)); [exact H|].
  rewrite (required_small (hlen a)) by exact H. rewrite (required_small t) by exact Ht. cbn. exact Ht.
Qed.
Lemma quiet_sign_extend a t : small a -> 0 < t <= 64 -> quiet (h_sign_extend a t) small1.
Proof.
  intros H Ht. unfold h_sign_extend. destruct (Z.eqb_spec t (hlen a)); [exact H|]. destruct (Z.ltb_spec t (hlen a)); [exact H|].
  eapply quiet_bind; [now apply quiet_ask|]. intros m _. destruct (negb m); [now apply quiet_zero_extend|].
  rewrite (required_small (hlen a)) by exact H. rewrite (required_small t) by exact Ht. rewrite Nat.eqb_refl.
  eapply quiet_bind; [apply quiet_modify; exact Ht|]. intros [b r] Hb. destruct r; [|exact Hb].
  eapply quiet_bind; [apply quiet_modify; exact Hb|]. intros [c r] Hc. exact Hc.
Qed.
Lemma quiet_expect h : quiet h small1 -> quiet (h_expect h) small.
Proof. intros H. eapply quiet_bind; [exact H|]. intros [a r] Ha. eapply quiet_bind; [apply quiet_lift|]. intros _ _. exact Ha. Qed.
Lemma quiet_zero_resize a t : small a -> 0 < t <= 64 -> quiet (h_zero_resize a t) small.
Proof. intros H Ht. unfold h_zero_resize. destruct (_ <=? _); apply quiet_expect; [apply quiet_truncate; [exact H|lia]|now apply quiet_zero_extend]. Qed.
Lemma quiet_sign_resize a t : small a -> 0 < t <= 64 -> quiet (h_sign_resize a t) small.
Proof. intros H Ht. unfold h_sign_resize. destruct (_ <=? _); apply quiet_expect; [apply quiet_truncate; [exact H|lia]|now apply quiet_sign_extend]. Qed.
Lemma quiet_forward h : quiet h small1 -> quiet (h_forward h) small_res.
Proof.
  intros H. eapply quiet_bind; [exact H|]. intros [a r] Ha. destruct r; [exact Ha|].
  eapply quiet_bind; [now apply quiet_drop|]. intros _ _. exact I.
Qed.
Lemma quiet_unwrap h : quiet h small_res -> quiet (h_unwrap h) small.
Proof. intros H. eapply quiet_bind; [exact H|]. intros [a|e] Ha; [exact Ha|exact I]. Qed.
Lemma quiet_repeat w d : 0 < w <= 64 -> quiet (h_repeat_digit w d) small.
Proof.
  intros H. unfold h_repeat_digit. rewrite required_small by exact H.
  eapply quiet_bind; [apply quiet_unwrap, quiet_from_iter; cbn; lia|]. intros a Ha.
  apply quiet_unwrap, quiet_forward, quiet_truncate; [exact Ha|lia].
Qed.
Lemma quiet_array vs : (length vs <= 1)%nat -> quiet (h_from_u64_array vs) small.
Proof.
  intros H. unfold h_from_u64_array. destruct (Nat.eqb _ _); [|exact I]. apply quiet_unwrap, quiet_from_iter. now rewrite rev_length.
Qed.
Lemma quiet_total h : quiet h small -> quiet (h_total h) small_res.
Proof. intros H. eapply quiet_bind; [exact H|]. auto. Qed.
Lemma quiet_sized w k : 0 <= w <= 64 -> (0 < w -> quiet (k w) small) -> quiet (h_sized w k) small_res.
Proof.
  intros H K. unfold h_sized, bitwidth_new. destruct (Z.eqb_spec w 0); [exact I|]. apply quiet_total, K. lia.
Qed.

(** Constructors. *)
Definition res_narrow (r : ares) : Prop := match r with inl v => narrow (Some v) | inr _ => True end.
Lemma quiet_hnew n r : newop_ok n -> anew n = Some r -> res_narrow r -> quiet (hnew n) small_res.
Proof.
  intros Hn E N.
  assert (Sz : forall w (k : Z -> HM hapint) v, 0 <= w -> r = with_width w (w, v) -> (0 < w <= 64 -> quiet (k w) small) -> quiet (h_sized w k) small_res).
  { intros w k v Hw -> K. unfold with_width in N. destruct (Z.eqb_spec w 0).
    - subst. exact I.
    - cbn in N. apply quiet_sized; [lia|]. intros. apply K. lia. }
  destruct n; cbn [hnew anew newop_ok] in *; try (injection E as <-; cbn in N).
  - apply quiet_total, quiet_new. lia.
  - apply quiet_total, quiet_new. lia.
  - apply quiet_total, quiet_new. lia.
  - apply quiet_total, quiet_new. lia.
  - apply quiet_total, quiet_new. lia.
  - lia.
  - apply quiet_total, quiet_new. lia.
  - apply quiet_total, quiet_new. lia.
  - apply quiet_total, quiet_new. lia.
  - apply quiet_total, quiet_new. lia.
  - lia.
  - apply quiet_total, quiet_array. lia.
  - apply quiet_total, quiet_array. rewrite map_length. lia.
  - eapply Sz; [exact Hn|reflexivity|]. intros. now apply quiet_repeat.
  - eapply Sz; [exact Hn|reflexivity|]. intros. unfold h_one. eapply quiet_bind; [apply quiet_new; lia|]. intros. now apply quiet_zero_resize.
  - eapply Sz; [exact Hn|reflexivity|]. intros. now apply quiet_repeat.
  - eapply Sz; [exact Hn|reflexivity|]. intros. now apply quiet_repeat.
  - eapply Sz; [exact Hn|reflexivity|]. intros. now apply quiet_repeat.
  - eapply Sz; [exact Hn|reflexivity|]. intros. eapply quiet_bind; [now apply quiet_repeat|]. intros a Ha.
    eapply quiet_bind; [now apply quiet_modify|]. intros [b ?] Hb. exact Hb.
  - eapply Sz; [exact Hn|reflexivity|]. intros. eapply quiet_bind; [now apply quiet_repeat|]. intros a Ha.
    eapply quiet_bind; [now apply quiet_modify|]. intros [b ?] Hb. exact Hb.
  - unfold h_from_str_radix. destruct Hn as (Hr & _). unfold has_type in Hr. cbn in Hr.
    pose proof (parse_sim r0 s ltac:(lia)) as P. cbn [anew] in P. rewrite E in P. unfold rel_res in P.
    destruct r as [v|e].
    + destruct P as (c & Ec & Rc). rewrite Ec. cbn [lift hbind]. eapply quiet_bind; [|intros a Ha; exact Ha].
      apply quiet_unwrap, quiet_from_iter. destruct v as [w u]. cbn in N. unfold rel, is_apint in Rc. cbn [fst snd] in Rc.
      destruct Rc as (W & Lc & _). destruct W as (W1 & W2 & _). rewrite Lc in *. lia.
    + destruct P as (k & Ec & _). rewrite Ec. exact I.
Qed.

(** Steps. *)
Definition hlike (v : option hapint) (a : option aval) : Prop :=
  match v, a with Some h, Some (w, _) => hlen h = w /\ 0 < w | None, None => True | _, _ => False end.
Lemma like_get hs s x : Forall2 hlike hs s -> Forall narrow s ->
  match nth_error hs x with
  | Some (Some a) => exists u, nth_error s x = Some (Some (hlen a, u)) /\ small a
  | Some None => nth_error s x = Some None
  | None => nth_error s x = None
  end.
Proof.
  intros F. revert x. induction F as [|v a hs s H F IH]; intros x N.
  - destruct x; reflexivity.
  - inversion N; subst. destruct x as [|x]; [|now apply IH]. cbn. destruct v as [h|], a as [[w u]|]; cbn in H; try contradiction; [|reflexivity].
    exists u. destruct H as (<- & ?). split; [reflexivity|]. split; assumption.
Qed.
Lemma narrow_nth s x v : Forall narrow s -> nth_error s x = Some v -> narrow v.
Proof. intros F E. rewrite Forall_forall in F. apply F. eapply nth_error_In; eassumption. Qed.
Lemma narrow_create s r s' o : create s r = (s', o) -> Forall narrow s' -> res_narrow r.
Proof.
  unfold create. destruct r as [v|e]; [|exact (fun _ _ => I)]. intros E F. injection E as <- <-. apply Forall_app in F. destruct F as (_ & F). now inversion F.
Qed.
Lemma narrow_change s x a r s' o : nth_error s x = Some a -> change s x r = (s', o) -> Forall narrow s' -> res_narrow r.
Proof.
  unfold change. destruct r as [v|e]; [|exact (fun _ _ _ => I)]. intros N E F. injection E as <- <-.
  apply (narrow_nth _ x _ F). exact (nth_update_same x (Some v) a s N).
Qed.
Lemma quiet_hmut m a u : mutop_ok m -> small a -> res_narrow (amut m (hlen a, u)) -> quiet (hmut m a) small1.
Proof.
  intros Hm H. 
  assert (Sz : forall t k (r : ares), 0 <= t -> (t <> 0 -> quiet (k t) small1) -> quiet (h_sized_mut a t k) small1).
  { intros t k r Ht K. unfold h_sized_mut, bitwidth_new. destruct (Z.eqb_spec t 0); [exact H|]. now apply K. }
  destruct m; cbn [hmut amut mutop_ok] in *; intros N; try now apply quiet_modify.
  - apply Sz; [exact (inr EOther)|exact Hm|]. intros. apply quiet_truncate; [exact H|lia].
  - apply Sz; [exact (inr EOther)|exact Hm|]. intros D. destruct (Z.eqb_spec t 0); [contradiction|].
    destruct (Z.leb_spec (hlen a) t); cbn in N.
    + apply quiet_zero_extend; [exact H|lia].
    + apply quiet_zero_extend; [exact H|]. unfold small in H. lia.
  - apply Sz; [exact (inr EOther)|exact Hm|]. intros D. destruct (Z.eqb_spec t 0); [contradiction|].
    destruct (Z.leb_spec (hlen a) t); cbn in N.
    + apply quiet_sign_extend; [exact H|lia].
    + apply quiet_sign_extend; [exact H|]. unfold small in H. lia.
  - apply Sz; [exact (inr EOther)|exact Hm|]. intros D. destruct (Z.eqb_spec t 0); [contradiction|]. cbn in N.
    eapply quiet_bind; [apply quiet_zero_resize; [exact H|lia]|]. intros b Hb. exact Hb.
  - apply Sz; [exact (inr EOther)|exact Hm|]. intros D. destruct (Z.eqb_spec t 0); [contradiction|]. cbn in N.
    eapply quiet_bind; [apply quiet_sign_resize; [exact H|lia]|]. intros b Hb. exact Hb.
Qed.
Lemma quiet_change s x h : quiet h small1 -> quiet (hchange s x h) (fun _ => True).
Proof. intros H. eapply quiet_bind; [exact H|]. intros [? ?] _. exact I. Qed.
Lemma quiet_create s h : quiet h small_res -> quiet (hcreate s h) (fun _ => True).
Proof. intros H. eapply quiet_bind; [exact H|]. intros ? _. exact I. Qed.

Lemma quiet_step hs s c s' o : cmd_ok c -> Forall2 hlike hs s -> Forall narrow s -> astep s c = Some (s', o) -> Forall narrow s' ->
  quiet (hstep hs c) (fun _ => True).
Proof.
  intros Hc F N E N'.
  assert (G1 : forall x k, (forall a u, nth_error s x = Some (Some (hlen a, u)) -> small a -> quiet (k a) (fun _ => True)) ->
    quiet (hget1 hs x k) (fun _ => True)).
  { intros x k K. unfold hget1. pose proof (like_get hs s x F N) as G. destruct (nth_error hs x) as [[a|]|]; [|exact I|exact I].
    destruct G as (u & Eu & Ha). now apply (K a u). }
  assert (G2 : forall x y k, (forall a u b v, nth_error s x = Some (Some (hlen a, u)) -> nth_error s y = Some (Some (hlen b, v)) ->
    small a -> small b -> quiet (k a b) (fun _ => True)) -> quiet (hget2 hs x y k) (fun _ => True)).
  { intros x y k K. apply G1. intros a u Ea Ha. apply G1. intros b v Eb Hb. now apply (K a u b v). }
  destruct c; cbn [hstep astep cmd_ok] in *.
  - destruct (anew n) as [r|] eqn:En; cbn in E; [|discriminate]. apply quiet_create. apply (quiet_hnew n r Hc En).
    apply (narrow_create s r s' o); [congruence|exact N'].
  - apply G1. intros a u Ea Ha. apply quiet_create, quiet_total, quiet_clone, Ha.
  - apply G1. intros a u Ea Ha. eapply quiet_bind; [now apply quiet_drop|]. intros. exact I.
  - apply G1. intros a u Ea Ha. unfold get1 in E. rewrite Ea in E. apply quiet_change, (quiet_hmut m a u Hc Ha).
    apply (narrow_change s x _ _ s' o Ea); [congruence|exact N'].
  - apply G1. intros a u Ea Ha. unfold get1 in E. rewrite Ea in E. apply quiet_create, quiet_forward, (quiet_hmut m a u Hc Ha).
    apply (narrow_create (update x None s) _ s' o); [congruence|exact N'].
  - apply G1. intros a u Ea Ha. apply quiet_change, quiet_modify, Ha.
  - destruct (Nat.eqb x y); [exact I|]. apply G2. intros a u b v Ea Eb Ha Hb. apply quiet_change. now apply quiet_bin.
  - destruct (Nat.eqb x y); [exact I|]. apply G2. intros a u b v Ea Eb Ha Hb. apply quiet_create, quiet_forward. now apply quiet_bin.
  - destruct (Nat.eqb x y); [exact I|]. apply G2. intros a u b v Ea Eb Ha Hb.
    eapply quiet_bind; [now apply quiet_both|]. intros [[a' b'] r] (Ha' & Hb'). eapply quiet_bind; [now apply quiet_error_copy|]. intros. exact I.
  - destruct (Nat.eqb x y); [exact I|]. apply G2. intros a u b v Ea Eb Ha Hb. eapply quiet_bind; [now apply quiet_assign|]. intros. exact I.
  - destruct (Nat.eqb x y); [exact I|]. apply G2. intros a u b v Ea Eb Ha Hb. apply quiet_change. now apply quiet_modify_by.
  - apply G2. intros a u b v Ea Eb Ha Hb. eapply quiet_bind; [now apply quiet_ask2|]. intros. exact I.
  - apply G2. intros a u b v Ea Eb Ha Hb. eapply quiet_bind; [now apply quiet_ask2|]. intros. exact I.
  - apply G1. intros a u Ea Ha. eapply quiet_bind; [now apply quiet_ask|]. intros r _.
    eapply quiet_bind; [now apply quiet_error_copy|]. intros. exact I.
Qed.

(** Runs, one call at a time. *)
Lemma exec_bind {A B} (h : HM A) (k : A -> HM B) : forall m,
  exec (hbind h k) m = match exec h m with MVal a m' => exec (k a) m' | MPanic => MPanic | MFuel => MFuel | MUndefined => MUndefined end.
Proof.
  induction h as [a| | | |ds k' IH|p n k' IH|p n k' IH|p new k' IH|n k' IH]; intros m; cbn; auto.
  - destruct (mem_free p n m); auto.
  - destruct (mem_load p n m); auto.
  - destruct (mem_store p new m); auto.
Qed.
Lemma hrun_snoc p c : forall hs m,
  exec (hrun hs (p ++ [c])) m =
  match exec (hrun hs p) m with
  | MVal (vs, os) m' => match exec (hstep vs c) m' with
      | MVal (vs', o) m'' => MVal (vs', os ++ [o]) m'' | MPanic => MPanic | MFuel => MFuel | MUndefined => MUndefined end
  | MPanic => MPanic | MFuel => MFuel | MUndefined => MUndefined
  end.
Proof.
  induction p as [|d p IH]; intros hs m; cbn [app hrun].
  - rewrite exec_bind. cbn. destruct (exec (hstep hs c) m) as [[vs o] m'| | |]; reflexivity.
  - rewrite !exec_bind. destruct (exec (hstep hs d) m) as [[vs o] m'| | |]; try reflexivity.
    rewrite !exec_bind, IH. destruct (exec (hrun vs p) m') as [[vs' os] m''| | |]; try reflexivity. cbn [exec hret].
    destruct (exec (hstep vs' c) m'') as [[vs'' o''] m'''| | |]; reflexivity.
Qed.
Lemma arun_snoc p c : forall s,
  arun s (p ++ [c]) = match arun s p with
    | Some (s', os) => match astep s' c with Some (s'', o) => Some (s'', os ++ [o]) | None => None end
    | None => None end.
Proof.
  induction p as [|d p IH]; intros s; cbn [app arun].
  - destruct (astep s c) as [[s' o]|]; reflexivity.
  - destruct (astep s d) as [[s' o]|]; [|reflexivity]. rewrite IH. destruct (arun s' p) as [[s'' os]|]; [|reflexivity].
    destruct (astep s'' c) as [[s3 o3]|]; reflexivity.
Qed.

Lemma like_run m vs cs s : Forall2 (stored m) vs cs -> Forall2 holds cs s -> Forall2 hlike vs s.
Proof.
  intros F. revert s. induction F as [|v c vs cs H F IH]; intros s G; inversion G; subst; constructor; auto.
  destruct v as [h|], c as [x|], y as [[w u]|]; cbn in *; try contradiction; auto.
  destruct H as (-> & _). match goal with H : is_apint _ _ _ |- _ => destruct H as (W & <- & _) end. destruct W as (? & _). auto.
Qed.

(** The state after a program that ended. *)
Lemma run_state p slack vs os m : Forall cmd_ok p -> exec (hrun [] p) (empty_memory slack) = MVal (vs, os) m ->
  exists cs s, crun [] p = Val (cs, os) /\ arun [] p = Some (s, os) /\ Forall2 (stored m) vs cs /\ Forall2 holds cs s /\ Forall2 hlike vs s.
Proof.
  intros Hp E. destruct (heap_fact p slack Hp) as [(_ & E')|(cs & os' & vs' & m' & Ec & E' & St & _)]; [congruence|].
  assert (vs' = vs /\ os' = os /\ m' = m) as (-> & -> & ->) by (rewrite E in E'; injection E'; auto).
  pose proof (simulation_fact p Hp) as Sm. destruct (arun [] p) as [[s os']|]; [|congruence].
  destruct Sm as (cs' & Ec' & H). assert (cs' = cs /\ os' = os) as (-> & ->) by (rewrite Ec in Ec'; injection Ec'; auto).
  exists cs, s. split; [exact Ec|]. split; [reflexivity|]. split; [exact St|]. split; [exact H|]. eapply like_run; eassumption.
Qed.

Lemma narrow_fact p slack vs os m : Forall cmd_ok p -> narrow_program p ->
  exec (hrun [] p) (empty_memory slack) = MVal (vs, os) m -> allocations m = 0%nat.
Proof.
  revert vs os m. induction p as [|c p IH] using rev_ind; intros vs os m Hp N E.
  - cbn in E. injection E as <- <- <-. reflexivity.
  - apply Forall_app in Hp as (Hp & Hc). inversion Hc; subst. rewrite hrun_snoc in E.
    destruct (exec (hrun [] p) (empty_memory slack)) as [[vs1 os1] m1| | |] eqn:E1; try discriminate.
    assert (Np : narrow_program p). { intros q r s os' ->. apply (N q (r ++ [c])). now rewrite app_assoc. }
    specialize (IH vs1 os1 m1 Hp Np eq_refl).
    destruct (exec (hstep vs1 c) m1) as [[vs2 o2] m2| | |] eqn:E2; try discriminate. injection E as <- <- <-.
    destruct (run_state p slack vs1 os1 m1 Hp E1) as (cs & s & Ec & Ea & St & Ho & Li).
    assert (Hpc : Forall cmd_ok (p ++ [c])) by (apply Forall_app; auto).
    destruct (run_state (p ++ [c]) slack vs2 (os1 ++ [o2]) m2 Hpc) as (cs2 & s2 & Ec2 & Ea2 & _).
    { rewrite hrun_snoc, E1, E2. reflexivity. }
    assert (N1 : Forall narrow s) by (apply (N p [c] s os1); auto).
    assert (N2 : Forall narrow s2) by (apply (N (p ++ [c]) [] s2 _ (eq_sym (app_nil_r _)) Ea2)).
    rewrite arun_snoc, Ea in Ea2. destruct (astep s c) as [[s3 o3]|] eqn:Es; [|discriminate]. injection Ea2 as <- _.
    pose proof (quiet_step vs1 s c s3 o3 H1 Li N1 Es N2) as Q.
    destruct (quiet_exec _ _ _ _ _ Q E2) as (-> & _). exact IH.
Qed.

(** * C53 *)
(** A call that reads and writes buffers, but allocates and frees none. *)
Fixpoint still {A : Type} (h : HM A) (P : A -> Prop) : Prop :=
  match h with
  | HRet a => P a
  | HPanic | HFuel | HUndef => True
  | HLoad _ _ k => forall ds, still (k ds) P
  | HStore _ _ k => still k P
  | HMalloc _ _ | HFree _ _ _ | HSlack _ _ => False
  end.
Lemma still_bind {A B} (h : HM A) (k : A -> HM B) P Q :
  still h P -> (forall a, P a -> still (k a) Q) -> still (hbind h k) Q.
Proof.
  revert P. induction h as [a| | | |ds k' IH|p n k' IH|p n k' IH|p new k' IH|n k' IH]; cbn; intros P H K; auto; try contradiction.
  - intros ds. eapply IH; eauto.
  - eapply IH; eauto.
Qed.
Lemma still_exec {A} (h : HM A) P : still h P -> forall m a m', exec h m = MVal a m' -> allocations m' = allocations m /\ P a.
Proof.
  induction h as [a| | | |ds k' IH|p n k' IH|p n k' IH|p new k' IH|n k' IH]; cbn; intros H m b m' E; try contradiction; try discriminate.
  - injection E as <- <-. auto.
  - destruct (mem_load p n m) as [ds|]; [|discriminate]. eapply IH; eauto.
  - destruct (mem_store p new m) as [m1|] eqn:Em; [|discriminate]. destruct (IH H m1 b m' E) as (-> & Hb). split; [|exact Hb].
    unfold mem_store in Em. destruct (nth_error (blocks m) p) as [[ds|]|]; try discriminate. destruct (Nat.leb _ _); [|discriminate].
    injection Em as <-. unfold allocations. cbn. apply update_length.
Qed.
Lemma still_lift {A} (o : outcome A) : still (lift o) (fun _ => True).
Proof. destruct o; exact I. Qed.
Lemma still_slice a : still (h_as_digit_slice a) (fun _ => True).
Proof. unfold h_as_digit_slice, h_read_inl, h_read_ext. destruct (storage (hlen a)), (hdata a); cbn; auto. Qed.
Definition same_place (a b : hapint) : Prop := address (Some b) = address (Some a).
Lemma still_write a ds : still (h_write_digits a ds) (same_place a).
Proof.
  unfold h_write_digits, h_read_inl, h_read_ext. destruct a as [w [d|p]]; cbn [hlen hdata]; destruct (storage w); cbn; auto.
  - destruct ds as [|x [|? ?]]; cbn; auto. reflexivity.
  - destruct (Nat.eqb _ _); cbn; auto. reflexivity.
Qed.
Definition same_place1 {R : Type} (a : hapint) (x : hapint * R) : Prop := same_place a (fst x).
Lemma still_modify {R} (f : apint -> outcome (apint * R)) a : still (h_modify f a) (same_place1 a).
Proof.
  eapply still_bind; [apply still_slice|]. intros ds _. eapply still_bind; [apply still_lift|]. intros [x r] _.
  eapply still_bind; [apply still_write|]. intros b Hb. exact Hb.
Qed.
Lemma still_modify_by f a b : still (h_modify_by f a b) (same_place1 a).
Proof. eapply still_bind; [apply (still_slice b)|]. intros. apply still_modify. Qed.
Definition same_places (hs : hvars) (x : hvars * obs) : Prop := map address (fst x) = map address hs.
Lemma map_address_update hs x a b : nth_error hs x = Some (Some a) -> same_place a b -> map address (update x (Some b) hs) = map address hs.
Proof.
  revert x. induction hs as [|h hs IH]; intros [|x] E H; cbn in *; try discriminate.
  - injection E as ->. f_equal. exact H.
  - f_equal. now apply IH.
Qed.
Lemma still_change hs x a h : nth_error hs x = Some (Some a) -> still h (same_place1 a) -> still (hchange hs x h) (same_places hs).
Proof. intros E H. eapply still_bind; [exact H|]. intros [b r] Hb. cbn. unfold same_places. cbn [fst]. eapply map_address_update; eassumption. Qed.
Lemma still_bin o a b : match o with BAdd | BSub | BAnd | BOr | BXor => True | _ => False end -> 
  (forall x y c e, cbin o x y = Val (c, Err e) -> match observe e with EDivisionByZero _ _ | EUnrepresentable _ _ => False | _ => True end) ->
  still (h_bin o a b) (same_place1 a).
Proof.
  intros Ho He. unfold h_bin.
  assert (Z : (let* z := match o with BSdiv | BSrem => h_ask is_zero b | _ => hret true end in
    let* (a0, r) := if z then h_modify_by (cbin o) a b else
      let* rhs_clone := h_clone b in let* (a1, r) := h_modify_by (cbin o) a rhs_clone in let* _ := h_drop_digits rhs_clone in hret (a1, r) in
    let* _ := h_error_copy a0 (done r) in hret (a0, r)) =
    (let* (a0, r) := h_modify_by (cbin o) a b in let* _ := h_error_copy a0 (done r) in hret (a0, r))) by (destruct o; try contradiction; reflexivity).
  rewrite Z. clear Z. unfold h_modify_by, h_modify.
  eapply still_bind with (P := fun x => same_place1 a x /\ match snd x with Ok _ => True | Err e => match observe e with EDivisionByZero _ _ | EUnrepresentable _ _ => False | _ => True end end).
  - eapply still_bind; [apply (still_slice b)|]. intros es _. eapply still_bind; [apply (still_slice a)|]. intros ds _.
    eapply still_bind with (P := fun x => match snd x with Ok _ => True | Err e => match observe e with EDivisionByZero _ _ | EUnrepresentable _ _ => False | _ => True end end).
    + destruct (cbin o _ _) as [[c r]| |] eqn:E; cbn; auto. destruct r as [|e]; [exact I|]. exact (He _ _ _ _ E).
    + intros [x r] Hr. eapply still_bind; [apply still_write|]. intros b' Hb. cbn. split; [exact Hb|exact Hr].
  - intros [a' r] (Hp & Hr). cbn [snd] in Hr. eapply still_bind with (P := fun _ => True); [|intros _ _; exact Hp].
    destruct r as [|e]; [exact I|]. unfold done, h_error_copy. destruct (observe e); try contradiction; exact I.
Qed.
Lemma zip_errors x y e : zip_access_data x y = Val (Err e) -> exists u v, e = UnmatchingBitwidth u v.
Proof.
  unfold zip_access_data. destruct (negb _).
  - intros E. apply Val_inj in E. injection E as <-. eauto.
  - destruct (storage (len x)); [|discriminate]. destruct (read_inl x); cbn; try discriminate. destruct (read_inl y); discriminate.
Qed.
Lemma bin_errors o x y c e : match o with BAdd | BSub | BAnd | BOr | BXor => True | _ => False end -> cbin o x y = Val (c, Err e) ->
  match observe e with EDivisionByZero _ _ | EUnrepresentable _ _ => False | _ => True end.
Proof.
  intros Ho E. assert (exists u v, e = UnmatchingBitwidth u v) as (u & v & ->); [|exact I].
  destruct o; try contradiction; cbn [cbin] in E; unfold wrapping_add_assign, wrapping_sub_assign, bitand_assign, bitor_assign, bitxor_assign, modify_zipped_digits in E;
    pose proof (zip_errors x y) as Z; destruct (zip_access_data x y) as [[z|e']| |]; cbn [bind] in E; try discriminate;
    try (apply Val_inj in E; injection E as _ <-; now apply Z).
  - destruct z as [l r|ls rs]; cbn [bind] in E.
    + destruct (clear_unused_bits _); cbn in E; discriminate.
    + destruct (add_digits ls rs) as [[ds ?]| |]; cbn [bind] in E; try discriminate. destruct (clear_unused_bits _); cbn in E; discriminate.
  - destruct z as [l r|ls rs]; cbn [bind] in E.
    + destruct (clear_unused_bits _); cbn in E; discriminate.
    + destruct (sub_digits ls rs) as [[ds ?]| |]; cbn [bind] in E; try discriminate. destruct (clear_unused_bits _); cbn in E; discriminate.
  - destruct z; discriminate.
  - destruct z; discriminate.
  - destruct z; discriminate.
Qed.
Lemma still_step hs c : in_place c -> still (hstep hs c) (same_places hs).
Proof.
  intros Hc. assert (R : forall o, still (hret (hs, o)) (same_places hs)) by (intros; reflexivity).
  assert (G : forall x k, (forall a, nth_error hs x = Some (Some a) -> still (k a) (same_places hs)) -> still (hget1 hs x k) (same_places hs)).
  { intros x k K. unfold hget1. destruct (nth_error hs x) as [[a|]|]; [now apply K| |]; apply R. }
  destruct c; cbn [in_place] in Hc; try contradiction; cbn [hstep].
  - apply G. intros a Ea. apply (still_change _ _ _ _ Ea). destruct m; try contradiction; apply still_modify.
  - apply G. intros a Ea. apply (still_change _ _ _ _ Ea). apply still_modify.
  - destruct (Nat.eqb x y); [apply R|]. apply G. intros a Ea. apply G. intros b Eb. apply (still_change _ _ _ _ Ea).
    assert (Ho : match o with BAdd | BSub | BAnd | BOr | BXor => True | _ => False end) by (destruct o; auto).
    apply still_bin; [exact Ho|]. intros u v c e. now apply bin_errors.
Qed.
Lemma in_place_fact p c slack vs os m vs' os' m' : in_place c ->
  exec (hrun [] p) (empty_memory slack) = MVal (vs, os) m ->
  exec (hrun [] (p ++ [c])) (empty_memory slack) = MVal (vs', os') m' ->
  allocations m' = allocations m /\ map address vs' = map address vs.
Proof.
  intros Hc E E'. rewrite hrun_snoc, E in E'. destruct (exec (hstep vs c) m) as [[v o] m1| | |] eqn:Es; try discriminate.
  injection E' as <- <- <-. exact (still_exec _ _ (still_step vs c Hc) m (v, o) m1 Es).
Qed.

(** Signed division. *)
Fixpoint grows {A : Type} (n : nat) (h : HM A) : Prop :=
  match h with
  | HRet _ => n = O
  | HPanic | HFuel | HUndef => True
  | HMalloc _ k => forall p, grows (pred n) (k p)
  | HFree _ _ k => grows n k
  | HLoad _ _ k => forall ds, grows n (k ds)
  | HStore _ _ k => grows n k
  | HSlack _ k => forall e, grows n (k e)
  end.
Lemma exec_grows {A} (h : HM A) : forall n m a m', grows n h -> exec h m = MVal a m' -> (allocations m + n <= allocations m')%nat.
Proof.
  induction h as [a| | | |ds k' IH|p n' k' IH|p n' k' IH|p new k' IH|n' k' IH]; cbn; intros n m b m' H E; try contradiction; try discriminate.
  - injection E as <- <-. lia.
  - specialize (IH _ _ _ _ _ (H _) E). unfold allocations in *. cbn in IH. rewrite app_length in IH. cbn in IH. lia.
  - destruct (mem_free p n' m) as [m1|] eqn:Em; [|discriminate]. specialize (IH _ _ _ _ H E).
    unfold mem_free in Em. destruct (nth_error (blocks m) p) as [[ds|]|]; try discriminate. destruct (Nat.eqb _ _); [|discriminate].
    injection Em as <-. unfold allocations in *. cbn in IH. rewrite update_length in IH. exact IH.
  - destruct (mem_load p n' m) as [ds|]; [|discriminate]. eapply IH; eauto.
  - destruct (mem_store p new m) as [m1|] eqn:Em; [|discriminate]. specialize (IH _ _ _ _ H E).
    unfold mem_store in Em. destruct (nth_error (blocks m) p) as [[ds|]|]; try discriminate. destruct (Nat.leb _ _); [|discriminate].
    injection Em as <-. unfold allocations in *. cbn in IH. rewrite update_length in IH. exact IH.
  - eapply IH; eauto.
Qed.
Lemma grows_0 {A} (h : HM A) : grows 0 h.
Proof. induction h; cbn; auto. Qed.
Lemma grows_bind {A B} (h : HM A) (k : A -> HM B) : forall n, grows n h -> grows n (hbind h k).
Proof.
  induction h as [a| | | |ds k' IH|p n' k' IH|p n' k' IH|p new k' IH|n' k' IH]; cbn; intros n H; auto.
  subst. apply grows_0.
Qed.
Lemma grows_clone a : 64 < hlen a -> grows 1 (h_clone a).
Proof.
  intros H. unfold h_clone, h_as_digit_slice, h_read_ext.
  assert (storage (hlen a) = SExt) as ->. { unfold storage. destruct (Z.leb_spec (hlen a) 64); [lia|reflexivity]. }
  destruct (hdata a) as [d|p]; cbn; auto. intros ds q. apply grows_0.
Qed.
Lemma exec_ask_stored {R} (f : apint -> outcome R) m a x : stored m (Some a) (Some x) -> (0 < len x) ->
  exec (h_ask f a) m = exec (lift (f x)) m.
Proof.
  intros (El & Ed & Si & Se) Hx. unfold h_ask. rewrite exec_bind. unfold h_as_digit_slice, h_read_inl, h_read_ext, h_len_digits, required_digits.
  rewrite El. unfold storage. destruct (Z.leb_spec (len x) 64).
  - destruct (Si H) as (d & -> & E). cbn. rewrite <- E. destruct x as [w ds]. reflexivity.
  - destruct (Se ltac:(lia)) as (p & -> & E). cbn. unfold mem_load. rewrite E.
    assert (L : Z.to_nat ((len x - 1) / 64 + 1) = length (digits x)).
    { replace (len x + 63) with (len x - 1 + 1 * 64) in Ed by lia. rewrite Z.div_add in Ed by lia. lia. }
    rewrite L, Nat.leb_refl, firstn_all. cbn. destruct x. reflexivity.
Qed.
Lemma sdiv_fact p o x y slack vs os m vs' os' m' s s_os w u v : Forall cmd_ok p -> o = BSdiv \/ o = BSrem -> x <> y ->
  exec (hrun [] p) (empty_memory slack) = MVal (vs, os) m -> arun [] p = Some (s, s_os) ->
  nth_error s x = Some (Some (w, u)) -> nth_error s y = Some (Some (w, v)) -> 64 < w -> v <> 0 ->
  exec (hrun [] (p ++ [Bin o x y])) (empty_memory slack) = MVal (vs', os') m' ->
  (allocations m < allocations m')%nat.
Proof.
  intros Hp Ho D E Ea Ex Ey Hw Hv E'. rewrite hrun_snoc, E in E'.
  destruct (exec (hstep vs (Bin o x y)) m) as [[v1 o1] m1| | |] eqn:Es; try discriminate. injection E' as <- <- <-.
  destruct (run_state p slack vs os m Hp E) as (cs & s' & Ec & Ea' & St & Ho' & Li).
  assert (s' = s) by congruence. subst s'.
  assert (NE : forall i r, nth_error s i = Some (Some r) -> exists a c, nth_error vs i = Some (Some a) /\ stored m (Some a) (Some c) /\ holds (Some c) (Some r)).
  { intros i r Ei. clear - Ei St Ho'. revert vs cs St Ho' i r Ei. induction s as [|z s IH]; intros vs cs St Ho' i r Ei; [destruct i; discriminate|].
    inversion Ho' as [|c ? cs' ? Hc Hcs]; subst. inversion St as [|a ? vs' ? Ha Hvs]; subst. destruct i as [|i].
    - cbn in Ei. injection Ei as ->. cbn. destruct c as [c|]; [|contradiction]. destruct a as [a|]; [|contradiction]. eauto.
    - cbn in *. eapply IH; eauto. }
  destruct (NE x _ Ex) as (a & ca & Na & Sa & Ha). destruct (NE y _ Ey) as (b & cb & Nb & Sb & Hb).
  cbn [hstep] in Es. destruct (Nat.eqb_spec x y); [contradiction|]. unfold hget2, hget1 in Es. rewrite Na, Nb in Es.
  unfold hchange in Es. rewrite exec_bind in Es. unfold h_bin in Es.
  assert (Hbz : (let* z := match o with BSdiv | BSrem => h_ask is_zero b | _ => hret true end in
    let* (a, r) :=
      if z then h_modify_by (cbin o) a b
      else
        let* rhs_clone := h_clone b in
        let* (a, r) := h_modify_by (cbin o) a rhs_clone in
        let* _ := h_drop_digits rhs_clone in
        hret (a, r) in
    let* _ := h_error_copy a (done r) in
    hret (a, r)) = (let* z := h_ask is_zero b in
    let* (a, r) :=
      if z then h_modify_by (cbin o) a b
      else
        let* rhs_clone := h_clone b in
        let* (a, r) := h_modify_by (cbin o) a rhs_clone in
        let* _ := h_drop_digits rhs_clone in
        hret (a, r) in
    let* _ := h_error_copy a (done r) in
    hret (a, r))) by (destruct Ho; subst o; reflexivity).
  rewrite Hbz in Es. clear Hbz. rewrite exec_bind in Es.
  destruct Hb as (Wb & Lb & Ub). rewrite (exec_ask_stored is_zero m b cb Sb ltac:(lia)) in Es.
  rewrite is_zero_spec in Es by (apply wf_shape in Wb; apply Wb). rewrite Ub in Es. destruct (Z.eqb_spec v 0); [contradiction|]. cbn [lift exec] in Es.
  match type of Es with match ?X with _ => _ end = _ => destruct X as [[a2 r2] m2| | |] eqn:E2; try discriminate end.
  injection Es as _ _ <-.
  assert (Gr : grows 1 (h_clone b)). { apply grows_clone. destruct Sb as (-> & _). lia. }
  assert (allocations m + 1 <= allocations m2)%nat; [|lia].
  eapply exec_grows; [|exact E2]. apply grows_bind, grows_bind, Gr.
Qed.
Lemma sdiv_refuted : exists p vs os m vs' os' m',
  exec (hrun [] p) (empty_memory (fun n => 0%nat)) = MVal (vs, os) m /\
  exec (hrun [] (p ++ [Bin BSdiv 0 1])) (empty_memory (fun n => 0%nat)) = MVal (vs', os') m' /\
  (allocations m < allocations m')%nat.
Proof.
  exists [New (NSMin 100); New (NOne 100)]. do 6 eexists. split; [vm_compute; reflexivity|]. split; [vm_compute; reflexivity|]. cbn. lia.
Qed.

(** Deciding [narrow_program], for examples. *)
Definition narrowb (v : option aval) : bool := match v with Some (w, _) => w <=? 64 | None => true end.
Definition narrow_check (p : list cmd) : bool :=
  forallb (fun k => match arun [] (firstn k p) with Some (s, _) => forallb narrowb s | None => true end) (seq 0 (S (length p))).
Lemma narrow_check_ok p : narrow_check p = true -> narrow_program p.
Proof.
  intros H q r s os -> E. unfold narrow_check in H. rewrite forallb_forall in H. specialize (H (length q)).
  rewrite firstn_app, Nat.sub_diag, firstn_all, app_nil_r, E in H.
  rewrite in_seq, app_length in H. specialize (H ltac:(lia)). rewrite forallb_forall in H. apply Forall_forall.
  intros v I. specialize (H v I). destruct v as [[w u]|]; [|exact Logic.I]. cbn in *. lia.
Qed.
