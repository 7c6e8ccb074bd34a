(** Whole programs from the empty store. *)
From Verif Require Export LMach3.

Lemma simulation_fact p : Forall cmd_ok p ->
  match arun [] p with
  | None => crun [] p = Panic
  | Some (s, os) => exists cs, crun [] p = Val (cs, os) /\ Forall2 holds cs s
  end.
Proof. intros H. apply (run_sim p H [] []). constructor. Qed.

Lemma crun_app p q : forall cs, crun cs (p ++ q) =
  (let! (cs, os) := crun cs p in let! (cs, os') := crun cs q in Val (cs, os ++ os')).
Proof.
  induction p as [|c p IH]; intros cs; cbn [app crun bind].
  - destruct (crun cs q) as [[]| |]; reflexivity.
  - destruct (cstep cs c) as [[cs1 o]| |]; cbn [bind]; [|reflexivity|reflexivity]. rewrite IH.
    destruct (crun cs1 p) as [[cs2 os]| |]; cbn [bind]; [|reflexivity|reflexivity].
    destruct (crun cs2 q) as [[cs3 os']| |]; reflexivity.
Qed.

(** Every call that follows a history acts on canonical integers. *)
Lemma prefix_fact p c cs os : Forall cmd_ok p -> cmd_ok c -> crun [] p = Val (cs, os) ->
  exists s, Forall2 holds cs s /\
    match astep s c with
    | None => cstep cs c = Panic
    | Some (s', o) => exists cs', cstep cs c = Val (cs', o) /\ Forall2 holds cs' s'
    end.
Proof.
  intros Hp Hc E. pose proof (simulation_fact p Hp) as H. destruct (arun [] p) as [[s os']|]; [|congruence].
  destruct H as (cs' & E' & H). rewrite E in E'. injection E' as <- <-. exists s. split; [exact H|].
  exact (step_sim cs s c Hc H).
Qed.

Lemma top_digit a : wf a ->
  0 < len a /\ Z.of_nat (length (digits a)) = (len a + 63) / 64 /\ Forall digit_ok (digits a) /\
  forall i, len a - 64 * (Z.of_nat (length (digits a)) - 1) <= i -> Z.testbit (last (digits a) 0) i = false.
Proof.
  intros Ha. pose proof (unsigned_bound a Ha) as Hu. pose proof (wf_sh a Ha) as Sh. pose proof Ha as (H0 & H1 & H2 & H3).
  split; [exact H0|]. split; [exact H1|]. split; [exact H2|]. intros i Hi.
  destruct (digits_snoc a Sh) as (init & d & E & Hin & Hd & Li). unfold unsigned in Hu. rewrite E in *.
  rewrite last_last. rewrite app_length in *. cbn [length] in *. rewrite uval_app, uval_one in Hu.
  set (n := Z.of_nat (length init)) in *.
  assert (Hn : Z.of_nat (length init + 1) = n + 1) by lia. rewrite Hn in *.
  assert (Hl : 64 * n < len a) by (pose proof (Z.div_mod (len a + 63) 64 ltac:(lia)); pose proof (Z.mod_pos_bound (len a + 63) 64 ltac:(lia)); lia).
  rewrite P_pow in Hu. fold n in Hu. replace (n + 1 - 1) with n in Hi by lia.
  pose proof (uval_bound init Hin) as Hb. unfold dok in Hd.
  replace (len a) with (64 * n + (len a - 64 * n)) in Hu by lia. rewrite Z.pow_add_r in Hu by lia.
  pose proof (Z.pow_pos_nonneg 2 (64 * n) ltac:(lia) ltac:(lia)) as Pn.
  assert (Hdb : d < 2 ^ (len a - 64 * n)) by nia.
  destruct (Z.eq_dec d 0) as [->|N0]; [apply Z.bits_0|].
  apply Z.bits_above_log2; [lia|]. apply Z.log2_lt_pow2; [lia|].
  apply Z.lt_le_trans with (2 ^ (len a - 64 * n)); [exact Hdb|]. apply Z.pow_le_mono_r; lia.
Qed.

Lemma history_fact p cs os : Forall cmd_ok p -> crun [] p = Val (cs, os) ->
  Forall (fun v => forall a, v = Some a -> 0 < len a /\ Z.of_nat (length (digits a)) = (len a + 63) / 64 /\ Forall digit_ok (digits a) /\
    forall i, len a - 64 * (Z.of_nat (length (digits a)) - 1) <= i -> Z.testbit (last (digits a) 0) i = false) cs.
Proof.
  intros Hp E. pose proof (simulation_fact p Hp) as H. destruct (arun [] p) as [[s os']|]; [|congruence].
  destruct H as (cs' & E' & H). rewrite E in E'. injection E' as <- <-.
  clear E Hp. induction H as [|a x cs s Ha H IH]; constructor; [|exact IH].
  intros b ->. destruct x as [[w u]|]; [|contradiction]. destruct Ha as (Ha & _). now apply top_digit.
Qed.

(** Two integers of one history that show the same width and value are the same in memory. *)
Lemma history_unique p cs os a b : Forall cmd_ok p -> crun [] p = Val (cs, os) -> In (Some a) cs -> In (Some b) cs ->
  len a = len b -> unsigned a = unsigned b -> a = b.
Proof.
  intros Hp E Ia Ib L U. pose proof (simulation_fact p Hp) as H. destruct (arun [] p) as [[s os']|]; [|congruence].
  destruct H as (cs' & E' & H). rewrite E in E'. injection E' as <- <-.
  assert (W : forall c, In (Some c) cs -> wf c).
  { clear - H. intros c Hc. induction H as [|a x cs s Ha H IH]; [contradiction|].
    destruct Hc as [->|Hc]; [|auto]. destruct x as [[w u]|]; [|contradiction]. exact (proj1 Ha). }
  apply (is_apint_unique a b (len b) (unsigned b)); unfold is_apint; auto.
Qed.

(** Panics come only from signed divisions at differing widths and from radices outside 2..36. *)
Lemma no_panic_fact p :
  Forall cmd_ok p ->
  Forall (fun c => match c with
    | New (NParse r _) => 2 <= r <= 36
    | Bin (BSdiv | BSrem) _ _ | IntoBin (BSdiv | BSrem) _ _ | Pair (PSDivRem | PSRemDiv) _ _ => False
    | _ => True
    end) p ->
  exists cs os, crun [] p = Val (cs, os) /\ length os = length p.
Proof.
  intros Hp Hq. pose proof (simulation_fact p Hp) as H.
  assert (G : forall s, exists s' os, arun s p = Some (s', os) /\ length os = length p).
  { clear H Hp. induction Hq as [|c p Hc Hq IH]; intros s; cbn [arun].
    - exists s, []. auto.
    - assert (A : exists r, astep s c = Some r).
      { unfold get2, get1; destruct c as [n|x|x|m x|m x|m x|o x y|o x y|o x y|x y|x y|o x y|x y|q x]; cbn [astep]; unfold get2, get1.
        - assert (exists r, anew n = Some r) as [r ->]; [|eexists; reflexivity].
          destruct n; cbn [anew]; eauto. destruct (Z.leb_spec 2 r); [|lia]. destruct (Z.leb_spec r 36); [|lia]. cbn [andb]. eauto.
        - destruct (nth_error s x) as [[|]|]; eauto.
        - destruct (nth_error s x) as [[|]|]; eauto.
        - destruct (nth_error s x) as [[|]|]; eauto.
        - destruct (nth_error s x) as [[|]|]; eauto.
        - destruct (nth_error s x) as [[|]|]; eauto.
        - destruct (Nat.eqb x y); eauto. destruct (nth_error s x) as [[|]|]; eauto. destruct (nth_error s y) as [[|]|]; eauto.
          destruct o; try contradiction; cbn [abin option_map]; eauto.
        - destruct (Nat.eqb x y); eauto. destruct (nth_error s x) as [[|]|]; eauto. destruct (nth_error s y) as [[|]|]; eauto.
          destruct o; try contradiction; cbn [abin option_map]; eauto.
        - destruct (Nat.eqb x y); eauto. destruct (nth_error s x) as [[|]|]; eauto. destruct (nth_error s y) as [[|]|]; eauto.
          destruct o; try contradiction; cbn [apair option_map]; eauto.
        - destruct (Nat.eqb x y); eauto. destruct (nth_error s x) as [[|]|]; eauto. destruct (nth_error s y) as [[|]|]; eauto.
        - destruct (Nat.eqb x y); eauto. destruct (nth_error s x) as [[|]|]; eauto. destruct (nth_error s y) as [[|]|]; eauto.
        - destruct (nth_error s x) as [[|]|]; eauto. destruct (nth_error s y) as [[|]|]; eauto.
        - destruct (nth_error s x) as [[|]|]; eauto. destruct (nth_error s y) as [[|]|]; eauto.
        - destruct (nth_error s x) as [[|]|]; eauto. }
      destruct A as [[s1 o] ->]. destruct (IH s1) as (s2 & os & -> & L). exists s2, (o :: os). split; [reflexivity|].
      cbn [length]. lia. }
  destruct (G []) as (s & os & E & L). rewrite E in H. destruct H as (cs & E' & _). eauto.
Qed.
