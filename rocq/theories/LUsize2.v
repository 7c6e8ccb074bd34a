(** Proofs about division on a machine whose [usize] is small. *)
From Verif Require Export LUsize LDiv7.

Lemma idx_in (ds : list Z) i d : idx ds i = Val d -> (i < length ds)%nat /\ (digs ds -> dok d).
Proof.
  unfold idx. destruct (nth_error ds i) as [x|] eqn:E; [|discriminate]. intros H. apply Val_inj in H. subst x.
  split; [now apply nth_error_Some; rewrite E|]. intros Hd.
  pose proof (nth_error_In _ _ E). eapply Forall_forall in Hd; eauto.
Qed.
Lemma upd_keeps (ds ds' : list Z) i v : upd ds i v = Val ds' -> digs ds -> dok v -> digs ds'.
Proof.
  intros E Hd Hv. unfold upd in E. destruct (Nat.ltb i (length ds)); [|discriminate]. apply Val_inj in E. subst ds'.
  now apply (updl_digs ds i v).
Qed.
Lemma dd_lo_dok x : dok (dd_lo x).
Proof. unfold dd_lo. apply dok_mod. Qed.
Lemma carrying_add_dok x y : dok (fst (d_carrying_add x y)).
Proof.
  unfold d_carrying_add, u64_oadd. destruct (B <=? x + y); cbn [fst]; apply dok_mod.
Qed.
Lemma for_range_keeps {S : Type} (I : S -> Prop) body n : forall lo s s',
  (forall i s s', body i s = Val s' -> I s -> I s') -> for_range n lo body s = Val s' -> I s -> I s'.
Proof.
  induction n as [|n IH]; intros lo s s' Hb E Hs; cbn [for_range] in E.
  - apply Val_inj in E. now subst.
  - destruct (body lo s) as [t| |] eqn:Et; try discriminate. cbn [bind] in E. eapply IH; eauto.
Qed.

Ltac step E :=
  match type of E with
  | bind ?x _ = Val _ => let H := fresh "E" in destruct x as [?| |] eqn:H; [|discriminate E|discriminate E]; cbn [bind] in E
  end.

Lemma sub_lo_keeps duo div sd dg b m duo' : sub_lo duo div sd dg b m = Val duo' -> digs duo -> digs duo'.
Proof.
  unfold sub_lo. cbv zeta. intros E Hd. do 5 step E. destruct a3 as [[[d1 c1] c2] c3]. apply Val_inj in E. subst d1.
  eapply upd_keeps in E3; eauto using dd_lo_dok.
  refine (for_range_keeps (fun st : list Z * Z * Z * Z => digs (fst (fst (fst st)))) _ _ _ _ _ _ E4 E3).
  intros i [[[u1 u2] u3] u4] s' F Hu. unfold sub_lo_step in F. cbv zeta in F. do 5 step F. apply Val_inj in F. subst s'.
  cbn [fst] in *. eapply upd_keeps; eauto using dd_lo_dok.
Qed.
Lemma sub_hi_keeps duo div sd dg b m duo' : sub_hi duo div sd dg b m = Val duo' -> digs duo -> digs duo'.
Proof.
  unfold sub_hi. cbv zeta. intros E Hd. step E.
  destruct (d_carrying_mul (dd_lo m) a) as [t0 mc]. do 2 step E.
  pose proof (carrying_add_dok (dd_lo a0) a1) as Hc.
  destruct (d_carrying_add (dd_lo a0) a1) as [t3 ac]. cbn [fst] in Hc. do 2 step E.
  destruct a3 as [[[[d1 c1] c2] c3] c4]. apply Val_inj in E. subst d1.
  eapply upd_keeps in E3; eauto.
  refine (for_range_keeps (fun st : list Z * Z * Z * Z * Z => digs (fst (fst (fst (fst st))))) _ _ _ _ _ _ E4 E3).
  intros i [[[[u1 u2] u3] u4] u5] s' F Hu. unfold sub_hi_step in F. cbv zeta in F. do 7 step F. apply Val_inj in F. subst s'.
  cbn [fst] in *. eapply upd_keeps; eauto using dd_lo_dok.
Qed.
Lemma find_sd_below n duo : forall i, find_sd n duo = Val (Some i) -> (i < n)%nat.
Proof.
  induction n as [|n IH]; intros i E; cbn [find_sd] in E; [discriminate|]. step E.
  destruct (negb (d_is_zero a)).
  - apply Val_inj in E. injection E as <-. lia.
  - apply IH in E. lia.
Qed.

Lemma usize_sub_val a b c : usize_sub a b = Val c -> c = a - b /\ b <= a.
Proof. unfold usize_sub. destruct (Z.leb_spec b a); intros E; [|discriminate]. apply Val_inj in E. lia. Qed.

Lemma z_div_loop_eq M checks len div dsd sb lb sig : forall fuel duo quo sd lz,
  digs duo -> 0 <= lz -> 64 * Z.of_nat (sd + 1) < M ->
  z_div_loop M checks fuel len duo div quo sd lz dsd sb lb sig = div_loop fuel len duo div quo sd lz dsd sb lb sig.
Proof.
  induction fuel as [|fuel IH]; intros duo quo sd lz Hd Hlz HM; [reflexivity|].
  cbn [z_div_loop div_loop]. unfold nsub. destruct (Nat.leb 2 sd); [|reflexivity]. cbn [bind].
  destruct (usize_sub 64 lz) as [dl| |] eqn:Edl; cbn [bind]; [|reflexivity|reflexivity].
  apply usize_sub_val in Edl as [-> _]. rewrite usz_fit by lia. cbn [bind]. rewrite usz_fit by lia. cbn [bind]. cbv zeta.
  destruct (sig_dd duo sd lz) as [sg| |]; cbn [bind]; [|reflexivity|reflexivity].
  destruct (lb <=? _); [|reflexivity].
  destruct (dd_wdiv sg sig) as [mul| |]; cbn [bind]; [|reflexivity|reflexivity].
  destruct (add_to_quo quo _ _ mul) as [quo'| |]; cbn [bind]; [|reflexivity|reflexivity].
  destruct (if d_is_zero (dd_hi mul) then _ else _) as [duo'| |] eqn:Ed; cbn [bind]; [|reflexivity|reflexivity].
  assert (Hd' : digs duo').
  { destruct (d_is_zero (dd_hi mul)); [eapply sub_lo_keeps|eapply sub_hi_keeps]; eauto. }
  destruct (find_sd (sd + 1) duo') as [[sd'|]| |] eqn:Ef; cbn [bind]; try reflexivity.
  apply find_sd_below in Ef.
  destruct (idx duo' sd') as [d| |] eqn:Ei; cbn [bind]; [|reflexivity|reflexivity].
  apply idx_in in Ei as [_ Hk]. specialize (Hk Hd'). pose proof (lz_range d Hk) as L.
  change (u64_leading_zeros d) with (d_leading_zeros d) in L.
  destruct (usize_sub 64 (d_leading_zeros d)) as [k| |] eqn:Ek; cbn [bind]; [|reflexivity|reflexivity].
  apply usize_sub_val in Ek as [-> _]. rewrite usz_fit by lia. cbn [bind]. rewrite usz_fit by lia. cbn [bind].
  destruct (_ =? sb); [reflexivity|]. destruct (_ <? sb); [reflexivity|].
  destruct (Nat.ltb sd' 2); [reflexivity|]. apply IH; auto; lia.
Qed.

Lemma z_large_eq M checks len duo sd div dsd : digs duo -> digs div ->
  64 * Z.of_nat (length duo) < M -> 64 * Z.of_nat (length div) < M ->
  z_large_div_by_large M checks len duo sd div dsd = large_div_by_large len duo sd div dsd.
Proof.
  intros Hu Hv H1 H2. unfold z_large_div_by_large, large_div_by_large.
  destruct (idx duo sd) as [dt| |] eqn:Eu; cbn [bind]; [|reflexivity|reflexivity].
  destruct (idx div dsd) as [vt| |] eqn:Ev; cbn [bind]; [|reflexivity|reflexivity]. cbv zeta.
  apply idx_in in Eu as [Lu Ku]. apply idx_in in Ev as [Lv Kv].
  pose proof (lz_range dt (Ku Hu)) as R1. pose proof (lz_range vt (Kv Hv)) as R2.
  change (u64_leading_zeros dt) with (d_leading_zeros dt) in R1. change (u64_leading_zeros vt) with (d_leading_zeros vt) in R2.
  destruct (usize_sub 64 (d_leading_zeros dt)) as [a| |] eqn:Ea; cbn [bind]; [|reflexivity|reflexivity].
  apply usize_sub_val in Ea as [-> _]. rewrite usz_fit by lia. cbn [bind]. rewrite usz_fit by lia. cbn [bind].
  destruct (usize_sub 64 (d_leading_zeros vt)) as [b| |] eqn:Eb; cbn [bind]; [|reflexivity|reflexivity].
  apply usize_sub_val in Eb as [-> _]. rewrite usz_fit by lia. cbn [bind]. rewrite usz_fit by lia. cbn [bind].
  destruct (_ <? _); [reflexivity|]. destruct (_ =? _); [reflexivity|]. destruct (_ <? 64); [reflexivity|].
  unfold nsub. destruct (Nat.leb 1 dsd); [|reflexivity]. cbn [bind].
  rewrite usz_fit by lia. cbn [bind]. rewrite usz_fit by lia. cbn [bind].
  destruct (if d_leading_zeros vt =? 0 then _ else _) as [x| |]; cbn [bind]; [|reflexivity|reflexivity].
  apply z_div_loop_eq; auto; lia.
Qed.

Lemma z_divrem_eq M checks duo div : digs duo -> digs div ->
  64 * Z.of_nat (length duo) < M -> 64 * Z.of_nat (length div) < M ->
  z_aarons_algorithm_divrem M checks duo div = aarons_algorithm_divrem duo div.
Proof.
  intros Hu Hv H1 H2. unfold z_aarons_algorithm_divrem, aarons_algorithm_divrem.
  destruct (rposition_nonzero div) as [dsd|]; [|reflexivity].
  destruct (rposition_nonzero duo) as [sd|]; [|reflexivity].
  destruct (Nat.ltb sd dsd); [reflexivity|].
  destruct (Nat.eqb sd 0), (Nat.eqb dsd 0); try reflexivity.
  destruct (Nat.eqb sd 1); [reflexivity|]. rewrite z_large_eq by auto. reflexivity.
Qed.
Lemma z_remdiv_eq M checks duo div : digs duo -> digs div ->
  64 * Z.of_nat (length duo) < M -> 64 * Z.of_nat (length div) < M ->
  z_aarons_algorithm_remdiv M checks duo div = aarons_algorithm_remdiv duo div.
Proof. intros. unfold z_aarons_algorithm_remdiv, aarons_algorithm_remdiv. rewrite z_divrem_eq by auto. reflexivity. Qed.

Lemma z_divide M checks a b : usize_bound M -> wf a -> wf b -> len a <= M - 64 ->
  z_wrapping_udivrem_assign M checks a b = wrapping_udivrem_assign a b /\
  z_wrapping_uremdiv_assign M checks a b = wrapping_uremdiv_assign a b /\
  z_wrapping_udiv_assign M checks a b = wrapping_udiv_assign a b /\
  z_wrapping_urem_assign M checks a b = wrapping_urem_assign a b.
Proof.
  intros HM Ha Hb HL. pose proof (wf_fill M a HM Ha HL) as Hn.
  unfold z_wrapping_udivrem_assign, wrapping_udivrem_assign, z_wrapping_uremdiv_assign, wrapping_uremdiv_assign,
    z_wrapping_udiv_assign, wrapping_udiv_assign, z_wrapping_urem_assign, wrapping_urem_assign, zip_access_data, width.
  destruct (Z.eqb_spec (len a) (len b)) as [E|E]; cbn [negb]; [|repeat split].
  pose proof (wf_sh _ Ha) as (A0 & A1 & A2). pose proof (wf_sh _ Hb) as (B0 & B1 & B2).
  destruct (storage (len a)).
  - destruct (read_inl a), (read_inl b); repeat split.
  - cbn [bind]. unfold as_digit_slice.
    assert (64 * Z.of_nat (length (digits b)) < M) as Hm by (rewrite B1, <- E, <- A1; exact Hn).
    rewrite z_divrem_eq, z_remdiv_eq by auto. repeat split.
Qed.
