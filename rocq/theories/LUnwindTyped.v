(** Programs on [UInt] and [Int] that catch panics: facts. *)
From Coq Require Import Permutation.
From Verif Require Export LUnwind LHeapTyped3 MUnwindTyped SpecUnwindTyped.

Definition cpost {R : Type} (g : nat -> bool) (p : htvars * R) (q : tvars * R) (L : list cell) : Prop := snd p = snd q /\ tsown g (fst p) (fst q) L.

Lemma wrap_holds k x t : tholds (Some (wrap k x)) (Some t) -> tkind t = k /\ rel x (twidth t, tvalue t mod 2 ^ twidth t).
Proof.
  destruct t as [k' w z]. intros H. assert (k' = k) by (destruct k, k'; cbn in H; auto; contradiction). subst k'.
  split; [reflexivity|]. exact (tholds_apint k x w z H).
Qed.

(** * The calls *)
Lemma upd_val {T : Type} (mk : apint -> T) (un : T -> apint) (m : mut_result) c r : (forall x, un (mk x) = x) ->
  (let! (a, r) := m in Val (mk a, r)) = Val (c, r) -> m = Val (un c, r).
Proof. intros U. destruct m as [[a r']| |]; cbn; try discriminate. intros E. injection E as <- <-. now rewrite U. Qed.

Lemma tbin_cases k o x y u v : tholds (Some (wrap k x)) (Some u) -> tholds (Some (wrap k y)) (Some v) ->
  match tabin o u v with
  | Some (inl u') => exists c, cbin (ap_bin k o) x y = Val (c, Ok tt) /\ tholds (Some (wrap k c)) (Some u')
  | Some (inr e) => exists er, cbin (ap_bin k o) x y = Val (x, Err er) /\ observe er = e
  | None => k = KI /\ (o = TDiv \/ o = TRem) /\ tvalue v <> 0 /\ twidth u <> twidth v
  end.
Proof.
  intros Hx Hy. destruct u as [ku w z], v as [kv w' z'].
  assert (ku = k) by (destruct k, ku; cbn in Hx; auto; contradiction). subst ku.
  assert (kv = k) by (destruct k, kv; cbn in Hy; auto; contradiction). subst kv.
  assert (N : tabin o (mk_tval k w z) (mk_tval k w' z') = None -> k = KI /\ (o = TDiv \/ o = TRem) /\ z' <> 0 /\ w <> w').
  { destruct k, o; cbn [tabin tdivide tkind twidth tvalue]; try discriminate; destruct (Z.eqb_spec z' 0); try discriminate;
      destruct (Z.eqb_spec w w'); try discriminate; auto. }
  destruct k; cbn [tholds wrap] in Hx, Hy.
  - pose proof (ubin_wrap Method o x y) as W. destruct (ubin_sim o (mk_uint x) (mk_uint y) w z w' z' Hx Hy) as (R & _).
    rewrite W in R. unfold uint_upd in R. cbn [v_bin] in R. destruct (tabin o _ _) as [[u'|e]|]; cbn [trel_mut] in R; [| |exact (N eq_refl)].
    + destruct R as (c & E & G). exists (uapint c). split; [exact (upd_val mk_uint uapint _ c _ ltac:(reflexivity) E)|].
      apply good_u in G. destruct c. exact G.
    + destruct R as (er & E & G). exists er. split; [exact (upd_val mk_uint uapint _ (mk_uint x) _ ltac:(reflexivity) E)|exact G].
  - pose proof (ibin_wrap Method o x y) as W. destruct (ibin_sim o (mk_int x) (mk_int y) w z w' z' Hx Hy) as (R & _).
    rewrite W in R. unfold int_upd in R. cbn [v_bin] in R. destruct (tabin o _ _) as [[u'|e]|]; cbn [trel_mut] in R; [| |exact (N eq_refl)].
    + destruct R as (c & E & G). exists (iapint c). split; [exact (upd_val mk_int iapint _ c _ ltac:(reflexivity) E)|].
      apply good_i in G. destruct c. exact G.
    + destruct R as (er & E & G). exists er. split; [exact (upd_val mk_int iapint _ (mk_int x) _ ltac:(reflexivity) E)|exact G].
Qed.

Lemma tmut_cases k m x u : tmut_ok m -> tholds (Some (wrap k x)) (Some u) -> m <> TAbs ->
  match tamut m u with
  | inl u' => exists c, v_tmut k m x = Val (c, Ok tt) /\ tholds (Some (wrap k c)) (Some u')
  | inr e => exists er, v_tmut k m x = Val (x, Err er) /\ observe er = e
  end.
Proof.
  intros Hm Hx A. destruct u as [ku w z].
  assert (ku = k) by (destruct k, ku; cbn in Hx; auto; contradiction). subst ku. destruct k; cbn [tholds wrap] in Hx.
  - destruct (umut_sim m (mk_uint x) w z Hm Hx A) as (g & h & E1 & _ & R & _). rewrite umut_wrap in E1.
    assert (V : v_mut KU Method m x = Some (v_tmut KU m x)) by (destruct m; (contradiction || reflexivity)).
    rewrite V in E1. injection E1 as <-. unfold uint_upd in R. destruct (tamut m _) as [u'|e]; cbn [trel_mut] in R.
    + destruct R as (c & E & G). exists (uapint c). split; [exact (upd_val mk_uint uapint _ c _ ltac:(reflexivity) E)|].
      apply good_u in G. destruct c. exact G.
    + destruct R as (er & E & G). exists er. split; [exact (upd_val mk_uint uapint _ (mk_uint x) _ ltac:(reflexivity) E)|exact G].
  - destruct (imut_sim m (mk_int x) w z Hm Hx) as (g & h & E1 & _ & R & _). rewrite imut_wrap in E1.
    assert (V : v_mut KI Method m x = Some (v_tmut KI m x)) by (destruct m; (contradiction || reflexivity)).
    rewrite V in E1. injection E1 as <-. unfold int_upd in R. destruct (tamut m _) as [u'|e]; cbn [trel_mut] in R.
    + destruct R as (c & E & G). exists (iapint c). split; [exact (upd_val mk_int iapint _ c _ ltac:(reflexivity) E)|].
      apply good_i in G. destruct c. exact G.
    + destruct R as (er & E & G). exists er. split; [exact (upd_val mk_int iapint _ (mk_int x) _ ltac:(reflexivity) E)|exact G].
Qed.


(** What the caught call leaves, whatever the form. *)
Definition after_call (k : kind) (x x' : apint) (u : tval) (a : option tres) (r : option (result unit)) : Prop :=
  match a with
  | Some (inl u') => r = Some (Ok tt) /\ tholds (Some (wrap k x')) (Some u')
  | Some (inr e) => x' = x /\ exists er, r = Some (Err er) /\ observe er = e
  | None => r = None /\ tholds (Some (wrap k x')) (Some (without_sign u))
  end.

Lemma ref_never G L h f c r : refines h L f (framed G rmut) -> f = Val (c, r) ->
  refines (h_never h) L (Val (c, Some r)) (framed G LUnwind.umut).
Proof.
  intros H ->. unfold h_never. eapply ref_step; [exact H|]. intros [a r'] L' (L'' & -> & Eq & Hr). cbn [fst snd] in *. subst r'.
  apply ref_ret. exists L''. split; [reflexivity|]. split; auto.
Qed.

Lemma signed_mag x w z : is_int (mk_int x) w z -> forall c, rel c (magnitude (w, z mod 2 ^ w)) -> is_int (mk_int c) w (norm KI w (Z.abs z)).
Proof.
  intros H c R.
  assert (A : asigned (w, z mod 2 ^ w) = z).
  { pose proof (of_int (mk_int x) w z H) as X. destruct (rel_open x (w, z mod 2 ^ w) X) as (Wx & Lx & Ux & Sx). rewrite Sx.
    destruct H as (_ & E1 & E2). exact E2. }
  unfold magnitude in R. rewrite A in R. cbn [fst] in R. apply to_int. cbn [iapint].
  destruct (rel_open c _ R) as (Wc & Lc & Uc & _). cbn [fst snd] in *. pose proof (unsigned_bound c Wc).
  rewrite Lc, <- Uc in *. rewrite Z.mod_small by assumption. exact R.
Qed.

Lemma after_tbin k o a x La gb b y Lb Lr u v : repr a x La -> reprb gb b y Lb ->
  tholds (Some (wrap k x)) (Some u) -> tholds (Some (wrap k y)) (Some v) ->
  exists x' r, refines (hc_bin k o a b) (La ++ Lb ++ Lr) (Val (x', r)) (framed (Lb ++ Lr) LUnwind.umut) /\ after_call k x x' u (tabin o u v) r.
Proof.
  intros Ha Hb Hx Hy. destruct (wrap_holds k x u Hx) as (_ & Rx). destruct (wrap_holds k y v Hy) as (_ & Ry).
  destruct (rel_open x _ Rx) as (Wx & Lx & Ux & Sx). destruct (rel_open y _ Ry) as (Wy & Ly & Uy & Sy).
  pose proof (tbin_cases k o x y u v Hx Hy) as C.
  assert (D : (k = KI /\ (o = TDiv \/ o = TRem)) \/ hc_bin k o a b = h_never (h_bin (ap_bin k o) a b) /\ tabin o u v <> None).
  { destruct (tabin o u v) eqn:E; [|left; tauto]. destruct k, o; auto; right; split; auto; discriminate. }
  destruct D as [(-> & Ho)|(-> & Nn)].
  - set (p := ap_bin KI o) in *. assert (Sp : signed_bin p) by (unfold p; destruct Ho as [-> | ->]; [left|right]; reflexivity).
    assert (Eh : hc_bin KI o a b = h_sbin p a b) by (unfold p; destruct Ho as [-> | ->]; reflexivity). rewrite Eh.
    pose proof (ref_sbin p a x La gb b y Lb Lr Sp Ha Hb Wx Wy) as R.
    destruct (tabin o u v) as [[u'|e]|].
    + destruct C as (c & E & Hc). rewrite (give_bin p x y Sp Wy) in E. apply give_val in E. rewrite E in R.
      exists c, (Some (Ok tt)). split; [exact R|]. split; auto.
    + destruct C as (er & E & He). rewrite (give_bin p x y Sp Wy) in E. apply give_val in E. rewrite E in R.
      exists x, (Some (Err er)). split; [exact R|]. split; eauto.
    + destruct C as (_ & _ & Nz & Dw). destruct u as [ku w z], v as [kv w' z']. cbn [tkind twidth tvalue] in *.
      assert (ku = KI) by (destruct ku; cbn in Hx; auto; contradiction). subst ku.
      assert (kv = KI) by (destruct kv; cbn in Hy; auto; contradiction). subst kv. cbn [tholds wrap] in Hx, Hy.
      assert (Nm : snd (w', z' mod 2 ^ w') <> 0).
      { cbn [snd]. intros Z0. apply Nz. destruct Hy as (Wy' & E1 & E2). cbn [iapint] in *. cbn [snd] in Uy. rewrite Z0 in Uy.
        pose proof (wf_len y Wy). revert E2. unfold signed. rewrite <- Uy. unfold Spec.to_signed. intros <-.
        destruct (0 <? 2 ^ (len y - 1)) eqn:F; [reflexivity|]. apply Z.ltb_ge in F. pose proof (Z.pow_pos_nonneg 2 (len y - 1)). lia. }
      destruct Ho as [-> | ->].
      * destruct (u_signed_panic SignedDiv _ sdiv_sign x y _ _ good_udivrem Rx Ry Nm Dw) as (x' & E & Rx').
        change (LUnwind.u_bin p x y) with (LUnwind.u_bin BSdiv x y) in R. cbn [LUnwind.u_bin] in R. rewrite E in R. exists x', None. split; [exact R|]. split; [reflexivity|].
        cbn [wrap tholds without_sign tkind twidth tvalue]. exact (signed_mag x w z Hx x' Rx').
      * destruct (u_signed_panic SignedRem _ srem_sign x y _ _ good_uremdiv Rx Ry Nm Dw) as (x' & E & Rx').
        change (LUnwind.u_bin p x y) with (LUnwind.u_bin BSrem x y) in R. cbn [LUnwind.u_bin] in R. rewrite E in R. exists x', None. split; [exact R|]. split; [reflexivity|].
        cbn [wrap tholds without_sign tkind twidth tvalue]. exact (signed_mag x w z Hx x' Rx').
  - pose proof (ref_by_frame _ La Lb Lr _ (ref_bin (ap_bin k o) a x La gb b y Lb _ _ Ha Hb Rx Ry)) as R.
    destruct (tabin o u v) as [[u'|e]|]; [| |contradiction].
    + destruct C as (c & E & Hc). exists c, (Some (Ok tt)). split; [exact (ref_never _ _ _ _ _ _ R E)|]. split; auto.
    + destruct C as (er & E & He). exists x, (Some (Err er)). split; [exact (ref_never _ _ _ _ _ _ R E)|]. split; eauto.
Qed.
Lemma after_tmut k m a x La Lr u : tmut_ok m -> m <> TAbs -> repr a x La -> tholds (Some (wrap k x)) (Some u) ->
  exists x' r, refines (h_never (h_tmut k m a)) (La ++ Lr) (Val (x', r)) (framed Lr LUnwind.umut) /\ after_call k x x' u (Some (tamut m u)) r.
Proof.
  intros Hm A Ha Hx. destruct (wrap_holds k x u Hx) as (_ & Rx). pose proof (tmut_cases k m x u Hm Hx A) as C.
  pose proof (ref_frame _ _ Lr _ _ (ref_tmut k m a x La _ Hm Ha Rx)) as R. cbn [after_call]. destruct (tamut m u) as [u'|e].
  - destruct C as (c & E & Hc). exists c, (Some (Ok tt)). split; [exact (ref_never _ _ _ _ _ _ R E)|]. split; auto.
  - destruct C as (er & E & He). exists x, (Some (Err er)). split; [exact (ref_never _ _ _ _ _ _ R E)|]. split; eauto.
Qed.

(** * Results *)
Definition by_change (f : form) (s : tstore) (i : nat) (u : tval) (a : option tres) : tstore * option tobs :=
  match opt_bind a (by_form f) with
  | Some t => let (s, o) := tchange s i t in (s, Some o)
  | None => (match a with None => update i (Some (without_sign u)) s | Some _ => s end, None)
  end.
Definition by_create (f : form) (s : tstore) (a : option tres) : tstore * option tobs :=
  match opt_bind a (by_form f) with Some t => let (s, o) := tcreate s t in (s, Some o) | None => (s, None) end.

Lemma finish_change g f k hs ts s Lr i L0 h x x' r u a v : g i = true -> tsown g (update i None hs) (update i None ts) Lr -> nth_error hs i = Some v ->
  nth_error ts i = Some (Some (wrap k x)) -> Forall2 tholds ts s ->
  refines h L0 (Val (x', r)) (framed Lr LUnwind.umut) -> after_call k x x' u a r ->
  exists ts', refines (hc_change k hs i (hc_by_form f h)) L0 (Val (ts', snd (by_change f s i u a))) (cpost g) /\ Forall2 tholds ts' (fst (by_change f s i u a)).
Proof.
  intros Gi So E Ex H R C. exists (update i (Some (wrap k x')) ts). split.
  - unfold hc_change, hc_by_form. apply (ref_step _ _ _ (x', match f, r with Operator, Some (Err _) => None | _, _ => r end) _ (framed Lr LUnwind.umut)).
    { eapply ref_step; [exact R|]. intros [b r'] L' (L1 & -> & Er & Hr). cbn [fst snd] in *. subst r'. apply ref_ret. exists L1.
      split; [reflexivity|]. split; [reflexivity|exact Hr]. }
    intros [b r'] L' (L1 & -> & Er & Hr). cbn [fst snd] in *. subst r'. apply ref_ret. split.
    + cbn [snd]. unfold by_change. destruct a as [[u'|e]|]; cbn [after_call opt_bind] in *.
      * destruct C as (-> & _). destruct f; reflexivity.
      * destruct C as (_ & er & -> & <-). destruct f; reflexivity.
      * destruct C as (-> & _). destruct f; reflexivity.
    + cbn [fst]. rewrite <- (update_twice i (Some (mk_htvar k b)) None hs), <- (update_twice i (Some (wrap k x')) None ts).
      apply tsown_fill; [exact So|exact (nth_update_same i None v hs E)|now rewrite Gi].
  - unfold by_change. destruct a as [[u'|e]|]; cbn [after_call opt_bind by_form] in *.
    + destruct C as (_ & Hc). destruct f; cbn [by_form tchange fst]; now apply tupdate_sim.
    + destruct C as (-> & _). rewrite update_id by exact Ex. destruct f; exact H.
    + destruct C as (_ & Hc). now apply tupdate_sim.
Qed.
Lemma finish_create g f k hs ts s Lr L0 h x x' r u a : g (length hs) = true -> tsown g hs ts Lr -> Forall2 tholds ts s ->
  refines h L0 (Val (x', r)) (framed Lr LUnwind.umut) -> after_call k x x' u a r ->
  exists ts', refines (hc_create k hs (hc_into f h)) L0 (Val (ts', snd (by_create f s a))) (cpost g) /\ Forall2 tholds ts' (fst (by_create f s a)).
Proof.
  intros Gn So H R C. unfold hc_create, hc_into, h_forward_catch, by_create. destruct a as [[u'|e]|]; cbn [after_call opt_bind] in *.
  - destruct C as (-> & Hc). exists (ts ++ [Some (wrap k x')]). split.
    + eapply ref_step; [|].
      { eapply ref_step; [|].
        { eapply ref_step; [exact R|]. intros [b r'] L' (L1 & -> & Er & Hr). cbn [fst snd] in *. subst r'.
          apply (ref_ret (Some (Ok b)) (Some (Ok x')) _ (fun p q L' => match p, q with
            | Some (Ok b), Some (Ok x) => exists L'', L' = L'' ++ Lr /\ repr b x L'' | _, _ => False end)). exists L1. auto. }
        intros [[b|]|] L' Q; try tauto.
        assert (Eb : match f, Some (Ok b) with Operator, Some (Err _) => None | _, _ => Some (Ok b) end = Some (Ok b)) by (destruct f; reflexivity).
        apply (ref_ret _ (Some (Ok x')) _ (fun p q L' => match p, q with
            | Some (Ok b), Some (Ok x) => exists L'', L' = L'' ++ Lr /\ repr b x L'' | _, _ => False end)). rewrite Eb. exact Q. }
      intros [[b|]|] L' Q; try tauto. destruct Q as (L1 & -> & Hr). apply ref_ret. split; [destruct f; reflexivity|]. cbn [fst].
      apply tsown_append; [exact So|now rewrite Gn].
    + assert (X : Forall2 tholds (ts ++ [Some (wrap k x')]) (s ++ [Some u'])) by (apply Forall2_app; auto).
      destruct f; exact X.
  - destruct C as (_ & er & -> & <-). exists ts. split; [|destruct f; exact H].
    eapply ref_step; [|].
    { eapply ref_step; [|].
      { eapply ref_step; [exact R|]. intros [b r'] L' (L1 & -> & Er & Hr). cbn [fst snd] in *. subst r'.
        eapply ref_step; [apply ref_left, (ref_drop b x' L1 Hr)|]. intros _ L' (L2 & -> & ->).
        apply (ref_ret (Some (Err er)) tt _ (fun p _ L' => p = Some (Err er) /\ L' = Lr)). auto. }
      intros p L' (-> & ->). apply (ref_ret _ tt _ (fun p _ L' => p = (match f with Operator => None | Method => Some (Err er) end) /\ L' = Lr)).
      destruct f; auto. }
    intros p L' (-> & ->). destruct f; apply ref_ret; (split; [reflexivity|exact So]).
  - destruct C as (-> & _). exists ts. split; [|exact H].
    eapply ref_step; [|].
    { eapply ref_step; [|].
      { eapply ref_step; [exact R|]. intros [b r'] L' (L1 & -> & Er & Hr). cbn [fst snd] in *. subst r'.
        eapply ref_step; [apply ref_left, (ref_drop b x' L1 Hr)|]. intros _ L' (L2 & -> & ->).
        apply (ref_ret None tt _ (fun p _ L' => p = None /\ L' = Lr)). auto. }
      intros p L' (-> & ->). apply (ref_ret _ tt _ (fun (p : option (result hapint)) _ L' => p = None /\ L' = Lr)). destruct f; auto. }
    intros p L' (-> & ->). apply ref_ret. split; [reflexivity|exact So].
Qed.

(** * Variables *)
Lemma catch_get1 g hs ts L s i K (R : tstore * option tobs) : Forall2 tholds ts s -> tsown g hs ts L ->
  ((forall v, nth_error s i <> Some (Some v)) -> R = (s, Some rejected)) ->
  (forall k a x La Lr u, nth_error hs i = Some (Some (mk_htvar k a)) -> nth_error ts i = Some (Some (wrap k x)) -> nth_error s i = Some (Some u) ->
    tholds (Some (wrap k x)) (Some u) -> Permutation L (La ++ Lr) -> reprb (g i) a x La -> tsown g (update i None hs) (update i None ts) Lr ->
    exists ts', refines (K k a) (La ++ Lr) (Val (ts', snd R)) (cpost g) /\ Forall2 tholds ts' (fst R)) ->
  exists ts', refines (hc_get1 hs i K) L (Val (ts', snd R)) (cpost g) /\ Forall2 tholds ts' (fst R).
Proof.
  intros H So Rj C. unfold hc_get1. pose proof (tget_sim ts s i H) as G.
  assert (J : (forall v, nth_error hs i <> Some (Some v)) ->
    exists ts', refines (hret (hs, Some rejected)) L (Val (ts', snd R)) (cpost g) /\ Forall2 tholds ts' (fst R)).
  { intros N. pose proof (tsown_gone g hs ts L i So N) as N2. rewrite Rj.
    - exists ts. split; [|exact H]. apply ref_ret. split; [reflexivity|exact So].
    - intros v Ev. rewrite Ev in G. destruct (nth_error ts i) as [[t|]|]; try contradiction. now apply (N2 t). }
  destruct (nth_error hs i) as [[[k a]|]|] eqn:E; [|apply J; congruence|apply J; congruence].
  destruct (tsown_take g hs ts L i k a So E) as (x & La & Lr & Ec & P & Ha & Hs). rewrite Ec in G.
  destruct (nth_error s i) as [[u|]|] eqn:Es; try contradiction. cbn [hkind hval].
  destruct (C k a x La Lr u eq_refl Ec eq_refl G P Ha Hs) as (ts' & Rf & Ht). exists ts'. split; [|exact Ht].
  eapply ref_perm; [exact P|exact Rf].
Qed.
Lemma catch_get2 g hs ts L s i j K (R : tstore * option tobs) : Forall2 tholds ts s -> tsown g hs ts L ->
  ((i = j \/ (forall v, nth_error s i <> Some (Some v)) \/ (forall v, nth_error s j <> Some (Some v)) \/
     (exists u v, nth_error s i = Some (Some u) /\ nth_error s j = Some (Some v) /\ tkind u <> tkind v)) -> R = (s, Some rejected)) ->
  (forall k a x La b y Lb Lr u v, i <> j -> nth_error hs i = Some (Some (mk_htvar k a)) -> nth_error ts i = Some (Some (wrap k x)) ->
    nth_error s i = Some (Some u) -> nth_error s j = Some (Some v) ->
    tholds (Some (wrap k x)) (Some u) -> tholds (Some (wrap k y)) (Some v) -> reprb (g i) a x La -> reprb (g j) b y Lb ->
    tsown g (update i None hs) (update i None ts) (Lb ++ Lr) ->
    exists ts', refines (K k a b) (La ++ Lb ++ Lr) (Val (ts', snd R)) (cpost g) /\ Forall2 tholds ts' (fst R)) ->
  exists ts', refines (hc_get2 hs i j K) L (Val (ts', snd R)) (cpost g) /\ Forall2 tholds ts' (fst R).
Proof.
  intros H So Rj C. unfold hc_get2.
  assert (J : forall L', tsown g hs ts L' -> R = (s, Some rejected) ->
    exists ts', refines (hret (hs, Some rejected)) L' (Val (ts', snd R)) (cpost g) /\ Forall2 tholds ts' (fst R)).
  { intros L' S' ->. exists ts. split; [|exact H]. apply ref_ret. split; [reflexivity|exact S']. }
  destruct (Nat.eqb_spec i j) as [D|D]; [apply J; auto|].
  apply (catch_get1 g hs ts L s i); [exact H|exact So|auto|]. intros k a x La Lr u E Ec Es Hu P Ha Hs.
  assert (S0 : tsown g hs ts (La ++ Lr)) by (eapply tsown_perm; [symmetry; exact P|exact So]).
  unfold hc_get1. destruct (nth_error hs j) as [[[k' b]|]|] eqn:F.
  - rewrite <- (nth_update_other i j None hs D) in F.
    destruct (tsown_take g _ _ Lr j k' b Hs F) as (y & Lb & Lq & Fc & Q & Hb & Ht). rewrite (nth_update_other i j None hs D) in F.
    rewrite (nth_update_other i j None ts D) in Fc. pose proof (tget_sim ts s j H) as G. rewrite Fc in G.
    destruct (nth_error s j) as [[v|]|] eqn:Fs; try contradiction. cbn [hkind hval].
    destruct (wrap_holds k x u Hu) as (Ku & _). destruct (wrap_holds k' y v G) as (Kv & _).
    assert (DK : k = k' \/ k <> k') by (destruct k, k'; (now left) || (right; discriminate)). destruct DK as [<- |DK].
    + assert (Es' : forall A (yes no : A), if_same_kind k k yes no = yes) by (intros; destruct k; reflexivity). rewrite Es'.
      destruct (C k a x La b y Lb Lq u v D E Ec Es eq_refl Hu G Ha Hb) as (ts' & Rf & Hf).
      { now apply (tsown_put_back g hs ts i j k b y). }
      exists ts'. split; [|exact Hf]. eapply ref_perm; [apply Permutation_app_head, Q|exact Rf].
    + assert (Es' : forall A (yes no : A), if_same_kind k k' yes no = no) by (intros; destruct k, k'; (contradiction || reflexivity)). rewrite Es'.
      apply J; [exact S0|]. apply Rj. right. right. right. exists u, v. split; [exact Es|]. split; [reflexivity|]. congruence.
  - assert (N := tsown_gone g hs ts _ j S0 ltac:(congruence)). apply J; [exact S0|]. apply Rj. right. right. left. intros v Ev.
    pose proof (tget_sim ts s j H) as G. rewrite Ev in G. destruct (nth_error ts j) as [[t|]|]; try contradiction. now apply (N t).
  - assert (N := tsown_gone g hs ts _ j S0 ltac:(congruence)). apply J; [exact S0|]. apply Rj. right. right. left. intros v Ev.
    pose proof (tget_sim ts s j H) as G. rewrite Ev in G. destruct (nth_error ts j) as [[t|]|]; try contradiction. now apply (N t).
Qed.

(** * Programs *)
Lemma ref_tusual g hs ts L s c : tcmd_ok c -> Forall2 tholds ts s -> opens g (length hs) -> tallowed g c -> tsown g hs ts L -> tastep s c <> None ->
  exists ts', refines (let* (s, o) := htstep hs c in hret (s, Some o)) L (Val (ts', snd (tacatch s c))) (cpost g) /\ Forall2 tholds ts' (fst (tacatch s c)).
Proof.
  intros Hc H Go Gw So N. unfold tacatch. destruct (tastep s c) as [[s' o]|] eqn:E; [|contradiction]. pose proof (tstep_sim ts s c Hc H) as St.
  rewrite E in St. destruct St as (ts' & Ec & H'). exists ts'. split; [|exact H'].
  pose proof (ref_tstep g hs ts L c Hc ltac:(now exists s) Go Gw So) as R. rewrite Ec in R. eapply ref_step; [exact R|].
  intros [hs' o'] L' (Eo & S'). cbn [fst snd] in *. subst o'. apply ref_ret. split; [reflexivity|exact S'].
Qed.

Lemma get2_rejected s i j f : i = j \/ (forall v, nth_error s i <> Some (Some v)) \/ (forall v, nth_error s j <> Some (Some v)) \/
     (exists u v, nth_error s i = Some (Some u) /\ nth_error s j = Some (Some v) /\ tkind u <> tkind v) -> tget2' s i j f = Some (s, rejected).
Proof.
  intros D. unfold tget2'. destruct (Nat.eqb_spec i j) as [|N]; [reflexivity|]. unfold tget2, tget1.
  destruct D as [D|[D|[D|(u & v & E1 & E2 & D)]]]; [contradiction| | |].
  - destruct (nth_error s i) as [[v|]|]; try reflexivity. now elim (D v).
  - destruct (nth_error s i) as [[u|]|]; try reflexivity. destruct (nth_error s j) as [[v|]|]; try reflexivity. now elim (D v).
  - rewrite E1, E2. destruct (tkind u), (tkind v); try contradiction; reflexivity.
Qed.
Lemma get2_here s i j f u v k x y : i <> j -> nth_error s i = Some (Some u) -> nth_error s j = Some (Some v) ->
  tholds (Some (wrap k x)) (Some u) -> tholds (Some (wrap k y)) (Some v) -> tget2' s i j f = f u v.
Proof.
  intros N E1 E2 Hu Hv. unfold tget2'. destruct (Nat.eqb_spec i j) as [|_]; [contradiction|]. unfold tget2, tget1. rewrite E1, E2.
  destruct (wrap_holds k x u Hu) as (-> & _). destruct (wrap_holds k y v Hv) as (-> & _). destruct k; reflexivity.
Qed.
Lemma get1_rejected s i f : (forall v, nth_error s i <> Some (Some v)) -> tget1 s i f = Some (s, rejected).
Proof. intros D. unfold tget1. destruct (nth_error s i) as [[v|]|]; try reflexivity. now elim (D v). Qed.

Definition may_tpanic (c : tcmd) : Prop :=
  match c with
  | TMut Operator _ _ | TInto Operator _ _ | TBin _ _ _ _ | TIntoBin _ _ _ _ | TAsk TOctal _ => True
  | _ => False
  end.
Lemma tastep_total s c : ~ may_tpanic c -> tastep s c <> None.
Proof.
  destruct c as [k n|x|x|f m x|f m x|m x|f o x y|f o x y|x y|x y|o x y|o x y|x y|x y|x|k x|q x]; cbn [tastep may_tpanic]; intros N;
    unfold tget2', tget2, tget1, rejected; try tauto; try discriminate;
    repeat match goal with
    | |- context [if Nat.eqb ?a ?b then _ else _] => destruct (Nat.eqb a b)
    | |- context [match nth_error ?l ?i with _ => _ end] => destruct (nth_error l i) as [[?|]|]
    | |- context [if ?b then _ else _] => destruct b
    end; try discriminate;
    try (destruct f; try tauto; cbn; discriminate).
  destruct q; try tauto; cbn [taask option_map]; discriminate.
Qed.

Lemma tcatch_step_g g hs ts L s c : tcmd_ok c -> Forall2 tholds ts s -> opens g (length hs) -> tallowed g c -> tsown g hs ts L ->
  exists ts', refines (htcatch hs c) L (Val (ts', snd (tacatch s c))) (cpost g) /\ Forall2 tholds ts' (fst (tacatch s c)).
Proof.
  intros Hc H Go Gw So. assert (Gn : g (length hs) = true) by (apply Go; lia).
  pose proof (fun N => ref_tusual g hs ts L s c Hc H Go Gw So (tastep_total s c N)) as U. unfold htcatch.
  assert (Hn : forall i, Forall2 tholds (update i None ts) (update i None s)) by (intros i; apply tupdate_sim; [exact H|exact Logic.I]).
  destruct c as [k n|x|x|f m x|f m x|m x|f o x y|f o x y|x y|x y|o x y|o x y|x y|x y|x|k x|q x]; try (apply U; cbn; tauto).
  - assert (Rest : (f = Operator -> match m with TShl _ | TShr _ => False | _ => True end) ->
      exists ts', refines (let* (s, o) := htstep hs (TMut f m x) in hret (s, Some o)) L (Val (ts', snd (tacatch s (TMut f m x)))) (cpost g) /\
        Forall2 tholds ts' (fst (tacatch s (TMut f m x)))).
    { intros Hf. apply (ref_tusual g hs ts L s (TMut f m x)); auto. cbn [tastep]. unfold tget1. destruct (nth_error s x) as [[u|]|]; try discriminate.
      destruct f; cbn [by_form]; [destruct (has_mut Method (tkind u) m); discriminate|]. specialize (Hf eq_refl).
      destruct m; try contradiction; cbn [has_mut]; discriminate. }
    assert (Sp : f = Operator -> m <> TAbs -> has_mut Operator KU m = true ->
      exists ts', refines (hc_get1 hs x (fun k a => hc_change k hs x (hc_by_form Operator (h_never (h_tmut k m a))))) L
        (Val (ts', snd (tacatch s (TMut f m x)))) (cpost g) /\ Forall2 tholds ts' (fst (tacatch s (TMut f m x)))).
    { intros -> A Hm. apply (catch_get1 g hs ts L s x); [exact H|exact So| |].
      - intros N. unfold tacatch. cbn [tastep]. now rewrite (get1_rejected s x _ N).
      - intros k a w La Lr u E Ec Es Hu P Ha Hs. rewrite (Gw x ltac:(cbn; auto)) in Ha. destruct (after_tmut k m a w La Lr u Hc A Ha Hu) as (x' & r & R & C).
        destruct (finish_change g Operator k hs ts s Lr x _ _ w x' r u _ _ (Gw x ltac:(cbn; auto)) Hs E Ec H R C) as (ts' & Rf & Hf). exists ts'.
        assert (Eq : tacatch s (TMut Operator m x) = by_change Operator s x u (Some (tamut m u))).
        { unfold tacatch, by_change. cbn [tastep after_tpanic]. unfold tget1. rewrite Es.
          assert (Hh : has_mut Operator (tkind u) m = true) by exact Hm. rewrite Hh. cbn [opt_bind].
          destruct (tamut m u); cbn [by_form option_map]; [destruct (tchange s x _)|]; reflexivity. }
        rewrite Eq. auto. }
    destruct f; [apply Rest; discriminate|]. destruct m; try (apply Rest; auto; fail); apply Sp; auto; discriminate.
  - assert (Rest : (f = Operator -> match m with TShl _ | TShr _ => False | _ => True end) ->
      exists ts', refines (let* (s, o) := htstep hs (TInto f m x) in hret (s, Some o)) L (Val (ts', snd (tacatch s (TInto f m x)))) (cpost g) /\
        Forall2 tholds ts' (fst (tacatch s (TInto f m x)))).
    { intros Hf. apply (ref_tusual g hs ts L s (TInto f m x)); auto. cbn [tastep]. unfold tget1. destruct (nth_error s x) as [[u|]|]; try discriminate.
      destruct f; cbn [by_form]; [destruct (has_into Method (tkind u) m); discriminate|]. specialize (Hf eq_refl).
      destruct m; try contradiction; cbn [has_into tamut by_form]; discriminate. }
    assert (Sp : f = Operator -> m <> TAbs -> has_into Operator KU m = true ->
      exists ts', refines (hc_get1 hs x (fun k a => hc_create k (update x None hs) (hc_into Operator (h_never (h_tmut k m a))))) L
        (Val (ts', snd (tacatch s (TInto f m x)))) (cpost g) /\ Forall2 tholds ts' (fst (tacatch s (TInto f m x)))).
    { intros -> A Hm. apply (catch_get1 g hs ts L s x); [exact H|exact So| |].
      - intros N. unfold tacatch. cbn [tastep]. now rewrite (get1_rejected s x _ N).
      - intros k a w La Lr u E Ec Es Hu P Ha Hs. rewrite (Gw x ltac:(cbn; auto)) in Ha. destruct (after_tmut k m a w La Lr u Hc A Ha Hu) as (x' & r & R & C).
        destruct (finish_create g Operator k _ _ _ Lr _ _ w x' r u _ ltac:(rewrite update_length; exact Gn) Hs (Hn x) R C) as (ts' & Rf & Hf). exists ts'.
        assert (Eq : tacatch s (TInto Operator m x) = by_create Operator (update x None s) (Some (tamut m u))).
        { unfold tacatch, by_create. cbn [tastep after_tpanic]. unfold tget1. rewrite Es.
          assert (Hh : has_into Operator (tkind u) m = true) by exact Hm. rewrite Hh. cbn [opt_bind].
          destruct (tamut m u); cbn [by_form option_map]; [destruct (tcreate _ _)|]; reflexivity. }
        rewrite Eq. auto. }
    destruct f; [apply Rest; discriminate|]. destruct m; try (apply Rest; auto; fail); apply Sp; auto; discriminate.
  - apply (catch_get2 g hs ts L s x y); [exact H|exact So| |].
    + intros N. unfold tacatch. cbn [tastep]. now rewrite (get2_rejected s x y _ N).
    + intros k a w La b z Lb Lr u v N E Ec Es Fs Hu Hv Ha Hb Hs. rewrite (Gw x ltac:(cbn; auto)) in Ha.
      destruct (after_tbin k o a w La (g y) b z Lb Lr u v Ha Hb Hu Hv) as (x' & r & R & C).
      destruct (finish_change g f k hs ts s _ x _ _ w x' r u _ _ (Gw x ltac:(cbn; auto)) Hs E Ec H R C) as (ts' & Rf & Hf). exists ts'.
      assert (Eq : tacatch s (TBin f o x y) = by_change f s x u (tabin o u v)).
      { unfold tacatch, by_change. cbn [tastep after_tpanic]. rewrite (get2_here s x y _ u v k w z N Es Fs Hu Hv), Es, Fs.
        destruct (tabin o u v) as [[t|e]|]; destruct f; cbn [opt_bind by_form option_map]; try reflexivity; destruct (tchange s x _); reflexivity. }
      rewrite Eq. auto.
  - apply (catch_get2 g hs ts L s x y); [exact H|exact So| |].
    + intros N. unfold tacatch. cbn [tastep]. now rewrite (get2_rejected s x y _ N).
    + intros k a w La b z Lb Lr u v N E Ec Es Fs Hu Hv Ha Hb Hs. rewrite (Gw x ltac:(cbn; auto)) in Ha.
      destruct (after_tbin k o a w La (g y) b z Lb Lr u v Ha Hb Hu Hv) as (x' & r & R & C).
      destruct (finish_create g f k _ _ _ _ _ _ w x' r u _ ltac:(rewrite update_length; exact Gn) Hs (Hn x) R C) as (ts' & Rf & Hf). exists ts'.
      assert (Eq : tacatch s (TIntoBin f o x y) = by_create f (update x None s) (tabin o u v)).
      { unfold tacatch, by_create. cbn [tastep after_tpanic]. rewrite (get2_here s x y _ u v k w z N Es Fs Hu Hv).
        destruct (tabin o u v) as [[t|e]|]; destruct f; cbn [opt_bind by_form option_map]; try reflexivity; destruct (tcreate _ _); reflexivity. }
      rewrite Eq. auto.
  - destruct q; try (apply U; cbn; tauto). apply (catch_get1 g hs ts L s x); [exact H|exact So| |].
    + intros N. unfold tacatch. cbn [tastep]. now rewrite (get1_rejected s x _ N).
    + intros k a w La Lr u E Ec Es Hu P Ha Hs.
      assert (S0 : tsown g hs ts (La ++ Lr)) by (eapply tsown_perm; [symmetry; exact P|exact So]).
      destruct (wrap_holds k w u Hu) as (Ku & Ru). destruct (rel_open w _ Ru) as (Ww & Lw & Uw & Sw). cbn [fst snd] in *.
      assert (Eq : tacatch s (TAsk TOctal x) = (s, if tvalue u =? 0 then Some (Shows (OString [48])) else None)).
      { unfold tacatch. cbn [tastep]. unfold tget1. rewrite Es. cbn [signed_only_query].
        assert (Hk : for_kind (tkind u) false = true) by (destruct (tkind u); reflexivity). rewrite Hk. cbn [taask].
        destruct (tvalue u =? 0); reflexivity. }
      rewrite Eq. exists ts. split; [|exact H].
      assert (Ez : is_zero w = Val (tvalue u =? 0)).
      { rewrite (is_zero_spec w (wf_sh w Ww)). f_equal. rewrite <- Uw. destruct u as [ku n z]. cbn [twidth tvalue tkind] in *. subst ku.
        destruct k; cbn [wrap tholds] in Hu.
        - destruct Hu as (_ & _ & Uz). cbn [uapint] in Uz. rewrite Uw, Uz. reflexivity.
        - destruct Hu as (_ & _ & Uz). cbn [iapint] in Uz. pose proof (signed_zero w Ww) as Z0. rewrite Uz in Z0. rewrite Uw.
          destruct (Z.eqb_spec z 0), (Z.eqb_spec (unsigned w) 0); tauto. }
      pose proof (ref_frame _ _ Lr _ _ (ref_ask is_zero _ a w La Ha)) as R. rewrite Ez in R.
      eapply ref_step; [exact R|]. intros z L' (L1 & -> & -> & ->). apply ref_ret. split; [reflexivity|exact S0].
Qed.
Lemma tcatch_step hs ts L s c : tcmd_ok c -> Forall2 tholds ts s -> tsown all_owned hs ts L ->
  exists ts', refines (htcatch hs c) L (Val (ts', snd (tacatch s c))) (cpost all_owned) /\ Forall2 tholds ts' (fst (tacatch s c)).
Proof. intros Hc H. exact (tcatch_step_g all_owned hs ts L s c Hc H (fun _ _ => eq_refl) (fun _ _ => eq_refl)). Qed.
