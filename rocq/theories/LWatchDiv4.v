(** What signed divisions let an observer see. *)
From Verif Require Export LWatchDiv3.
From Verif Require Import LDiv7 LUnwind LEx.
From Coq Require Import Lia ZArith.

Definition moved (f : place -> place) (e : event) : event :=
  match e with Read p i => Read (f p) i | Write p i => Write (f p) i | e => e end.
Lemma fst_elsewhere f {A} (m : watched A) : fst (elsewhere f m) = map (moved f) (fst m). Proof. reflexivity. Qed.
Lemma all_zero_prefix f ds : forall i ds' Y Y', List.length ds = List.length ds' ->
  map (moved f) (fst (w_all_zero i ds)) ++ Y = map (moved f) (fst (w_all_zero i ds')) ++ Y' -> fst (w_all_zero i ds) = fst (w_all_zero i ds') /\ Y = Y'.
Proof.
  induction ds as [|d ds IH]; intros i [|d' ds'] Y Y' L H; try discriminate L; [now split|]. injection L as L. cbn [w_all_zero] in *.
  destruct (d_is_zero d), (d_is_zero d'); cbn in H |- *; try discriminate H.
  - injection H as H. destruct (IH _ _ _ _ L H) as [E F]. split; [|exact F]. rewrite E. reflexivity.
  - injection H as H. now split.
Qed.
Lemma is_zero_prefix f b b' Y Y' : wf b -> wf b' -> len b = len b' ->
  map (moved f) (fst (w_is_zero b)) ++ Y = map (moved f) (fst (w_is_zero b')) ++ Y' -> fst (w_is_zero b) = fst (w_is_zero b') /\ Y = Y'.
Proof.
  intros H H' E. pose proof (wf_alike _ _ H H' E) as [_ L]. unfold w_is_zero. destruct (Z_le_gt_dec (len b) 64) as [S|S].
  - destruct (small_access Self b H S) as (d & ->), (small_access Self b' H' ltac:(lia)) as (d' & ->). intros K. split; [reflexivity|]. cbn in K. now injection K.
  - unfold w_access_data, access_data. rewrite !large_storage by lia. rewrite (fst_bind _ (DExt (digits b))), (fst_bind _ (DExt (digits b'))) by reflexivity. rewrite !map_app, <- !app_assoc. intros K. cbn in K. injection K as K.
    apply all_zero_prefix in K; [|exact L]. destruct K as [-> ->]. now split.
Qed.
Lemma same_elsewhere {A} {I : Alike A} f (m m' : watched A) : same m m' -> same (elsewhere f m) (elsewhere f m').
Proof. intros [E O]. split; [rewrite !fst_elsewhere; now f_equal|exact O]. Qed.
(** * The beginning *)
Definition signs_known {A} (f : apint -> apint -> watched A) : Prop := forall a a' b b', wf a -> wf a' -> wf b -> wf b' -> len a = len a' -> len b = len b' ->
  (fst (f a b) = fst (f a' b') ->
   (len b <= 64 \/ forall i, 0 <= i -> (unsigned b mod 2 ^ (64 * i) = 0 <-> unsigned b' mod 2 ^ (64 * i) = 0)) /\
   (unsigned b = 0 <-> unsigned b' = 0) /\ (unsigned b <> 0 -> (signed a < 0 <-> signed a' < 0) /\ (signed b < 0 <-> signed b' < 0))) /\
  (len a <= 64 -> len b <= 64 -> (unsigned b = 0 <-> unsigned b' = 0) -> (unsigned b <> 0 -> (signed a < 0 <-> signed a' < 0) /\ (signed b < 0 <-> signed b' < 0)) -> fst (f a b) = fst (f a' b')).
Lemma signs_start {A} (f : apint -> apint -> watched A) (P R Q : apint -> apint -> list event) :
  (forall a b, wf a -> wf b -> fst (f a b) = map (moved on_rhs) (fst (w_is_zero b)) ++ [Branch (unsigned b =? 0)] ++ (if unsigned b =? 0 then Q a b else P a b ++ [Branch (signed a <? 0); Branch (signed b <? 0)] ++ R a b)) ->
  (forall a b a' b', wf a -> wf a' -> wf b -> wf b' -> alike a a' -> alike b b' -> P a b = P a' b' /\ Q a b = Q a' b') ->
  (forall a b a' b', wf a -> wf a' -> wf b -> wf b' -> len a = len a' -> len b = len b' -> len a <= 64 -> len b <= 64 -> unsigned b <> 0 -> unsigned b' <> 0 -> (signed a <? 0) = (signed a' <? 0) -> (signed b <? 0) = (signed b' <? 0) -> R a b = R a' b') ->
  signs_known f.
Proof.
  intros F C S a a' b b' Ha Ha' Hb Hb' E G. rewrite !F by assumption. destruct (C a b a' b' Ha Ha' Hb Hb' (wf_alike _ _ Ha Ha' E) (wf_alike _ _ Hb Hb' G)) as [CP CQ]. split.
  - intros H. apply is_zero_prefix in H; [|assumption..]. destruct H as [H K]. apply is_zero_exact in H; [|assumption..]. split; [exact H|].
    cbn [app] in K. injection K as K1 K2. rewrite <- K1, CP in K2. destruct (Z.eqb_spec (unsigned b) 0) as [Z1|Z1], (Z.eqb_spec (unsigned b') 0) as [Z2|Z2]; try discriminate K1; split; try tauto.
    intros _. apply app_head_iff in K2. injection K2 as K2 K3 _. revert K2 K3. destruct (Z.ltb_spec (signed a) 0), (Z.ltb_spec (signed a') 0), (Z.ltb_spec (signed b) 0), (Z.ltb_spec (signed b') 0); intros; try discriminate; lia.
  - intros L M H K. rewrite (proj2 (is_zero_exact b b' Hb Hb' G)) by now left. f_equal. destruct (Z.eqb_spec (unsigned b) 0) as [Z1|Z1], (Z.eqb_spec (unsigned b') 0) as [Z2|Z2]; try tauto; [now rewrite CQ|]. rewrite CP.
    destruct (K Z1) as [K1 K2]. assert ((signed a <? 0) = (signed a' <? 0)) as Q1 by (destruct (Z.ltb_spec (signed a) 0), (Z.ltb_spec (signed a') 0); reflexivity || lia).
    assert ((signed b <? 0) = (signed b' <? 0)) as Q2 by (destruct (Z.ltb_spec (signed b) 0), (Z.ltb_spec (signed b') 0); reflexivity || lia).
    rewrite Q1, Q2. f_equal. f_equal. f_equal. now apply S.
Qed.
(** * The rest, for one digit *)
Definition twin (a a' : apint) : Prop := wf a /\ wf a' /\ len a = len a' /\ len a <= 64.
Lemma neg_twin f s x x' : twin x x' -> exists y y', snd (w_neg_if f s x) = Val y /\ snd (w_neg_if f s x') = Val y' /\ twin y y' /\ len y = len x /\
  (unsigned x <> 0 -> unsigned y <> 0) /\ (unsigned x' <> 0 -> unsigned y' <> 0) /\ fst (w_neg_if f s x) = fst (w_neg_if f s x').
Proof.
  intros (H & H' & E & S). unfold w_neg_if. destruct s; [|exists x, x'; do 2 (split; [reflexivity|]); split; [split; [exact H|]; split; [exact H'|]; now split|]; cbn; tauto].
  destruct (wrapping_neg_spec x H) as (c & C & W & L & U). destruct (wrapping_neg_spec x' H') as (c' & C' & W' & L' & U'). exists c, c'. rewrite !fst_elsewhere.
  pose proof (unsigned_bound x H) as Ux. pose proof (unsigned_bound x' H') as Ux'.
  assert (forall u n, 0 <= u < n -> u <> 0 -> (- u) mod n <> 0) as NZ by (intros u n B N K; rewrite Z.mod_opp_l_nz in K; [|lia|rewrite Z.mod_small; lia]; rewrite Z.mod_small in K; lia).
  split; [cbn; now rewrite we_wrapping_neg|]. split; [cbn; now rewrite we_wrapping_neg|]. split; [split; [exact W|]; split; [exact W'|]; split; [congruence|now rewrite L]|]. split; [exact L|].
  split; [intros N; rewrite U; now apply NZ|]. split; [intros N; rewrite U'; now apply NZ|]. f_equal. apply neg_exact; try assumption. now left.
Qed.
Definition div_twin (f : apint -> apint -> watched (apint * apint * result unit)) : Prop :=
  forall x x' y y', twin x x' -> twin y y' -> unsigned y <> 0 -> unsigned y' <> 0 ->
  fst (f x y) = fst (f x' y') /\
  ((exists e, snd (f x y) = Val (x, y, Err e)) /\ (exists e, snd (f x' y') = Val (x', y', Err e)) \/
   exists q r q' r', snd (f x y) = Val (q, r, Ok tt) /\ snd (f x' y') = Val (q', r', Ok tt) /\ twin q q' /\ twin r r').
Lemma twin_short x y : wf x -> len x <= 64 -> short_division (unsigned x) (unsigned y).
Proof. intros W S. right. left. pose proof (unsigned_bound x W). assert (2 ^ len x <= 2 ^ 64) by (apply Z.pow_le_mono_r; lia). assert (2 ^ 64 < 2 ^ 128) by (apply Z.pow_lt_mono_r; lia). lia. Qed.
Lemma div_twins f g : (forall a b, snd (f a b) = g a b) -> div_seen f -> good_pair g -> div_twin f.
Proof.
  intros E S G x x' y y' (H & H' & L & M) (K & K' & N & O) P Q. split.
  - apply (proj2 (S x x' y y' H H' K K' L N) (twin_short x y H M)). destruct (Z.eq_dec (len x) (len y)); [|now left]. right. left. split; [exact M|]. tauto.
  - rewrite !E. destruct (G x y H K) as [G1 G2]. destruct (G x' y' H' K') as [G1' G2']. destruct (Z.eq_dec (len x) (len y)) as [D|D].
    + right. destruct (G2 D P) as (q & r & T & Wq & Wr & Lq & Lr). destruct (G2' ltac:(congruence) Q) as (q' & r' & T' & Wq' & Wr' & Lq' & Lr'). exists q, r, q', r'. rewrite T, T'. split; [reflexivity|]. split; [reflexivity|].
      split; (split; [assumption|]; split; [assumption|]; split; [congruence|lia]).
    + left. split; [now apply G1|]. apply G1'. congruence.
Qed.
Lemma udivrem_twin : div_twin w_wrapping_udivrem_assign. Proof. exact (div_twins _ _ we_wrapping_udivrem_assign divrem_seen good_udivrem). Qed.
Lemma uremdiv_twin : div_twin w_wrapping_uremdiv_assign. Proof. exact (div_twins _ _ we_wrapping_uremdiv_assign remdiv_seen good_uremdiv). Qed.
Lemma elsewhere_twin f h : div_twin f -> div_twin (fun x y => elsewhere h (f x y)).
Proof. intros D x x' y y' P Q K K'. destruct (D x x' y y' P Q K K') as [E O]. split; [rewrite !fst_elsewhere; now f_equal|exact O]. Qed.
Lemma bind_twin (f : apint -> apint -> watched (apint * apint * result unit)) {C} (k k' : apint * apint -> watched C) x x' y y' : div_twin f -> twin x x' -> twin y y' -> unsigned y <> 0 -> unsigned y' <> 0 ->
  (forall q r q' r', twin q q' -> twin r r' -> fst (k (q, r)) = fst (k' (q', r'))) ->
  fst (wbind (w_unwrap_mut2 (f x y)) k) = fst (wbind (w_unwrap_mut2 (f x' y')) k').
Proof.
  intros D P Q N N' K. destruct (D x x' y y' P Q N N') as [E [[[e O] [e' O']]|(q & r & q' & r' & O & O' & T1 & T2)]]; unfold w_unwrap_mut2, wbind; rewrite O, O'; cbn; rewrite ?app_nil_r; rewrite E; [reflexivity|].
  f_equal. now apply K.
Qed.
Lemma bind_neg {C} f s x x' (k k' : apint -> watched C) : twin x x' ->
  (forall y y', twin y y' -> len y = len x -> (unsigned x <> 0 -> unsigned y <> 0) -> (unsigned x' <> 0 -> unsigned y' <> 0) -> fst (k y) = fst (k' y')) ->
  fst (wbind (w_neg_if f s x) k) = fst (wbind (w_neg_if f s x') k').
Proof.
  intros T H. destruct (neg_twin f s x x' T) as (y & y' & E & E' & T' & L & N & N' & F). rewrite (fst_bind _ _ _ E), (fst_bind _ _ _ E'), F. f_equal. now apply H.
Qed.
Lemma twin_refl_len x x' : wf x -> wf x' -> len x = len x' -> len x <= 64 -> twin x x'. Proof. intros. split; [assumption|]. split; [assumption|]. now split. Qed.
Definition rest_pair (f : apint -> apint -> watched (apint * apint * result unit)) (neg : bool -> bool -> bool * bool) (a b : apint) : list event :=
  let '(negate_lhs, negate_rhs) := neg (signed a <? 0) (signed b <? 0) in
  fst (let& lhs := w_neg_if (fun p => p) (signed a <? 0) a in
       let& rhs := w_neg_if on_rhs (signed b <? 0) b in
       let& (lhs, rhs) := w_unwrap_mut2 (f lhs rhs) in
       let& nl := branch negate_lhs in
       let& lhs := w_neg_if (fun p => p) nl lhs in
       let& nr := branch negate_rhs in
       let& rhs := w_neg_if on_rhs nr rhs in
       wval (lhs, rhs, Ok tt)).
Lemma rest_pair_same f neg a b a' b' : div_twin f -> wf a -> wf a' -> wf b -> wf b' -> len a = len a' -> len b = len b' -> len a <= 64 -> len b <= 64 -> unsigned b <> 0 -> unsigned b' <> 0 ->
  (signed a <? 0) = (signed a' <? 0) -> (signed b <? 0) = (signed b' <? 0) -> rest_pair f neg a b = rest_pair f neg a' b'.
Proof.
  intros D Ha Ha' Hb Hb' E F S T N N' G K. unfold rest_pair. rewrite G, K. destruct (neg (signed a' <? 0) (signed b' <? 0)) as [nl nr].
  apply bind_neg; [now apply twin_refl_len|]. intros x x' X _ _ _. apply bind_neg; [now apply twin_refl_len|]. intros y y' Y _ Q Q'.
  apply (bind_twin _ _ _ x x' y y' D X Y (Q N) (Q' N')). intros q r q' r' Tq Tr. cbv beta iota.
  apply seen_branch; [reflexivity|]. apply bind_neg; [exact Tq|]. intros. apply seen_branch; [reflexivity|]. apply bind_neg; [exact Tr|]. reflexivity.
Qed.
Definition rest_one (f : apint -> apint -> watched (apint * apint * result unit)) (neg : bool -> bool -> bool) (a b : apint) : list event :=
  fst (let& lhs := w_neg_if (fun p => p) (signed a <? 0) a in
       let& rhs := w_neg_if on_clone (signed b <? 0) b in
       let& (lhs, _) := w_unwrap_mut2 (elsewhere by_clone (f lhs rhs)) in
       let& nl := branch (neg (signed a <? 0) (signed b <? 0)) in
       let& lhs := w_neg_if (fun p => p) nl lhs in
       wval (lhs, @Ok unit tt)).
Lemma rest_one_same f neg a b a' b' : div_twin f -> wf a -> wf a' -> wf b -> wf b' -> len a = len a' -> len b = len b' -> len a <= 64 -> len b <= 64 -> unsigned b <> 0 -> unsigned b' <> 0 ->
  (signed a <? 0) = (signed a' <? 0) -> (signed b <? 0) = (signed b' <? 0) -> rest_one f neg a b = rest_one f neg a' b'.
Proof.
  intros D Ha Ha' Hb Hb' E F S T N N' G K. unfold rest_one. rewrite G, K.
  apply bind_neg; [now apply twin_refl_len|]. intros x x' X _ _ _. apply bind_neg; [now apply twin_refl_len|]. intros y y' Y _ Q Q'.
  apply (bind_twin _ _ _ x x' y y' (elsewhere_twin f by_clone D) X Y (Q N) (Q' N')). intros q r q' r' Tq Tr. cbv beta iota.
  apply seen_branch; [reflexivity|]. apply bind_neg; [exact Tq|]. reflexivity.
Qed.
Lemma zero_value b : wf b -> snd (w_is_zero b) = Val (unsigned b =? 0).
Proof. intros H. rewrite we_is_zero. apply is_zero_spec. now apply wf_sh. Qed.
Lemma msb_value a : wf a -> snd (w_msb a) = Val (signed a <? 0).
Proof. intros H. rewrite we_msb. now apply msb_sign. Qed.
Definition refusal op (a : apint) : list event := fst (w_division_by_zero op a).
Lemma refusal_same op a a' : alike a a' -> refusal op a = refusal op a'.
Proof. intros H. exact (proj1 (same_refused op a a' H)). Qed.
Lemma refusal_known op a : wf a -> snd (w_division_by_zero op a) = Val (DivisionByZero op a).
Proof. intros H. unfold w_division_by_zero. erewrite wbind_val by (rewrite we_clone; now apply clone_spec). reflexivity. Qed.
Ltac start a b H K :=
  rewrite (fst_bind _ (unsigned b =? 0)) by (cbn; now apply zero_value); rewrite fst_elsewhere; f_equal;
  rewrite (fst_bind (branch _) _ _ eq_refl); cbn [branch fst]; f_equal;
  destruct (unsigned b =? 0); [rewrite (fst_bind _ _ _ (refusal_known _ a H)); cbn [wval fst]; now rewrite app_nil_r|].
Ltac signs a b :=
  rewrite (fst_bind _ (signed a <? 0)) by (now apply msb_value); rewrite (fst_bind _ (signed b <? 0)) by (cbn; now apply msb_value);
  rewrite fst_elsewhere, <- ?app_assoc; do 2 f_equal;
  rewrite (fst_bind (branch _) _ _ eq_refl), (fst_bind (branch _) _ _ eq_refl); cbn [branch fst app]; do 2 f_equal.
Lemma msb_same a a' : alike a a' -> fst (w_msb a) = fst (w_msb a'). Proof. intros. now apply same_seen, same_msb. Qed.
Definition before_pair (a b : apint) : list event := fst (w_msb a) ++ map (moved on_rhs) (fst (w_msb b)).
Definition before_one (a b : apint) : list event := fst (w_clone Other b) ++ fst (w_msb a) ++ map (moved on_clone) (fst (w_msb b)).
Lemma before_pair_same op a b a' b' : alike a a' -> alike b b' -> before_pair a b = before_pair a' b' /\ refusal op a = refusal op a'.
Proof. intros H K. split; [|now apply refusal_same]. unfold before_pair. now rewrite (msb_same a a' H), (msb_same b b' K). Qed.
Lemma before_one_same op a b a' b' : alike a a' -> alike b b' -> before_one a b = before_one a' b' /\ refusal op a = refusal op a'.
Proof. intros H K. split; [|now apply refusal_same]. unfold before_one. now rewrite (msb_same a a' H), (msb_same b b' K), (proj1 (same_clone Other b b' K)). Qed.
Lemma sdivrem_known : signs_known w_wrapping_sdivrem_assign.
Proof.
  apply (signs_start _ before_pair (rest_pair w_wrapping_udivrem_assign (fun ml mr => match ml, mr with false, false => (false, false) | true, false => (true, true) | false, true => (true, false) | true, true => (false, true) end)) (fun a _ => refusal SignedDivRem a)).
  - intros a b H K. unfold w_wrapping_sdivrem_assign. start a b H K. unfold before_pair. signs a b. unfold rest_pair. destruct (signed a <? 0), (signed b <? 0); reflexivity.
  - intros. now apply before_pair_same.
  - intros. now apply rest_pair_same; [apply udivrem_twin|..].
Qed.
Lemma sremdiv_known : signs_known w_wrapping_sremdiv_assign.
Proof.
  apply (signs_start _ before_pair (rest_pair w_wrapping_uremdiv_assign (fun ml mr => match ml, mr with false, false => (false, false) | true, false => (true, true) | false, true => (false, true) | true, true => (true, false) end)) (fun a _ => refusal SignedRemDiv a)).
  - intros a b H K. unfold w_wrapping_sremdiv_assign. start a b H K. unfold before_pair. signs a b. unfold rest_pair. destruct (signed a <? 0), (signed b <? 0); reflexivity.
  - intros. now apply before_pair_same.
  - intros. now apply rest_pair_same; [apply uremdiv_twin|..].
Qed.
Lemma sdiv_known : signs_known w_wrapping_sdiv_assign.
Proof.
  apply (signs_start _ before_one (rest_one w_wrapping_udivrem_assign (fun ml mr => match ml, mr with false, false => false | true, false => true | false, true => true | true, true => false end)) (fun a _ => refusal SignedDiv a)).
  - intros a b H K. unfold w_wrapping_sdiv_assign. start a b H K. unfold before_one. rewrite (fst_bind _ b) by (rewrite we_clone; now apply clone_spec). rewrite <- app_assoc. f_equal. signs a b.
  - intros. now apply before_one_same.
  - intros. now apply rest_one_same; [apply udivrem_twin|..].
Qed.
Lemma srem_known : signs_known w_wrapping_srem_assign.
Proof.
  apply (signs_start _ before_one (rest_one w_wrapping_uremdiv_assign (fun ml mr => match ml, mr with false, false => false | true, false => true | false, true => false | true, true => true end)) (fun a _ => refusal SignedRem a)).
  - intros a b H K. unfold w_wrapping_srem_assign. start a b H K. unfold before_one. rewrite (fst_bind _ b) by (rewrite we_clone; now apply clone_spec). rewrite <- app_assoc. f_equal. signs a b.
  - intros. now apply before_one_same.
  - intros. now apply rest_one_same; [apply uremdiv_twin|..].
Qed.

(** * The statements *)
Lemma watch_div_results_fact a b :
  snd (w_wrapping_udivrem_assign a b) = wrapping_udivrem_assign a b /\ snd (w_wrapping_uremdiv_assign a b) = wrapping_uremdiv_assign a b /\
  snd (w_wrapping_udiv_assign a b) = wrapping_udiv_assign a b /\ snd (w_wrapping_urem_assign a b) = wrapping_urem_assign a b /\
  snd (w_wrapping_sdivrem_assign a b) = wrapping_sdivrem_assign a b /\ snd (w_wrapping_sremdiv_assign a b) = wrapping_sremdiv_assign a b /\
  snd (w_wrapping_sdiv_assign a b) = wrapping_sdiv_assign a b /\ snd (w_wrapping_srem_assign a b) = wrapping_srem_assign a b.
Proof.
  split; [apply we_wrapping_udivrem_assign|]. split; [apply we_wrapping_uremdiv_assign|]. split; [apply we_wrapping_udiv_assign|]. split; [apply we_wrapping_urem_assign|].
  split; [apply we_wrapping_sdivrem_assign|]. split; [apply we_wrapping_sremdiv_assign|]. split; [apply we_wrapping_sdiv_assign|apply we_wrapping_srem_assign].
Qed.
Lemma watch_div_short_fact a a' b b' : twins a a' -> twins b b' -> short_division (unsigned a) (unsigned b) ->
  (fst (w_wrapping_udivrem_assign a b) = fst (w_wrapping_udivrem_assign a' b') <-> divisions_told a b a' b') /\
  (fst (w_wrapping_uremdiv_assign a b) = fst (w_wrapping_uremdiv_assign a' b') <-> divisions_told a b a' b') /\
  (fst (w_wrapping_udiv_assign a b) = fst (w_wrapping_udiv_assign a' b') <-> divisions_told a b a' b') /\
  (fst (w_wrapping_urem_assign a b) = fst (w_wrapping_urem_assign a' b') <-> divisions_told a b a' b').
Proof.
  intros (H & H' & E) (K & K' & F) S. unfold divisions_told.
  split; [now apply divrem_seen|]. split; [now apply remdiv_seen|]. split; [now apply udiv_seen|now apply urem_seen].
Qed.
Lemma watch_div_reveals_fact a a' b b' : twins a a' -> twins b b' -> len a = len b -> 64 < len a ->
  fst (w_wrapping_udivrem_assign a b) = fst (w_wrapping_udivrem_assign a' b') \/
  fst (w_wrapping_uremdiv_assign a b) = fst (w_wrapping_uremdiv_assign a' b') \/
  fst (w_wrapping_udiv_assign a b) = fst (w_wrapping_udiv_assign a' b') \/
  fst (w_wrapping_urem_assign a b) = fst (w_wrapping_urem_assign a' b') ->
  divisions_agree (unsigned a) (unsigned b) (unsigned a') (unsigned b').
Proof.
  intros (H & H' & E) (K & K' & F) W S [X|[X|[X|X]]]; revert X; [apply divrem_seen|apply remdiv_seen|apply udiv_seen|apply urem_seen]; assumption.
Qed.
Lemma watch_div_long_fact : exists a a' b b', twins a a' /\ twins b b' /\ len a = len b /\ 64 < len a /\
  Z.log2 (unsigned a) = Z.log2 (unsigned a') /\ Z.log2 (unsigned b) = Z.log2 (unsigned b') /\
  divisions_agree (unsigned a) (unsigned b) (unsigned a') (unsigned b') /\
  fst (w_wrapping_udivrem_assign a b) <> fst (w_wrapping_udivrem_assign a' b') /\
  fst (w_wrapping_uremdiv_assign a b) <> fst (w_wrapping_uremdiv_assign a' b') /\
  fst (w_wrapping_udiv_assign a b) <> fst (w_wrapping_udiv_assign a' b') /\
  fst (w_wrapping_urem_assign a b) <> fst (w_wrapping_urem_assign a' b').
Proof.
  exists (mk_apint 192 [0; 0; 9223372036854775808]), (mk_apint 192 [18446744073709551615; 18446744073709551615; 18446744073709551615]),
    (mk_apint 192 [0; 9223372036854775808; 0]), (mk_apint 192 [18446744073709551615; 9223372036854775809; 0]).
  split; [split; [wf_now|split; [wf_now|reflexivity]]|]. split; [split; [wf_now|split; [wf_now|reflexivity]]|]. split; [reflexivity|]. split; [reflexivity|]. split; [vm_compute; reflexivity|]. split; [vm_compute; reflexivity|].
  split; [|vm_compute; repeat split; discriminate].
  apply learnt_div_math; [repeat constructor; lia..|]. split; [reflexivity|]. intros r R. injection R as <-. split; [reflexivity|]. intros l L Hl Hr. discriminate Hr.
Qed.
Lemma watch_sdiv_reveals_fact a a' b b' : twins a a' -> twins b b' ->
  fst (w_wrapping_sdivrem_assign a b) = fst (w_wrapping_sdivrem_assign a' b') \/
  fst (w_wrapping_sremdiv_assign a b) = fst (w_wrapping_sremdiv_assign a' b') \/
  fst (w_wrapping_sdiv_assign a b) = fst (w_wrapping_sdiv_assign a' b') \/
  fst (w_wrapping_srem_assign a b) = fst (w_wrapping_srem_assign a' b') ->
  signs_agree a b a' b' /\
  (64 < len b -> forall i, 0 <= i -> (unsigned b mod 2 ^ (64 * i) = 0 <-> unsigned b' mod 2 ^ (64 * i) = 0)).
Proof.
  intros (H & H' & E) (K & K' & F) X. enough ((len b <= 64 \/ forall i, 0 <= i -> (unsigned b mod 2 ^ (64 * i) = 0 <-> unsigned b' mod 2 ^ (64 * i) = 0)) /\ signs_agree a b a' b') as [U V] by (split; [exact V|]; intros G; destruct U as [U|U]; [lia|exact U]).
  destruct X as [X|[X|[X|X]]]; revert X; [apply sdivrem_known|apply sremdiv_known|apply sdiv_known|apply srem_known]; assumption.
Qed.
Lemma watch_sdiv_small_fact a a' b b' : twins a a' -> twins b b' -> len a <= 64 -> len b <= 64 ->
  (fst (w_wrapping_sdivrem_assign a b) = fst (w_wrapping_sdivrem_assign a' b') <-> signs_agree a b a' b') /\
  (fst (w_wrapping_sremdiv_assign a b) = fst (w_wrapping_sremdiv_assign a' b') <-> signs_agree a b a' b') /\
  (fst (w_wrapping_sdiv_assign a b) = fst (w_wrapping_sdiv_assign a' b') <-> signs_agree a b a' b') /\
  (fst (w_wrapping_srem_assign a b) = fst (w_wrapping_srem_assign a' b') <-> signs_agree a b a' b').
Proof.
  intros Ta Tb S T. pose proof (watch_sdiv_reveals_fact a a' b b' Ta Tb) as R. destruct Ta as (H & H' & E), Tb as (K & K' & F).
  split; [split; [intros X; apply R; left; exact X|intros [U V]; now apply sdivrem_known]|].
  split; [split; [intros X; apply R; right; left; exact X|intros [U V]; now apply sremdiv_known]|].
  split; [split; [intros X; apply R; right; right; left; exact X|intros [U V]; now apply sdiv_known]|].
  split; [intros X; apply R; right; right; right; exact X|intros [U V]; now apply srem_known].
Qed.
