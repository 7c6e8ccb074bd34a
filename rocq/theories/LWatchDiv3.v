(** What divisions let an observer see: in numbers. *)
From Verif Require Export LWatchDiv2.
From Verif Require Import LTemp2.
From Coq Require Import Lia ZArith.

Lemma learnt_div_math ls rs ls' rs' : digs ls -> digs rs -> digs ls' -> digs rs' ->
  (learnt_div ls rs ls' rs' <-> divisions_agree (uval ls) (uval rs) (uval ls') (uval rs')).
Proof.
  intros Dl Dr Dl' Dr'. unfold learnt_div, divisions_agree. rewrite rposition_math by assumption. split; intros [E H]; (split; [exact E|]); apply (rposition_math rs rs' Dr Dr') in E.
  - intros N. destruct (rposition_nonzero rs) as [r|] eqn:Hr; [|now apply sig_none in Hr]. destruct (H r eq_refl) as [F K]. split; [now apply rposition_math|]. intros A B.
    destruct (rposition_nonzero ls) as [l|] eqn:Hl; [|apply sig_none in Hl; [|exact Dl]; rewrite Hl in A; exfalso; revert A; clear; intros A; vm_compute in A; now apply A].
    destruct (top_digit ls l Dl Hl) as (_ & _ & T1). destruct (top_digit rs r Dr Hr) as (_ & _ & T2). assert (r = 0%nat) as -> by (destruct r; [reflexivity|]; exfalso; specialize (proj1 T2 ltac:(lia)); lia).
    specialize (K l eq_refl (proj2 T1 A) eq_refl). destruct (half_math rs Dr Hr) as [-> _] in K. destruct (half_math rs' Dr' ltac:(congruence)) as [G _]. rewrite G in K. clear - K.
    destruct (Z.ltb_spec (uval rs) (2 ^ 32)), (Z.ltb_spec (uval rs') (2 ^ 32)); try discriminate; lia.
  - intros r Hr. destruct (top_digit rs r Dr Hr) as (N & _ & T2). destruct (H N) as [F K]. apply (rposition_math ls ls' Dl Dl') in F. split; [exact F|]. intros l Hl A ->.
    destruct (top_digit ls l Dl Hl) as (_ & _ & T1). assert (uval rs < 2 ^ 64) as Q by (destruct (Z_lt_le_dec (uval rs) (2 ^ 64)) as [Q|Q]; [exact Q|]; apply T2 in Q; lia).
    specialize (K (proj1 T1 A) Q). destruct (half_math rs Dr Hr) as [-> _]. destruct (half_math rs' Dr' ltac:(congruence)) as [-> _]. clear - K.
    destruct (Z.ltb_spec (uval rs) (2 ^ 32)), (Z.ltb_spec (uval rs') (2 ^ 32)); try reflexivity; lia.
Qed.
Lemma top_bound ds i k : digs ds -> rposition_nonzero ds = Some i -> 0 <= k -> (uval ds < 2 ^ (64 * k) <-> Z.of_nat i < k).
Proof.
  intros D E K. destruct (sig_value ds i D E) as (_ & _ & _ & _ & Q). pose proof (uval_nonneg ds D). assert (0 < 2 ^ (64 * k)) by (apply Z.pow_pos_nonneg; lia).
  pose proof (quotient_zero (uval ds) k ltac:(lia) K) as R. rewrite Q, Z.div_small_iff in R by lia. lia.
Qed.
Lemma short_math ls rs : digs ls -> digs rs -> short_division (uval ls) (uval rs) -> short_digits ls rs.
Proof.
  intros D D' H l r Hl Hr. destruct H as [H|[H|(i & I & H1 & H2)]].
  - apply (top_bound rs r 1 D' Hr) in H; lia.
  - apply (top_bound ls l 2 D Hl) in H; lia.
  - apply (top_bound ls l i D Hl I) in H1. destruct (Z_lt_le_dec (uval rs) (2 ^ (64 * i))) as [Q|Q]; [lia|]. assert (~ Z.of_nat r < i) by (intros T; apply (top_bound rs r i D' Hr I) in T; lia). lia.
Qed.

(** * The calls *)
Definition any {A} : Alike A := fun _ _ => True.
Lemma seen_bind {A C} {I : Alike A} (m m' : watched A) (k k' : A -> watched C) :
  same m m' -> (forall a a', alike a a' -> fst (k a) = fst (k' a')) -> fst (wbind m k) = fst (wbind m' k').
Proof.
  intros [E O] H1. unfold wbind. destruct (snd m) as [a| |], (snd m') as [a'| |]; cbn in *; try contradiction; auto.
  rewrite E. f_equal. auto.
Qed.
Lemma seen_see {C} es es' (k k' : unit -> watched C) : es = es' -> fst (k tt) = fst (k' tt) -> fst (wbind (see es) k) = fst (wbind (see es') k').
Proof. intros -> E. cbn. now f_equal. Qed.
Lemma seen_branch {C} b b' (k k' : bool -> watched C) : b = b' -> fst (k b) = fst (k' b) -> fst (wbind (branch b) k) = fst (wbind (branch b') k').
Proof. intros <- E. cbn. now f_equal. Qed.
Lemma same_refused op x x' : alike x x' -> @same _ any (w_division_by_zero op x) (w_division_by_zero op x').
Proof. intros H. unfold w_division_by_zero. apply (@same_bind _ _ _ any); [now apply same_clone|]. intros. now apply (@same_val _ any). Qed.
Lemma same_swap q st st' n lo : alike st st' -> same (w_for_range n lo (w_swap_step q) st) (w_for_range n lo (w_swap_step q) st').
Proof.
  intros H. apply same_for_range; [exact H|]. intros i [x y] [x' y'] [X Y]. cbn [fst snd] in X, Y. unfold w_swap_step. apply same_bind; [now apply same_idx|]. intros. apply same_bind; [now apply same_idx|]. intros.
  apply same_bind; [now apply same_upd|]. intros. apply same_bind; [now apply same_upd|]. intros. apply same_val. now split.
Qed.
Lemma same_remdiv q ls rs ls' rs' : digs rs -> digs rs' -> alike ls ls' -> alike rs rs' -> short_digits ls rs -> learnt_div ls rs ls' rs' ->
  @same _ flagged (w_aarons_algorithm_remdiv q ls rs) (w_aarons_algorithm_remdiv q ls' rs').
Proof.
  intros D D' H K S G. unfold w_aarons_algorithm_remdiv. apply (@same_bind _ _ flagged flagged); [now apply same_aarons|]. intros [[x y] b] [[x' y'] b'] [[X Y] Q]. cbn [fst snd] in X, Y, Q. unfold alike, agree_bool in Q. subst b'.
  apply (@same_branch _ flagged); [reflexivity|]. destruct b; [|apply (@same_val _ flagged); now repeat split]. unfold alike, alike_digits in X. rewrite X. apply (@same_bind _ _ _ flagged); [apply same_swap; now split|].
  intros [u v] [u' v'] [U V]. apply (@same_val _ flagged). now repeat split.
Qed.
Lemma remdiv_reveal q ls rs ls' rs' Y Y' : List.length ls = List.length ls' -> List.length rs = List.length rs' ->
  fst (w_aarons_algorithm_remdiv q ls rs) ++ Y = fst (w_aarons_algorithm_remdiv q ls' rs') ++ Y' -> learnt_div ls rs ls' rs'.
Proof.
  intros L R. unfold w_aarons_algorithm_remdiv. match goal with |- fst (wbind _ ?k) ++ _ = fst (wbind _ ?k') ++ _ -> _ => destruct (fst_prefix (w_aarons_algorithm_divrem q ls rs) k) as [Z1 P1]; destruct (fst_prefix (w_aarons_algorithm_divrem q ls' rs') k') as [Z2 P2] end.
  rewrite P1, P2, <- !app_assoc. now apply aarons_reveal.
Qed.
Lemma is_zero_eq d : d_is_zero d = (d =? 0). Proof. reflexivity. Qed.
Definition div_seen {A} (f : apint -> apint -> watched A) : Prop := forall a a' b b', wf a -> wf a' -> wf b -> wf b' -> len a = len a' -> len b = len b' ->
  (len a = len b -> 64 < len a -> fst (f a b) = fst (f a' b') -> divisions_agree (unsigned a) (unsigned b) (unsigned a') (unsigned b')) /\
  (short_division (unsigned a) (unsigned b) ->
   (fst (f a b) = fst (f a' b') <->
    len a <> len b \/ len a <= 64 /\ (unsigned b = 0 <-> unsigned b' = 0) \/
    64 < len a /\ divisions_agree (unsigned a) (unsigned b) (unsigned a') (unsigned b'))).
(** [f] looks at the widths, then at one digit of each, or does [core]. *)
Lemma div_shape {A} (f : apint -> apint -> watched A) : 
  (forall a a' b b', len a = len a' -> len b = len b' -> len a <> len b -> fst (f a b) = fst (f a' b')) ->
  (forall a a' b b' d d' e e', wf a -> wf a' -> wf b -> wf b' -> len a = len a' -> len b = len b' -> len a = len b -> len a <= 64 -> digits a = [d] -> digits a' = [d'] -> digits b = [e] -> digits b' = [e'] ->
     (fst (f a b) = fst (f a' b') <-> (e = 0 <-> e' = 0))) ->
  (forall a a' b b', wf a -> wf a' -> wf b -> wf b' -> len a = len a' -> len b = len b' -> len a = len b -> 64 < len a -> fst (f a b) = fst (f a' b') -> learnt_div (digits a) (digits b) (digits a') (digits b')) ->
  (forall a a' b b', wf a -> wf a' -> wf b -> wf b' -> len a = len a' -> len b = len b' -> len a = len b -> 64 < len a -> short_digits (digits a) (digits b) ->
     learnt_div (digits a) (digits b) (digits a') (digits b') -> fst (f a b) = fst (f a' b')) ->
  div_seen f.
Proof.
  intros P1 P2 P3 P4 a a' b b' Ha Ha' Hb Hb' E F.
  destruct (wf_parts a Ha) as (_ & D & _). destruct (wf_parts a' Ha') as (_ & D' & _). destruct (wf_parts b Hb) as (_ & Db & _). destruct (wf_parts b' Hb') as (_ & Db' & _).
  split; [intros W S H; apply learnt_div_math; try assumption; now apply P3|]. intros Sh. destruct (Z.eq_dec (len a) (len b)) as [W|W]; [|split; [now left|intros _; now apply P1]].
  destruct (Z_le_gt_dec (len a) 64) as [S|S].
  - destruct (small_storage a Ha S) as (d & P & G). destruct (small_storage a' Ha' ltac:(lia)) as (d' & _ & G'). destruct (small_storage b Hb ltac:(lia)) as (e & _ & Q). destruct (small_storage b' Hb' ltac:(lia)) as (e' & _ & Q').
    rewrite (P2 a a' b b' d d' e e') by assumption. unfold unsigned. rewrite Q, Q'. cbn [uval]. rewrite !Z.mul_0_r, !Z.add_0_r. split; [intros H; right; left; split; [lia|exact H]|].
    intros [?|[[_ H]|[? _]]]; [contradiction|exact H|lia].
  - split; [intros H; right; right; split; [lia|]; apply learnt_div_math; try assumption; apply P3; try assumption; lia|]. intros [?|[[? _]|[_ H]]]; [contradiction|lia|].
    apply P4; try assumption; [lia|now apply short_math|now apply learnt_div_math].
Qed.
Lemma divrem_seen : div_seen w_wrapping_udivrem_assign.
Proof.
  apply div_shape.
  - intros a a' b b' E F N. unfold w_wrapping_udivrem_assign, w_zip_access_data, zip_access_data, width. rewrite <- E, <- F. destruct (Z.eqb_spec (len a) (len b)); [contradiction|]. reflexivity.
  - intros a a' b b' d d' e e' Ha Ha' Hb Hb' E F W S G G' Q Q'. unfold w_wrapping_udivrem_assign, w_zip_access_data, zip_access_data, width. rewrite <- E, <- F, W, Z.eqb_refl. cbn [negb]. rewrite <- W.
    destruct (small_storage a Ha S) as (_ & -> & _). unfold read_inl. rewrite G, G', Q, Q'. cbn [bind]. rewrite !(fst_bind _ (Ok (ZInl d e))), !(fst_bind _ (Ok (ZInl d' e'))) by reflexivity. rewrite app_head_iff.
    rewrite !is_zero_eq. destruct (Z.eqb_spec e 0) as [Z1|Z1], (Z.eqb_spec e' 0) as [Z2|Z2]; cbn [negb]; rewrite !(fst_bind (branch _) _ _ eq_refl); cbn [fst branch app].
    + split; [tauto|]. intros _. f_equal. apply (@seen_bind _ _ any); [apply same_refused; now apply wf_alike|reflexivity].
    + split; [discriminate|tauto].
    + split; [discriminate|tauto].
    + split; [tauto|]. intros _. f_equal. apply seen_bind; [now apply same_lift, ends_divrem|]. now intros [? ?] [? ?] _.
  - intros a a' b b' Ha Ha' Hb Hb' E F W S. pose proof (wf_alike _ _ Ha Ha' E) as [_ L]. pose proof (wf_alike _ _ Hb Hb' F) as [_ M].
    unfold w_wrapping_udivrem_assign, w_zip_access_data, zip_access_data, width. rewrite <- E, <- F, W, Z.eqb_refl. cbn [negb]. rewrite <- W, large_storage by lia. unfold as_digit_slice.
    rewrite (fst_bind _ (Ok (ZExt (digits a) (digits b)))), (fst_bind _ (Ok (ZExt (digits a') (digits b')))) by reflexivity. rewrite app_head_iff.
    match goal with |- fst (wbind ?m ?k) = fst (wbind ?m' ?k') -> _ => destruct (fst_prefix m k) as [Y PY]; destruct (fst_prefix m' k') as [Y' PY'] end. rewrite PY, PY'. now apply aarons_reveal.
  - intros a a' b b' Ha Ha' Hb Hb' E F W S Sh Lt. pose proof (wf_alike _ _ Ha Ha' E) as K. pose proof (wf_alike _ _ Hb Hb' F) as J. pose proof K as [_ L]. pose proof J as [_ M].
    destruct (wf_parts b Hb) as (_ & Db & _). destruct (wf_parts b' Hb') as (_ & Db' & _).
    unfold w_wrapping_udivrem_assign, w_zip_access_data, zip_access_data, width. rewrite <- E, <- F, W, Z.eqb_refl. cbn [negb]. rewrite <- W, large_storage by lia. unfold as_digit_slice.
    rewrite (fst_bind _ (Ok (ZExt (digits a) (digits b)))), (fst_bind _ (Ok (ZExt (digits a') (digits b')))) by reflexivity. f_equal.
    apply (@seen_bind _ _ flagged); [now apply same_aarons|]. intros [[x y] c] [[x' y'] c'] [[X Y] Q]. cbn [fst snd] in X, Y, Q. unfold alike, agree_bool in Q. subst c'.
    apply seen_branch; [reflexivity|]. destruct c; [reflexivity|]. apply (@seen_bind _ _ any); [apply same_refused; now apply same_write_ext|reflexivity].
Qed.
Lemma remdiv_seen : div_seen w_wrapping_uremdiv_assign.
Proof.
  apply div_shape.
  - intros a a' b b' E F N. unfold w_wrapping_uremdiv_assign, w_zip_access_data, zip_access_data, width. rewrite <- E, <- F. destruct (Z.eqb_spec (len a) (len b)); [contradiction|]. reflexivity.
  - intros a a' b b' d d' e e' Ha Ha' Hb Hb' E F W S G G' Q Q'. unfold w_wrapping_uremdiv_assign, w_zip_access_data, zip_access_data, width. rewrite <- E, <- F, W, Z.eqb_refl. cbn [negb]. rewrite <- W.
    destruct (small_storage a Ha S) as (_ & -> & _). unfold read_inl. rewrite G, G', Q, Q'. cbn [bind]. rewrite !(fst_bind _ (Ok (ZInl d e))), !(fst_bind _ (Ok (ZInl d' e'))) by reflexivity. rewrite app_head_iff.
    rewrite !is_zero_eq. destruct (Z.eqb_spec e 0) as [Z1|Z1], (Z.eqb_spec e' 0) as [Z2|Z2]; cbn [negb]; rewrite !(fst_bind (branch _) _ _ eq_refl); cbn [fst branch app].
    + split; [tauto|]. intros _. f_equal. apply (@seen_bind _ _ any); [apply same_refused; now apply wf_alike|reflexivity].
    + split; [discriminate|tauto].
    + split; [discriminate|tauto].
    + split; [tauto|]. intros _. f_equal. apply seen_bind; [now apply same_lift, ends_divrem|]. now intros [? ?] [? ?] _.
  - intros a a' b b' Ha Ha' Hb Hb' E F W S. pose proof (wf_alike _ _ Ha Ha' E) as [_ L]. pose proof (wf_alike _ _ Hb Hb' F) as [_ M].
    unfold w_wrapping_uremdiv_assign, w_zip_access_data, zip_access_data, width. rewrite <- E, <- F, W, Z.eqb_refl. cbn [negb]. rewrite <- W, large_storage by lia. unfold as_digit_slice.
    rewrite (fst_bind _ (Ok (ZExt (digits a) (digits b)))), (fst_bind _ (Ok (ZExt (digits a') (digits b')))) by reflexivity. rewrite app_head_iff.
    match goal with |- fst (wbind ?m ?k) = fst (wbind ?m' ?k') -> _ => destruct (fst_prefix m k) as [Y PY]; destruct (fst_prefix m' k') as [Y' PY'] end. rewrite PY, PY'. now apply remdiv_reveal.
  - intros a a' b b' Ha Ha' Hb Hb' E F W S Sh Lt. pose proof (wf_alike _ _ Ha Ha' E) as K. pose proof (wf_alike _ _ Hb Hb' F) as J. pose proof K as [_ L]. pose proof J as [_ M].
    destruct (wf_parts b Hb) as (_ & Db & _). destruct (wf_parts b' Hb') as (_ & Db' & _).
    unfold w_wrapping_uremdiv_assign, w_zip_access_data, zip_access_data, width. rewrite <- E, <- F, W, Z.eqb_refl. cbn [negb]. rewrite <- W, large_storage by lia. unfold as_digit_slice.
    rewrite (fst_bind _ (Ok (ZExt (digits a) (digits b)))), (fst_bind _ (Ok (ZExt (digits a') (digits b')))) by reflexivity. f_equal.
    apply (@seen_bind _ _ flagged); [now apply same_remdiv|]. intros [[x y] c] [[x' y'] c'] [[X Y] Q]. cbn [fst snd] in X, Y, Q. unfold alike, agree_bool in Q. subst c'.
    apply seen_branch; [reflexivity|]. destruct c; [reflexivity|]. apply (@seen_bind _ _ any); [apply same_refused; now apply same_write_ext|reflexivity].
Qed.
Lemma udiv_seen : div_seen w_wrapping_udiv_assign.
Proof.
  apply div_shape.
  - intros a a' b b' E F N. unfold w_wrapping_udiv_assign, w_zip_access_data, zip_access_data, width. rewrite <- E, <- F. destruct (Z.eqb_spec (len a) (len b)); [contradiction|]. reflexivity.
  - intros a a' b b' d d' e e' Ha Ha' Hb Hb' E F W S G G' Q Q'. unfold w_wrapping_udiv_assign, w_zip_access_data, zip_access_data, width. rewrite <- E, <- F, W, Z.eqb_refl. cbn [negb]. rewrite <- W.
    destruct (small_storage a Ha S) as (_ & -> & _). unfold read_inl. rewrite G, G', Q, Q'. cbn [bind]. rewrite !(fst_bind _ (Ok (ZInl d e))), !(fst_bind _ (Ok (ZInl d' e'))) by reflexivity. rewrite app_head_iff.
    rewrite !is_zero_eq. destruct (Z.eqb_spec e 0) as [Z1|Z1], (Z.eqb_spec e' 0) as [Z2|Z2]; cbn [negb]; rewrite !(fst_bind (branch _) _ _ eq_refl); cbn [fst branch app].
    + split; [tauto|]. intros _. f_equal. apply (@seen_bind _ _ any); [apply same_refused; now apply wf_alike|reflexivity].
    + split; [discriminate|tauto].
    + split; [discriminate|tauto].
    + split; [tauto|]. intros _. f_equal. unfold d_wrapping_div. rewrite (proj2 (Z.eqb_neq e 0) Z1), (proj2 (Z.eqb_neq e' 0) Z2). reflexivity.
  - intros a a' b b' Ha Ha' Hb Hb' E F W S. pose proof (wf_alike _ _ Ha Ha' E) as [_ L]. pose proof (wf_alike _ _ Hb Hb' F) as [_ M].
    unfold w_wrapping_udiv_assign, w_zip_access_data, zip_access_data, width. rewrite <- E, <- F, W, Z.eqb_refl. cbn [negb]. rewrite <- W, large_storage by lia. unfold as_digit_slice.
    rewrite (fst_bind _ (Ok (ZExt (digits a) (digits b)))), (fst_bind _ (Ok (ZExt (digits a') (digits b')))) by reflexivity. rewrite app_head_iff.
    rewrite !(fst_bind (see _) tt) by reflexivity. cbn [see fst]. rewrite <- M, app_head_iff.
    match goal with |- fst (wbind ?m ?k) = fst (wbind ?m' ?k') -> _ => destruct (fst_prefix m k) as [Y PY]; destruct (fst_prefix m' k') as [Y' PY'] end. rewrite PY, PY'. now apply aarons_reveal.
  - intros a a' b b' Ha Ha' Hb Hb' E F W S Sh Lt. pose proof (wf_alike _ _ Ha Ha' E) as K. pose proof (wf_alike _ _ Hb Hb' F) as J. pose proof K as [_ L]. pose proof J as [_ M].
    destruct (wf_parts b Hb) as (_ & Db & _). destruct (wf_parts b' Hb') as (_ & Db' & _).
    unfold w_wrapping_udiv_assign, w_zip_access_data, zip_access_data, width. rewrite <- E, <- F, W, Z.eqb_refl. cbn [negb]. rewrite <- W, large_storage by lia. unfold as_digit_slice.
    rewrite (fst_bind _ (Ok (ZExt (digits a) (digits b)))), (fst_bind _ (Ok (ZExt (digits a') (digits b')))) by reflexivity. f_equal.
    apply seen_see; [now rewrite M|].
    apply (@seen_bind _ _ flagged); [now apply same_aarons|]. intros [[x y] c] [[x' y'] c'] [[X Y] Q]. cbn [fst snd] in X, Y, Q. unfold alike, agree_bool in Q. subst c'.
    apply seen_branch; [reflexivity|]. destruct c; [reflexivity|]. apply (@seen_bind _ _ any); [apply same_refused; now apply same_write_ext|reflexivity].
Qed.
Lemma urem_seen : div_seen w_wrapping_urem_assign.
Proof.
  apply div_shape.
  - intros a a' b b' E F N. unfold w_wrapping_urem_assign, w_zip_access_data, zip_access_data, width. rewrite <- E, <- F. destruct (Z.eqb_spec (len a) (len b)); [contradiction|]. reflexivity.
  - intros a a' b b' d d' e e' Ha Ha' Hb Hb' E F W S G G' Q Q'. unfold w_wrapping_urem_assign, w_zip_access_data, zip_access_data, width. rewrite <- E, <- F, W, Z.eqb_refl. cbn [negb]. rewrite <- W.
    destruct (small_storage a Ha S) as (_ & -> & _). unfold read_inl. rewrite G, G', Q, Q'. cbn [bind]. rewrite !(fst_bind _ (Ok (ZInl d e))), !(fst_bind _ (Ok (ZInl d' e'))) by reflexivity. rewrite app_head_iff.
    rewrite !is_zero_eq. destruct (Z.eqb_spec e 0) as [Z1|Z1], (Z.eqb_spec e' 0) as [Z2|Z2]; cbn [negb]; rewrite !(fst_bind (branch _) _ _ eq_refl); cbn [fst branch app].
    + split; [tauto|]. intros _. f_equal. apply (@seen_bind _ _ any); [apply same_refused; now apply wf_alike|reflexivity].
    + split; [discriminate|tauto].
    + split; [discriminate|tauto].
    + split; [tauto|]. intros _. f_equal. unfold d_wrapping_rem. rewrite (proj2 (Z.eqb_neq e 0) Z1), (proj2 (Z.eqb_neq e' 0) Z2). reflexivity.
  - intros a a' b b' Ha Ha' Hb Hb' E F W S. pose proof (wf_alike _ _ Ha Ha' E) as [_ L]. pose proof (wf_alike _ _ Hb Hb' F) as [_ M].
    unfold w_wrapping_urem_assign, w_zip_access_data, zip_access_data, width. rewrite <- E, <- F, W, Z.eqb_refl. cbn [negb]. rewrite <- W, large_storage by lia. unfold as_digit_slice.
    rewrite (fst_bind _ (Ok (ZExt (digits a) (digits b)))), (fst_bind _ (Ok (ZExt (digits a') (digits b')))) by reflexivity. rewrite app_head_iff.
    rewrite !(fst_bind (see _) tt) by reflexivity. cbn [see fst]. rewrite <- M, app_head_iff.
    match goal with |- fst (wbind ?m ?k) = fst (wbind ?m' ?k') -> _ => destruct (fst_prefix m k) as [Y PY]; destruct (fst_prefix m' k') as [Y' PY'] end. rewrite PY, PY'. now apply remdiv_reveal.
  - intros a a' b b' Ha Ha' Hb Hb' E F W S Sh Lt. pose proof (wf_alike _ _ Ha Ha' E) as K. pose proof (wf_alike _ _ Hb Hb' F) as J. pose proof K as [_ L]. pose proof J as [_ M].
    destruct (wf_parts b Hb) as (_ & Db & _). destruct (wf_parts b' Hb') as (_ & Db' & _).
    unfold w_wrapping_urem_assign, w_zip_access_data, zip_access_data, width. rewrite <- E, <- F, W, Z.eqb_refl. cbn [negb]. rewrite <- W, large_storage by lia. unfold as_digit_slice.
    rewrite (fst_bind _ (Ok (ZExt (digits a) (digits b)))), (fst_bind _ (Ok (ZExt (digits a') (digits b')))) by reflexivity. f_equal.
    apply seen_see; [now rewrite M|].
    apply (@seen_bind _ _ flagged); [now apply same_remdiv|]. intros [[x y] c] [[x' y'] c'] [[X Y] Q]. cbn [fst snd] in X, Y, Q. unfold alike, agree_bool in Q. subst c'.
    apply seen_branch; [reflexivity|]. destruct c; [reflexivity|]. apply (@seen_bind _ _ any); [apply same_refused; now apply same_write_ext|reflexivity].
Qed.
