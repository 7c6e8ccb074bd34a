(** What divisions let an observer see: exactly, where they are short. *)
From Verif Require Export LWatchDiv SpecWatchDiv.
From Verif Require Import LTemp2 LDiv6.
From Coq Require Import Lia ZArith.

(** Two executions that look the same may end with different values, but with the same flag. *)
Definition agree_bool : Alike bool := eq.
Definition flagged : Alike (list Z * list Z * bool) := @alike_pair _ _ (@alike_pair _ _ alike_digits alike_digits) agree_bool.

Lemma same_for_range_rev {S} `{Alike S} n : forall lo (f f' : nat -> S -> watched S) s s', alike s s' -> (forall i s s', alike s s' -> same (f i s) (f' i s')) ->
  same (w_for_range_rev n lo f s) (w_for_range_rev n lo f' s').
Proof.
  induction n as [|n IH]; intros lo f f' s s' Hs Hf; cbn [w_for_range_rev]; [now apply same_val|]. apply same_bind; [now apply Hf|]. intros t t' Ht. now apply IH.
Qed.
Lemma ends_divrem x y x' y' : y <> 0 -> y' <> 0 -> ends (d_wrapping_divrem x y) (d_wrapping_divrem x' y').
Proof. intros H H'. unfold d_wrapping_divrem, d_wrapping_div, d_wrapping_rem. destruct (Z.eqb_spec y 0); [contradiction|]. destruct (Z.eqb_spec y' 0); [contradiction|]. cbn. now split. Qed.
Lemma ends_dd_divrem x y x' y' : y <> 0 -> y' <> 0 -> ends (dd_wdivrem x y) (dd_wdivrem x' y').
Proof. intros H H'. unfold dd_wdivrem. destruct (Z.eqb_spec y 0); [contradiction|]. destruct (Z.eqb_spec y' 0); [contradiction|]. cbn. now split. Qed.
Lemma ends_divrem32 x y x' y' : y <> 0 -> y' <> 0 -> ends (wrapping_divrem32 x y) (wrapping_divrem32 x' y').
Proof. intros H H'. unfold wrapping_divrem32. destruct (Z.eqb_spec y 0); [contradiction|]. destruct (Z.eqb_spec y' 0); [contradiction|]. cbn. now split. Qed.
Lemma idx_known p l i : (i < List.length l)%nat -> w_idx p l i = ([Read p i], Val (nth i l 0)).
Proof. intros H. unfold w_idx. now rewrite idx_nth. Qed.
Lemma same_small q duo duo' sd div div' : alike duo duo' -> alike div div' -> (0 < List.length div)%nat -> nth 0 div 0 <> 0 -> nth 0 div' 0 <> 0 ->
  same (w_large_div_by_small q duo sd div) (w_large_div_by_small q duo' sd div').
Proof.
  intros H K L N N'. pose proof K as K0. unfold alike, alike_digits in K0. unfold w_large_div_by_small. rewrite (idx_known q div 0), (idx_known q div' 0) by lia. apply same_known. apply same_bind; [now apply same_idx|]. intros d d' _.
  apply same_bind; [now apply same_lift, ends_divrem|]. intros [x r] [x' r'] _. apply same_bind; [now apply same_upd|]. intros u u' U. apply same_bind.
  { apply same_for_range_rev; [now split|]. intros i [s c] [s' c'] [Q _]. cbn [fst] in Q. unfold w_small_step. apply same_bind; [now apply same_idx|]. intros e e' _. apply same_bind; [now apply same_lift, ends_dd_divrem|].
    intros [? ?] [? ?] _. apply same_bind; [now apply same_upd|]. intros. apply same_val. now split. }
  intros [s c] [s' c'] [Q _]. cbn [fst] in Q. apply same_bind; [now apply same_upd|]. intros. apply same_val. now split.
Qed.
Lemma same_u32 q duo duo' sd div div' : alike duo duo' -> alike div div' -> (0 < List.length div)%nat -> lo32 (nth 0 div 0) <> 0 -> lo32 (nth 0 div' 0) <> 0 ->
  same (w_large_div_by_u32 q duo sd div) (w_large_div_by_u32 q duo' sd div').
Proof.
  intros H K L N N'. pose proof K as K0. unfold alike, alike_digits in K0. unfold w_large_div_by_u32. rewrite (idx_known q div 0), (idx_known q div' 0) by lia. apply same_known. cbv zeta. apply same_bind; [now apply same_idx|]. intros d d' _.
  apply same_bind; [now apply same_lift, ends_divrem32|]. intros [x r] [x' r'] _. apply same_see; [reflexivity|]. apply same_bind; [now apply same_lift, ends_divrem|]. intros [y z] [y' z'] _.
  apply same_bind; [now apply same_upd|]. intros u u' U. apply same_bind.
  { apply same_for_range_rev; [now split|]. intros i [s c] [s' c'] [Q _]. cbn [fst] in Q. unfold w_u32_step. apply same_bind; [now apply same_idx|]. intros e e' _. apply same_bind; [now apply same_lift, ends_divrem|].
    intros [? ?] [? ?] _. apply same_bind; [now apply same_idx|]. intros f f' _. apply same_bind; [now apply same_lift, ends_divrem|]. intros [? ?] [? ?] _. apply same_bind; [now apply same_upd|]. intros. apply same_val. now split. }
  intros [s c] [s' c'] [Q _]. cbn [fst] in Q. apply same_bind; [now apply same_upd|]. intros. apply same_val. now split.
Qed.

(** * What is learnt *)
Definition half (ds : list Z) : bool := 32 <=? d_leading_zeros (nth 0 ds 0).
Definition learnt_div (ls rs ls' rs' : list Z) : Prop :=
  rposition_nonzero rs = rposition_nonzero rs' /\
  forall r, rposition_nonzero rs = Some r -> rposition_nonzero ls = rposition_nonzero ls' /\
  forall l, rposition_nonzero ls = Some l -> (l <> 0)%nat -> r = 0%nat -> half rs = half rs'.
Lemma cases_reveal q ls rs ls' rs' l Y Y' : (l <> 0)%nat -> (0 < List.length rs)%nat -> List.length rs = List.length rs' ->
  fst (w_divrem_cases q ls rs l 0) ++ Y = fst (w_divrem_cases q ls' rs' l 0) ++ Y' -> half rs = half rs'.
Proof.
  intros N L R. unfold w_divrem_cases. rewrite !(fst_bind (branch (Nat.eqb l 0)) (Nat.eqb l 0)), !(fst_bind (branch (Nat.eqb 0 0)) (Nat.eqb 0 0)) by reflexivity. apply Nat.eqb_neq in N. rewrite N. cbn [fst branch app Nat.eqb].
  rewrite (idx_known q rs 0), (idx_known q rs' 0) by lia. rewrite !(fst_bind ([Read q 0], _) _ _ eq_refl), !(fst_bind (branch _) _ _ eq_refl). cbn [fst branch app]. intros Q. injection Q as Q _. exact Q.
Qed.
Lemma aarons_reveal q ls rs ls' rs' Y Y' : List.length ls = List.length ls' -> List.length rs = List.length rs' ->
  fst (w_aarons_algorithm_divrem q ls rs) ++ Y = fst (w_aarons_algorithm_divrem q ls' rs') ++ Y' -> learnt_div ls rs ls' rs'.
Proof.
  intros L R. unfold w_aarons_algorithm_divrem. rewrite !(fst_bind _ _ _ (we_rposition _ _ _ (le_n _))), <- !app_assoc, !firstn_all, rposition_same by exact R. intros [E Q]. split; [exact E|].
  intros r Hr. rewrite <- E, Hr in Q. rewrite !(fst_bind _ _ _ (we_rposition _ _ _ (le_n _))), <- !app_assoc, !firstn_all, rposition_same in Q by exact L. destruct Q as [F Q]. split; [exact F|].
  intros l Hl N ->. rewrite <- F, Hl in Q. rewrite !(fst_bind (branch _) _ _ eq_refl) in Q. destruct (Nat.ltb_spec l 0); [lia|]. cbn [fst branch app] in Q. injection Q as Q.
  match type of Q with fst (wbind _ ?k) ++ _ = fst (wbind _ ?k') ++ _ => destruct (fst_prefix (w_divrem_cases q ls rs l 0) k) as [Z1 P1]; destruct (fst_prefix (w_divrem_cases q ls' rs' l 0) k') as [Z2 P2] end.
  rewrite P1, P2, <- !app_assoc in Q. apply rposition_below in Hr. now apply cases_reveal in Q.
Qed.

Lemma top_nonzero ds i : digs ds -> rposition_nonzero ds = Some i -> nth i ds 0 <> 0.
Proof. intros D E. apply (sig_value ds i D E). Qed.
Lemma half_math ds : digs ds -> rposition_nonzero ds = Some 0%nat -> half ds = (uval ds <? 2 ^ 32) /\ nth 0 ds 0 = uval ds.
Proof.
  intros D E. destruct (sig_value ds 0 D E) as (L & N & Lz & Bt & _). unfold half. destruct ds as [|d ds]; [cbn in L; lia|]. cbn [nth] in *.
  assert (uval ds = 0) as U0.
  { cbn [rposition_nonzero] in E. destruct (rposition_nonzero ds) eqn:R; [discriminate|]. apply sig_none; [|exact R]. now inversion D. }
  assert (uval (d :: ds) = d) as U by (cbn [uval]; rewrite U0; lia). split; [|now rewrite U]. pose proof (uval_nonneg (d :: ds) D). unfold bits_of in Bt. rewrite U in *. destruct (Z.eqb_spec d 0); [contradiction|].
  assert (d < 2 ^ 32 <-> Z.log2 d < 32) as Q by (apply Z.log2_lt_pow2; lia). destruct (Z.leb_spec 32 (d_leading_zeros d)), (Z.ltb_spec d (2 ^ 32)); lia.
Qed.
Lemma digit_at l i : digs l -> dok (nth i l 0).
Proof.
  intros D. destruct (Nat.ltb_spec i (List.length l)) as [I|I]; [|rewrite nth_overflow by lia; unfold dok; pose proof B_pos; lia].
  apply (nth_In _ 0) in I. unfold digs in D. rewrite Forall_forall in D. now apply D in I.
Qed.
Lemma two_digits l : digs l -> nth 1 l 0 <> 0 -> dd_from_lo_hi (nth 0 l 0) (nth 1 l 0) <> 0.
Proof. intros D N. pose proof (digit_at l 0 D) as P. pose proof (digit_at l 1 D) as Q. rewrite dd_from_lo_hi_spec by assumption. unfold dok in *. nia. Qed.
Lemma same_cases q ls rs ls' rs' l r : digs rs -> digs rs' -> alike ls ls' -> alike rs rs' -> rposition_nonzero rs = Some r -> rposition_nonzero rs' = Some r -> (l < List.length ls)%nat ->
  (r <= l)%nat -> (l <= 1 \/ r = 0)%nat -> ((l <> 0)%nat -> r = 0%nat -> half rs = half rs') -> same (w_divrem_cases q ls rs l r) (w_divrem_cases q ls' rs' l r).
Proof.
  intros D D' H K E E' L O C G. pose proof H as H0. pose proof K as K0. unfold alike, alike_digits in H0, K0. pose proof (rposition_below _ _ E) as R. pose proof (top_nonzero _ _ D E) as N. pose proof (top_nonzero _ _ D' E') as N'.
  unfold w_divrem_cases. apply same_branch; [reflexivity|]. apply same_branch; [reflexivity|]. destruct (Nat.eqb_spec l 0) as [Zl|Zl], (Nat.eqb_spec r 0) as [Zr|Zr].
  - subst. apply same_bind; [now apply same_idx|]. intros u u' _. rewrite (idx_known q rs 0), (idx_known q rs' 0) by lia. apply same_known. apply same_bind; [now apply same_lift, ends_divrem|]. intros [x y] [x' y'] _.
    apply same_bind; [now apply same_upd|]. intros ? ? ?. apply same_bind; [now apply same_upd|]. intros. apply same_val. now split.
  - lia.
  - subst r. specialize (G Zl eq_refl). rewrite (idx_known q rs 0), (idx_known q rs' 0) by lia. apply same_known. fold (half rs) (half rs'). rewrite G. apply same_branch; [reflexivity|].
    destruct (half rs') eqn:Hf; [|now apply same_small].
    apply same_u32; try assumption; try lia.
    + destruct (half_math rs D E) as [M1 M2]. rewrite M2 in *. rewrite M1 in G. apply Z.ltb_lt in G. pose proof (uval_nonneg rs D). unfold lo32, B32. change (2 ^ 32) with 4294967296 in G. rewrite Z.mod_small; lia.
    + destruct (half_math rs' D' E') as [M1 M2]. rewrite M2 in *. rewrite M1 in Hf. apply Z.ltb_lt in Hf. pose proof (uval_nonneg rs' D'). unfold lo32, B32. change (2 ^ 32) with 4294967296 in Hf. rewrite Z.mod_small; lia.
  - assert (l = 1%nat) as -> by lia. assert (r = 1%nat) as -> by lia. cbn [Nat.eqb]. apply same_branch; [reflexivity|]. apply same_bind; [now apply same_idx|]. intros u u' _. apply same_bind; [now apply same_idx|]. intros v v' _.
    rewrite (idx_known q rs 0), (idx_known q rs' 0) by lia. apply same_known. rewrite (idx_known q rs 1), (idx_known q rs' 1) by lia. apply same_known. apply same_bind; [apply same_lift, ends_dd_divrem; now apply two_digits|]. intros [x y] [x' y'] _.
    do 2 (apply same_bind; [now apply same_upd|]; intros ? ? ?). do 2 (apply same_bind; [now apply same_upd|]; intros ? ? ?). apply same_val. now split.
Qed.
Lemma same_rposition p ds ds' : List.length ds = List.length ds' -> rposition_nonzero ds = rposition_nonzero ds' -> w_rposition p ds (List.length ds) = w_rposition p ds' (List.length ds').
Proof.
  intros X Q. apply injective_projections.
  - pose proof (rposition_same p ds ds' [] [] X) as P. rewrite !app_nil_r in P. apply P. now split.
  - rewrite !we_rposition by lia. now rewrite !firstn_all, Q.
Qed.
(** One of the two has so few digits that the loop of the long division is not needed. *)
Definition short_digits (ls rs : list Z) : Prop := forall l r, rposition_nonzero ls = Some l -> rposition_nonzero rs = Some r -> (l < r \/ l <= 1 \/ r = 0)%nat.
Lemma zip_length (f : Z -> Z -> Z) l : forall m, List.length (zip_update f l m) = List.length l.
Proof. induction l as [|x l IH]; intros [|y m]; cbn; auto. Qed.
Lemma same_aarons q ls rs ls' rs' : digs rs -> digs rs' -> alike ls ls' -> alike rs rs' -> short_digits ls rs -> learnt_div ls rs ls' rs' ->
  @same _ flagged (w_aarons_algorithm_divrem q ls rs) (w_aarons_algorithm_divrem q ls' rs').
Proof.
  intros D D' H K S [E G]. pose proof H as H0. pose proof K as K0. unfold alike, alike_digits in H0, K0. unfold w_aarons_algorithm_divrem. rewrite (same_rposition _ _ _ K0 E).
  pose proof (we_rposition q rs' (List.length rs') (le_n _)) as W. rewrite firstn_all in W. destruct (w_rposition q rs' (List.length rs')) as [es o]. cbn [snd] in W. subst o.
  apply (@same_known _ _ flagged). rewrite <- E. destruct (rposition_nonzero rs) as [r|] eqn:Hr; [|apply (@same_val _ flagged); now repeat split].
  destruct (G r eq_refl) as [F J]. rewrite (same_rposition _ _ _ H0 F). pose proof (we_rposition Self ls' (List.length ls') (le_n _)) as W2. rewrite firstn_all in W2.
  destruct (w_rposition Self ls' (List.length ls')) as [es2 o]. cbn [snd] in W2. subst o. apply (@same_known _ _ flagged). rewrite <- F. destruct (rposition_nonzero ls) as [l|] eqn:Hl.
  - apply (@same_branch _ flagged); [reflexivity|]. destruct (Nat.ltb_spec l r) as [Q|Q].
    + apply (@same_see _ flagged); [now rewrite H0, K0|]. apply (@same_val _ flagged). split; [|reflexivity]. split; unfold alike, alike_digits; cbn [fst snd]; rewrite !zip_length; auto.
    + apply (@same_bind _ _ _ flagged). { apply same_cases; try assumption; try congruence; [now apply rposition_below in Hl|destruct (S l r Hl Hr) as [?|[?|?]]; lia|]. intros. now apply (J l). }
      intros [x y] [x' y'] [X Y]. cbn [fst snd] in X, Y. apply (@same_val _ flagged). now repeat split.
  - apply (@same_see _ flagged); [now rewrite K0|]. apply (@same_val _ flagged). split; [|reflexivity]. split; unfold alike, alike_digits; cbn [fst snd]; rewrite ?map_length; auto.
Qed.
