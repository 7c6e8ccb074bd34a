(** What multiplications let an observer see: exactly. *)
From Verif Require Export LWatchMul.
From Verif Require Import LTemp2.
From Coq Require Import Lia ZArith.

(** * Given the numbers of significant digits, products look the same *)
Lemma same_push ag m m' rs : forall rs' i sum sum' c c', alike rs rs' -> alike sum sum' -> same (w_mul_push_loop ag m i rs sum c) (w_mul_push_loop ag m' i rs' sum' c').
Proof.
  induction rs as [|r rs IH]; intros [|r' rs'] i sum sum' c c' H K; try discriminate H; cbn [w_mul_push_loop]; [apply same_val; now split|].
  apply same_see; [now rewrite K|]. destruct (d_carrying_mul_add m r c), (d_carrying_mul_add m' r' c'). apply IH; [now injection H|]. unfold alike, alike_digits in *. rewrite !app_length. cbn [List.length]. lia.
Qed.
Lemma same_row_step ag m m' rhs rhs' li ri st st' : alike rhs rhs' -> alike st st' -> same (w_mul_row_step ag m rhs li ri st) (w_mul_row_step ag m' rhs' li ri st').
Proof.
  destruct st as [[sum c] d], st' as [[sum' c'] d']. intros H [[K _] _]. cbn [fst snd] in K. unfold w_mul_row_step. apply same_see; [reflexivity|]. apply same_bind; [now apply same_idx|].
  intros r r' _. destruct (d_carrying_mul_add m r c), (d_carrying_mul_add m' r' c'). apply same_bind; [now apply same_idx|]. intros s s' _. apply same_bind; [now apply same_upd|].
  intros t t' T. apply same_val. now repeat split.
Qed.
Lemma same_row_first m m' rhs rhs' li sum sum' : alike rhs rhs' -> alike sum sum' -> same (w_mul_row_first m rhs li sum) (w_mul_row_first m' rhs' li sum').
Proof.
  intros H K. unfold w_mul_row_first. apply same_bind; [now apply same_idx|]. intros r r' _. destruct (d_carrying_mul m r), (d_carrying_mul m' r'). apply same_bind; [now apply same_idx|].
  intros s s' _. destruct (d_carrying_add s z), (d_carrying_add s' z1). apply same_bind; [now apply same_upd|]. intros t t' T. apply same_val. now repeat split.
Qed.
Lemma alike_snoc (l l' : list Z) x x' : alike l l' -> alike (l ++ [x]) (l' ++ [x']).
Proof. unfold alike, alike_digits. rewrite !app_length. cbn [List.length]. lia. Qed.
Lemma alike_part (l l' : list Z) n m : alike l l' -> alike (skipn m (firstn n l)) (skipn m (firstn n l')).
Proof. unfold alike, alike_digits. rewrite !skipn_length, !firstn_length. lia. Qed.
Lemma same_full_row lhs lhs' rhs rhs' rs li sum sum' : alike lhs lhs' -> alike rhs rhs' -> alike sum sum' -> same (w_mul_full_row lhs rhs rs li sum) (w_mul_full_row lhs' rhs' rs li sum').
Proof.
  intros H K S. unfold w_mul_full_row. apply same_bind; [now apply same_idx|]. intros m m' _. apply same_bind; [now apply same_row_first|]. intros st st' T.
  apply same_bind; [apply same_for_range; [exact T|]; intros; now apply same_row_step|]. intros [[s c] d] [[s' c'] d'] [[T1 _] _]. cbn [fst snd] in T1. apply same_bind; [now apply same_idx|].
  intros r r' _. destruct (d_carrying_mul_add m r c), (d_carrying_mul_add m' r' c'). apply same_bind; [now apply same_idx|]. intros x x' _. apply same_bind; [now apply same_upd|].
  intros t t' T2. apply same_see; [now rewrite T2|]. apply same_val. now apply alike_snoc.
Qed.
Lemma same_no_overflow lhs lhs' rhs rhs' ls rs : alike lhs lhs' -> alike rhs rhs' -> same (w_mul_no_overflow lhs rhs ls rs) (w_mul_no_overflow lhs' rhs' ls rs).
Proof.
  intros H K. unfold w_mul_no_overflow. apply same_bind; [now apply same_idx|]. intros m m' _. apply same_bind; [now apply same_idx|]. intros r r' _.
  destruct (d_carrying_mul m r) as [lo hi], (d_carrying_mul m' r') as [lo' hi']. apply same_see; [reflexivity|]. apply same_bind; [apply same_push; [now apply alike_part|reflexivity]|].
  intros [s c] [s' c'] [S _]. cbn [fst] in S. apply same_bind; [now apply same_idx|]. intros x x' _. destruct (d_carrying_mul_add m x c), (d_carrying_mul_add m' x' c').
  apply same_see; [now rewrite S|]. apply same_bind; [apply same_for_range; [now apply alike_snoc, alike_snoc|]; intros; now apply same_full_row|]. intros t t' T.
  apply same_bind; [now apply same_full_row|]. intros u u' U. unfold alike, alike_digits in H, U. rewrite H, U. apply same_branch; [reflexivity|].
  destruct (Nat.ltb _ _); (apply same_see; [reflexivity|]); apply same_val; unfold alike, alike_digits; rewrite ?app_length, ?skipn_length, ?firstn_length; lia.
Qed.
Lemma same_wrap_row lhs lhs' rhs rhs' s li sum sum' : alike lhs lhs' -> alike rhs rhs' -> alike sum sum' -> same (w_mul_wrap_row lhs rhs s li sum) (w_mul_wrap_row lhs' rhs' s li sum').
Proof.
  intros H K S. unfold w_mul_wrap_row. apply same_bind; [now apply same_idx|]. intros m m' _. apply same_bind; [now apply same_row_first|]. intros st st' T.
  apply same_bind; [apply same_for_range; [exact T|]; intros; now apply same_row_step|]. intros [[t c] d] [[t' c'] d'] [[T1 _] _]. cbn [fst snd] in T1. apply same_see; [reflexivity|].
  apply same_bind; [now apply same_idx|]. intros r r' _. apply same_bind; [now apply same_idx|]. intros x x' _. now apply same_upd.
Qed.
Lemma same_mul_wrapping lhs lhs' rhs rhs' : alike lhs lhs' -> alike rhs rhs' -> same (w_mul_wrapping lhs rhs) (w_mul_wrapping lhs' rhs').
Proof.
  intros H K. unfold w_mul_wrapping. pose proof H as H0. unfold alike, alike_digits in H0. rewrite H0. apply same_lift_eq. intros n. apply same_bind; [now apply same_idx|]. intros m m' _.
  apply same_bind; [now apply same_idx|]. intros r r' _. destruct (d_carrying_mul m r) as [lo hi], (d_carrying_mul m' r') as [lo' hi']. apply same_see; [reflexivity|].
  apply same_bind; [apply same_push; [now apply alike_part|reflexivity]|]. intros [s c] [s' c'] [S _]. cbn [fst] in S. apply same_see; [reflexivity|]. apply same_bind; [now apply same_idx|].
  intros x x' _. apply same_see; [now rewrite S|]. apply same_bind; [apply same_for_range; [now apply alike_snoc|]; intros; now apply same_wrap_row|]. intros t t' T. apply same_see; [reflexivity|].
  apply same_bind; [now apply same_idx|]. intros y y' _. apply same_see; [reflexivity|]. apply same_bind; [now apply same_idx|]. intros z z' _. apply same_see; [reflexivity|]. apply same_val.
  apply alike_snoc. unfold alike, alike_digits in *. rewrite !firstn_length. lia.
Qed.
Lemma same_small_lhs lhs lhs' rhs rhs' s : alike lhs lhs' -> alike rhs rhs' -> same (w_mul_small_lhs lhs rhs s) (w_mul_small_lhs lhs' rhs' s).
Proof.
  intros H K. unfold w_mul_small_lhs. apply same_bind; [now apply same_idx|]. intros m m' _. apply same_bind; [now apply same_idx|]. intros r r' _.
  destruct (d_carrying_mul m r) as [lo hi], (d_carrying_mul m' r') as [lo' hi']. apply same_bind; [now apply same_upd|]. intros l l' L. apply same_bind.
  { apply same_for_range; [now split|]. intros i [u c] [u' c'] [U _]. cbn [fst] in U. unfold w_mul_small_step. apply same_bind; [now apply same_idx|]. intros x x' _.
    destruct (d_carrying_mul_add m x c), (d_carrying_mul_add m' x' c'). apply same_bind; [now apply same_upd|]. intros. apply same_val. now split. }
  intros [u c] [u' c'] [U _]. cbn [fst] in U. pose proof U as U0. unfold alike, alike_digits in U0. rewrite U0. apply same_lift_eq. intros n. apply same_branch; [reflexivity|].
  apply same_bind; [now apply same_idx|]. intros x x' _. destruct (Nat.eqb s n); [now apply same_upd|]. destruct (d_carrying_mul_add m x c), (d_carrying_mul_add m' x' c').
  apply same_bind; [now apply same_upd|]. intros. now apply same_upd.
Qed.
Lemma same_small_rhs lhs lhs' rhs rhs' s : alike lhs lhs' -> alike rhs rhs' -> same (w_mul_small_rhs lhs rhs s) (w_mul_small_rhs lhs' rhs' s).
Proof.
  intros H K. unfold w_mul_small_rhs. apply same_bind; [now apply same_idx|]. intros m m' _. apply same_bind; [now apply same_idx|]. intros r r' _.
  destruct (d_carrying_mul m r) as [lo hi], (d_carrying_mul m' r') as [lo' hi']. apply same_bind; [now apply same_upd|]. intros l l' L. apply same_bind.
  { apply same_for_range; [now split|]. intros i [u c] [u' c'] [U _]. cbn [fst] in U. unfold w_mul_small_step_inplace. apply same_see; [reflexivity|]. apply same_bind; [now apply same_idx|]. intros x x' _.
    destruct (d_carrying_mul_add m x c), (d_carrying_mul_add m' x' c'). apply same_bind; [now apply same_upd|]. intros. apply same_val. now split. }
  intros [u c] [u' c'] [U _]. cbn [fst] in U. pose proof U as U0. unfold alike, alike_digits in U0. rewrite U0. apply same_lift_eq. intros n. apply same_branch; [reflexivity|]. apply same_see; [reflexivity|].
  apply same_bind; [now apply same_idx|]. intros x x' _. destruct (Nat.eqb s n); [now apply same_upd|]. destruct (d_carrying_mul_add m x c), (d_carrying_mul_add m' x' c').
  apply same_bind; [now apply same_upd|]. intros. now apply same_upd.
Qed.
Lemma same_small_both lhs lhs' rhs rhs' : alike lhs lhs' -> alike rhs rhs' -> same (w_mul_small_both lhs rhs) (w_mul_small_both lhs' rhs').
Proof.
  intros H K. unfold w_mul_small_both. apply same_bind; [now apply same_idx|]. intros m m' _. apply same_bind; [now apply same_idx|]. intros r r' _.
  destruct (d_carrying_mul m r) as [lo hi], (d_carrying_mul m' r') as [lo' hi']. apply same_bind; [now apply same_upd|]. intros. now apply same_upd.
Qed.

(** * Looking for the top digit that is not zero *)
Lemma rposition_below l : forall i, rposition_nonzero l = Some i -> (i < List.length l)%nat.
Proof.
  induction l as [|x l IH]; cbn [rposition_nonzero List.length]; intros i H; [discriminate|]. destruct (rposition_nonzero l) as [j|]; [injection H as <-; specialize (IH j eq_refl); lia|].
  destruct (d_is_zero x); [discriminate|]. injection H as <-. lia.
Qed.
Lemma rposition_seen p n : forall ds ds' X X', (n <= List.length ds)%nat -> (n <= List.length ds')%nat ->
  (fst (w_rposition p ds n) ++ X = fst (w_rposition p ds' n) ++ X' <-> rposition_nonzero (firstn n ds) = rposition_nonzero (firstn n ds') /\ X = X').
Proof.
  induction n as [|n IH]; intros ds ds' X X' H H'; [cbn; tauto|]. cbn [w_rposition].
  rewrite (fst_bind _ (nth n ds 0)), (fst_bind (w_idx p ds' n) (nth n ds' 0)) by (unfold w_idx; cbn [snd]; apply idx_nth; lia).
  rewrite (fst_bind _ (negb (d_is_zero (nth n ds 0)))), (fst_bind (branch (negb (d_is_zero (nth n ds' 0)))) (negb (d_is_zero (nth n ds' 0)))) by reflexivity. cbn [fst w_idx branch app].
  rewrite !firstn_snoc by lia. rewrite !rposition_snoc, !firstn_length, !Nat.min_l by lia. specialize (IH ds ds' X X' ltac:(lia) ltac:(lia)).
  pose proof (we_rposition p ds n ltac:(lia)) as R. pose proof (we_rposition p ds' n ltac:(lia)) as R'.
  assert (forall l, rposition_nonzero (firstn n l) <> Some n) as N.
  { intros l Q. apply rposition_below in Q. rewrite firstn_length in Q. lia. }
  destruct (d_is_zero (nth n ds 0)), (d_is_zero (nth n ds' 0)); cbn [negb fst wval app].
  - rewrite <- IH. split; intros Q; [now injection Q|now rewrite Q].
  - split; [discriminate|]. intros [Q _]. now apply N in Q.
  - split; [discriminate|]. intros [Q _]. symmetry in Q. now apply N in Q.
  - split; intros Q; [injection Q as Q; auto|]. destruct Q as [_ ->]. reflexivity.
Qed.
Lemma rposition_same p ds ds' X X' : List.length ds = List.length ds' ->
  (fst (w_rposition p ds (List.length ds)) ++ X = fst (w_rposition p ds' (List.length ds')) ++ X' <-> rposition_nonzero ds = rposition_nonzero ds' /\ X = X').
Proof. intros L. rewrite <- L. rewrite rposition_seen by lia. rewrite firstn_all, L, firstn_all. tauto. Qed.

(** * What is learnt *)
Definition sb (ds : list Z) (s : nat) : Z := Z.of_nat s * 64 + (64 - d_leading_zeros (nth s ds 0)).
Definition fits (ls rs : list Z) (l r : nat) : bool := sb ls l + sb rs r <=? Z.of_nat (List.length ls) * 64.
Definition learnt (ls rs ls' rs' : list Z) : Prop :=
  rposition_nonzero rs = rposition_nonzero rs' /\
  forall r, rposition_nonzero rs = Some r -> rposition_nonzero ls = rposition_nonzero ls' /\
  forall l, rposition_nonzero ls = Some l -> (l <> 0)%nat -> (r <> 0)%nat -> fits ls rs l r = fits ls' rs' l r.
Lemma fst_prefix {A C} (m : watched A) (k : A -> watched C) : exists Y, fst (wbind m k) = fst m ++ Y.
Proof. unfold wbind. destruct (snd m); cbn [fst]; [eauto| |]; exists []; now rewrite app_nil_r. Qed.
Lemma cases_forward ls rs ls' rs' l r Y Y' : (l < List.length ls)%nat -> (r < List.length rs)%nat -> List.length ls = List.length ls' -> List.length rs = List.length rs' ->
  (l <> 0)%nat -> (r <> 0)%nat -> fst (w_mul_cases ls rs l r) ++ Y = fst (w_mul_cases ls' rs' l r) ++ Y' -> fits ls rs l r = fits ls' rs' l r.
Proof.
  intros L R E F N M. unfold w_mul_cases. rewrite !(fst_bind (branch (Nat.eqb l 0)) (Nat.eqb l 0)), !(fst_bind (branch (Nat.eqb r 0)) (Nat.eqb r 0)) by reflexivity.
  apply Nat.eqb_neq in N, M. rewrite N, M. cbn [fst branch app].
  assert (forall p x s, (s < List.length x)%nat -> w_sig_bits p x s = ([Read p s], Val (sb x s))) as T by (intros p x s X; unfold w_sig_bits, wbind, w_idx; cbn [snd]; rewrite idx_nth by exact X; reflexivity).
  rewrite !T by lia. rewrite !(fst_bind ([Read Self l], _) _ _ eq_refl), !(fst_bind ([Read Other r], _) _ _ eq_refl), !(fst_bind (branch _) _ _ eq_refl). cbn [fst branch app]. intros Q. injection Q as Q _. exact Q.
Qed.
Lemma digits_forward ls rs ls' rs' Y Y' : List.length ls = List.length ls' -> List.length rs = List.length rs' ->
  fst (w_mul_digits ls rs) ++ Y = fst (w_mul_digits ls' rs') ++ Y' -> learnt ls rs ls' rs'.
Proof.
  intros L R. unfold w_mul_digits. rewrite !(fst_bind _ _ _ (we_rposition _ _ _ (le_n _))), <- !app_assoc, !firstn_all, rposition_same by exact R. intros [E Q]. split; [exact E|].
  intros r Hr. rewrite <- E, Hr in Q. rewrite !(fst_bind _ _ _ (we_rposition _ _ _ (le_n _))), <- !app_assoc, !firstn_all, rposition_same in Q by exact L. destruct Q as [F Q]. split; [exact F|].
  intros l Hl N M. rewrite <- F, Hl in Q. destruct (fst_prefix (w_mul_cases ls rs l r) (fun ds => wval (Some ds))) as [Z1 P1].
  destruct (fst_prefix (w_mul_cases ls' rs' l r) (fun ds => wval (Some ds))) as [Z2 P2]. rewrite P1, P2, <- !app_assoc in Q.
  apply rposition_below in Hl, Hr. now apply cases_forward in Q.
Qed.
#[export] Instance alike_option {A} `{Alike A} : Alike (option A) := fun o o' => match o, o' with Some a, Some a' => alike a a' | None, None => True | _, _ => False end.
Lemma cases_backward ls rs ls' rs' l r : (l < List.length ls)%nat -> (r < List.length rs)%nat -> alike ls ls' -> alike rs rs' ->
  ((l <> 0)%nat -> (r <> 0)%nat -> fits ls rs l r = fits ls' rs' l r) -> same (w_mul_cases ls rs l r) (w_mul_cases ls' rs' l r).
Proof.
  intros L R E F K. unfold w_mul_cases. apply same_branch; [reflexivity|]. apply same_branch; [reflexivity|].
  destruct (Nat.eqb_spec l 0) as [N|N], (Nat.eqb_spec r 0) as [M|M]; [now apply same_small_both|now apply same_small_lhs|now apply same_small_rhs|].
  assert (forall p x s, (s < List.length x)%nat -> w_sig_bits p x s = ([Read p s], Val (sb x s))) as T by (intros p x s X; unfold w_sig_bits, wbind, w_idx; cbn [snd]; rewrite idx_nth by exact X; reflexivity).
  specialize (K N M). pose proof E as E0. pose proof F as F0. unfold alike, alike_digits in E0, F0. rewrite !T by lia. apply same_known, same_known. unfold fits in K. rewrite K. apply same_branch; [reflexivity|].
  destruct (sb ls' l + sb rs' r <=? Z.of_nat (List.length ls') * 64); [now apply same_no_overflow|now apply same_mul_wrapping].
Qed.
Lemma digits_backward ls rs ls' rs' : alike ls ls' -> alike rs rs' -> learnt ls rs ls' rs' -> same (w_mul_digits ls rs) (w_mul_digits ls' rs').
Proof.
  intros L R [E H]. pose proof L as L0. pose proof R as R0. unfold alike, alike_digits in L0, R0.
  assert (forall p x x', List.length x = List.length x' -> rposition_nonzero x = rposition_nonzero x' -> w_rposition p x (List.length x) = w_rposition p x' (List.length x')) as T.
  { intros p x x' X Q. apply injective_projections.
    - pose proof (rposition_same p x x' [] [] X) as P. rewrite !app_nil_r in P. apply P. now split.
    - rewrite !we_rposition by lia. now rewrite !firstn_all, Q. }
  unfold w_mul_digits. rewrite (T _ _ _ R0 E).
  pose proof (we_rposition Other rs' (List.length rs') (le_n _)) as W. rewrite firstn_all in W.
  assert (same (match rposition_nonzero rs' with
    | Some r => let& l := w_rposition Self ls (List.length ls) in match l with Some l => let& ds := w_mul_cases ls rs l r in wval (Some ds) | None => let& _ := see (writes Self 0 (List.length ls)) in wval None end
    | None => let& _ := see (writes Self 0 (List.length ls)) in wval None end)
    (match rposition_nonzero rs' with
    | Some r => let& l := w_rposition Self ls' (List.length ls') in match l with Some l => let& ds := w_mul_cases ls' rs' l r in wval (Some ds) | None => let& _ := see (writes Self 0 (List.length ls')) in wval None end
    | None => let& _ := see (writes Self 0 (List.length ls')) in wval None end)) as G.
  - destruct (rposition_nonzero rs') as [r|] eqn:Hr; [|rewrite L0; apply same_see; [reflexivity|]; now apply same_val]. destruct (H r E) as [F K]. rewrite (T _ _ _ L0 F).
    pose proof (we_rposition Self ls' (List.length ls') (le_n _)) as W2. rewrite firstn_all in W2. destruct (w_rposition Self ls' (List.length ls')) as [es o]. cbn [snd] in W2. subst o. apply same_known.
    destruct (rposition_nonzero ls') as [l|] eqn:Hl; [|rewrite L0; apply same_see; [reflexivity|]; now apply same_val].
    apply same_bind; [|intros; now apply same_val]. apply cases_backward; auto; [apply rposition_below in F; lia|apply rposition_below in Hr; lia].
  - destruct (w_rposition Other rs' (List.length rs')) as [es o]. cbn [snd] in W. subst o. apply same_known. exact G.
Qed.
