(** Programs that look the same whatever the values. *)
From Verif Require Export LWatchLeak2 LFacts LPrim.
From Coq Require Import Lia ZArith.

Lemma mut_same m a a' : alike a a' -> same (w_mut m a) (w_mut m a').
Proof.
  intros H. assert (forall r r' : watched (apint * result unit), same r r' -> same (let& (a, _) := r in wval a) (let& (a, _) := r' in wval a)) as After.
  { intros r r' R. apply same_bind; [exact R|]. intros [x u] [x' u'] [X _]. now apply same_val. }
  destruct m; cbn [w_mut]; try (apply After); try (now auto with same);
    (apply same_modify_bit_at; [auto with same|exact H]).
Qed.
Lemma bin_same m a a' b b' : alike a a' -> alike b b' -> same (w_bin m a b) (w_bin m a' b').
Proof.
  intros H K. unfold w_bin. apply same_bind; [|intros [x u] [x' u'] [X _]; now apply same_val].
  destruct m; [now apply same_add|now apply same_sub|now apply same_modify_zipped|now apply same_modify_zipped|now apply same_modify_zipped|now apply same_strict_assign].
Qed.
Lemma same_count_zeros a a' : wf a -> wf a' -> len a = len a' -> same (w_count_zeros a) (w_count_zeros a').
Proof.
  intros H H' E. pose proof (wf_alike _ _ H H' E) as [_ L]. unfold w_count_zeros, as_digit_slice. apply same_see; [now rewrite L|]. apply same_lift. rewrite !count_zeros_spec by assumption. exact I.
Qed.
Lemma same_resize_to_i128 a a' : wf a -> wf a' -> len a = len a' -> same (w_resize_to_i128 a) (w_resize_to_i128 a').
Proof.
  intros H H' E. pose proof (wf_alike _ _ H H' E) as [_ L]. unfold w_resize_to_i128, as_digit_slice, width. rewrite L, E. apply same_see; [reflexivity|]. apply same_lift.
  rewrite (proj2 (resize_128_fact a H)), (proj2 (resize_128_fact a' H')). exact I.
Qed.
Lemma same_resize_to_u128 a a' : wf a -> wf a' -> len a = len a' -> same (w_resize_to_u128 a) (w_resize_to_u128 a').
Proof.
  intros H H' E. pose proof (wf_alike _ _ H H' E) as [_ L]. unfold w_resize_to_u128, as_digit_slice, width. rewrite L, E. apply same_see; [reflexivity|]. apply same_lift.
  rewrite (proj1 (resize_128_fact a H)), (proj1 (resize_128_fact a' H')). exact I.
Qed.
Lemma same_drop {A} `{Alike A} (r r' : watched A) : same r r' -> same (let& _ := r in wval tt) (let& _ := r' in wval tt).
Proof. intros R. apply same_bind; [exact R|]. intros. now apply same_val. Qed.
Lemma ask_same q a a' : wf a -> wf a' -> len a = len a' -> same (w_ask q a) (w_ask q a').
Proof.
  intros H H' E. pose proof (wf_alike _ _ H H' E) as K.
  destruct q as [p| | | | | |[]|]; cbn [w_ask]; eapply same_drop;
    first [now auto with same | now apply same_count_zeros | now apply same_resize_to_i128 | now apply same_resize_to_u128 | now apply same_resize_to_primitive_ty | now apply same_lsb].
Qed.

Lemma mut_wf m a : wf a -> mut_ok m -> exists c, snd (w_mut m a) = Val c /\ wf c.
Proof.
  intros H O.
  assert (forall (r : watched (apint * result unit)) o c u, snd r = o -> o = Val (c, u) -> wf c -> exists c, snd (let& (a, _) := r in wval a) = Val c /\ wf c) as After.
  { intros r o c u <- E W. exists c. split; [|exact W]. now rewrite (wbind_val _ _ _ E). }
  assert (forall f p, (forall q, 0 <= q < len a -> exists c, modify_bit_at f a q = Val (c, Ok tt) /\ wf c) -> 0 <= p -> exists c, snd (let& (a, _) := w_modify_bit_at f a p in wval a) = Val c /\ wf c) as Bit.
  { intros f p F P0. destruct (Z_lt_le_dec p (len a)) as [L|L].
    - destruct (F p ltac:(lia)) as (c & E & W). eapply After; [apply we_modify_bit_at|exact E|exact W].
    - eapply After; [apply we_modify_bit_at| |exact H]. unfold modify_bit_at, verify_bit_access, width. destruct (Z.ltb_spec p (len a)); [lia|]. reflexivity. }
  pose proof (wf_sh _ H) as Hs. destruct m as [| | | |p|p|p|s|s|t|t|t]; cbn [w_mut mut_ok] in *.
  - destruct (bitnot_spec a H) as (c & E & W & _). exists c. now rewrite we_bitnot.
  - destruct (set_all_spec a Hs) as (c & E & W & _). exists c. now rewrite we_set_all.
  - destruct (unset_all_spec a Hs) as (c & E & W & _). exists c. unfold w_unset_all. now rewrite we_modify_digits.
  - destruct (flip_all_spec a H) as (c & E & W & _). exists c. now rewrite we_flip_all.
  - apply Bit; [|exact O]. intros q Q. destruct (set_bit_at_spec a q H Q) as (c & E & W & _). eauto.
  - apply Bit; [|exact O]. intros q Q. destruct (unset_bit_at_spec a q H Q) as (c & E & W & _). eauto.
  - apply Bit; [|exact O]. intros q Q. destruct (flip_bit_at_spec a q H Q) as (c & E & W & _). eauto.
  - destruct (Z_lt_le_dec s (len a)) as [L|L].
    + destruct (wrapping_shl_assign_spec a s H ltac:(lia)) as (c & E & W & _). eapply After; [apply we_wrapping_shl_assign|exact E|exact W].
    + eapply After; [apply we_wrapping_shl_assign|now apply wrapping_shl_assign_err|exact H].
  - destruct (Z_lt_le_dec s (len a)) as [L|L].
    + destruct (wrapping_lshr_assign_spec a s H ltac:(lia)) as (c & E & W & _). eapply After; [apply we_wrapping_lshr_assign|exact E|exact W].
    + eapply After; [apply we_wrapping_lshr_assign|now apply wrapping_lshr_assign_err|exact H].
  - destruct (Z_lt_le_dec (len a) t) as [L|L].
    + eapply After; [apply we_truncate|now apply truncate_err|exact H].
    + destruct (truncate_spec a t H ltac:(lia)) as (c & E & W & _). eapply After; [apply we_truncate|exact E|exact W].
  - destruct (Z_lt_le_dec t (len a)) as [L|L].
    + eapply After; [apply we_zero_extend|now apply zero_extend_err|exact H].
    + destruct (zero_extend_spec a t H ltac:(lia)) as (c & E & W & _). eapply After; [apply we_zero_extend|exact E|exact W].
  - destruct (zero_resize_spec a t H O) as (c & E & W & _). exists c. now rewrite we_zero_resize.
Qed.
Lemma zip_differs a b : len a <> len b -> zip_access_data a b = Val (Err (UnmatchingBitwidth (len a) (len b))).
Proof. intros N. unfold zip_access_data, width. destruct (Z.eqb_spec (len a) (len b)); [contradiction|reflexivity]. Qed.
Lemma bin_wf m a b : wf a -> wf b -> exists c, snd (w_bin m a b) = Val c /\ wf c.
Proof.
  intros H K. unfold w_bin.
  assert (forall (r : watched (apint * result unit)) o c u, snd r = o -> o = Val (c, u) -> wf c -> exists c, snd (let& (a, _) := r in wval a) = Val c /\ wf c) as After.
  { intros r o c u <- E W. exists c. split; [|exact W]. now rewrite (wbind_val _ _ _ E). }
  destruct (Z.eq_dec (len a) (len b)) as [E|N].
  - destruct m.
    + destruct (wrapping_add_assign_spec a b H K E) as (c & X & W & _). eapply After; [apply we_wrapping_add_assign|exact X|exact W].
    + destruct (wrapping_sub_assign_spec a b H K E) as (c & X & W & _). eapply After; [apply we_wrapping_sub_assign|exact X|exact W].
    + destruct (bitand_assign_spec a b H K E) as (c & X & W & _). eapply After; [apply we_modify_zipped_digits|exact X|exact W].
    + destruct (bitor_assign_spec a b H K E) as (c & X & W & _). eapply After; [apply we_modify_zipped_digits|exact X|exact W].
    + destruct (bitxor_assign_spec a b H K E) as (c & X & W & _). eapply After; [apply we_modify_zipped_digits|exact X|exact W].
    + eapply After; [apply we_strict_assign|now apply strict_assign_spec|exact K].
  - pose proof (zip_differs a b N) as Z. destruct m.
    + eapply After; [apply we_wrapping_add_assign| |exact H]. unfold wrapping_add_assign. rewrite Z. reflexivity.
    + eapply After; [apply we_wrapping_sub_assign| |exact H]. unfold wrapping_sub_assign. rewrite Z. reflexivity.
    + eapply After; [apply we_modify_zipped_digits| |exact H]. unfold modify_zipped_digits. rewrite Z. reflexivity.
    + eapply After; [apply we_modify_zipped_digits| |exact H]. unfold modify_zipped_digits. rewrite Z. reflexivity.
    + eapply After; [apply we_modify_zipped_digits| |exact H]. unfold modify_zipped_digits. rewrite Z. reflexivity.
    + eapply After; [apply we_strict_assign|now apply strict_assign_err|exact H].
Qed.
Lemma same_vals {A} `{Alike A} (m m' : watched A) c c' : same m m' -> snd m = Val c -> snd m' = Val c' -> fst m = fst m' /\ alike c c'.
Proof. intros [E O] V V'. rewrite V, V' in O. now split. Qed.

Lemma var_twins vs vs' i : Forall2 twins vs vs' ->
  (exists a a', nth_error vs i = Some a /\ nth_error vs' i = Some a' /\ twins a a') \/ nth_error vs i = None /\ nth_error vs' i = None.
Proof.
  intros H. revert i. induction H as [|a a' vs vs' T H IH]; intros [|i]; cbn; eauto. left. eauto.
Qed.
Lemma set_twins vs vs' i a a' : Forall2 twins vs vs' -> twins a a' -> Forall2 twins (set_var vs i a) (set_var vs' i a').
Proof.
  intros H T. unfold set_var. revert i. induction H as [|b b' vs vs' T' H IH]; intros [|i]; cbn [firstn skipn app]; try (constructor; auto; fail).
  constructor; [exact T'|]. apply IH.
Qed.
Definition both (o o' : outcome (list apint)) : Prop :=
  match o, o' with Val ws, Val ws' => Forall2 twins ws ws' | Stop b, Stop b' => b = b' | OutOfFuel, OutOfFuel => True | _, _ => False end.
Lemma then_both (m m' : watched (list apint)) (k k' : list apint -> watched (list apint)) : fst m = fst m' -> both (snd m) (snd m') ->
  (forall ws ws', Forall2 twins ws ws' -> fst (k ws) = fst (k' ws') /\ both (snd (k ws)) (snd (k' ws'))) ->
  fst (wbind m k) = fst (wbind m' k') /\ both (snd (wbind m k)) (snd (wbind m' k')).
Proof.
  intros E B K. unfold wbind. destruct (snd m) as [ws| |], (snd m') as [ws'| |]; cbn in B; try contradiction; cbn [fst snd]; [|now split|now split].
  destruct (K ws ws' B) as [F C]. split; [now rewrite E, F|exact C].
Qed.
Lemma var_both {A} (o o' : option A) (k k' : A -> watched (list apint)) :
  (o = None /\ o' = None) \/ (exists a a', o = Some a /\ o' = Some a' /\ fst (k a) = fst (k' a') /\ both (snd (k a)) (snd (k' a'))) ->
  fst (wbind (wlift (unwrap_opt o)) k) = fst (wbind (wlift (unwrap_opt o')) k') /\ both (snd (wbind (wlift (unwrap_opt o)) k)) (snd (wbind (wlift (unwrap_opt o')) k')).
Proof. intros [[-> ->]|(a & a' & -> & -> & E & B)]; [now split|]. cbn [unwrap_opt]. now split. Qed.
Lemma call_twins vs vs' c : Forall2 twins vs vs' -> call_ok c -> fst (w_call vs c) = fst (w_call vs' c) /\ both (snd (w_call vs c)) (snd (w_call vs' c)).
Proof.
  intros H O.
  assert (forall i k k', (forall a a', twins a a' -> fst (k a) = fst (k' a') /\ both (snd (k a)) (snd (k' a'))) ->
    fst (wbind (var vs i) k) = fst (wbind (var vs' i) k') /\ both (snd (wbind (var vs i) k)) (snd (wbind (var vs' i) k'))) as Var.
  { intros i k k' F. apply var_both. destruct (var_twins vs vs' i H) as [(a & a' & V & V' & T)|N]; [right|now left]. destruct (F a a' T). eauto 10. }
  destruct c as [m i|m i j|q i|i|i j]; cbn [w_call call_ok] in *; apply Var; intros a a' (W & W' & E); pose proof (wf_alike _ _ W W' E) as K.
  - destruct (mut_wf m a W O) as (c & S & C), (mut_wf m a' W' O) as (c' & S' & C'). destruct (same_vals _ _ _ _ (mut_same m a a' K) S S') as [F [L _]].
    rewrite (fst_bind _ c), (fst_bind _ c'), (wbind_val _ c), (wbind_val _ c') by assumption. cbn [fst snd wval]. rewrite F. split; [reflexivity|]. apply set_twins; [exact H|]. exact (conj C (conj C' L)).
  - apply Var. intros b b' (B & B' & G). pose proof (wf_alike _ _ B B' G) as KB.
    destruct (bin_wf m a b W B) as (c & S & C), (bin_wf m a' b' W' B') as (c' & S' & C'). destruct (same_vals _ _ _ _ (bin_same m a a' b b' K KB) S S') as [F [L _]].
    rewrite (fst_bind _ c), (fst_bind _ c'), (wbind_val _ c), (wbind_val _ c') by assumption. cbn [fst snd wval]. rewrite F. split; [reflexivity|]. apply set_twins; [exact H|]. exact (conj C (conj C' L)).
  - destruct (ask_same q a a' W W' E) as [F B]. unfold wbind. destruct (snd (w_ask q a)), (snd (w_ask q a')); cbn in B; try contradiction; cbn [fst snd wval]; rewrite F; (split; [reflexivity|]); first [exact H|exact B|exact I].
  - assert (snd (w_clone Self a) = Val a) as S by (rewrite we_clone; now apply clone_spec). assert (snd (w_clone Self a') = Val a') as S' by (rewrite we_clone; now apply clone_spec).
    rewrite (fst_bind _ a), (fst_bind _ a'), (wbind_val _ a), (wbind_val _ a') by assumption. rewrite (same_seen _ _ (same_clone Self a a' K)). split; [reflexivity|]. cbn.
    apply Forall2_app; [exact H|]. constructor; [exact (conj W (conj W' E))|constructor].
  - apply Var. intros b b' (B & B' & G). pose proof (wf_alike _ _ B B' G) as KB.
    assert (snd (w_assign a b) = Val b) as S by (rewrite we_assign; now apply assign_spec). assert (snd (w_assign a' b') = Val b') as S' by (rewrite we_assign; now apply assign_spec).
    rewrite (fst_bind _ b), (fst_bind _ b'), (wbind_val _ b), (wbind_val _ b') by assumption. rewrite (same_seen _ _ (same_assign a a' b b' K KB)). split; [reflexivity|]. cbn [snd wval].
    apply set_twins; [exact H|]. exact (conj B (conj B' G)).
Qed.
Lemma run_twins p : forall vs vs', Forall2 twins vs vs' -> Forall call_ok p -> fst (w_run vs p) = fst (w_run vs' p) /\ both (snd (w_run vs p)) (snd (w_run vs' p)).
Proof.
  induction p as [|c p IH]; intros vs vs' H O; cbn [w_run]; [now split|]. destruct (call_twins vs vs' c H) as [E B]; [now inversion O|].
  apply then_both; [exact E|exact B|]. intros ws ws' T. apply IH; [exact T|now inversion O].
Qed.
