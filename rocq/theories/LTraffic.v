(** Each access that is watched is paid for by a step that is counted: proofs about divisions. *)
From Verif Require Export SpecWork MTime LTimeDiv LWatchDiv4.
From Verif Require Import LWatchMul LWork LWork2.

(** How often digits are read or written. *)
Definition accesses (es : list event) : Z := digits_read es + digits_written es.
Definition is_access (e : event) : bool := match e with Read _ _ | Write _ _ => true | Branch _ | Allocate _ => false end.

Definition paid {A : Type} (k : Z) (w : watched A) (c : clocked A) : Prop :=
  snd w = snd c /\ forall v, snd w = Val v -> accesses (fst w) <= 2 * fst c + k.

Lemma accesses_cons x xs : accesses (x :: xs) = (if is_access x then 1 else 0) + accesses xs.
Proof. unfold accesses. destruct x; cbn [digits_read digits_written is_access]; lia. Qed.
Lemma accesses_app xs ys : accesses (xs ++ ys) = accesses xs + accesses ys.
Proof. induction xs as [|x xs IH]; [reflexivity|]. cbn [app]. rewrite !accesses_cons, IH. lia. Qed.
Lemma accesses_nil : accesses [] = 0.
Proof. reflexivity. Qed.
Lemma accesses_flat f n m : (forall i, accesses (f i) = m) -> forall lo, accesses (flat_map f (seq lo n)) = m * Z.of_nat n.
Proof. intros H. induction n as [|n IH]; intros lo; cbn [seq flat_map]; [rewrite Z.mul_0_r; reflexivity|]. rewrite accesses_app, H, IH, Nat2Z.inj_succ. ring. Qed.
Lemma accesses_writes p lo n : accesses (writes p lo n) = Z.of_nat n.
Proof. revert lo. induction n as [|n IH]; intros lo; [reflexivity|]. unfold writes in *. cbn [seq map]. rewrite accesses_cons, IH. cbn [is_access]. lia. Qed.
Lemma accesses_reads p lo n : accesses (reads p lo n) = Z.of_nat n.
Proof. revert lo. induction n as [|n IH]; intros lo; [reflexivity|]. unfold reads in *. cbn [seq map]. rewrite accesses_cons, IH. cbn [is_access]. lia. Qed.
Lemma accesses_copies p q n : accesses (copies p q n) = 2 * Z.of_nat n.
Proof. unfold copies. apply accesses_flat. reflexivity. Qed.
Lemma accesses_copies_from p q lo n : accesses (copies_from p q lo n) = 2 * Z.of_nat n.
Proof. unfold copies_from. apply accesses_flat. reflexivity. Qed.
Lemma accesses_three p q r n : accesses (flat_map (fun i => [Read p i; Write q i; Write r i]) (seq 0 n)) = 3 * Z.of_nat n.
Proof. apply accesses_flat. reflexivity. Qed.
Lemma accesses_three' p q r n : accesses (flat_map (fun i => [Write p i; Read q i; Write r i]) (seq 0 n)) = 3 * Z.of_nat n.
Proof. apply accesses_flat. reflexivity. Qed.
Lemma accesses_nonneg xs : 0 <= accesses xs.
Proof. induction xs as [|x xs IH]; [reflexivity|]. rewrite accesses_cons. destruct (is_access x); lia. Qed.

Ltac one := intros ? _; unfold w_idx, c_idx, w_upd, c_upd, wlift, clift, wval, cval; cbn [fst snd]; rewrite ?accesses_cons, ?accesses_nil; cbn [is_access]; lia.

Lemma p_bind {A B} k j (m : watched A) m' (f : A -> watched B) g : paid j m m' -> j <= k -> (forall x, paid (k - j) (f x) (g x)) ->
  paid k (wbind m f) (cbind m' g).
Proof.
  intros (E & L) Hk H. unfold paid, wbind, cbind. rewrite <- E. destruct (snd m) as [x| |]; cbn [fst snd]; [|split; [reflexivity|discriminate]..].
  destruct (H x) as (E' & L'). rewrite accesses_app. split; [exact E'|]. intros v Hv. specialize (L _ eq_refl). specialize (L' _ Hv). lia.
Qed.
Lemma p_call {A B} k (m : watched A) m' (f : A -> watched B) g : paid 0 m m' -> 0 <= k -> (forall x, paid k (f x) (g x)) ->
  paid k (wbind m f) (cbind m' g).
Proof. intros H Hk F. apply (p_bind k 0); [exact H|exact Hk|]. intros x. rewrite Z.sub_0_r. apply F. Qed.
Lemma p_idx {B} k p ds i (f : Z -> watched B) g : -1 <= k -> (forall x, paid (k + 1) (f x) (g x)) ->
  paid k (wbind (w_idx p ds i) f) (cbind (c_idx ds i) g).
Proof. intros Hk F. apply (p_bind k (-1)); [split; [reflexivity|one]|exact Hk|]. intros x. replace (k - -1) with (k + 1) by lia. apply F. Qed.
Lemma p_upd {B} k p ds i v (f : list Z -> watched B) g : -1 <= k -> (forall x, paid (k + 1) (f x) (g x)) ->
  paid k (wbind (w_upd p ds i v) f) (cbind (c_upd ds i v) g).
Proof. intros Hk F. apply (p_bind k (-1)); [split; [reflexivity|one]|exact Hk|]. intros x. replace (k - -1) with (k + 1) by lia. apply F. Qed.
Lemma p_quiet_upd {B} k ds i v (f : list Z -> watched B) g : -2 <= k -> (forall x, paid (k + 2) (f x) (g x)) ->
  paid k (wbind (wlift (upd ds i v)) f) (cbind (c_upd ds i v) g).
Proof. intros Hk F. apply (p_bind k (-2)); [split; [reflexivity|one]|exact Hk|]. intros x. replace (k - -2) with (k + 2) by lia. apply F. Qed.
Lemma p_lift {A B} k (o : outcome A) (f : A -> watched B) g : 0 <= k -> (forall x, paid k (f x) (g x)) ->
  paid k (wbind (wlift o) f) (cbind (clift o) g).
Proof. intros Hk F. apply p_call; [split; [reflexivity|one]|exact Hk|exact F]. Qed.
Lemma p_see {A} k es (f : unit -> watched A) c : paid (k - accesses es) (f tt) c -> paid k (wbind (see es) f) c.
Proof. intros (E & L). unfold paid, wbind, see. cbn [fst snd]. rewrite accesses_app. split; [exact E|]. intros v Hv. specialize (L v Hv). lia. Qed.
Lemma p_branch {A} k b (f : bool -> watched A) c : paid k (f b) c -> paid k (wbind (branch b) f) c.
Proof. intros (E & L). unfold paid, wbind, branch. cbn [fst snd]. rewrite accesses_app, accesses_cons. cbn [is_access]. rewrite accesses_nil. split; [exact E|]. intros v Hv. specialize (L v Hv). lia. Qed.
Lemma p_pay {A} k n w (g : unit -> clocked A) : paid (k + 2 * Z.of_nat n) w (g tt) -> paid k w (cbind (cpay n) g).
Proof. intros (E & L). unfold paid, cbind, cpay. cbn [fst snd]. split; [exact E|]. intros v Hv. specialize (L v Hv). lia. Qed.
Lemma p_val {A} k (x : A) : 0 <= k -> paid k (wval x) (cval x).
Proof. split; [reflexivity|one]. Qed.
Lemma p_end {A} k (o : outcome A) : 0 <= k -> paid k (wlift o) (clift o).
Proof. split; [reflexivity|one]. Qed.
Lemma p_end_upd k p ds i v : -1 <= k -> paid k (w_upd p ds i v) (c_upd ds i v).
Proof. split; [reflexivity|one]. Qed.
Lemma p_weak {A} k j (w : watched A) c : paid j w c -> j <= k -> paid k w c.
Proof. intros (E & L) Hk. split; [exact E|]. intros v Hv. specialize (L v Hv). lia. Qed.
Lemma p_for {S} n lo (b : nat -> S -> watched S) c s : (forall i s, paid 0 (b i s) (c i s)) -> paid 0 (w_for_range n lo b s) (c_for_range n lo c s).
Proof.
  intros H. revert lo s. induction n as [|n IH]; intros lo s; cbn [w_for_range c_for_range]; [apply p_val; lia|].
  apply p_call; [apply H|lia|intros x; apply IH].
Qed.
Lemma p_for_rev {S} n lo (b : nat -> S -> watched S) c s : (forall i s, paid 0 (b i s) (c i s)) -> paid 0 (w_for_range_rev n lo b s) (c_for_range_rev n lo c s).
Proof.
  intros H. revert s. induction n as [|n IH]; intros s; cbn [w_for_range_rev c_for_range_rev]; [apply p_val; lia|].
  apply p_call; [apply H|lia|intros x; apply IH].
Qed.
Lemma p_elsewhere {A} k f (w : watched A) c : paid k w c -> paid k (elsewhere f w) c.
Proof.
  intros (E & L). split; [exact E|]. intros v Hv. specialize (L v Hv). unfold elsewhere. cbn [fst].
  replace (accesses (map _ (fst w))) with (accesses (fst w)); [exact L|].
  clear. induction (fst w) as [|e es IH]; [reflexivity|]. cbn [map]. rewrite !accesses_cons, IH. destruct e; reflexivity.
Qed.

Create HintDb paid discriminated.
#[export] Hint Constants Opaque : paid.
Ltac num := repeat first [rewrite accesses_cons|rewrite accesses_nil|rewrite accesses_writes|rewrite accesses_copies|rewrite accesses_copies_from|rewrite accesses_three|rewrite accesses_three'|rewrite app_length]; cbn [is_access length]; lia.
Ltac ps := cbn beta iota zeta; lazymatch goal with
  | |- paid _ (wbind (branch _) _) _ => apply p_branch
  | |- paid _ (wbind (see _) _) _ => apply p_see
  | |- paid _ (wbind (w_idx _ _ _) _) (cbind (c_idx _ _) _) => apply p_idx; [num|intros ?]
  | |- paid _ (wbind (w_upd _ _ _ _) _) (cbind (c_upd _ _ _) _) => apply p_upd; [num|intros ?]
  | |- paid _ (wbind (wlift (upd _ _ _)) _) (cbind (c_upd _ _ _) _) => apply p_quiet_upd; [num|intros ?]
  | |- paid _ _ (cbind (cpay _) _) => apply p_pay
  | |- paid _ (wbind (wlift _) _) (cbind (clift _) _) => apply p_lift; [num|intros ?]
  | |- paid _ (wbind (w_for_range _ _ _ _) _) (cbind (c_for_range _ _ _ _) _) => apply p_call; [apply p_for; intros ? ?; try solve [eauto with paid]|num|intros ?]
  | |- paid _ (wbind (w_for_range_rev _ _ _ _) _) (cbind (c_for_range_rev _ _ _ _) _) => apply p_call; [apply p_for_rev; intros ? ?; try solve [eauto with paid]|num|intros ?]
  | |- paid _ (wbind _ _) (cbind _ _) => apply p_call; [try solve [eauto with paid]|num|intros ?]
  | |- paid _ (wval _) (cval _) => apply p_val; num
  | |- paid _ (wlift _) (clift _) => apply p_end; num
  | |- paid _ (w_upd _ _ _ _) (c_upd _ _ _) => apply p_end_upd; num
  | |- paid _ (match ?x with _ => _ end) _ => destruct x
  | |- paid _ _ _ => eapply p_weak; [solve [eauto with paid]|num]
  end.
Ltac pss := repeat ps.

Lemma t_small_step d i st : paid 0 (w_small_step d i st) (c_small_step d i st).
Proof. unfold w_small_step, c_small_step. pss. Qed.
#[export] Hint Resolve t_small_step : paid.
Lemma t_large_div_by_small q duo sd div : paid 0 (w_large_div_by_small q duo sd div) (c_large_div_by_small duo sd div).
Proof. unfold w_large_div_by_small, c_large_div_by_small. pss. Qed.
#[export] Hint Resolve t_large_div_by_small : paid.
Lemma t_u32_step d i st : paid 0 (w_u32_step d i st) (c_u32_step d i st).
Proof. unfold w_u32_step, c_u32_step. pss. Qed.
#[export] Hint Resolve t_u32_step : paid.
Lemma t_large_div_by_u32 q duo sd div : paid 0 (w_large_div_by_u32 q duo sd div) (c_large_div_by_u32 duo sd div).
Proof. unfold w_large_div_by_u32, c_large_div_by_u32. pss. Qed.
#[export] Hint Resolve t_large_div_by_u32 : paid.
Lemma t_twos_from p n : forall i0 ds, paid 0 (w_twos_complement_from p n i0 ds) (c_twos_complement_from n i0 ds).
Proof.
  induction n as [|n IH]; intros i0 ds; cbn [w_twos_complement_from c_twos_complement_from]; [pss|].
  apply p_idx; [lia|]. intros x. cbn beta zeta. apply p_see. destruct (d_overflowing_add (d_not x) ONE) as [v []]; cbn beta iota.
  - apply p_quiet_upd; [num|]. intros y. eapply p_weak; [apply IH|num].
  - apply p_quiet_upd; [num|]. intros y. eapply p_weak; [apply p_for; intros; pss|num].
Qed.
Lemma t_twos p n ds : paid 0 (w_twos_complement p n ds) (c_twos_complement n ds).
Proof. apply t_twos_from. Qed.
#[export] Hint Resolve t_twos : paid.
Lemma t_any p n lo ds : paid 0 (w_any_nonzero_rev p n lo ds) (c_any_nonzero_rev n lo ds).
Proof. induction n as [|n IH]; cbn [w_any_nonzero_rev c_any_nonzero_rev]; pss. Qed.
#[export] Hint Resolve t_any : paid.
Lemma t_uge_b1 p q n xs ys : paid 0 (w_uge_b1 p q n xs ys) (c_uge_b1 n xs ys).
Proof. induction n as [|n IH]; cbn [w_uge_b1 c_uge_b1]; pss. Qed.
#[export] Hint Resolve t_uge_b1 : paid.
Lemma t_ugt_b1 p q n xs ys : paid 0 (w_ugt_b1 p q n xs ys) (c_ugt_b1 n xs ys).
Proof. induction n as [|n IH]; cbn [w_ugt_b1 c_ugt_b1]; pss. Qed.
#[export] Hint Resolve t_ugt_b1 : paid.
Lemma t_uge p q n xs m ys : paid 0 (w_uge p q n xs m ys) (c_uge n xs m ys).
Proof. unfold w_uge, c_uge. pss. Qed.
#[export] Hint Resolve t_uge : paid.
Lemma t_ugt p q n xs m ys : paid 0 (w_ugt p q n xs m ys) (c_ugt n xs m ys).
Proof. unfold w_ugt, c_ugt. pss. Qed.
#[export] Hint Resolve t_ugt : paid.
Lemma t_special0_step q sub i st : paid 0 (w_special0_step q sub i st) (c_special0_step sub i st).
Proof. unfold w_special0_step, c_special0_step. pss. Qed.
#[export] Hint Resolve t_special0_step : paid.
Lemma t_special0 q n sum sub target val : paid 0 (w_special0 q n sum sub target val) (c_special0 n sum sub target val).
Proof. unfold w_special0, c_special0. pss. Qed.
#[export] Hint Resolve t_special0 : paid.
Lemma t_special0_same_step q i st : paid 0 (w_special0_same_step q i st) (c_special0_same_step i st).
Proof. unfold w_special0_same_step, c_special0_same_step. pss. Qed.
#[export] Hint Resolve t_special0_same_step : paid.
Lemma t_special0_same q n sum target val : paid 0 (w_special0_same q n sum target val) (c_special0_same n sum target val).
Proof. unfold w_special0_same, c_special0_same. pss. Qed.
#[export] Hint Resolve t_special0_same : paid.
Lemma t_special1_step1 q sum sub i st : paid 0 (w_special1_step1 q sum sub i st) (c_special1_step1 sum sub i st).
Proof. unfold w_special1_step1, c_special1_step1. pss. Qed.
#[export] Hint Resolve t_special1_step1 : paid.
Lemma t_special1_step2 add i st : paid 0 (w_special1_step2 add i st) (c_special1_step2 add i st).
Proof. unfold w_special1_step2, c_special1_step2. pss. Qed.
#[export] Hint Resolve t_special1_step2 : paid.
Lemma t_special1 q n sum sub targ val add : paid 0 (w_special1 q n sum sub targ val add) (c_special1 n sum sub targ val add).
Proof. unfold w_special1, c_special1. pss. Qed.
#[export] Hint Resolve t_special1 : paid.
Lemma t_add_step p r add i st : paid 0 (w_add_macro_step p r add i st) (c_add_step add i st).
Proof. unfold w_add_macro_step, c_add_step. pss. Qed.
#[export] Hint Resolve t_add_step : paid.
Lemma t_add_macro p r n sum add : paid 0 (w_add_macro p r n sum add) (c_add_macro n sum add).
Proof. unfold w_add_macro, c_add_macro. pss. Qed.
#[export] Hint Resolve t_add_macro : paid.
Lemma t_copy_range p r lo hi dst src : paid 0 (w_copy_range p r lo hi dst src) (c_copy_range lo hi dst src).
Proof.
  unfold w_copy_range, c_copy_range, paid, wbind, wlift, see, wval. cbn [fst snd]. destruct (copy_range lo hi dst src); cbn [fst snd]; [|split; [reflexivity|discriminate]..].
  split; [reflexivity|]. intros v Hv. rewrite app_nil_r. cbn [app]. rewrite accesses_copies_from. lia.
Qed.
#[export] Hint Resolve t_copy_range : paid.
Lemma t_move_step q i st : paid 0 (w_move_step q i st) (c_move_step i st).
Proof. unfold w_move_step, c_move_step. pss. Qed.
#[export] Hint Resolve t_move_step : paid.
Lemma t_move q sd dsd duo div : paid 0 (w_move q sd dsd duo div)
  (let~ (duo, div) := c_for_range (sd + 1) 0 c_move_step (duo, div) in let~ _ := cpay (dsd + 1) in cval (duo, unset_take_skip (dsd + 1) (sd + 1) div)).
Proof. unfold w_move. pss. Qed.
#[export] Hint Resolve t_move : paid.
Lemma t_sig_dd p xs sd lz : paid 0 (w_sig_dd p xs sd lz) (c_sig_dd xs sd lz).
Proof. unfold w_sig_dd, c_sig_dd. pss. Qed.
#[export] Hint Resolve t_sig_dd : paid.
Lemma t_finish1 q n duo div sub mul : paid 0 (w_finish_mul_sub1 q n duo div sub mul) (c_finish_mul_sub1 n duo div sub mul).
Proof. unfold w_finish_mul_sub1, c_finish_mul_sub1. pss. Qed.
#[export] Hint Resolve t_finish1 : paid.
Lemma t_finish q n duo div sub mul : paid 0 (w_finish_mul q n duo div sub mul) (c_finish_mul n duo div sub mul).
Proof. unfold w_finish_mul, c_finish_mul. pss. Qed.
#[export] Hint Resolve t_finish : paid.
Lemma sub_row_accesses q m xs : forall i c, accesses (fst (w_sub_row q i m xs c)) = 2 * Z.of_nat (length xs).
Proof.
  induction xs as [|x xs IH]; intros i c; [reflexivity|]. cbn [w_sub_row]. unfold wbind at 1. unfold see. cbn [fst snd]. rewrite accesses_app.
  destruct (d_carrying_mul_add m x c) as [t c']. unfold wbind. rewrite we_sub_row. destruct (sub_row m xs c') as [s c'']. cbn [fst snd wval].
  unfold wval. cbn [fst]. rewrite accesses_app, IH, !accesses_cons, accesses_nil. cbn [is_access length]. lia.
Qed.
Lemma p_sub_row {B} k q i m xs c (f : list Z * Z -> watched B) g : 0 <= k + 2 * Z.of_nat (length xs) -> paid k (f (sub_row m xs c)) g ->
  paid (k + 2 * Z.of_nat (length xs)) (wbind (w_sub_row q i m xs c) f) g.
Proof.
  intros Hk (E & L). unfold paid, wbind. rewrite we_sub_row. cbn [fst snd]. rewrite accesses_app, sub_row_accesses. split; [exact E|]. intros v Hv. specialize (L v Hv). lia.
Qed.
Lemma sub_row_length m xs : forall c, length (fst (sub_row m xs c)) = length xs.
Proof. induction xs as [|x xs IH]; intros c; [reflexivity|]. cbn [sub_row]. destruct (d_carrying_mul_add m x c) as [t c']. specialize (IH c'). destruct (sub_row m xs c'). cbn [fst length] in *. lia. Qed.
Lemma t_mul_or q n duo sd lz div dsd : paid 1 (w_mul_or_mul_sub1 q n duo sd lz div dsd) (c_mul_or_mul_sub1 n duo sd lz div dsd).
Proof.
  unfold w_mul_or_mul_sub1, c_mul_or_mul_sub1. pss. apply p_sub_row; [num|].
  destruct (sub_row _ _ _) as [row c1]. pss.
Qed.
#[export] Hint Resolve t_mul_or : paid.
Lemma carry_into_accesses ds : forall i c, accesses (fst (w_carry_into i ds c)) <= 2 * Z.of_nat (length ds).
Proof.
  induction ds as [|d ds IH]; intros i c; [vm_compute; discriminate|]. cbn [w_carry_into]. unfold wbind at 1. unfold branch. cbn [fst snd]. rewrite accesses_app, accesses_cons, accesses_nil. cbn [is_access].
  destruct (d_is_zero c); [unfold wval; cbn [fst length]; rewrite accesses_nil; lia|]. unfold wbind at 1. unfold see. cbn [fst snd]. rewrite accesses_app.
  destruct (d_carrying_add d c) as [t c']. specialize (IH (S i) c'). unfold wbind. rewrite we_carry_into. unfold wval. cbn [fst snd].
  rewrite app_nil_r, !accesses_cons, accesses_nil. cbn [is_access length]. lia.
Qed.
Lemma t_add_to_quo quo k b m : paid 0 (w_add_to_quo quo k b m) (c_add_to_quo quo k b m).
Proof.
  unfold w_add_to_quo, c_add_to_quo. pss. unfold paid, wbind. rewrite we_carry_into. unfold wval, cval. cbn [fst snd]. split; [reflexivity|]. intros v _.
  rewrite app_nil_r. pose proof (carry_into_accesses (skipn (k + 2) x3) (k + 2)) as H.
  eapply Z.le_trans; [apply H|]. num.
Qed.
#[export] Hint Resolve t_add_to_quo : paid.
Lemma t_sub_lo_step q div k b m i st : paid 0 (w_sub_lo_step q div k b m i st) (c_sub_lo_step div k b m i st).
Proof. unfold w_sub_lo_step, c_sub_lo_step. pss. Qed.
#[export] Hint Resolve t_sub_lo_step : paid.
Lemma t_sub_lo q duo div sd k b m : paid 0 (w_sub_lo q duo div sd k b m) (c_sub_lo duo div sd k b m).
Proof. unfold w_sub_lo, c_sub_lo. pss. Qed.
#[export] Hint Resolve t_sub_lo : paid.
Lemma t_sub_hi_step q div k b m i st : paid 0 (w_sub_hi_step q div k b m i st) (c_sub_hi_step div k b m i st).
Proof. unfold w_sub_hi_step, c_sub_hi_step. pss. Qed.
#[export] Hint Resolve t_sub_hi_step : paid.
Lemma t_sub_hi q duo div sd k b m : paid 0 (w_sub_hi q duo div sd k b m) (c_sub_hi duo div sd k b m).
Proof. unfold w_sub_hi, c_sub_hi. pss. Qed.
#[export] Hint Resolve t_sub_hi : paid.
Lemma t_mul_or_quo q n duo sd lz sig div dsd quo : paid 1 (w_mul_or_mul_sub1_quo q n duo sd lz sig div dsd quo) (c_mul_or_mul_sub1_quo n duo sd lz sig div dsd quo).
Proof.
  unfold w_mul_or_mul_sub1_quo, c_mul_or_mul_sub1_quo. pss. apply p_sub_row; [num|].
  destruct (sub_row _ _ _) as [row c1]. pss.
Qed.
#[export] Hint Resolve t_mul_or_quo : paid.
Lemma t_find_sd n duo : paid 0 (w_find_sd n duo) (c_find_sd n duo).
Proof. induction n as [|n IH]; cbn [w_find_sd c_find_sd]; pss. Qed.
#[export] Hint Resolve t_find_sd : paid.
Lemma t_add1 n : forall i0 len duo quo, paid 0 (w_quo_add1_from n i0 len duo quo) (c_quo_add1_from n i0 len duo quo).
Proof.
  induction n as [|n IH]; intros; cbn [w_quo_add1_from c_quo_add1_from]; [pss|].
  ps. ps. destruct (d_overflowing_add _ ONE) as [v []]; pss.
Qed.
#[export] Hint Resolve t_add1 : paid.
Lemma t_add_carry n : forall i0 len duo quo c, paid 0 (w_quo_add_carry_from n i0 len duo quo c) (c_quo_add_carry_from n i0 len duo quo c).
Proof. induction n as [|n IH]; intros; cbn [w_quo_add_carry_from c_quo_add_carry_from]; pss. Qed.
#[export] Hint Resolve t_add_carry : paid.
Lemma t_small_tail q n duo div quo : paid 0 (w_small_tail q n duo div quo) (c_small_tail n duo div quo).
Proof. unfold w_small_tail, c_small_tail. pss. Qed.
#[export] Hint Resolve t_small_tail : paid.
Lemma for_value {S} n lo (c : nat -> S -> clocked S) f s : (forall i s, snd (c i s) = f i s) -> snd (c_for_range n lo c s) = for_range n lo f s.
Proof.
  intros H. revert lo s. induction n as [|n IH]; intros lo s; [reflexivity|]. cbn [c_for_range for_range]. unfold cbind. rewrite H. destruct (f lo s); cbn [snd bind]; [apply IH|reflexivity..].
Qed.
Lemma for_cost {S} n lo (c : nat -> S -> clocked S) k s v : (forall i s, k <= fst (c i s) \/ forall v, snd (c i s) <> Val v) -> snd (c_for_range n lo c s) = Val v -> k * Z.of_nat n <= fst (c_for_range n lo c s).
Proof.
  intros H. revert lo s. induction n as [|n IH]; intros lo s; [intros _; cbn; lia|]. cbn [c_for_range]. unfold cbind. specialize (H lo s). destruct (snd (c lo s)) as [x| |]; cbn [fst snd]; [|discriminate..].
  intros Hv. specialize (IH _ _ Hv). destruct H as [H|H]; [|now destruct (H x)]. rewrite Nat2Z.inj_succ. nia.
Qed.
Lemma p_two {A B} k (o1 : outcome A) (m1 : clocked A) (o2 : outcome B) m2 a1 a2 : snd m1 = o1 -> snd m2 = o2 ->
  (forall v, snd m1 = Val v -> a1 <= fst m1) -> (forall v, snd m2 = Val v -> a2 <= fst m2) -> - 2 * (a1 + a2) <= k ->
  paid k (let& x := wlift o1 in let& y := wlift o2 in wval (y, x)) (let~ x := m1 in let~ y := m2 in cval (y, x)).
Proof.
  intros <- <- H1 H2 Hk. unfold paid, wbind, cbind, wlift. cbn [fst snd].
  destruct (snd m1) as [x| |]; cbn [fst snd]; [|split; [reflexivity|discriminate]..].
  destruct (snd m2) as [y| |]; cbn [fst snd]; [|split; [reflexivity|discriminate]..].
  split; [reflexivity|]. intros v _. unfold wval, cval. cbn [fst app]. rewrite accesses_nil. specialize (H1 _ eq_refl). specialize (H2 _ eq_refl). lia.
Qed.
Lemma t_fill k n (quo duo div : list Z) : - 3 * Z.of_nat n <= k -> paid k
  (let& div := wlift (for_range n 0 (fun i (div : list Z) => upd div i ZERO) div) in
   let& duo := wlift (for_range n 0 (fun i (duo : list Z) => let! x := idx quo i in upd duo i x) duo) in wval (duo, div))
  (let~ div := c_for_range n 0 (fun i (div : list Z) => c_upd div i ZERO) div in
   let~ duo := c_for_range n 0 (fun i (duo : list Z) => let~ x := c_idx quo i in c_upd duo i x) duo in cval (duo, div)).
Proof.
  intros Hk.
  apply (p_two k _ (c_for_range n 0 (fun i (div : list Z) => c_upd div i ZERO) div) _ (c_for_range n 0 (fun i (duo : list Z) => let~ x := c_idx quo i in c_upd duo i x) duo) (1 * Z.of_nat n) (2 * Z.of_nat n)).
  - apply for_value. reflexivity.
  - apply for_value. intros i s. unfold cbind, c_idx, c_upd; cbn [fst snd]; destruct (idx quo i); reflexivity.
  - intros v. apply for_cost. intros i s. left. cbn. lia.
  - intros v. apply for_cost. intros i s. unfold cbind, c_idx, c_upd; cbn [fst snd]; destruct (idx quo i); cbn [fst snd]; [left; lia|right; discriminate..].
  - lia.
Qed.
Lemma t_div_loop q fuel : forall n duo div quo sd lz dsd sb lb add1,
  paid 1 (w_div_loop q fuel n duo div quo sd lz dsd sb lb add1) (c_div_loop fuel n duo div quo sd lz dsd sb lb add1).
Proof.
  induction fuel as [|fuel IH]; intros; cbn [w_div_loop c_div_loop]; [pss|]. pss. apply t_fill. num.
Qed.
#[export] Hint Resolve t_div_loop : paid.
Lemma t_large q n duo sd div dsd : paid 1 (w_large_div_by_large q n duo sd div dsd) (c_large_div_by_large n duo sd div dsd).
Proof.
  unfold w_large_div_by_large, c_large_div_by_large. pss. Qed.
#[export] Hint Resolve t_large : paid.
Lemma rposition_accesses p ds n : accesses (fst (w_rposition p ds n)) <= Z.of_nat n.
Proof.
  induction n as [|n IH]; [vm_compute; discriminate|]. cbn [w_rposition]. unfold wbind at 1. unfold w_idx. cbn [fst snd]. destruct (idx ds n) as [d| |]; cbn [fst]; [|rewrite accesses_cons, accesses_nil; cbn [is_access]; lia..].
  rewrite accesses_app. unfold wbind, branch. cbn [fst snd]. destruct (negb (d_is_zero d)); unfold wval; cbn [fst app]; rewrite !accesses_cons, ?accesses_nil; cbn [is_access]; lia.
Qed.
Lemma p_rposition {B} k p ds (f : option nat -> watched B) c : paid (k - Z.of_nat (length ds)) (f (rposition_nonzero ds)) c -> paid k (wbind (w_rposition p ds (length ds)) f) c.
Proof.
  intros (E & L). unfold paid, wbind. rewrite we_rposition by lia. rewrite firstn_all. cbn [fst snd]. split; [exact E|]. intros v Hv. specialize (L v Hv).
  rewrite accesses_app. pose proof (rposition_accesses p ds (length ds)). lia.
Qed.
Lemma p_true k (w : watched (list Z * list Z)) c : paid k w c -> paid k (let& (duo, div) := w in wval (duo, div, true)) (let~ (duo, div) := c in cval (duo, div, true)).
Proof. intros H. eapply p_bind; [exact H|lia|]. intros [x y]. apply p_val. lia. Qed.
Lemma p_assoc {A B C} k (m : watched A) (f : A -> watched B) (g : B -> watched C) c : paid k (wbind m (fun x => wbind (f x) g)) c -> paid k (wbind (wbind m f) g) c.
Proof.
  replace (wbind (wbind m f) g) with (wbind m (fun x => wbind (f x) g)); [auto|]. unfold wbind. destruct (snd m) as [x| |]; cbn [fst snd]; [|reflexivity..].
  destruct (snd (f x)); cbn [fst snd]; rewrite ?app_assoc; reflexivity.
Qed.
Lemma p_ret {A B} k (x : A) (g : A -> watched B) c : paid k (g x) c -> paid k (wbind (wval x) g) c.
Proof. intros H. exact H. Qed.
Lemma t_cases q duo div sd dsd : paid 1 (let& (duo, div) := w_divrem_cases q duo div sd dsd in wval (duo, div, true))
            match Nat.eqb sd 0, Nat.eqb dsd 0 with
            | false, false =>
                if Nat.eqb sd 1 then
                  let~ u0 := c_idx duo 0 in
                  let~ u1 := c_idx duo 1 in
                  let~ v0 := c_idx div 0 in
                  let~ v1 := c_idx div 1 in
                  let~ (q, r) := clift (dd_wdivrem (dd_from_lo_hi u0 u1) (dd_from_lo_hi v0 v1)) in
                  let~ duo := c_upd duo 0 (dd_lo q) in
                  let~ duo := c_upd duo 1 (dd_hi q) in
                  let~ div := c_upd div 0 (dd_lo r) in
                  let~ div := c_upd div 1 (dd_hi r) in
                  cval (duo, div, true)
                else
                  let~ (duo, div) := c_large_div_by_large (length duo) duo sd div dsd in
                  cval (duo, div, true)
            | true, false => (clift Panic)
            | false, true =>
                let~ v := c_idx div 0 in
                if 32 <=? d_leading_zeros v then
                  let~ (duo, div) := c_large_div_by_u32 duo sd div in
                  cval (duo, div, true)
                else
                  let~ (duo, div) := c_large_div_by_small duo sd div in
                  cval (duo, div, true)
            | true, true =>
                let~ u := c_idx duo 0 in
                let~ v := c_idx div 0 in
                let~ (q, r) := clift (d_wrapping_divrem u v) in
                let~ duo := c_upd duo 0 q in
                let~ div := c_upd div 0 r in
                cval (duo, div, true)
            end.
Proof.
  unfold w_divrem_cases. do 2 (apply p_assoc, p_branch). destruct (sd =? 0)%nat, (dsd =? 0)%nat.
  - do 2 (apply p_assoc, p_idx; [num|]; intros ?). apply p_assoc, p_lift; [num|]. intros [y r]. do 2 (apply p_assoc, p_upd; [num|]; intros ?). apply p_ret. pss.
  - split; [reflexivity|discriminate].
  - apply p_assoc, p_idx; [num|]. intros v. apply p_assoc, p_branch. destruct (32 <=? d_leading_zeros v); (eapply p_weak; [apply p_true; eauto with paid|num]).
  - apply p_assoc, p_branch. destruct (sd =? 1)%nat; [|eapply p_weak; [apply p_true, t_large|num]].
    do 4 (apply p_assoc, p_idx; [num|]; intros ?). apply p_assoc, p_lift; [num|]. intros [y r]. do 4 (apply p_assoc, p_upd; [num|]; intros ?). apply p_ret. pss.
Qed.
#[export] Hint Resolve t_cases : paid.
Lemma t_divrem q duo div : paid 1 (w_aarons_algorithm_divrem q duo div) (c_aarons_algorithm_divrem duo div).
Proof.
  unfold w_aarons_algorithm_divrem, c_aarons_algorithm_divrem. apply p_pay, p_rposition. destruct (rposition_nonzero div) as [dsd|]; [|pss].
  apply p_pay, p_rposition. destruct (rposition_nonzero duo) as [sd|]; [|pss].
  apply p_branch. destruct (sd <? dsd)%nat; [pss|]. eapply p_weak; [apply t_cases|num].
Qed.
#[export] Hint Resolve t_divrem : paid.
Lemma t_swap_step q i st : paid 0 (w_swap_step q i st) (c_swap_step i st).
Proof. unfold w_swap_step, c_swap_step. pss. Qed.
#[export] Hint Resolve t_swap_step : paid.
Lemma p_bind1 {A B} (m : watched A) m' (f : A -> watched B) g : paid 1 m m' -> (forall x, paid 0 (f x) (g x)) -> paid 1 (wbind m f) (cbind m' g).
Proof. intros H F. apply (p_bind 1 1); [exact H|lia|exact F]. Qed.
Lemma t_remdiv q duo div : paid 1 (w_aarons_algorithm_remdiv q duo div) (c_aarons_algorithm_remdiv duo div).
Proof. unfold w_aarons_algorithm_remdiv, c_aarons_algorithm_remdiv. apply p_bind1; [apply t_divrem|]. intros [[x y] ok]. pss. Qed.
#[export] Hint Resolve t_remdiv : paid.
Lemma clone_accesses p a v : snd (w_clone p a) = Val v -> accesses (fst (w_clone p a)) <= 2 * fst (c_clone a) + 2.
Proof.
  unfold w_clone, c_clone. destruct (storage (len a)); unfold wbind, see, wlift; cbn [fst snd]; rewrite app_nil_r, !accesses_cons, ?accesses_copies, ?accesses_nil; cbn [is_access]; intros _; [lia|].
  unfold as_digit_slice. lia.
Qed.
Lemma t_clone p a : paid 2 (w_clone p a) (c_clone a).
Proof. split; [apply we_clone|apply clone_accesses]. Qed.
Lemma t_by_zero op a : paid 2 (w_division_by_zero op a) (c_division_by_zero op a).
Proof. unfold w_division_by_zero, c_division_by_zero. eapply p_bind; [apply t_clone|lia|]. intros x. apply p_val. lia. Qed.
Lemma zip_accesses a b : accesses (fst (w_zip_access_data a b)) <= 2.
Proof.
  unfold w_zip_access_data, wbind, branch, see, wlift. cbn [fst snd]. destruct (negb _); cbn [fst snd app]; [rewrite accesses_cons, accesses_nil; cbn; lia|].
  destruct (storage (len a)); cbn [fst snd app]; rewrite !accesses_cons, accesses_nil; cbn [is_access]; lia.
Qed.
Lemma p_zip {B} a b k (f : result zip_data_access -> watched B) g : (forall x, paid (k - 2) (f x) (g x)) -> 2 <= k -> paid k (wbind (w_zip_access_data a b) f) (cbind (clift (zip_access_data a b)) g).
Proof.
  intros H Hk. apply (p_bind k 2); [|exact Hk|exact H]. split; [apply we_zip_access_data|]. intros v _. cbn [clift fst]. unfold clift. cbn [fst]. apply zip_accesses.
Qed.
Lemma t_udivrem a b : paid 5 (w_wrapping_udivrem_assign a b) (c_wrapping_udivrem_assign a b).
Proof.
  unfold w_wrapping_udivrem_assign, c_wrapping_udivrem_assign. apply p_zip; [|lia]. intros [[duo div|duo div]|e]; [| |pss].
  - apply p_branch. destruct (negb _); [pss|]. eapply p_bind; [apply t_by_zero|lia|]. intros; pss.
  - eapply (p_bind _ 1); [apply t_divrem|num|]. intros [[x y] ok]. apply p_branch. destruct ok; [pss|]. eapply p_bind; [apply t_by_zero|num|]. intros; pss.
Qed.
Lemma t_uremdiv a b : paid 5 (w_wrapping_uremdiv_assign a b) (c_wrapping_uremdiv_assign a b).
Proof.
  unfold w_wrapping_uremdiv_assign, c_wrapping_uremdiv_assign. apply p_zip; [|lia]. intros [[duo div|duo div]|e]; [| |pss].
  - apply p_branch. destruct (negb _); [pss|]. eapply p_bind; [apply t_by_zero|lia|]. intros; pss.
  - eapply (p_bind _ 1); [apply t_remdiv|num|]. intros [[x y] ok]. apply p_branch. destruct ok; [pss|]. eapply p_bind; [apply t_by_zero|num|]. intros; pss.
Qed.
Lemma t_udiv a b : paid 5 (w_wrapping_udiv_assign a b) (c_wrapping_udiv_assign a b).
Proof.
  unfold w_wrapping_udiv_assign, c_wrapping_udiv_assign. apply p_zip; [|lia]. intros [[duo div|duo div]|e]; [| |pss].
  - apply p_branch. destruct (negb _); [pss|]. eapply p_bind; [apply t_by_zero|lia|]. intros; pss.
  - apply p_see, p_pay. eapply (p_bind _ 1); [apply t_divrem|num|]. intros [[x y] ok]. apply p_branch. destruct ok; [pss|]. eapply p_bind; [apply t_by_zero|num|]. intros; pss.
Qed.
Lemma t_urem a b : paid 5 (w_wrapping_urem_assign a b) (c_wrapping_urem_assign a b).
Proof.
  unfold w_wrapping_urem_assign, c_wrapping_urem_assign. apply p_zip; [|lia]. intros [[duo div|duo div]|e]; [| |pss].
  - apply p_branch. destruct (negb _); [pss|]. eapply p_bind; [apply t_by_zero|lia|]. intros; pss.
  - apply p_see, p_pay. eapply (p_bind _ 1); [apply t_remdiv|num|]. intros [[x y] ok]. apply p_branch. destruct ok; [pss|]. eapply p_bind; [apply t_by_zero|num|]. intros; pss.
Qed.
Lemma all_zero_accesses ds : forall i, accesses (fst (w_all_zero i ds)) <= Z.of_nat (length ds).
Proof.
  induction ds as [|d ds IH]; intros i; [vm_compute; discriminate|]. specialize (IH (S i)). cbn [w_all_zero]. unfold wbind, see, branch. cbn [fst snd].
  destruct (d_is_zero d); unfold wval; cbn [fst snd app]; rewrite !accesses_cons, ?accesses_nil; cbn [is_access length]; lia.
Qed.
Lemma t_is_zero a : paid 1 (w_is_zero a) (c_is_zero a).
Proof.
  split; [apply we_is_zero|]. intros v _. unfold w_is_zero, w_access_data, c_is_zero, access_data. cbn [fst]. destruct (storage (len a)).
  - unfold wbind, see, wlift. cbn [fst snd]. destruct (read_inl a); cbn [bind fst snd wval app]; unfold wval; cbn [fst app]; rewrite !accesses_cons, ?accesses_nil; cbn [is_access]; lia.
  - unfold wbind, see, wlift. cbn [fst snd app]. rewrite accesses_cons. cbn [is_access]. pose proof (all_zero_accesses (as_digit_slice a) 0). unfold as_digit_slice in *. lia.
Qed.
Lemma t_msb a : paid 0 (w_msb a) (c_msb a).
Proof.
  split; [apply we_msb|]. intros v Hv. destruct (y_msb a v Hv) as (_ & R & W & _). unfold accesses, c_msb. cbn [fst]. lia.
Qed.
Lemma clear_accesses p a : accesses (fst (w_clear_unused_bits p a)) <= 2.
Proof.
  unfold w_clear_unused_bits. destruct (excess_bits (width a)) as [bits|]; [|vm_compute; discriminate].
  unfold w_modify_most_significant_digit, w_access_data, access_data. destruct (storage (len a)); unfold wbind, see, wlift; cbn [fst snd].
  - destruct (read_inl a) as [d| |]; cbn [bind fst snd app]; [|rewrite !accesses_cons, ?accesses_nil; cbn [is_access]; lia..].
    destruct (let! r := d_retain_last_n d bits in unwrap r); unfold wval; cbn [fst snd app]; rewrite !accesses_cons, ?accesses_nil; cbn [is_access]; lia.
  - destruct (modify_last _ _); unfold wval; cbn [fst snd app]; rewrite !accesses_cons, ?accesses_nil; cbn [is_access]; lia.
Qed.
Lemma t_clear p a : paid (-2) (w_clear_unused_bits p a) (c_clear_unused_bits a).
Proof. split; [apply we_clear_unused_bits|]. intros v _. cbn [fst c_clear_unused_bits]. unfold c_clear_unused_bits. cbn [fst]. apply clear_accesses. Qed.
Lemma map_accesses f ds : forall i, accesses (fst (w_map f i ds)) = 2 * Z.of_nat (length ds).
Proof. intros i. destruct (y_map f ds i _ (we_map f ds i)) as (_ & R & W & _). unfold accesses. rewrite R, W. lia. Qed.
Lemma modify_accesses f a : accesses (fst (w_modify_digits f a)) <= 2 * Z.of_nat (length (digits a)) + 2.
Proof.
  unfold w_modify_digits, w_access_data, access_data. destruct (storage (len a)); unfold wbind, see, wlift, wval; cbn [fst snd].
  - destruct (read_inl a) as [d| |]; cbn [bind fst snd app]; rewrite !accesses_cons, ?accesses_nil; cbn [is_access]; lia.
  - rewrite we_map. cbn [fst snd app]. rewrite app_nil_r, accesses_cons, map_accesses. cbn [is_access]. unfold as_digit_slice. lia.
Qed.
Lemma t_bitnot a : paid 0 (w_bitnot a) (c_bitnot a).
Proof.
  split; [apply we_bitnot|]. intros v _. unfold w_bitnot, wbind, c_bitnot. cbn [fst]. pose proof (modify_accesses d_not a) as H.
  destruct (snd (w_modify_digits d_not a)) as [b| |]; cbn [fst snd]; [|lia..]. rewrite accesses_app. pose proof (clear_accesses Self b). lia.
Qed.
Lemma inc_loop_accesses xs : forall i, accesses (fst (w_inc_loop i xs)) <= 2 * Z.of_nat (length xs).
Proof.
  induction xs as [|x xs IH]; intros i; [vm_compute; discriminate|]. specialize (IH (S i)). cbn [w_inc_loop]. unfold wbind, see, branch. cbn [fst snd].
  destruct (d_overflowing_add x ONE) as [v []]; cbn [fst snd app]; rewrite ?we_inc_loop; unfold wval; cbn [fst snd app]; rewrite ?app_nil_r, !accesses_cons, ?accesses_nil; cbn [is_access length]; lia.
Qed.
Lemma t_inc a : paid 0 (w_wrapping_inc a) (c_wrapping_inc a).
Proof.
  split; [rewrite we_wrapping_inc; unfold wrapping_inc, c_wrapping_inc; unfold cbind, clift, cpay, cval; cbn [fst snd]; destruct (access_data a) as [[x|xs]| |]; reflexivity|].
  intros v Hv. rewrite we_wrapping_inc in Hv. revert Hv. unfold wrapping_inc, w_wrapping_inc, c_wrapping_inc, w_access_data, access_data. destruct (storage (len a)); unfold wbind, see, wlift, wval, cbind, clift, cpay, cval, c_clear_unused_bits; cbn [fst snd].
  - destruct (read_inl a) as [d| |]; cbn [bind fst snd app]; rewrite ?accesses_cons, ?accesses_nil; cbn [is_access]; [intros _|discriminate..].
    pose proof (clear_accesses Self (write_inl a (d_wrapping_add d ONE))).
    destruct (clear_unused_bits (write_inl a (d_wrapping_add d ONE))); cbn [fst snd app]; rewrite ?accesses_app, ?accesses_cons, ?accesses_nil; cbn [is_access]; lia.
  - intros _. rewrite we_inc_loop. cbn [fst snd app]. pose proof (clear_accesses Self (write_ext a (inc_loop (as_digit_slice a)))). pose proof (inc_loop_accesses (as_digit_slice a) 0).
    cbn [fst snd app]. rewrite ?app_nil_r, ?accesses_cons, ?accesses_app, ?accesses_nil; cbn [is_access]; lia.
Qed.
Lemma t_neg a : paid 0 (w_wrapping_neg a) (c_wrapping_neg a).
Proof. unfold w_wrapping_neg, c_wrapping_neg. apply p_call; [apply t_bitnot|lia|apply t_inc]. Qed.
Lemma t_neg_if f b a : paid 0 (w_neg_if f b a) (c_neg_if b a).
Proof. unfold w_neg_if, c_neg_if. destruct b; [apply p_elsewhere, t_neg|apply p_val; lia]. Qed.
#[export] Hint Resolve t_neg_if t_msb : paid.
Lemma t_unwrap2 k w c : 0 <= k -> paid k w c -> paid k (w_unwrap_mut2 w) (c_unwrap_mut2 c).
Proof. intros Hk H. unfold w_unwrap_mut2, c_unwrap_mut2. eapply p_bind; [exact H|lia|]. intros [st r]. rewrite Z.sub_diag. pss. Qed.
Lemma t_sdivrem a b : paid 6 (w_wrapping_sdivrem_assign a b) (c_wrapping_sdivrem_assign a b).
Proof.
  unfold w_wrapping_sdivrem_assign, c_wrapping_sdivrem_assign. eapply (p_bind _ 1); [apply p_elsewhere, t_is_zero|lia|]. intros z. apply p_branch.
  destruct z; [eapply p_bind; [apply t_by_zero|lia|]; intros; pss|].
  apply p_call; [apply t_msb|lia|]. intros ml. apply p_call; [apply p_elsewhere, t_msb|lia|]. intros mr. apply p_branch, p_branch.
  destruct ml, mr; (do 2 (apply p_call; [apply t_neg_if|lia|]; intros ?);
    eapply (p_bind _ 5); [apply t_unwrap2; [lia|]; apply t_udivrem|lia|]; intros [? ?]; pss).
Qed.
Lemma t_sremdiv a b : paid 6 (w_wrapping_sremdiv_assign a b) (c_wrapping_sremdiv_assign a b).
Proof.
  unfold w_wrapping_sremdiv_assign, c_wrapping_sremdiv_assign. eapply (p_bind _ 1); [apply p_elsewhere, t_is_zero|lia|]. intros z. apply p_branch.
  destruct z; [eapply p_bind; [apply t_by_zero|lia|]; intros; pss|].
  apply p_call; [apply t_msb|lia|]. intros ml. apply p_call; [apply p_elsewhere, t_msb|lia|]. intros mr. apply p_branch, p_branch.
  destruct ml, mr; (do 2 (apply p_call; [apply t_neg_if|lia|]; intros ?);
    eapply (p_bind _ 5); [apply t_unwrap2; [lia|]; apply t_uremdiv|lia|]; intros [? ?]; pss).
Qed.
Lemma t_sdiv a b : paid 8 (w_wrapping_sdiv_assign a b) (c_wrapping_sdiv_assign a b).
Proof.
  unfold w_wrapping_sdiv_assign, c_wrapping_sdiv_assign. eapply (p_bind _ 1); [apply p_elsewhere, t_is_zero|lia|]. intros z. apply p_branch.
  destruct z; [eapply p_bind; [apply t_by_zero|lia|]; intros; pss|].
  eapply (p_bind _ 2); [apply t_clone|lia|]. intros c. apply p_call; [apply t_msb|lia|]. intros ml. apply p_call; [apply p_elsewhere, t_msb|lia|]. intros mr. apply p_branch, p_branch.
  destruct ml, mr; (do 2 (apply p_call; [apply t_neg_if|lia|]; intros ?);
    eapply (p_bind _ 5); [apply t_unwrap2; [lia|]; apply p_elsewhere; apply t_udivrem|lia|]; intros [? ?]; pss).
Qed.
Lemma t_srem a b : paid 8 (w_wrapping_srem_assign a b) (c_wrapping_srem_assign a b).
Proof.
  unfold w_wrapping_srem_assign, c_wrapping_srem_assign. eapply (p_bind _ 1); [apply p_elsewhere, t_is_zero|lia|]. intros z. apply p_branch.
  destruct z; [eapply p_bind; [apply t_by_zero|lia|]; intros; pss|].
  eapply (p_bind _ 2); [apply t_clone|lia|]. intros c. apply p_call; [apply t_msb|lia|]. intros ml. apply p_call; [apply p_elsewhere, t_msb|lia|]. intros mr. apply p_branch, p_branch.
  destruct ml, mr; (do 2 (apply p_call; [apply t_neg_if|lia|]; intros ?);
    eapply (p_bind _ 5); [apply t_unwrap2; [lia|]; apply p_elsewhere; apply t_uremdiv|lia|]; intros [? ?]; pss).
Qed.
