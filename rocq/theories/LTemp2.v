(** Proofs about the vectors of multiplication and division: which buffers are
    asked for. *)
From Verif Require Export LTemp1.
From Verif Require Import LBase LMul LDiv4 LDiv6 LDiv7 LBits LCast.

(** [m], if it returns, returns something that [P] holds of. *)
Definition rets {A : Type} (P : A -> Prop) (m : outcome A) : Prop := match m with Val a => P a | _ => True end.
(** [m], if it returns, has asked for the buffers that [L] allows and its result meets [P]. *)
Definition costs {A : Type} (P : A -> Prop) (L : list nat -> Prop) (m : counted A) : Prop :=
  match m with Val (a, s) => L s /\ P a | _ => True end.
Definition free : list nat -> Prop := eq [].
Definition anything {A : Type} (a : A) : Prop := True.

Lemma rets_any {A : Type} (m : outcome A) : rets anything m.
Proof. destruct m; exact I. Qed.
Lemma rets_bind {A B : Type} (P : A -> Prop) (Q : B -> Prop) m k :
  rets P m -> (forall a, P a -> rets Q (k a)) -> rets Q (bind m k).
Proof. destruct m; cbn; auto. Qed.
Lemma costs_lift {A : Type} (P : A -> Prop) o : rets P o -> costs P free (tlift o).
Proof. destruct o; cbn; auto. intros H. split; [reflexivity|exact H]. Qed.
Lemma costs_lift_any {A : Type} (o : outcome A) : costs anything free (tlift o).
Proof. apply costs_lift, rets_any. Qed.
Lemma costs_free {A B : Type} (P : A -> Prop) (Q : B -> Prop) L m k :
  costs P free m -> (forall a, P a -> costs Q L (k a)) -> costs Q L (tbind m k).
Proof.
  intros H K. destruct m as [[a s]| |]; cbn in H |- *; auto. destruct H as [H1 H2]. rewrite <- H1. specialize (K a H2). cbn [bind].
  unfold costs, bind in *. destruct (k a) as [[b t]| |]; auto.
Qed.
Lemma costs_skip {A B : Type} (Q : B -> Prop) L (o : outcome A) k :
  (forall a, o = Val a -> costs Q L (k a)) -> costs Q L (tbind (tlift o) k).
Proof.
  intros K. apply (costs_free (fun a => o = Val a)); [|exact K]. apply costs_lift. destruct o; reflexivity.
Qed.
Lemma costs_then {A B : Type} (P : A -> Prop) (Q : B -> Prop) L1 L2 (L : list nat -> Prop) m k :
  costs P L1 m -> (forall a, P a -> costs Q L2 (k a)) -> (forall s t, L1 s -> L2 t -> L (s ++ t)) -> costs Q L (tbind m k).
Proof.
  intros H K HL. destruct m as [[a s]| |]; cbn in H |- *; auto. destruct H as [H1 H2]. specialize (K a H2). cbn [bind].
  unfold costs, bind in *. destruct (k a) as [[b t]| |]; auto. destruct K. auto.
Qed.
Lemma costs_weak {A : Type} (P Q : A -> Prop) (L M : list nat -> Prop) m :
  costs P L m -> (forall a, P a -> Q a) -> (forall s, L s -> M s) -> costs Q M m.
Proof. destruct m as [[a s]| |]; cbn; auto. intros [H1 H2] H3 H4. auto. Qed.

(** A vector of capacity [c] with at most [i] items. *)
Definition holds (c i : nat) (v : vec) : Prop := capacity v = c /\ (length (items v) <= i)%nat.
Lemma costs_push c i v d : holds c i v -> (i < c)%nat -> costs (holds c (S i)) free (vec_push v d).
Proof.
  intros [H1 H2] H. unfold vec_push. rewrite H1. destruct (Nat.ltb_spec (length (items v)) c); [|lia].
  split; [reflexivity|]. split; [reflexivity|]. cbn [items]. rewrite app_length. cbn. lia.
Qed.
Lemma costs_with_capacity n : (0 < n)%nat -> costs (holds n 0) (eq [n]) (vec_with_capacity n).
Proof. intros H. unfold vec_with_capacity, request. destruct n; [lia|]. split; [reflexivity|]. split; reflexivity. Qed.
Lemma costs_for_range {S : Type} (P : nat -> S -> Prop) body n : forall lo s,
  P lo s -> (forall i s, (lo <= i < lo + n)%nat -> P i s -> costs (P (Datatypes.S i)) free (body i s)) ->
  costs (P (lo + n)%nat) free (t_for_range n lo body s).
Proof.
  induction n as [|n IH]; intros lo s H K; cbn [t_for_range].
  - split; [reflexivity|]. now replace (lo + 0)%nat with lo by lia.
  - apply (costs_free (P (Datatypes.S lo))). { apply K; [lia|exact H]. }
    intros a Ha. replace (lo + Datatypes.S n)%nat with (Datatypes.S lo + n)%nat by lia. apply IH; [exact Ha|].
    intros i t Hi Ht. apply K; [lia|exact Ht].
Qed.

Lemma rets_upd ds i d : rets (fun r : list Z => length r = length ds) (upd ds i d).
Proof. unfold upd. destruct (Nat.ltb_spec i (length ds)); cbn; auto. apply updl_length. lia. Qed.
Lemma rets_for_range {S : Type} (P : S -> Prop) body n : forall lo s,
  P s -> (forall i s, P s -> rets P (body i s)) -> rets P (for_range n lo body s).
Proof.
  induction n as [|n IH]; intros lo s H K; cbn [for_range]; [exact H|].
  apply (rets_bind P); [apply K, H|]. intros a Ha. apply IH; auto.
Qed.

(** * Multiplication *)
Lemma costs_push_loop mult c rs : forall i v k, holds c i v -> (i + length rs <= c)%nat ->
  costs (fun p => holds c (i + length rs) (fst p)) free (t_mul_push_loop mult rs v k).
Proof.
  induction rs as [|r rs IH]; intros i v k H Hl; cbn [t_mul_push_loop length] in *.
  - split; [reflexivity|]. cbn [fst]. now replace (i + 0)%nat with i by lia.
  - destruct (d_carrying_mul_add mult r k) as [lo hi].
    apply (costs_free (holds c (S i))); [apply costs_push; [exact H|lia]|].
    intros v' H'. replace (i + S (length rs))%nat with (S i + length rs)%nat by lia. apply IH; [exact H'|lia].
Qed.
Lemma rets_row_first mult rhs li sum : rets (fun st => length (fst (fst st)) = length sum) (mul_row_first mult rhs li sum).
Proof.
  unfold mul_row_first. apply (rets_bind anything); [apply rets_any|]. intros r _. destruct (d_carrying_mul _ _) as [lo hi].
  apply (rets_bind anything); [apply rets_any|]. intros s _. destruct (d_carrying_add _ _) as [v c].
  apply (rets_bind _ _ _ _ (rets_upd _ _ _)). intros x Hx. exact Hx.
Qed.
Lemma rets_row_step mult rhs li n i st : length (fst (fst st)) = n ->
  rets (fun st => length (fst (fst st)) = n) (mul_row_step mult rhs li i st).
Proof.
  intros H. unfold mul_row_step. destruct st as [[sum mc] ac]. cbn [fst] in H.
  apply (rets_bind anything); [apply rets_any|]. intros r _. destruct (d_carrying_mul_add _ _ _) as [lo hi].
  apply (rets_bind anything); [apply rets_any|]. intros s _.
  apply (rets_bind _ _ _ _ (rets_upd _ _ _)). intros x Hx. cbn. congruence.
Qed.
Lemma costs_full_row lhs rhs rs li c i v : holds c i v -> (i < c)%nat ->
  costs (holds c (S i)) free (t_mul_full_row lhs rhs rs li v).
Proof.
  intros [H1 H2] H. unfold t_mul_full_row. apply costs_skip. intros mult _.
  apply (costs_free _ _ _ _ _ (costs_lift _ _ (rets_row_first _ _ _ _))). intros st Hst.
  eapply costs_free.
  { apply costs_lift. apply (rets_for_range (fun st => length (fst (fst st)) = length (items v))); [exact Hst|].
    intros j t Ht. apply rets_row_step, Ht. }
  intros [[ds mc] ac] Hds. cbn [fst] in Hds. apply costs_skip. intros r _. destruct (d_carrying_mul_add _ _ _) as [lo hi].
  apply costs_skip. intros s _. apply (costs_free _ _ _ _ _ (costs_lift _ _ (rets_upd _ _ _))). intros ds' Hds'.
  apply costs_push; [|exact H]. split; [exact H1|]. cbn [items]. lia.
Qed.
Lemma skipn_firstn_length (ds : list Z) n : (length (skipn 1 (firstn n ds)) <= n - 1)%nat.
Proof. rewrite skipn_length. pose proof (firstn_le_length n ds). lia. Qed.
Lemma holds_weak c i j v : (i <= j)%nat -> holds c i v -> holds c j v.
Proof. intros H [H1 H2]. split; [exact H1|lia]. Qed.

Lemma costs_no_overflow lhs rhs ls rs : (0 < ls)%nat -> (0 < rs)%nat ->
  costs anything (eq [(ls + rs + 2)%nat]) (t_mul_no_overflow lhs rhs ls rs).
Proof.
  intros Hl Hr. unfold t_mul_no_overflow. apply costs_skip. intros mult _. apply costs_skip. intros r0 _.
  destruct (d_carrying_mul _ _) as [lo hi]. set (c := (ls + rs + 2)%nat).
  eapply costs_then with (L2 := free); [apply (costs_with_capacity c); lia| |intros s t <- <-; reflexivity].
  intros v0 H0. apply (costs_free (holds c 1)); [apply (costs_push c 0); [exact H0|lia]|]. intros v1 H1.
  pose proof (skipn_firstn_length rhs rs) as Hsk.
  eapply costs_free; [apply (costs_push_loop _ c _ 1); [exact H1|lia]|]. intros [v2 mc] H2. cbn [fst] in H2.
  apply costs_skip. intros r _. destruct (d_carrying_mul_add _ _ _) as [lo1 hi1].
  apply (holds_weak _ _ rs) in H2; [|lia].
  eapply costs_free; [apply (costs_push c rs); [exact H2|lia]|]. intros v3 H3.
  eapply costs_free; [apply (costs_push c (S rs)); [exact H3|lia]|]. intros v4 H4.
  eapply costs_free.
  { apply (costs_for_range (fun i => holds c (rs + 1 + i))); [replace (rs + 1 + 1)%nat with (S (S rs)) by lia; exact H4|].
    intros i s Hi Hs. replace (rs + 1 + S i)%nat with (S (rs + 1 + i)) by lia. apply costs_full_row; [exact Hs|lia]. }
  intros v5 H5. cbv beta in H5. replace (rs + 1 + (1 + (ls - 1)))%nat with (rs + 1 + ls)%nat in H5 by lia.
  eapply costs_free; [apply costs_full_row; [exact H5|lia]|]. intros v6 H6. apply costs_lift_any.
Qed.
Lemma costs_wrapping lhs rhs : (1 < length lhs)%nat -> costs anything (eq [length lhs]) (t_mul_wrapping lhs rhs).
Proof.
  intros Hl. unfold t_mul_wrapping. apply costs_skip. intros sig Hs. apply costs_skip. intros l0 _. apply costs_skip. intros r0 _.
  assert (sig = (length lhs - 1)%nat).
  { unfold nsub in Hs. destruct (Nat.leb 1 (length lhs)); congruence. }
  destruct (d_carrying_mul _ _) as [lo hi]. set (c := length lhs) in *.
  eapply costs_then with (L2 := free); [apply (costs_with_capacity c); lia| |intros s t <- <-; reflexivity].
  intros v0 H0. apply (costs_free (holds c 1)); [apply (costs_push c 0); [exact H0|lia]|]. intros v1 H1.
  pose proof (skipn_firstn_length rhs sig) as Hsk.
  eapply costs_free; [apply (costs_push_loop _ c _ 1); [exact H1|lia]|]. intros [v2 mc] H2. cbn [fst] in H2.
  apply costs_skip. intros r _.
  apply (holds_weak _ _ sig) in H2; [|lia].
  eapply costs_free; [apply (costs_push c sig); [exact H2|lia]|]. intros v3 H3.
  apply costs_skip. intros s _. apply costs_skip. intros l _. apply costs_skip. intros s1 _. apply costs_lift_any.
Qed.

(** * Division *)
Lemma costs_sub_row mul c xs : forall i v k, holds c i v -> (i + length xs <= c)%nat ->
  costs (fun p => holds c (i + length xs) (fst p)) free (t_sub_row mul xs v k).
Proof.
  induction xs as [|r rs IH]; intros i v k H Hl; cbn [t_sub_row length] in *.
  - split; [reflexivity|]. cbn [fst]. now replace (i + 0)%nat with i by lia.
  - destruct (d_carrying_mul_add mul r k) as [lo hi].
    apply (costs_free (holds c (S i))); [apply costs_push; [exact H|lia]|].
    intros v' H'. replace (i + S (length rs))%nat with (S i + length rs)%nat by lia. apply IH; [exact H'|lia].
Qed.
Lemma costs_push_zeros c n : forall i v, holds c i v -> (i + n <= c)%nat ->
  costs (holds c (i + n)) free (t_push_zeros n v).
Proof.
  induction n as [|n IH]; intros i v H Hl; cbn [t_push_zeros].
  - split; [reflexivity|]. now replace (i + 0)%nat with i by lia.
  - apply (costs_free (holds c (S i))); [apply costs_push; [exact H|lia]|].
    intros v' H'. replace (i + S n)%nat with (S i + n)%nat by lia. apply IH; [exact H'|lia].
Qed.
Lemma costs_mul_or_mul_sub1 len duo sd lz div dsd : (0 < dsd < len)%nat ->
  costs anything (eq [len]) (t_mul_or_mul_sub1 len duo sd lz div dsd).
Proof.
  intros Hd. unfold t_mul_or_mul_sub1. do 3 (apply costs_skip; intros ? _). set (mul := dd_lo a1).
  eapply costs_then with (L2 := free); [apply (costs_with_capacity len); lia| |intros s t <- <-; reflexivity].
  intros v0 H0. apply costs_skip. intros d0 _. destruct (d_carrying_mul _ _) as [t0 c0].
  eapply costs_free; [apply (costs_push len 0); [exact H0|lia]|]. intros v1 H1.
  pose proof (skipn_firstn_length div dsd) as Hsk.
  eapply costs_free; [apply (costs_sub_row _ len _ 1); [exact H1|lia]|]. intros [v2 c2] H2. cbn [fst] in H2.
  apply (holds_weak _ _ dsd) in H2; [|lia].
  apply costs_skip. intros dtop _. apply costs_skip. intros last Hlast.
  assert (last = (len - 1)%nat).
  { unfold nsub in Hlast. destruct (Nat.leb 1 len); congruence. }
  destruct (Nat.eqb_spec dsd last).
  - destruct (d_carrying_mul_add _ _ _) as [t c].
    eapply costs_free; [apply (costs_push len dsd); [exact H2|lia]|]. intros v3 H3.
    destruct (negb _); [apply costs_lift_any|]. apply costs_skip. intros [|] _; apply costs_lift_any.
  - destruct (d_carrying_mul_add _ _ _) as [t c].
    eapply costs_free; [apply (costs_push len dsd); [exact H2|lia]|]. intros v3 H3.
    eapply costs_free; [apply (costs_push len (S dsd)); [exact H3|lia]|]. intros v4 H4.
    eapply costs_free; [apply (costs_push_zeros len _ (length (items v4))); [|]|].
    + split; [apply H4|lia].
    + destruct H4. lia.
    + intros v5 H5. apply costs_skip. intros [|] _; apply costs_lift_any.
Qed.
Lemma costs_mul_or_mul_sub1_quo len duo sd lz sig div dsd quo : (0 < dsd)%nat -> (dsd + 2 <= len)%nat ->
  costs anything (eq [len]) (t_mul_or_mul_sub1_quo len duo sd lz sig div dsd quo).
Proof.
  intros Hd Hl. unfold t_mul_or_mul_sub1_quo. do 2 (apply costs_skip; intros ? _). set (mul := dd_lo a0).
  eapply costs_then with (L2 := free); [apply (costs_with_capacity len); lia| |intros s t <- <-; reflexivity].
  intros v0 H0. apply costs_skip. intros d0 _.
  eapply costs_free; [apply (costs_push len 0); [exact H0|lia]|]. intros v1 H1.
  pose proof (skipn_firstn_length div dsd) as Hsk.
  eapply costs_free; [apply (costs_sub_row _ len _ 1); [exact H1|lia]|]. intros [v2 c2] H2. cbn [fst] in H2.
  apply (holds_weak _ _ dsd) in H2; [|lia].
  apply costs_skip. intros dtop _. destruct (d_carrying_mul_add _ _ _) as [t c].
  eapply costs_free; [apply (costs_push len dsd); [exact H2|lia]|]. intros v3 H3.
  eapply costs_free; [apply (costs_push len (S dsd)); [exact H3|lia]|]. intros v4 H4.
  eapply costs_free; [apply (costs_push_zeros len _ (S (S dsd))); [exact H4|lia]|].
  intros v5 H5. apply costs_skip. intros [|] _; [apply costs_skip; intros ? _|]; (apply costs_skip; intros ? _); apply costs_lift_any.
Qed.
Definition once_or_never (n : nat) (l : list nat) : Prop := l = [] \/ l = [n].
Lemma costs_maybe {A : Type} n (o : outcome A) : costs anything (once_or_never n) (tlift o).
Proof. eapply costs_weak; [apply costs_lift_any|auto|]. intros s <-. left. reflexivity. Qed.
Lemma costs_div_loop fuel : forall len duo div quo sd lz dsd sb lb add1, (0 < dsd)%nat -> (dsd + 2 <= len)%nat ->
  costs anything (once_or_never len) (t_div_loop fuel len duo div quo sd lz dsd sb lb add1).
Proof.
  induction fuel as [|fuel IH]; intros len duo div quo sd lz dsd sb lb add1 H1 H2; cbn [t_div_loop]; [exact I|].
  do 3 (apply costs_skip; intros ? _). destruct (_ <=? _).
  - do 4 (apply costs_skip; intros ? _). destruct a5 as [sd'|].
    2:{ do 2 (apply costs_skip; intros ? _). apply costs_maybe. }
    do 2 (apply costs_skip; intros ? _). destruct (_ =? _).
    { apply costs_skip; intros [|] _; repeat (apply costs_skip; intros ? _); apply costs_maybe. }
    destruct (_ <? _); [repeat (apply costs_skip; intros ? _); apply costs_maybe|].
    destruct (Nat.ltb sd' 2); [apply costs_maybe|]. apply IH; auto.
  - eapply costs_weak; [apply costs_mul_or_mul_sub1_quo; auto|auto|]. intros s <-. right. reflexivity.
Qed.
Lemma costs_any {A : Type} (L : list nat -> Prop) (o : outcome A) : L [] -> costs anything L (tlift o).
Proof. intros H. eapply costs_weak; [apply costs_lift_any|auto|]. intros s <-. exact H. Qed.

(** * Significant bits and digits *)
Lemma bits_of_unique u b : 0 < b -> 2 ^ (b - 1) <= u < 2 ^ b -> bits_of u = b.
Proof.
  intros Hb H. unfold bits_of. assert (0 < 2 ^ (b - 1)) by (apply Z.pow_pos_nonneg; lia).
  destruct (Z.eqb_spec u 0); [lia|]. rewrite (Z.log2_unique u (b - 1)); [lia|lia|].
  replace (Z.succ (b - 1)) with b by lia. exact H.
Qed.
Lemma bits_of_0 : bits_of 0 = 0.
Proof. reflexivity. Qed.
Lemma bits_of_bound u w : 0 <= u < 2 ^ w -> 0 <= w -> 0 <= bits_of u <= w.
Proof.
  intros H Hw. unfold bits_of. destruct (Z.eqb_spec u 0); [lia|]. pose proof (Z.log2_nonneg u).
  assert (Z.log2 u < w) by (apply Z.log2_lt_pow2; lia). lia.
Qed.
Lemma sig_value ds i : digs ds -> rposition_nonzero ds = Some i ->
  (i < length ds)%nat /\ nth i ds 0 <> 0 /\ 0 <= d_leading_zeros (nth i ds 0) < 64 /\
  bits_of (uval ds) = 64 * Z.of_nat i + 64 - d_leading_zeros (nth i ds 0) /\
  digits_for (bits_of (uval ds)) = S i.
Proof.
  intros H E. pose proof (rposition_nonzero_spec ds H) as R. rewrite E in R. destruct R as (R1 & R2 & R3).
  destruct (sig_spec ds i H R1 R2 R3) as (S1 & S2 & S3). set (lz := d_leading_zeros (nth i ds 0)) in *.
  assert (Eb : bits_of (uval ds) = 64 * Z.of_nat i + 64 - lz).
  { apply bits_of_unique; [lia|]. replace (64 * Z.of_nat i + 64 - lz - 1) with (64 * Z.of_nat i + 63 - lz) by lia. exact S3. }
  split; [exact R1|]. split; [exact R2|]. split; [exact S1|]. split; [exact Eb|].
  rewrite Eb. unfold digits_for. lia.
Qed.
Lemma sig_none ds : digs ds -> rposition_nonzero ds = None -> uval ds = 0.
Proof. intros H E. pose proof (rposition_nonzero_spec ds H) as R. now rewrite E in R. Qed.

Lemma costs_mul_digits w ls rs : digs ls -> digs rs -> length ls = length rs -> 64 < w ->
  length ls = digits_for w ->
  costs anything (eq (mul_buffers w (uval ls) (uval rs))) (t_mul_digits ls rs).
Proof.
  intros Hl Hr E Hw Ew. unfold t_mul_digits, mul_buffers. destruct (Z.leb_spec w 64); [lia|]. cbn [orb].
  destruct (rposition_nonzero rs) as [ri|] eqn:Er.
  2:{ rewrite (sig_none rs Hr Er). rewrite bits_of_0. change (0 <=? 64) with true. rewrite orb_true_r. apply costs_any. reflexivity. }
  destruct (rposition_nonzero ls) as [li|] eqn:El.
  2:{ rewrite (sig_none ls Hl El). rewrite bits_of_0. change (0 <=? 64) with true. cbn [orb]. apply costs_any. reflexivity. }
  destruct (sig_value rs ri Hr Er) as (R1 & R2 & R3 & R4 & R5). destruct (sig_value ls li Hl El) as (L1 & L2 & L3 & L4 & L5).
  assert (F : forall o : outcome (list Z), costs anything (eq []) (let^ ds := tlift o in tlift (Val (Some ds)))).
  { intros o. apply costs_skip. intros ds _. apply costs_any. reflexivity. }
  rewrite L5, R5.
  destruct (Nat.eqb_spec li 0) as [->|Nl].
  { destruct (Z.leb_spec (bits_of (uval ls)) 64); [|lia]. cbn [orb].
    destruct (Nat.eqb ri 0); apply F. }
  destruct (Nat.eqb_spec ri 0) as [->|Nr].
  { destruct (Z.leb_spec (bits_of (uval rs)) 64); [|lia]. rewrite orb_true_r. apply F. }
  destruct (Z.leb_spec (bits_of (uval ls)) 64); [lia|]. destruct (Z.leb_spec (bits_of (uval rs)) 64); [lia|]. cbn [orb].
  unfold sig_bits. rewrite !idx_nth by auto. cbn [bind].
  rewrite L4, R4, Ew.
  match goal with |- costs _ (eq (if ?c then ?x else ?y)) _ =>
    eapply costs_then with (L1 := eq (if c then x else y)) (L2 := free); [|intros a _; apply costs_lift_any|] end.
  2:{ intros s t <- <-. now rewrite app_nil_r. }
  apply costs_skip. intros lb El'. apply costs_skip. intros rb Er'. injection El' as <-. injection Er' as <-.
  match goal with |- costs _ (eq (if ?c then _ else _)) (if ?d then _ else _) => replace d with c by (f_equal; lia); destruct c end.
  - eapply costs_weak; [apply costs_no_overflow; lia|intros a Ha; exact Ha|]. intros s <-. f_equal. lia.
  - eapply costs_weak; [apply costs_wrapping; lia|intros a Ha; exact Ha|]. intros s <-. congruence.
Qed.

Lemma costs_divrem_digits w duo div : digs duo -> digs div -> length duo = length div -> 64 < w ->
  length duo = digits_for w ->
  costs anything (div_buffers w (uval duo) (uval div)) (t_divrem_digits duo div).
Proof.
  intros Hl Hr E Hw Ew. unfold t_divrem_digits, div_buffers. destruct (Z.leb_spec w 64); [lia|]. cbn [orb].
  destruct (rposition_nonzero div) as [ri|] eqn:Er.
  2:{ rewrite (sig_none div Hr Er). rewrite bits_of_0. change (0 <=? 64) with true. rewrite orb_true_r. apply costs_any. reflexivity. }
  destruct (rposition_nonzero duo) as [li|] eqn:El.
  2:{ rewrite (sig_none duo Hl El). rewrite bits_of_0. change (0 <=? 128) with true. cbn [orb]. apply costs_any. reflexivity. }
  destruct (sig_value div ri Hr Er) as (R1 & R2 & R3 & R4 & R5). destruct (sig_value duo li Hl El) as (L1 & L2 & L3 & L4 & L5).
  destruct (Nat.ltb_spec li ri) as [H1|H1]; cbn [negb andb].
  { destruct (Z.leb_spec (bits_of (uval duo)) (bits_of (uval div))); [|lia]. rewrite orb_true_r. apply costs_any. reflexivity. }
  destruct (Nat.eqb_spec li 0) as [H2|H2]; cbn [negb andb].
  { destruct (Z.leb_spec (bits_of (uval duo)) 128); [|lia]. cbn [orb]. apply costs_any. reflexivity. }
  destruct (Nat.eqb_spec ri 0) as [H3|H3]; cbn [negb andb].
  { destruct (Z.leb_spec (bits_of (uval div)) 64); [|lia]. rewrite orb_true_r. apply costs_any. reflexivity. }
  destruct (Nat.eqb_spec li 1) as [H4|H4]; cbn [negb andb].
  { destruct (Z.leb_spec (bits_of (uval duo)) 128); [|lia]. cbn [orb]. apply costs_any. reflexivity. }
  destruct (Z.leb_spec (bits_of (uval duo)) 128); [lia|]. destruct (Z.leb_spec (bits_of (uval div)) 64); [lia|]. cbn [orb].
  match goal with |- costs _ ?L _ => eapply costs_then with (L1 := L) (L2 := free); [|intros [x y] _; apply costs_lift_any|] end.
  2:{ intros s t Hs <-. rewrite app_nil_r. exact Hs. }
  unfold t_large_div_by_large. rewrite !idx_nth by auto. unfold usize_sub.
  set (lzu := d_leading_zeros (nth li duo 0)) in *. set (lzv := d_leading_zeros (nth ri div 0)) in *.
  destruct (Z.leb_spec lzu 64); [|lia]. destruct (Z.leb_spec lzv 64); [|lia].
  apply costs_skip. intros u0 U0. injection U0 as <-. fold lzu. apply costs_skip. intros v0 V0. injection V0 as <-. fold lzv.
  destruct (Z.leb_spec lzu 64); [|lia]. destruct (Z.leb_spec lzv 64); [|lia].
  apply costs_skip. intros x X. injection X as <-. apply costs_skip. intros y Y. injection Y as <-.
  rewrite L4, R4.
  destruct (Z.ltb_spec (Z.of_nat li * 64 + (64 - lzu)) (Z.of_nat ri * 64 + (64 - lzv))) as [C1|C1].
  { destruct (Z.leb_spec (64 * Z.of_nat li + 64 - lzu) (64 * Z.of_nat ri + 64 - lzv)); [|lia].
    apply costs_skip. intros [d e] _. apply costs_any. reflexivity. }
  destruct (Z.eqb_spec (Z.of_nat li * 64 + (64 - lzu)) (Z.of_nat ri * 64 + (64 - lzv))) as [C2|C2].
  { destruct (Z.leb_spec (64 * Z.of_nat li + 64 - lzu) (64 * Z.of_nat ri + 64 - lzv)); [|lia].
    apply costs_skip. intros [|] _; apply costs_skip; [intros d _|intros [d e] _]; apply costs_any; reflexivity. }
  destruct (Z.leb_spec (64 * Z.of_nat li + 64 - lzu) (64 * Z.of_nat ri + 64 - lzv)); [lia|].
  replace (64 * Z.of_nat li + 64 - lzu - (64 * Z.of_nat ri + 64 - lzv))
    with (Z.of_nat li * 64 + (64 - lzu) - (Z.of_nat ri * 64 + (64 - lzv))) by lia.
  destruct (Z.ltb_spec (Z.of_nat li * 64 + (64 - lzu) - (Z.of_nat ri * 64 + (64 - lzv))) 64) as [C3|C3].
  { eapply costs_weak; [apply costs_mul_or_mul_sub1; lia|intros a Ha; exact Ha|]. intros s <-. congruence. }
  apply costs_skip. intros dm _. apply costs_skip. intros sg _.
  eapply costs_then with (P := anything) (L1 := eq [length duo]); [|intros q _; apply costs_div_loop; lia|].
  { unfold vec_zeros, request. destruct (length duo) eqn:Ed; [lia|]. split; [reflexivity|]. exact I. }
  intros s t <- [->| ->]; cbn [app]; rewrite Ew; auto.
Qed.
Lemma costs_remdiv_digits w duo div : digs duo -> digs div -> length duo = length div -> 64 < w ->
  length duo = digits_for w ->
  costs anything (div_buffers w (uval duo) (uval div)) (t_remdiv_digits duo div).
Proof.
  intros Hl Hr E Hw Ew. unfold t_remdiv_digits.
  eapply costs_then with (L2 := free); [apply (costs_divrem_digits w); auto| |intros s t Hs <-; rewrite app_nil_r; exact Hs].
  intros [[x y] ok] _. destruct ok; [|apply costs_lift_any]. apply costs_skip. intros [u v] _. apply costs_lift_any.
Qed.

(** * The calls *)
Lemma exact_from {A : Type} (L : list nat -> Prop) (m : counted A) (r : A) :
  sim eq m (Val r) -> costs anything L m -> exists l, m = Val (r, l) /\ L l.
Proof. destruct m as [[a s]| |]; cbn; try contradiction. intros -> [H _]. eauto. Qed.
Lemma exact_intro {A : Type} (L : list nat -> Prop) (m : counted A) (r : A) l : m = Val (r, l) -> L l -> costs anything L m.
Proof. intros -> H. split; [exact H|exact I]. Qed.

Lemma wf_digits a : wf a -> length (digits a) = digits_for (len a).
Proof. intros (H1 & H2 & H3). unfold digits_for. lia. Qed.
Lemma t_clone_exact a : wf a -> t_clone a = Val (a, copy_of (len a)).
Proof.
  intros H. unfold t_clone. rewrite clone_spec by auto. cbn [bind]. unfold storage, copy_of.
  destruct (Z.leb_spec (len a) 64); [reflexivity|]. rewrite wf_digits by auto. unfold request.
  assert (0 < digits_for (len a))%nat by (unfold digits_for; lia). destruct (digits_for (len a)); [lia|reflexivity].
Qed.
Lemma t_by_zero_exact op a : wf a -> t_division_by_zero op a = Val (DivisionByZero op a, copy_of (len a)).
Proof. intros H. unfold t_division_by_zero. rewrite t_clone_exact by auto. unfold tbind. cbn [bind tlift]. now rewrite app_nil_r. Qed.

Lemma costs_mul a b : wf a -> wf b -> len a = len b ->
  costs anything (eq (mul_buffers (len a) (unsigned a) (unsigned b))) (t_mul a b).
Proof.
  intros Ha Hb E. pose proof (wf_sh a Ha) as Sa. pose proof (wf_sh b Hb) as Sb. unfold t_mul.
  destruct (zip_access_data_spec a b Sa Sb E) as [(l & r & Hw & Ea & Eb & Hl & Hr & Hz)|(Hw & Hz)]; rewrite Hz.
  - unfold mul_buffers. destruct (Z.leb_spec (len a) 64); [|lia]. cbn [orb].
    apply costs_skip. intros z Z0. injection Z0 as <-. apply costs_skip. intros x _. apply costs_any. reflexivity.
  - apply costs_skip. intros z Z0. injection Z0 as <-. destruct Sa as (_ & La & Da), Sb as (_ & Lb & Db).
    eapply costs_then with (L2 := free); [apply (costs_mul_digits (len a)); auto; [congruence|now apply wf_digits]| |intros s t <- <-; symmetry; apply app_nil_r].
    intros [ds|] _; [apply costs_skip; intros x _|]; apply costs_lift_any.
Qed.
Lemma mul_cost_fact a b : wf a -> wf b -> len a = len b ->
  exists r, count_bin BMul a b = Val (r, mul_buffers (len a) (unsigned a) (unsigned b)).
Proof.
  intros Ha Hb E. destruct (wrapping_mul_assign_spec a b Ha Hb E) as (c & Ec & _).
  pose proof (sim_mul a b) as S. rewrite Ec in S. destruct (exact_from _ _ _ S (costs_mul a b Ha Hb E)) as (l & El & <-). eauto.
Qed.

Definition t_div_digits (swap : bool) := if swap then t_remdiv_digits else t_divrem_digits.
Lemma t_div_digits_exact swap w duo div : digs duo -> digs div -> length duo = length div -> 64 < w ->
  length duo = digits_for w -> uval div <> 0 ->
  exists x y l, t_div_digits swap duo div = Val (x, y, true, l) /\ div_buffers w (uval duo) (uval div) l.
Proof.
  intros H1 H2 L Hw Ew Hz. assert (0 < uval div) by (pose proof (uval_bound div H2); lia). destruct swap; cbn [t_div_digits].
  - destruct (remdiv_spec duo div H1 H2 L ltac:(lia)) as (x & y & Exy & _). pose proof (sim_remdiv_digits duo div) as S. rewrite Exy in S.
    destruct (exact_from _ _ _ S (costs_remdiv_digits w duo div H1 H2 L Hw Ew)) as (l & El & Hl). eauto.
  - destruct (divrem_spec duo div H1 H2 L ltac:(lia)) as (x & y & Exy & _). pose proof (sim_divrem_digits duo div) as S. rewrite Exy in S.
    destruct (exact_from _ _ _ S (costs_divrem_digits w duo div H1 H2 L Hw Ew)) as (l & El & Hl). eauto.
Qed.
Lemma div_buffers_zero w u l : div_buffers w u 0 l <-> l = [].
Proof. unfold div_buffers. rewrite bits_of_0. change (0 <=? 64) with true. rewrite !orb_true_r. reflexivity. Qed.
Lemma t_div_digits_zero swap w duo div : digs duo -> digs div -> length duo = length div -> 64 < w ->
  length duo = digits_for w -> uval div = 0 -> t_div_digits swap duo div = Val (duo, div, false, []).
Proof.
  intros H1 H2 L Hw Ew Hz. destruct swap; cbn [t_div_digits].
  - pose proof (sim_remdiv_digits duo div) as S. rewrite remdiv_zero in S by auto.
    destruct (exact_from _ _ _ S (costs_remdiv_digits w duo div H1 H2 L Hw Ew)) as (l & El & Hl).
    rewrite Hz, div_buffers_zero in Hl. now subst l.
  - pose proof (sim_divrem_digits duo div) as S. rewrite divrem_zero in S by auto.
    destruct (exact_from _ _ _ S (costs_divrem_digits w duo div H1 H2 L Hw Ew)) as (l & El & Hl).
    rewrite Hz, div_buffers_zero in Hl. now subst l.
Qed.

Lemma udivrem_cost swap a b : wf a -> wf b -> len a = len b ->
  exists r l, t_udivrem swap a b = Val (r, l ++ (if unsigned b =? 0 then copy_of (len a) else [])) /\
    div_buffers (len a) (unsigned a) (unsigned b) l.
Proof.
  intros Ha Hb E. pose proof (wf_sh a Ha) as Sa. pose proof (wf_sh b Hb) as Sb. unfold t_udivrem.
  destruct (zip_access_data_spec a b Sa Sb E) as [(l & r & Hw & Ea & Eb & Hl & Hr & Hz)|(Hw & Hz)]; rewrite Hz.
  - assert (Er : unsigned b = r) by (rewrite Eb; unfold unsigned; cbn [digits]; apply uval_one).
    assert (D : div_buffers (len a) (unsigned a) (unsigned b) []).
    { unfold div_buffers. destruct (Z.leb_spec (len a) 64); [|lia]. reflexivity. }
    unfold tbind at 1. cbn [bind tlift]. rewrite <- Er. unfold d_is_zero, ZERO. destruct (Z.eqb_spec (unsigned b) 0) as [Hb0|Hb0]; cbn [negb].
    + rewrite t_by_zero_exact by auto. unfold tbind. cbn [bind tlift]. rewrite app_nil_r. eexists _, []. split; [reflexivity|exact D].
    + unfold d_wrapping_divrem, d_wrapping_div, d_wrapping_rem. apply Z.eqb_neq in Hb0. rewrite Hb0.
      cbn [bind tlift]. destruct swap; unfold tbind; cbn [bind tlift app]; eexists _, []; (split; [reflexivity|exact D]).
  - unfold tbind at 1. cbn [bind tlift]. change (if swap then t_remdiv_digits else t_divrem_digits) with (t_div_digits swap).
    destruct Sa as (_ & La & Da), Sb as (_ & Lb & Db). unfold unsigned.
    destruct (Z.eqb_spec (uval (digits b)) 0) as [Hb0|Hb0].
    + rewrite (t_div_digits_zero swap (len a)) by (auto using wf_digits; congruence).
      unfold tbind. cbn [bind tlift app]. replace (write_ext a (digits a)) with a by now destruct a.
      rewrite t_by_zero_exact by auto. cbn [bind tlift app]. rewrite app_nil_r.
      eexists _, []. split; [reflexivity|]. rewrite Hb0. now apply div_buffers_zero.
    + destruct (t_div_digits_exact swap (len a) (digits a) (digits b)) as (x & y & l & El & Hl); auto using wf_digits; [congruence|].
      rewrite El. unfold tbind. cbn [bind tlift app]. rewrite !app_nil_r. eexists _, l. rewrite app_nil_r. split; [reflexivity|exact Hl].
Qed.
Lemma udiv_cost rem a b : wf a -> wf b -> len a = len b ->
  exists r l, t_udiv rem a b = Val (r, copy_of (len a) ++ l ++ (if unsigned b =? 0 then copy_of (len a) else [])) /\
    div_buffers (len a) (unsigned a) (unsigned b) l.
Proof.
  intros Ha Hb E. pose proof (wf_sh a Ha) as Sa. pose proof (wf_sh b Hb) as Sb. unfold t_udiv.
  destruct (zip_access_data_spec a b Sa Sb E) as [(l & r & Hw & Ea & Eb & Hl & Hr & Hz)|(Hw & Hz)]; rewrite Hz.
  - assert (Er : unsigned b = r) by (rewrite Eb; unfold unsigned; cbn [digits]; apply uval_one).
    assert (D : div_buffers (len a) (unsigned a) (unsigned b) []).
    { unfold div_buffers. destruct (Z.leb_spec (len a) 64); [|lia]. reflexivity. }
    assert (C : copy_of (len a) = []) by (unfold copy_of; destruct (Z.leb_spec (len a) 64); [reflexivity|lia]).
    unfold tbind at 1. cbn [bind tlift]. rewrite <- Er. unfold d_is_zero, ZERO. destruct (Z.eqb_spec (unsigned b) 0) as [Hb0|Hb0]; cbn [negb].
    + rewrite t_by_zero_exact by auto. unfold tbind. cbn [bind tlift]. rewrite C. eexists _, []. split; [reflexivity|exact D].
    + unfold d_wrapping_div, d_wrapping_rem. apply Z.eqb_neq in Hb0. rewrite C.
      destruct rem; rewrite Hb0; unfold tbind; cbn [bind tlift app]; eexists _, []; (split; [reflexivity|exact D]).
  - unfold tbind at 1. cbn [bind tlift]. change (if rem then t_remdiv_digits else t_divrem_digits) with (t_div_digits rem).
    destruct Sa as (_ & La & Da), Sb as (_ & Lb & Db). unfold unsigned.
    assert (C : slice_to_vec (digits b) = Val (digits b, copy_of (len a))).
    { unfold slice_to_vec, copy_of. destruct (Z.leb_spec (len a) 64); [lia|]. rewrite wf_digits by auto. rewrite E.
      unfold request. assert (0 < digits_for (len b))%nat by (unfold digits_for; lia). destruct (digits_for (len b)); [lia|reflexivity]. }
    rewrite C. unfold tbind at 1. cbn [bind].
    destruct (Z.eqb_spec (uval (digits b)) 0) as [Hb0|Hb0].
    + rewrite (t_div_digits_zero rem (len a)) by (auto using wf_digits; congruence).
      unfold tbind. cbn [bind tlift app]. replace (write_ext a (digits a)) with a by now destruct a.
      rewrite t_by_zero_exact by auto. cbn [bind tlift app]. rewrite app_nil_r.
      eexists _, []. split; [reflexivity|]. rewrite Hb0. now apply div_buffers_zero.
    + destruct (t_div_digits_exact rem (len a) (digits a) (digits b)) as (x & y & l & El & Hl); auto using wf_digits; [congruence|].
      rewrite El. unfold tbind. cbn [bind tlift app]. rewrite !app_nil_r. eexists _, l. rewrite app_nil_r. split; [reflexivity|exact Hl].
Qed.
Lemma sdivrem_cost swap a b : wf a -> wf b -> len a = len b ->
  exists r l, t_sdivrem swap a b = Val (r, l ++ (if signed b =? 0 then copy_of (len a) else [])) /\
    div_buffers (len a) (Z.abs (signed a)) (Z.abs (signed b)) l.
Proof.
  intros Ha Hb E. pose proof (signed_zero b Hb) as Zb.
  destruct (Z.eqb_spec (signed b) 0) as [Hs|Hs].
  - exists (a, b, Err (DivisionByZero (if swap then SignedRemDiv else SignedDivRem) a)), []. rewrite Hs. split; [|now apply div_buffers_zero].
    unfold t_sdivrem. rewrite is_zero_spec by now apply wf_sh. apply Zb in Hs. rewrite Hs. cbn [Z.eqb tlift bind].
    rewrite t_by_zero_exact by auto. unfold tbind. cbn [bind tlift app]. now rewrite app_nil_r.
  - assert (P : exists q r, (if swap then wrapping_sremdiv_assign a b else wrapping_sdivrem_assign a b) = Val (if swap then (r, q, Ok tt) else (q, r, Ok tt))).
    { destruct (sdiv_all a b Ha Hb E Hs) as (q & r & Q1 & Q2 & _). exists q, r. destruct swap; assumption. }
    destruct P as (q & r & P).
    assert (S : sim eq (t_sdivrem swap a b) (Val (if swap then (r, q, Ok tt) else (q, r, Ok tt)))) by (rewrite <- P; exact (sim_sdivrem swap a b)).
    destruct (exact_from (div_buffers (len a) (Z.abs (signed a)) (Z.abs (signed b))) _ _ S) as (l & El & Hl).
    2:{ eexists _, l. rewrite El, app_nil_r. split; [reflexivity|exact Hl]. }
    unfold t_sdivrem. rewrite is_zero_spec by now apply wf_sh.
    replace (unsigned b =? 0) with false by (symmetry; apply Z.eqb_neq; tauto).
    apply costs_skip. intros z Hz. injection Hz as <-.
    rewrite !msb_spec by now apply wf_sh. apply costs_skip. intros ml Hml. injection Hml as <-. apply costs_skip. intros mr Hmr. injection Hmr as <-.
    destruct (abs_spec a Ha) as (x & Ex & Wx & Lx & Ux). destruct (abs_spec b Hb) as (y & Ey & Wy & Ly & Uy).
    destruct (match bit a (len a - 1) with true => _ | false => _ end) as [nq nr].
    destruct (if swap then (nr, nq) else (nq, nr)) as [nl nrr].
    rewrite Ex, Ey. apply costs_skip. intros x' X. injection X as <-. apply costs_skip. intros y' Y. injection Y as <-.
    destruct (udivrem_cost swap x y Wx Wy ltac:(congruence)) as (res & l1 & E1 & D1).
    rewrite Lx, Ux, Uy in D1. rewrite Uy in E1. destruct (Z.eqb_spec (Z.abs (signed b)) 0); [lia|]. rewrite app_nil_r in E1.
    eapply costs_then with (P := anything) (L2 := free); [| |intros s t Hs' <-; rewrite app_nil_r; exact Hs'].
    + unfold t_unwrap_mut2. rewrite E1. eapply costs_then with (P := anything) (L2 := free) (L1 := eq l1); [split; [reflexivity|exact I]| |intros s t <- <-; rewrite app_nil_r; exact D1].
      intros [[u v] w] _. apply costs_skip. intros ? _. apply costs_lift_any.
    + intros [u v] _. apply costs_skip. intros ? _. apply costs_skip. intros ? _. apply costs_lift_any.
Qed.
Lemma sdiv_cost rem a b : wf a -> wf b -> len a = len b ->
  exists r l, t_sdiv rem a b = Val (r, copy_of (len a) ++ l) /\ div_buffers (len a) (Z.abs (signed a)) (Z.abs (signed b)) l.
Proof.
  intros Ha Hb E. pose proof (signed_zero b Hb) as Zb.
  destruct (Z.eqb_spec (signed b) 0) as [Hs|Hs].
  - exists (a, Err (DivisionByZero (if rem then SignedRem else SignedDiv) a)), []. rewrite Hs. split; [|now apply div_buffers_zero].
    unfold t_sdiv. rewrite is_zero_spec by now apply wf_sh. apply Zb in Hs. rewrite Hs. cbn [Z.eqb tlift bind].
    rewrite t_by_zero_exact by auto. unfold tbind. cbn [bind tlift app]. reflexivity.
  - assert (P : exists q, (if rem then wrapping_srem_assign a b else wrapping_sdiv_assign a b) = Val (q, Ok tt)).
    { destruct (sdiv_all a b Ha Hb E Hs) as (q & r & _ & _ & Q1 & _ & Q2 & _). destruct rem; eauto. }
    destruct P as (q & P).
    assert (S : sim eq (t_sdiv rem a b) (Val (q, Ok tt))) by (rewrite <- P; exact (sim_sdiv rem a b)).
    destruct (exact_from (fun l => exists l1, l = copy_of (len a) ++ l1 /\ div_buffers (len a) (Z.abs (signed a)) (Z.abs (signed b)) l1) _ _ S) as (l & El & l1 & Hl & D).
    2:{ eexists _, l1. rewrite El, Hl. split; [reflexivity|exact D]. }
    unfold t_sdiv. rewrite is_zero_spec by now apply wf_sh.
    replace (unsigned b =? 0) with false by (symmetry; apply Z.eqb_neq; tauto).
    apply costs_skip. intros z Hz. injection Hz as <-.
    rewrite t_clone_exact by auto. rewrite <- E.
    eapply costs_then with (P := fun c => c = b) (L1 := eq (copy_of (len a))) (L2 := div_buffers (len a) (Z.abs (signed a)) (Z.abs (signed b)));
      [split; reflexivity| |intros s t <- Ht; eauto].
    intros c ->.
    rewrite !msb_spec by now apply wf_sh. apply costs_skip. intros ml Hml. injection Hml as <-. apply costs_skip. intros mr Hmr. injection Hmr as <-.
    destruct (abs_spec a Ha) as (x & Ex & Wx & Lx & Ux). destruct (abs_spec b Hb) as (y & Ey & Wy & Ly & Uy).
    rewrite Ex, Ey. apply costs_skip. intros x' X. injection X as <-. apply costs_skip. intros y' Y. injection Y as <-.
    destruct (udivrem_cost rem x y Wx Wy ltac:(congruence)) as (res & l1 & E1 & D1).
    rewrite Lx, Ux, Uy in D1. rewrite Uy in E1. destruct (Z.eqb_spec (Z.abs (signed b)) 0); [lia|]. rewrite app_nil_r in E1.
    eapply costs_then with (P := anything) (L2 := free); [| |intros s t Hs' <-; rewrite app_nil_r; exact Hs'].
    + unfold t_unwrap_mut2. rewrite E1. eapply costs_then with (P := anything) (L2 := free) (L1 := eq l1); [split; [reflexivity|exact I]| |intros s t <- <-; rewrite app_nil_r; exact D1].
      intros [[u v] w] _. apply costs_skip. intros ? _. apply costs_lift_any.
    + intros [u v] _. apply costs_skip. intros ? _. apply costs_lift_any.
Qed.

(** * The statements of the properties *)
Lemma udivrem_cost_fact o a b : o = PUDivRem \/ o = PURemDiv -> wf a -> wf b -> len a = len b ->
  exists r l, count_pair o a b = Val (r, l ++ (if unsigned b =? 0 then copy_of (len a) else [])) /\
    div_buffers (len a) (unsigned a) (unsigned b) l.
Proof. intros [-> | ->]; apply udivrem_cost. Qed.
Lemma udiv_cost_fact o a b : o = BUdiv \/ o = BUrem -> wf a -> wf b -> len a = len b ->
  exists r l, count_bin o a b = Val (r, copy_of (len a) ++ l ++ (if unsigned b =? 0 then copy_of (len a) else [])) /\
    div_buffers (len a) (unsigned a) (unsigned b) l.
Proof. intros [-> | ->]; apply udiv_cost. Qed.
Lemma sdivrem_cost_fact o a b : o = PSDivRem \/ o = PSRemDiv -> wf a -> wf b -> len a = len b ->
  exists r l, count_pair o a b = Val (r, l ++ (if signed b =? 0 then copy_of (len a) else [])) /\
    div_buffers (len a) (Z.abs (signed a)) (Z.abs (signed b)) l.
Proof. intros [-> | ->]; apply sdivrem_cost. Qed.
Lemma sdiv_cost_fact o a b : o = BSdiv \/ o = BSrem -> wf a -> wf b -> len a = len b ->
  exists r l, count_bin o a b = Val (r, copy_of (len a) ++ l) /\
    div_buffers (len a) (Z.abs (signed a)) (Z.abs (signed b)) l.
Proof. intros [-> | ->]; apply sdiv_cost. Qed.

Lemma bits_small u k : 0 <= k -> 0 <= u < 2 ^ k -> (bits_of u <=? k) = true.
Proof. intros Hk H. apply Z.leb_le. apply (bits_of_bound u k H Hk). Qed.
Lemma mul_free_fact a b : wf a -> wf b -> len a = len b -> unsigned a < 2 ^ 64 \/ unsigned b < 2 ^ 64 ->
  exists r, count_bin BMul a b = Val (r, []).
Proof.
  intros Ha Hb E H. destruct (mul_cost_fact a b Ha Hb E) as (r & Er). exists r. rewrite Er. do 2 f_equal.
  pose proof (unsigned_bound a Ha). pose proof (unsigned_bound b Hb). unfold mul_buffers.
  destruct H; [rewrite (bits_small (unsigned a) 64) by lia|rewrite (bits_small (unsigned b) 64) by lia]; rewrite ?orb_true_r; reflexivity.
Qed.
Lemma bits_mono u v : 0 <= u <= v -> bits_of u <= bits_of v.
Proof.
  intros H. unfold bits_of. destruct (Z.eqb_spec u 0), (Z.eqb_spec v 0); try lia.
  - pose proof (Z.log2_nonneg v). lia.
  - pose proof (Z.log2_le_mono u v). lia.
Qed.
Lemma div_free_fact o a b : o = PUDivRem \/ o = PURemDiv -> wf a -> wf b -> len a = len b -> unsigned b <> 0 ->
  unsigned a < 2 ^ 64 \/ unsigned b < 2 ^ 64 \/ unsigned a < unsigned b ->
  exists r, count_pair o a b = Val (r, []).
Proof.
  intros Ho Ha Hb E Hz H. destruct (udivrem_cost_fact o a b Ho Ha Hb E) as (r & l & Er & D). exists r. rewrite Er.
  apply Z.eqb_neq in Hz. rewrite Hz, app_nil_r. do 2 f_equal.
  pose proof (unsigned_bound a Ha) as Ua. pose proof (unsigned_bound b Hb) as Ub. unfold div_buffers in D.
  assert (C : (len a <=? 64) || (bits_of (unsigned a) <=? 128) || (bits_of (unsigned b) <=? 64) ||
    (bits_of (unsigned a) <=? bits_of (unsigned b)) = true).
  { assert (2 ^ 64 < 2 ^ 128) by reflexivity. destruct H as [H|[H|H]].
    - rewrite (bits_small (unsigned a) 128) by lia. now rewrite orb_true_r.
    - rewrite (bits_small (unsigned b) 64) by lia. now rewrite orb_true_r.
    - destruct (Z.leb_spec (bits_of (unsigned a)) (bits_of (unsigned b))) as [|C]; [now rewrite orb_true_r|].
      pose proof (bits_mono (unsigned a) (unsigned b)). lia. }
  rewrite C in D. exact D.
Qed.

Definition within (w : Z) (l : list nat) : Prop :=
  (length l <= 3)%nat /\ Forall (fun n => (n <= digits_for w + 1)%nat) l /\ (w <= 64 -> l = []).
Lemma within_nil w : within w [].
Proof. split; [cbn; lia|]. split; [constructor|reflexivity]. Qed.
Lemma within_copy w : within w (copy_of w).
Proof.
  unfold copy_of. destruct (Z.leb_spec w 64); [apply within_nil|]. split; [cbn; lia|]. split; [|lia].
  constructor; [lia|constructor].
Qed.
Lemma div_shape w u v l : div_buffers w u v l -> l = [] \/ (64 < w /\ (l = [digits_for w] \/ l = [digits_for w; digits_for w])).
Proof.
  unfold div_buffers. destruct (Z.leb_spec w 64); cbn [orb]; [auto|]. destruct (_ || _); [auto|].
  destruct (_ <? _); intuition.
Qed.
Lemma div_zero_shape w u v l : div_buffers w u v l -> v = 0 -> l = [].
Proof. intros H ->. now apply div_buffers_zero in H. Qed.
Ltac within_lists :=
  split; [cbn; lia|]; split; [repeat (constructor; [lia|]); constructor|lia].
Lemma mul_within w u v : 0 <= bits_of u -> 0 <= bits_of v -> within w (mul_buffers w u v).
Proof.
  intros Hu Hv. unfold mul_buffers. destruct (Z.leb_spec w 64); cbn [orb]; [apply within_nil|].
  destruct (_ || _); [apply within_nil|].
  destruct (Z.leb_spec (bits_of u + bits_of v) (64 * Z.of_nat (digits_for w))) as [H1|H1]; [|within_lists].
  split; [cbn; lia|]. split; [|lia]. constructor; [|constructor]. unfold digits_for in *. lia.
Qed.
Lemma bits_nonneg u : 0 <= bits_of u.
Proof. unfold bits_of. destruct (u =? 0); [lia|]. pose proof (Z.log2_nonneg u). lia. Qed.

Lemma copy_cases w : (w <= 64 /\ copy_of w = []) \/ (64 < w /\ copy_of w = [digits_for w]).
Proof. unfold copy_of. destruct (Z.leb_spec w 64); auto. Qed.

Lemma bin_within_fact o a b r l : wf a -> wf b -> count_bin o a b = Val (r, l) ->
  (length l <= 3)%nat /\ Forall (fun n => (n <= digits_for (len a) + 1)%nat) l /\ (len a <= 64 -> l = []).
Proof.
  intros Ha Hb E. change (within (len a) l). destruct (Z.eq_dec (len a) (len b)) as [El|El].
  - assert (L : forall o', count_bin o' a b = tlift (cbin o' a b) -> count_bin o' a b = Val (r, l) -> within (len a) l).
    { intros o' E1 E2. rewrite E1 in E2. destruct (cbin o' a b); cbn in E2; try discriminate. injection E2 as _ <-. apply within_nil. }
    assert (U : o = BUdiv \/ o = BUrem -> within (len a) l).
    { intros Ho. destruct (udiv_cost_fact o a b Ho Ha Hb El) as (r' & l' & E' & D). rewrite E' in E. injection E as _ <-.
      destruct (Z.eqb_spec (unsigned b) 0) as [Hz|Hz].
      - rewrite (div_zero_shape _ _ _ _ D Hz). destruct (copy_cases (len a)) as [[H ->]|[H ->]]; cbn [app]; [apply within_nil|within_lists].
      - rewrite app_nil_r. destruct (copy_cases (len a)) as [[H ->]|[H ->]]; destruct (div_shape _ _ _ _ D) as [->|[H' [->| ->]]];
          cbn [app]; first [apply within_nil|lia|within_lists]. }
    assert (S : o = BSdiv \/ o = BSrem -> within (len a) l).
    { intros Ho. destruct (sdiv_cost_fact o a b Ho Ha Hb El) as (r' & l' & E' & D). rewrite E' in E. injection E as _ <-.
      destruct (copy_cases (len a)) as [[H ->]|[H ->]]; destruct (div_shape _ _ _ _ D) as [->|[H' [->| ->]]];
          cbn [app]; first [apply within_nil|lia|within_lists]. }
    destruct o; try (apply U; auto; fail); try (apply S; auto; fail); try first [exact (L BAdd eq_refl E)|exact (L BSub eq_refl E)|exact (L BAnd eq_refl E)|exact (L BOr eq_refl E)|exact (L BXor eq_refl E)].
    destruct (mul_cost_fact a b Ha Hb El) as (r' & E'). rewrite E' in E. injection E as _ <-. apply mul_within; apply bits_nonneg.
  - assert (L : forall o', count_bin o' a b = tlift (cbin o' a b) -> count_bin o' a b = Val (r, l) -> within (len a) l).
    { intros o' E1 E2. rewrite E1 in E2. destruct (cbin o' a b); cbn in E2; try discriminate. injection E2 as _ <-. apply within_nil. }
    assert (S : o = BSdiv \/ o = BSrem -> within (len a) l).
    { intros Ho. destruct (Z.eq_dec (unsigned b) 0) as [Hz|Hz].
      - assert (Q : exists r', count_bin o a b = Val (r', copy_of (len a))).
        { destruct Ho as [-> | ->]; cbn [count_bin]; unfold t_sdiv; rewrite is_zero_spec by (now apply wf_sh); rewrite Hz; cbn [Z.eqb tlift bind];
            rewrite t_by_zero_exact by auto; unfold tbind; cbn [bind tlift app]; rewrite app_nil_r; eauto. }
        destruct Q as (r' & Q). rewrite Q in E. injection E as _ <-. apply within_copy.
      - exfalso. destruct (sdiv_mismatch_panic a b Ha Hb El Hz) as (_ & _ & P1 & _ & P2 & _).
        pose proof (count_bin_fact o a b) as F. rewrite E in F. cbn [bind] in F.
        destruct Ho as [-> | ->]; cbn [cbin] in F; congruence. }
    destruct o; try (apply S; auto; fail); try first [exact (L BAdd eq_refl E)|exact (L BSub eq_refl E)|exact (L BAnd eq_refl E)|exact (L BOr eq_refl E)|exact (L BXor eq_refl E)]; cbn [count_bin] in E;
      unfold t_mul, t_udiv in E; rewrite zip_access_data_mismatch in E by auto; cbn in E; injection E as _ <-; apply within_nil.
Qed.
Lemma pair_within_fact o a b r l : wf a -> wf b -> count_pair o a b = Val (r, l) ->
  (length l <= 3)%nat /\ Forall (fun n => (n <= digits_for (len a) + 1)%nat) l /\ (len a <= 64 -> l = []).
Proof.
  intros Ha Hb E. change (within (len a) l). destruct (Z.eq_dec (len a) (len b)) as [El|El].
  - assert (U : o = PUDivRem \/ o = PURemDiv -> within (len a) l).
    { intros Ho. destruct (udivrem_cost_fact o a b Ho Ha Hb El) as (r' & l' & E' & D). rewrite E' in E. injection E as _ <-.
      destruct (Z.eqb_spec (unsigned b) 0) as [Hz|Hz].
      - rewrite (div_zero_shape _ _ _ _ D Hz). apply within_copy.
      - rewrite app_nil_r. destruct (div_shape _ _ _ _ D) as [->|[H' [->| ->]]]; first [apply within_nil|within_lists]. }
    assert (S : o = PSDivRem \/ o = PSRemDiv -> within (len a) l).
    { intros Ho. destruct (sdivrem_cost_fact o a b Ho Ha Hb El) as (r' & l' & E' & D). rewrite E' in E. injection E as _ <-.
      destruct (Z.eqb_spec (signed b) 0) as [Hz|Hz].
      - rewrite (div_zero_shape _ _ _ _ D) by (rewrite Hz; reflexivity). apply within_copy.
      - rewrite app_nil_r. destruct (div_shape _ _ _ _ D) as [->|[H' [->| ->]]]; first [apply within_nil|within_lists]. }
    destruct o; auto.
  - assert (S : o = PSDivRem \/ o = PSRemDiv -> within (len a) l).
    { intros Ho. destruct (Z.eq_dec (unsigned b) 0) as [Hz|Hz].
      - assert (Q : exists r', count_pair o a b = Val (r', copy_of (len a))).
        { destruct Ho as [-> | ->]; cbn [count_pair]; unfold t_sdivrem; rewrite is_zero_spec by (now apply wf_sh); rewrite Hz; cbn [Z.eqb tlift bind];
            rewrite t_by_zero_exact by auto; unfold tbind; cbn [bind tlift app]; rewrite app_nil_r; eauto. }
        destruct Q as (r' & Q). rewrite Q in E. injection E as _ <-. apply within_copy.
      - exfalso. destruct (sdiv_mismatch_panic a b Ha Hb El Hz) as (P1 & P2 & _).
        pose proof (count_pair_fact o a b) as F. rewrite E in F. cbn [bind] in F.
        destruct Ho as [-> | ->]; cbn [cpair] in F; congruence. }
    destruct o; auto; cbn [count_pair] in E;
      unfold t_udivrem in E; rewrite zip_access_data_mismatch in E by auto; cbn in E; injection E as _ <-; apply within_nil.
Qed.

(** Two things that the documentation says and that do not hold. *)
Lemma uint_div_allocates_fact a b : wf a -> wf b -> len a = len b -> 64 < len a ->
  exists r l, count_bin BUdiv a b = Val (r, digits_for (len a) :: l).
Proof.
  intros Ha Hb E Hw. destruct (udiv_cost_fact BUdiv a b (or_introl eq_refl) Ha Hb E) as (r & l & El & _).
  destruct (copy_cases (len a)) as [[H C]|[H C]]; [lia|]. rewrite C in El. eexists _, _. exact El.
Qed.
Definition quot_one_duo : apint := mk_apint 256 [0; 0; 0; 256].
Definition quot_one_div : apint := mk_apint 256 [1; 0; 0; 128].
Lemma quotient_one_refuted_fact :
  ~ (forall a b, wf a -> wf b -> len a = len b -> unsigned a / unsigned b = 1 -> exists r, count_pair PUDivRem a b = Val (r, [])).
Proof.
  intros H. destruct (H quot_one_duo quot_one_div) as (r & E).
  - split; [reflexivity|]. split; [reflexivity|]. split; [repeat constructor; discriminate|reflexivity].
  - split; [reflexivity|]. split; [reflexivity|]. split; [repeat constructor; discriminate|reflexivity].
  - reflexivity.
  - reflexivity.
  - vm_compute in E. discriminate.
Qed.
Lemma uint_no_alloc_refuted_fact :
  ~ (forall a b, wf a -> wf b -> len a = len b -> unsigned b <> 0 -> exists r, count_bin BUdiv a b = Val (r, [])).
Proof.
  intros H. destruct (H (mk_apint 65 [7; 0]) (mk_apint 65 [2; 0])) as (r & E).
  - split; [reflexivity|]. split; [reflexivity|]. split; [repeat constructor; discriminate|reflexivity].
  - split; [reflexivity|]. split; [reflexivity|]. split; [repeat constructor; discriminate|reflexivity].
  - reflexivity.
  - discriminate.
  - vm_compute in E. discriminate.
Qed.
