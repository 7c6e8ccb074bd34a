(** What a division accesses is all that matters to it: the loops. *)
From Verif Require Export LTouch4 MWatchDiv.
From Coq Require Import Lia ZArith.

(** One digit read, and that it exists. *)
Lemma dep_read {C} s p o o' xs ys i (Q : C -> C -> Prop) k k' : lists s p o o' xs ys -> (forall x, room s p i -> (i < List.length o)%nat -> dep s Q (k x) (k' x)) -> dep s Q (wbind (w_idx p xs i) k) (wbind (w_idx p ys i) k').
Proof.
  intros H K. apply (dep_bind s (fun x y => x = y /\ room s p i /\ (i < List.length o)%nat)); [|intros ? ? (<- & R & L); now apply K].
  intros W. destruct (dep_idx s p o o' xs ys i H W) as (E & O & R). split; [exact E|]. split; [|exact R]. revert O R. unfold w_idx, idx. cbn [snd fst]. destruct (lists_length _ _ _ _ _ _ H) as [L1 L2].
  destruct (nth_error xs i) eqn:X, (nth_error ys i) eqn:Y; cbn; auto. intros -> R. split; [reflexivity|]. assert (nth_error xs i <> None) as N by congruence. apply nth_error_Some in N. split; [|lia]. specialize (R z0 eq_refl). now inversion R.
Qed.
Lemma dep_write {C} s p o o' xs ys i v (Q : C -> C -> Prop) k k' : open s p -> lists s p o o' xs ys -> (forall us vs, lists s p o o' us vs -> dep s Q (k us) (k' vs)) -> dep s Q (wbind (w_upd p xs i v) k) (wbind (w_upd p ys i v) k').
Proof. intros P H K. apply (dep_bind s (lists s p o o')); [now apply dep_upd|exact K]. Qed.
Lemma dep_read_free {C} s p xs i (Q : C -> C -> Prop) k k' : free s p -> (forall x, dep s Q (k x) (k' x)) -> dep s Q (wbind (w_idx p xs i) k) (wbind (w_idx p xs i) k').
Proof. intros F K. apply dep_eq; [now apply dep_idx_free|exact K]. Qed.
Lemma dep_write_free {C} s p xs i v (Q : C -> C -> Prop) k k' : free s p -> (forall us, dep s Q (k us) (k' us)) -> dep s Q (wbind (w_upd p xs i v) k) (wbind (w_upd p xs i v) k').
Proof. intros F K. apply dep_eq; [now apply dep_upd_free|exact K]. Qed.
Lemma dep_put {C} s p o o' xs ys i v (Q : C -> C -> Prop) k k' : lists s p o o' xs ys -> wr s p i -> (forall us vs, lists s p o o' us vs -> dep s Q (k us) (k' vs)) -> dep s Q (wbind (wlift (upd xs i v)) k) (wbind (wlift (upd ys i v)) k').
Proof. intros H W K. apply (dep_bind s (lists s p o o')); [apply dep_lift; now apply okay_upd|exact K]. Qed.
Lemma dep_for_rev {S} s (Q : S -> S -> Prop) n : forall lo (f f' : nat -> S -> watched S) x x', Q x x' -> (forall i x x', Q x x' -> dep s Q (f i x) (f' i x')) -> dep s Q (w_for_range_rev n lo f x) (w_for_range_rev n lo f' x').
Proof. induction n as [|n IH]; intros lo f f' x x' H K; cbn [w_for_range_rev]; [now apply dep_val|]. apply (dep_bind s Q); [now apply K|]. intros. now apply IH. Qed.

(** Pairs whose first components are related and whose others are equal. *)
Definition fst_rel {A C} (Q : A -> A -> Prop) (x y : A * C) : Prop := Q (fst x) (fst y) /\ snd x = snd y.
Definition two {A C} (Q : A -> A -> Prop) (Q2 : C -> C -> Prop) (x y : A * C) : Prop := Q (fst x) (fst y) /\ Q2 (snd x) (snd y).

Ltac room1 := first [exact I | assumption | match goal with F : free ?s ?p |- room ?s ?p _ => exact (proj2 F _) | F : free ?s ?p |- open ?s ?p => exact (proj1 F) | H : lists ?s ?p _ _ _ _ |- room ?s ?p _ => apply (lists_room _ _ _ _ _ _ _ H); lia | |- _ /\ _ => split; room1 end].
Ltac go :=
  cbv beta zeta;
  match goal with
  | |- dep _ _ (wbind (w_idx ?p ?xs _) _) (wbind (w_idx ?p ?ys _) _) =>
      first [ match goal with H : lists _ p _ _ xs ys |- _ => apply (dep_read _ _ _ _ _ _ _ _ _ _ H); let x := fresh "x" in intros x ? ? end
            | apply dep_read_free; [assumption|]; let x := fresh "x" in intros x ]
  | |- dep _ _ (wbind (w_upd ?p ?xs _ _) _) (wbind (w_upd ?p ?ys _ _) _) =>
      first [ match goal with H : lists _ p _ _ xs ys |- _ => eapply dep_write; [assumption|exact H|]; clear H; let H2 := fresh "L" in intros ? ? H2 end
            | apply dep_write_free; [assumption|]; intros ? ]
  | |- dep _ _ (wbind (branch ?b) _) (wbind (branch ?b) _) => apply dep_branch
  | |- dep _ _ (wbind (wlift ?o) _) (wbind (wlift ?o) _) => apply dep_lift_eq; intros ?
  | |- dep _ _ (wbind (see (_ :: _)) _) (wbind (see (_ :: _)) _) => seen; split; [roomy; room1|]
  | |- dep _ _ (wbind (wlift (upd ?xs _ _)) _) (wbind (wlift (upd ?ys _ _)) _) =>
      match goal with H : lists _ ?p _ _ xs ys |- _ => eapply dep_put; [exact H|assumption|]; clear H; let H2 := fresh "L" in intros ? ? H2 end
  | |- dep _ _ (match ?x with pair _ _ => _ end) (match ?x with pair _ _ => _ end) => destruct x
  | |- dep _ _ (if ?b then _ else _) (if ?b then _ else _) => destruct b
  | |- dep _ _ (wbind (match ?x with pair _ _ => _ end) _) (wbind (match ?x with pair _ _ => _ end) _) => destruct x
  | |- dep _ _ (wlift ?o) (wlift ?o) => apply dep_lift; destruct o; cbn; auto; fail
  end.
Ltac fin := apply dep_val; unfold fst_rel, two in *; cbn [fst snd]; repeat match goal with |- _ /\ _ => split end; first [assumption|reflexivity].
Ltac pairs := repeat match goal with x : (_ * _)%type |- _ => destruct x end; unfold fst_rel, two in *; cbn [fst snd] in *; repeat match goal with H : _ /\ _ |- _ => destruct H end; subst.
Ltac via R := apply (dep_bind _ R); [|intros ? ? ?; pairs].

Lemma dep_small_step s o o' d i x y : open s Self -> fst_rel (lists s Self o o') x y -> dep s (fst_rel (lists s Self o o')) (w_small_step d i x) (w_small_step d i y).
Proof. intros P H. pairs. unfold w_small_step. repeat go. fin. Qed.
Lemma dep_by_small s q o o' v v' duo duo' div div' n : open s Self -> open s q -> lists s Self o o' duo duo' -> lists s q v v' div div' ->
  dep s (two (lists s Self o o') (lists s q v v')) (w_large_div_by_small q duo n div) (w_large_div_by_small q duo' n div').
Proof.
  intros P1 P2 H1 H2. unfold w_large_div_by_small. repeat go. via (fst_rel (C:=Z) (lists s Self o o')).
  - apply dep_for_rev; [now split|]. intros. now apply dep_small_step.
  - repeat go. fin.
Qed.
Lemma dep_u32_step s o o' d i x y : open s Self -> fst_rel (lists s Self o o') x y -> dep s (fst_rel (lists s Self o o')) (w_u32_step d i x) (w_u32_step d i y).
Proof. intros P H. pairs. unfold w_u32_step. repeat go. fin. Qed.
Lemma dep_by_u32 s q o o' v v' duo duo' div div' n : open s Self -> open s q -> lists s Self o o' duo duo' -> lists s q v v' div div' ->
  dep s (two (lists s Self o o') (lists s q v v')) (w_large_div_by_u32 q duo n div) (w_large_div_by_u32 q duo' n div').
Proof.
  intros P1 P2 H1 H2. unfold w_large_div_by_u32. repeat go. via (fst_rel (C:=Z) (lists s Self o o')).
  - apply dep_for_rev; [now split|]. intros. now apply dep_u32_step.
  - repeat go. fin.
Qed.

(** * The helper macros *)
Lemma dep_twos s p o o' n : forall i xs ys, open s p -> lists s p o o' xs ys -> dep s (lists s p o o') (w_twos_complement_from p n i xs) (w_twos_complement_from p n i ys).
Proof.
  induction n as [|n IH]; intros i xs ys P H; cbn [w_twos_complement_from]; [now apply dep_val|]. go. go. destruct (d_overflowing_add (d_not x) ONE) as [v [|]]; go.
  - now apply IH.
  - apply dep_for; [assumption|]. intros j ? ? K. go. now apply dep_upd.
Qed.
Lemma dep_twos_free s p n : forall i xs, free s p -> dep s eq (w_twos_complement_from p n i xs) (w_twos_complement_from p n i xs).
Proof.
  induction n as [|n IH]; intros i xs F; cbn [w_twos_complement_from]; [now apply dep_val|]. go. go. destruct (d_overflowing_add (d_not x) ONE) as [v [|]]; go.
  - now apply IH.
  - apply dep_for; [reflexivity|]. intros j ? ? <-. go. now apply dep_upd_free.
Qed.
Lemma dep_any_rev s p o o' xs ys n : forall lo, lists s p o o' xs ys -> dep s eq (w_any_nonzero_rev p n lo xs) (w_any_nonzero_rev p n lo ys).
Proof. induction n as [|n IH]; intros lo H; cbn [w_any_nonzero_rev]; [now apply dep_val|]. go. go. destruct (negb (d_is_zero x)); [now apply dep_val|now apply IH]. Qed.
(** [xs] and [ys] are the contents of the place [p]. *)
Definition known (s : scope) (p : place) (xs ys : list Z) : Prop := (exists o o', lists s p o o' xs ys) \/ free s p /\ xs = ys.
Lemma dep_known {C} s p xs ys i (Q : C -> C -> Prop) k k' : known s p xs ys -> (forall x, room s p i -> dep s Q (k x) (k' x)) -> dep s Q (wbind (w_idx p xs i) k) (wbind (w_idx p ys i) k').
Proof. intros [(o & o' & H)|[F <-]] K; [apply (dep_read _ _ _ _ _ _ _ _ _ _ H); intros; now apply K|apply dep_read_free; [exact F|]; intros; apply K, F]. Qed.
Ltac gk := match goal with H : known _ ?p ?xs ?ys |- dep _ _ (wbind (w_idx ?p ?xs _) _) (wbind (w_idx ?p ?ys _) _) => apply (dep_known _ _ _ _ _ _ _ _ H); let x := fresh "x" in intros x ? end.
Lemma dep_uge1 s p r n xs ys us vs : known s p xs ys -> known s r us vs -> dep s eq (w_uge_b1 p r n xs us) (w_uge_b1 p r n ys vs).
Proof. intros H K. induction n as [|n IH]; cbn [w_uge_b1]; [now apply dep_val|]. gk. gk. go. destruct (x <? x0); [now apply dep_val|]. go. go. destruct (negb (x =? x0)); [now apply dep_val|exact IH]. Qed.
Lemma dep_ugt1 s p r n xs ys us vs : known s p xs ys -> known s r us vs -> dep s eq (w_ugt_b1 p r n xs us) (w_ugt_b1 p r n ys vs).
Proof. intros H K. induction n as [|n IH]; cbn [w_ugt_b1]; [now apply dep_val|]. gk. gk. go. destruct (x0 <? x); [now apply dep_val|]. go. go. destruct (negb (x =? x0)); [now apply dep_val|exact IH]. Qed.
Lemma dep_any_known s p xs ys n : forall lo, known s p xs ys -> dep s eq (w_any_nonzero_rev p n lo xs) (w_any_nonzero_rev p n lo ys).
Proof. induction n as [|n IH]; intros lo H; cbn [w_any_nonzero_rev]; [now apply dep_val|]. gk. go. destruct (negb (d_is_zero x)); [now apply dep_val|now apply IH]. Qed.
Lemma dep_uge s p r n m xs ys us vs : known s p xs ys -> known s r us vs -> dep s eq (w_uge p r n xs m us) (w_uge p r n ys m vs).
Proof. intros H K. unfold w_uge. apply dep_eq; [now apply dep_any_known|]. intros b. go. destruct b; [now apply dep_val|]. apply dep_eq; [now apply dep_uge1|]. intros b. go. now apply dep_val. Qed.
Lemma dep_ugt s p r n m xs ys us vs : known s p xs ys -> known s r us vs -> dep s eq (w_ugt p r n xs m us) (w_ugt p r n ys m vs).
Proof. intros H K. unfold w_ugt. apply dep_eq; [now apply dep_any_known|]. intros b. go. destruct b; [now apply dep_val|]. apply dep_eq; [now apply dep_ugt1|]. intros b. go. now apply dep_val. Qed.
Lemma lists_known s p o o' xs ys : lists s p o o' xs ys -> known s p xs ys. Proof. left. eauto. Qed.
Lemma free_known s p xs : free s p -> known s p xs xs. Proof. now right. Qed.

Lemma dep_special0 s q o o' v v' len sum sum' sub target target' val : open s Self -> open s q -> free s Sub -> lists s Self o o' sum sum' -> lists s q v v' target target' ->
  dep s (two (lists s Self o o') (lists s q v v')) (w_special0 q len sum sub target val) (w_special0 q len sum' sub target' val).
Proof.
  intros P1 P2 F H1 H2. unfold w_special0. repeat go. via (fst_rel (C:=Z) (two (lists s Self o o') (lists s q v v'))).
  - apply dep_for; [repeat split; assumption|]. intros i st st' ?. pairs. unfold w_special0_step. repeat go. fin.
  - repeat go. fin.
Qed.
Lemma dep_special0_same s q o o' v v' len sum sum' target target' val : open s Self -> open s q -> lists s Self o o' sum sum' -> lists s q v v' target target' ->
  dep s (two (lists s Self o o') (lists s q v v')) (w_special0_same q len sum target val) (w_special0_same q len sum' target' val).
Proof.
  intros P1 P2 H1 H2. unfold w_special0_same. repeat go. via (fst_rel (C:=Z) (two (lists s Self o o') (lists s q v v'))).
  - apply dep_for; [repeat split; assumption|]. intros i st st' ?. pairs. unfold w_special0_same_step. repeat go. fin.
  - repeat go. fin.
Qed.
Lemma dep_special1 s q o o' v v' len sum sum' sub target target' val add : open s Self -> open s q -> free s Sub -> free s Quo -> lists s Self o o' sum sum' -> lists s q v v' target target' ->
  dep s (two (lists s Self o o') (lists s q v v')) (w_special1 q len sum sub target val add) (w_special1 q len sum' sub target' val add).
Proof.
  intros P1 P2 F F2 H1 H2. unfold w_special1. repeat go. via (fst_rel (C:=Z) (lists s q v v')).
  - apply dep_for; [repeat split; assumption|]. intros i st st' ?. pairs. unfold w_special1_step1. repeat go. fin.
  - repeat go. via (fst_rel (C:=Z) (lists s Self o o')).
    + apply dep_for; [repeat split; assumption|]. intros i st st' ?. pairs. unfold w_special1_step2. go. via (lists s Self o o'); [go; [go; now apply dep_upd|now apply dep_val]|]. repeat go. fin.
    + fin.
Qed.
Lemma dep_add_macro s p r o o' len sum sum' add add' : open s p -> lists s p o o' sum sum' -> known s r add add' -> dep s (lists s p o o') (w_add_macro p r len sum add) (w_add_macro p r len sum' add').
Proof.
  intros P H K. unfold w_add_macro. repeat first [go|gk]. via (fst_rel (C:=Z) (lists s p o o')).
  - apply dep_for; [split; [assumption|reflexivity]|]. intros i st st' ?. pairs. unfold w_add_macro_step. repeat first [go|gk]. fin.
  - repeat first [go|gk]. now apply dep_upd.
Qed.
Lemma dep_add_macro_free s p r len sum add add' : free s p -> known s r add add' -> dep s eq (w_add_macro p r len sum add) (w_add_macro p r len sum add').
Proof.
  intros P K. unfold w_add_macro. repeat first [gk|go]. apply dep_eq.
  - apply dep_for; [reflexivity|]. intros i [? ?] ? <-. unfold w_add_macro_step. repeat first [gk|go]. now apply dep_val.
  - intros [? ?]. repeat first [gk|go]. now apply dep_upd_free.
Qed.
