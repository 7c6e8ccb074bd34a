(** What a division accesses is all that matters to it: the whole algorithm. *)
From Verif Require Export LTouchDiv2.
From Coq Require Import Lia ZArith.

Lemma okay_for {S} (Q : S -> S -> Prop) (f f' : nat -> S -> outcome S) (ok : nat -> Prop) : (forall i x y, ok i -> Q x y -> okay Q (f i x) (f' i y)) ->
  forall n lo x y, (forall i, (lo <= i < lo + n)%nat -> ok i) -> Q x y -> okay Q (for_range n lo f x) (for_range n lo f' y).
Proof.
  intros K. induction n as [|n IH]; intros lo x y N H; cbn [for_range]; [exact H|]. pose proof (K lo x y (N lo ltac:(lia)) H) as O. destruct (f lo x), (f' lo y); cbn in *; try contradiction; try exact O. apply IH; [|exact O]. intros. apply N. lia.
Qed.
Lemma dep_div_loop s q o o' v v' vd vb vl v1 : open s Self -> open s q -> free s Sub -> free s Quo -> List.length v = List.length o -> forall fuel duo duo' div div' sd lz,
  lists s Self o o' duo duo' -> lists s q v v' div div' -> forall quo,
  dep s (two (lists s Self o o') (lists s q v v')) (w_div_loop q fuel (List.length o) duo div quo sd lz vd vb vl v1) (w_div_loop q fuel (List.length o) duo' div' quo sd lz vd vb vl v1).
Proof.
  intros P1 P2 F1 F2 LV. induction fuel as [|fuel IH]; intros duo duo' div div' sd lz H1 H2 quo; cbn [w_div_loop]; [now apply dep_lift|].
  pose proof (lists_known _ _ _ _ _ _ H1) as K1. pose proof (lists_known _ _ _ _ _ _ H2) as K2. repeat go. apply dep_eq; [now apply dep_sig_dd|]. intros sig. go. go; [|now apply dep_mul_or_quo].
  go. apply dep_eq; [now apply dep_add_to_quo|]. clear quo. intros quo. go. via (lists s Self o o'); [go; [now apply dep_sub_lo|now apply dep_sub_hi]|]. match goal with H : lists s Self o o' ?x ?y |- dep _ _ (wbind (w_find_sd _ ?x) _) _ => clear H1 K1; rename H into H1 end. pose proof (lists_known _ _ _ _ _ _ H1) as K1.
  apply dep_eq; [now apply dep_find_sd|]. intros [sd2|].
  - repeat go.
    + apply dep_eq; [now apply dep_uge|]. intros [|].
      * via (lists s q v v'); [now apply dep_twos|]. via (lists s q v v'); [now apply dep_add_macro|]. via (lists s Self o o'); [apply dep_quo_add1; [assumption|assumption|assumption|lia]|]. fin.
      * via (lists s q v v'); [now apply dep_copy_range|]. via (lists s Self o o'); [apply dep_copy_range; [assumption|assumption|now apply free_known]|]. fin.
    + via (lists s q v v'); [now apply dep_copy_range|]. via (lists s Self o o'); [apply dep_copy_range; [assumption|assumption|now apply free_known]|]. fin.
    + now apply dep_small_tail.
    + now apply IH.
  - apply dep_see. intros W. unfold within in W. rewrite Forall_flat, Forall_forall in W. split.
    + unfold roomy. rewrite Forall_flat, Forall_forall. intros i I. apply in_seq in I. roomy; room1.
    + assert (forall i, (0 <= i < 0 + List.length o)%nat -> wr s q i /\ wr s Self i) as Wi. { intros i I. assert (In i (seq 0 (List.length o))) as J by (apply in_seq; lia). specialize (W i J). inversion W as [|? ? X1 X2]; subst. inversion X2 as [|? ? X3 X4]; subst. inversion X4 as [|? ? X5 X6]; subst. now split. }
      via (lists s q v v').
      { apply dep_lift. apply (okay_for (lists s q v v') _ _ (wr s q)); [|intros i I; now apply Wi|assumption]. intros. now apply okay_upd. }
      via (lists s Self o o'); [|fin]. apply dep_lift. apply (okay_for (lists s Self o o') _ _ (wr s Self)); [|intros i I; now apply Wi|assumption]. intros i x y X Y. destruct (idx quo i); cbn; [now apply okay_upd|reflexivity|exact I].
Qed.
Lemma dep_large s q o o' v v' duo duo' div div' sd vd : open s Self -> open s q -> free s Sub -> free s Quo -> List.length v = List.length o -> (vd < List.length v)%nat -> lists s Self o o' duo duo' -> lists s q v v' div div' ->
  dep s (two (lists s Self o o') (lists s q v v')) (w_large_div_by_large q (List.length o) duo sd div vd) (w_large_div_by_large q (List.length o) duo' sd div' vd).
Proof.
  intros P1 P2 F1 F2 LV N H1 H2. pose proof (lists_known _ _ _ _ _ _ H1) as K1. pose proof (lists_known _ _ _ _ _ _ H2) as K2. unfold w_large_div_by_large. repeat go.
  - now apply dep_move.
  - apply dep_eq; [now apply dep_uge|]. intros [|]; [|now apply dep_move]. via (lists s q v v'); [now apply dep_twos|]. now apply dep_special0_same.
  - now apply dep_mul_or.
  - apply dep_eq; [repeat go; now apply dep_val|]. intros sig. apply dep_see. intros _. split; [apply Forall_cons; [exact I|]; apply roomy_writes; [apply F2|intros; apply F2]|]. cbv zeta. now apply dep_div_loop.
Qed.
Lemma dep_cases s q o o' v v' duo duo' div div' sd vd : open s Self -> open s q -> free s Sub -> free s Quo -> List.length v = List.length o -> (vd < List.length v)%nat -> lists s Self o o' duo duo' -> lists s q v v' div div' ->
  dep s (two (lists s Self o o') (lists s q v v')) (w_divrem_cases q duo div sd vd) (w_divrem_cases q duo' div' sd vd).
Proof.
  intros P1 P2 F1 F2 LV N H1 H2. destruct (lists_len4 _ _ _ _ _ _ H1) as (A & B & _). unfold w_divrem_cases. rewrite A, B. go. go. destruct (Nat.eqb sd 0), (Nat.eqb vd 0).
  - repeat go. fin.
  - now apply dep_lift.
  - repeat go; [now apply dep_by_u32|now apply dep_by_small].
  - repeat go; [fin|]. now apply dep_large.
Qed.
Lemma dep_rposition s p o o' xs ys n : lists s p o o' xs ys -> dep s (fun x y => x = y /\ forall i, x = Some i -> (i < List.length o)%nat) (w_rposition p xs n) (w_rposition p ys n).
Proof. intros H. induction n as [|n IH]; cbn [w_rposition]; [now apply dep_val|]. go. go. go; [|exact IH]. apply dep_val. split; [reflexivity|]. intros i E. injection E as <-. assumption. Qed.
Lemma zip_left f : (forall x y z, f x y = f x z) -> forall xs us vs, List.length us = List.length vs -> zip_update f xs us = zip_update f xs vs.
Proof. intros K. induction xs as [|x xs IH]; intros [|u us] [|v vs] L; try discriminate L; [reflexivity|reflexivity|reflexivity|]. cbn. f_equal; [apply K|]. apply IH. now injection L. Qed.
Lemma zip_right (xs ys : list Z) : List.length xs = List.length ys -> zip_update (fun _ d => d) xs ys = ys.
Proof. revert ys. induction xs as [|x xs IH]; intros [|y ys] L; try discriminate L; [reflexivity|]. cbn. f_equal. apply IH. now injection L. Qed.
Lemma zip_update_len f : forall xs ys, List.length (zip_update f xs ys) = List.length xs.
Proof. induction xs as [|x xs IH]; intros [|y ys]; cbn; auto. Qed.
Lemma dep_divrem s q o o' v v' duo duo' div div' : open s Self -> open s q -> free s Sub -> free s Quo -> List.length v = List.length o -> lists s Self o o' duo duo' -> lists s q v v' div div' ->
  dep s (fst_rel (C:=bool) (two (lists s Self o o') (lists s q v v'))) (w_aarons_algorithm_divrem q duo div) (w_aarons_algorithm_divrem q duo' div').
Proof.
  intros P1 P2 F1 F2 LV H1 H2. destruct (lists_len4 _ _ _ _ _ _ H1) as (A & B & C). destruct (lists_len4 _ _ _ _ _ _ H2) as (A2 & B2 & C2). unfold w_aarons_algorithm_divrem. rewrite A, B, A2, B2.
  apply (dep_bind _ _ _ _ _ _ _ (dep_rposition s q v v' div div' (List.length v) H2)). intros od ? [<- N]. destruct od as [vd|]; [|fin]. specialize (N vd eq_refl).
  apply (dep_bind _ _ _ _ _ _ _ (dep_rposition s Self o o' duo duo' (List.length o) H1)). intros od ? [<- N2]. destruct od as [sd|].
  - specialize (N2 sd eq_refl). go. go.
    + apply dep_see. intros W. unfold within in W. rewrite Forall_flat, Forall_forall in W. replace (Nat.min (List.length o) (List.length v)) with (List.length o) in * by lia. split.
      * unfold roomy. rewrite Forall_flat, Forall_forall. intros i I. apply in_seq in I. roomy; room1.
      * assert (forall i, (i < List.length o)%nat -> rd s Self i /\ wr s q i /\ wr s Self i) as Wi. { intros i I. assert (In i (seq 0 (List.length o))) as J by (apply in_seq; lia). specialize (W i J). inversion W as [|? ? X1 X2]; subst. inversion X2 as [|? ? X3 X4]; subst. inversion X4 as [|? ? X5 X6]; subst. now split. }
        assert (duo = duo') as <- by (apply (lists_equal _ _ _ _ _ _ H1); intros; now apply Wi). apply dep_val. split; [|reflexivity]. split; cbn [fst snd].
        -- rewrite (zip_left (fun duo_d _ => d_unset_all duo_d) ltac:(reflexivity) duo div' div) by lia. apply lists_fresh; [lia|rewrite zip_update_len; lia|]. intros i I. split; [now apply Wi|]. apply (lists_room _ _ _ _ _ _ _ H1). exact I.
        -- rewrite !zip_right by lia. apply lists_fresh; [lia|lia|]. intros i I. split; [apply Wi; lia|]. apply (lists_room _ _ _ _ _ _ _ H2). exact I.
    + via (two (lists s Self o o') (lists s q v v')); [now apply dep_cases|]. fin.
  - apply dep_see. intros W. rewrite within_writes in W. split; [apply roomy_writes; [exact P2|]; intros; apply (lists_room _ _ _ _ _ _ _ H2); lia|]. apply dep_val. split; [|reflexivity]. split; [exact H1|]. cbn [fst snd].
    apply (lists_patch _ _ _ _ _ _ _ _ H2); [rewrite map_length; lia|rewrite map_length; lia|]. intros i I. left. split; [apply W; lia|]. change 0 with (d_unset_all 0). rewrite !map_nth. unfold d_unset_all. now rewrite !Z.land_0_r.
Qed.
Lemma dep_remdiv s q o o' v v' duo duo' div div' : open s Self -> open s q -> free s Sub -> free s Quo -> List.length v = List.length o -> lists s Self o o' duo duo' -> lists s q v v' div div' ->
  dep s (fst_rel (C:=bool) (two (lists s Self o o') (lists s q v v'))) (w_aarons_algorithm_remdiv q duo div) (w_aarons_algorithm_remdiv q duo' div').
Proof.
  intros P1 P2 F1 F2 LV H1 H2. unfold w_aarons_algorithm_remdiv. via (fst_rel (C:=bool) (two (lists s Self o o') (lists s q v v'))); [now apply dep_divrem|]. go. go; [|fin].
  match goal with |- dep _ _ (wbind (w_for_range (List.length ?x) _ _ _) _) (wbind (w_for_range (List.length ?y) _ _ _) _) => replace (List.length y) with (List.length x) by (match goal with H : lists s Self _ _ x y |- _ => apply lists_length in H; lia end) end.
  via (two (lists s Self o o') (lists s q v v')); [|fin]. apply dep_for; [now split|]. intros i st st' ?. pairs. unfold w_swap_step. repeat go. fin.
Qed.
