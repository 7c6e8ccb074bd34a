(** What a division accesses is all that matters to it: slices and long division. *)
From Verif Require Export LTouchDiv.
From Coq Require Import Lia ZArith.

(** * Digits by position *)
Lemma cells_of s p : forall o lo o' us vs, List.length o' = List.length o -> List.length us = List.length o -> List.length vs = List.length o ->
  (forall i, (i < List.length o)%nat -> cell s p (lo + i) (nth i o 0) (nth i o' 0) (nth i us 0) (nth i vs 0)) -> cells s p (seq lo (List.length o)) o o' us vs.
Proof.
  induction o as [|x o IH]; intros lo [|x' o'] [|u us] [|v vs] A B C K; try discriminate; [constructor|]. cbn [List.length seq] in *. constructor.
  - specialize (K 0%nat ltac:(lia)). now rewrite Nat.add_0_r in K.
  - apply IH; [lia|lia|lia|]. intros i I. specialize (K (S i) ltac:(lia)). now rewrite <- plus_n_Sm in K.
Qed.
Lemma lists_at s p o o' xs ys i : lists s p o o' xs ys -> (i < List.length o)%nat -> cell s p i (nth i o 0) (nth i o' 0) (nth i xs 0) (nth i ys 0).
Proof.
  intros H I. pose proof (cells_nth _ _ _ _ _ _ _ i H) as K. rewrite nth_seq in K. apply Nat.ltb_lt in I. rewrite I in K. destruct K as (a & a' & x & y & A & A' & X & Y & C). cbn in C. now rewrite !(nth_error_nth _ _ 0 A), (nth_error_nth _ _ 0 A'), (nth_error_nth _ _ 0 X), (nth_error_nth _ _ 0 Y).
Qed.
Lemma lists_len4 s p o o' xs ys : lists s p o o' xs ys -> List.length xs = List.length o /\ List.length ys = List.length o /\ List.length o' = List.length o.
Proof. intros H. apply cells_length in H. rewrite seq_length in H. lia. Qed.
Lemma lists_patch s p o o' xs ys us vs : lists s p o o' xs ys -> List.length us = List.length o -> List.length vs = List.length o ->
  (forall i, (i < List.length o)%nat -> (wr s p i /\ nth i us 0 = nth i vs 0) \/ (nth i us 0 = nth i xs 0 /\ nth i vs 0 = nth i ys 0)) -> lists s p o o' us vs.
Proof.
  intros H A B K. destruct (lists_len4 _ _ _ _ _ _ H) as (_ & _ & D). apply cells_of; [exact D|exact A|exact B|]. intros i I. pose proof (lists_at _ _ _ _ _ _ i H I) as C. cbn. destruct (K i I) as [[W E]|[-> ->]]; [|exact C].
  destruct C as (R & _ & _). split; [exact R|]. split; [now left|contradiction].
Qed.
Lemma known_nth s p xs ys i : known s p xs ys -> rd s p i -> nth i xs 0 = nth i ys 0.
Proof.
  intros [(o & o' & H)|[_ <-]] R; [|reflexivity]. destruct (lists_len4 _ _ _ _ _ _ H) as (A & B & _). destruct (Nat.ltb i (List.length o)) eqn:E.
  - apply Nat.ltb_lt in E. destruct (lists_at _ _ _ _ _ _ i H E) as (_ & [V|[V _]] & _); [exact V|contradiction].
  - apply Nat.ltb_ge in E. rewrite !nth_overflow by lia. reflexivity.
Qed.
Lemma known_length s p xs ys : known s p xs ys -> List.length xs = List.length ys.
Proof. intros [(o & o' & H)|[_ <-]]; [|reflexivity]. now apply lists_length in H. Qed.
Lemma known_room s p xs ys i : known s p xs ys -> (i < List.length xs)%nat -> room s p i.
Proof. intros [(o & o' & H)|[F _]] I; [|apply F]. apply (lists_room _ _ _ _ _ _ _ H). apply lists_length in H. lia. Qed.

(** * Slices *)
Lemma nth_first : forall n i (l : list Z), (i < n)%nat -> nth i (firstn n l) 0 = nth i l 0.
Proof. induction n as [|n IH]; intros i l H; [lia|]. destruct l as [|x l]; [now destruct i|]. destruct i as [|i]; [reflexivity|]. cbn. apply IH. lia. Qed.
Lemma nth_skip : forall n i (l : list Z), nth i (skipn n l) 0 = nth (n + i) l 0.
Proof. induction n as [|n IH]; intros i l; [reflexivity|]. destruct l as [|x l]; [now destruct i|]. cbn. apply IH. Qed.
Lemma nth_slice lo hi dst src i : (lo <= hi)%nat -> (hi <= List.length dst)%nat -> (hi <= List.length src)%nat ->
  nth i (firstn lo dst ++ firstn (hi - lo) (skipn lo src) ++ skipn hi dst) 0 = if Nat.leb lo i && Nat.ltb i hi then nth i src 0 else nth i dst 0.
Proof.
  intros A B C. assert (List.length (firstn lo dst) = lo) as L by (rewrite firstn_length; lia). assert (List.length (firstn (hi - lo) (skipn lo src)) = hi - lo)%nat as L2 by (rewrite firstn_length, skipn_length; lia).
  destruct (Nat.leb lo i) eqn:E; cbn [andb].
  - apply Nat.leb_le in E. rewrite app_nth2, L by lia. destruct (Nat.ltb i hi) eqn:F.
    + apply Nat.ltb_lt in F. rewrite app_nth1 by lia. rewrite nth_first by lia. rewrite nth_skip. f_equal; lia.
    + apply Nat.ltb_ge in F. rewrite app_nth2, L2 by lia. rewrite nth_skip. f_equal; lia.
  - apply Nat.leb_gt in E. rewrite app_nth1 by lia. now rewrite nth_first by lia.
Qed.
Lemma length_slice lo hi (dst src : list Z) : (lo <= hi)%nat -> (hi <= List.length dst)%nat -> (hi <= List.length src)%nat -> List.length (firstn lo dst ++ firstn (hi - lo) (skipn lo src) ++ skipn hi dst) = List.length dst.
Proof. intros. rewrite !app_length, !firstn_length, !skipn_length. lia. Qed.
Lemma within_copies_from s p q lo n : within s (copies_from p q lo n) -> forall i, (lo <= i < lo + n)%nat -> rd s p i /\ wr s q i.
Proof.
  unfold within, copies_from. rewrite Forall_flat, Forall_forall. intros H i I. assert (In i (seq lo n)) as J by (apply in_seq; lia). specialize (H i J). inversion H as [|? ? H1 H2]; subst. inversion H2 as [|? ? H3 H4]; subst. now split.
Qed.
Lemma roomy_copies_from s p q lo n : open s q -> (forall i, (lo <= i < lo + n)%nat -> room s p i /\ room s q i) -> roomy s (copies_from p q lo n).
Proof. intros P H. unfold roomy, copies_from. rewrite Forall_flat, Forall_forall. intros i I. apply in_seq in I. destruct (H i ltac:(lia)). repeat constructor; assumption. Qed.
Lemma dep_copy_range s p r o o' lo hi dst dst' src src' : open s p -> lists s p o o' dst dst' -> known s r src src' -> dep s (lists s p o o') (w_copy_range p r lo hi dst src) (w_copy_range p r lo hi dst' src').
Proof.
  intros P H K. unfold w_copy_range, copy_range. rewrite <- (known_length _ _ _ _ K). destruct (lists_len4 _ _ _ _ _ _ H) as (A & B & _). rewrite B, <- A. destruct (Nat.leb lo hi && Nat.leb hi (List.length dst) && Nat.leb hi (List.length src)) eqn:E.
  - apply andb_prop in E as [E E3]. apply andb_prop in E as [E1 E2]. apply Nat.leb_le in E1, E2, E3.
    apply (dep_bind s (fun x y => x = firstn lo dst ++ firstn (hi - lo) (skipn lo src) ++ skipn hi dst /\ y = firstn lo dst' ++ firstn (hi - lo) (skipn lo src') ++ skipn hi dst')); [apply dep_lift; now split|]. intros ? ? [-> ->].
    apply dep_see. intros W. split.
    + apply roomy_copies_from; [exact P|]. intros i I. split; [apply (known_room _ _ _ _ _ K); lia|apply (lists_room _ _ _ _ _ _ _ H); lia].
    + apply dep_val. pose proof (known_length _ _ _ _ K) as KL. apply (lists_patch _ _ _ _ _ _ _ _ H); [rewrite length_slice; lia|rewrite length_slice; lia|]. intros i I. rewrite !nth_slice by lia. destruct (Nat.leb lo i) eqn:F1; cbn [andb]; [|now right]. destruct (Nat.ltb i hi) eqn:F2; [left|now right].
      apply Nat.leb_le in F1. apply Nat.ltb_lt in F2. destruct (within_copies_from _ _ _ _ _ W i ltac:(lia)) as [R1 R2]. split; [exact R2|]. now apply known_nth with (1 := K).
  - apply (dep_bind s (fun _ _ => False)); [now apply dep_lift|contradiction].
Qed.
Lemma nth_unset hi lo ds i : (hi <= List.length ds)%nat -> (i < List.length ds)%nat -> nth i (unset_take_skip hi lo ds) 0 = if Nat.leb lo i && Nat.ltb i hi then 0 else nth i ds 0.
Proof.
  intros A B. unfold unset_take_skip. destruct (Nat.leb lo i) eqn:E; cbn [andb].
  - apply Nat.leb_le in E. assert (List.length (firstn lo ds) = lo) as L by (rewrite firstn_length; lia). rewrite app_nth2, L by lia. assert (List.length (map d_unset_all (skipn lo (firstn hi ds))) = hi - lo)%nat as L2 by (rewrite map_length, skipn_length, firstn_length; lia). destruct (Nat.ltb i hi) eqn:F.
    + apply Nat.ltb_lt in F. rewrite app_nth1 by lia. change 0 with (d_unset_all 0) at 1. rewrite map_nth. unfold d_unset_all. apply Z.land_0_r.
    + apply Nat.ltb_ge in F. rewrite app_nth2, L2 by lia. rewrite nth_skip. f_equal. lia.
  - apply Nat.leb_gt in E. rewrite app_nth1; [|rewrite firstn_length; lia]. now rewrite nth_first by lia.
Qed.
Lemma length_unset hi lo ds : (hi <= List.length ds)%nat -> List.length (unset_take_skip hi lo ds) = List.length ds.
Proof. intros A. unfold unset_take_skip. rewrite !app_length, map_length, !skipn_length, !firstn_length. lia. Qed.
Lemma dep_move s q o o' v v' sd vd duo duo' div div' : open s Self -> open s q -> lists s Self o o' duo duo' -> lists s q v v' div div' -> (vd < List.length v)%nat ->
  dep s (two (lists s Self o o') (lists s q v v')) (w_move q sd vd duo div) (w_move q sd vd duo' div').
Proof.
  intros P1 P2 H1 H2 N. unfold w_move. via (two (lists s Self o o') (lists s q v v')).
  - apply dep_for; [now split|]. intros i st st' ?. pairs. unfold w_move_step. repeat go. fin.
  - match goal with H : lists s q _ _ ?x ?y |- _ => destruct (lists_len4 _ _ _ _ _ _ H) as (A & B & _); apply dep_see; intros W; split; [apply roomy_writes; [exact P2|]; intros i I; apply (lists_room _ _ _ _ _ _ _ H); lia|]; rewrite within_writes in W; apply dep_val; split; [assumption|]; cbn [snd]; apply (lists_patch _ _ _ _ _ _ _ _ H) end.
    + rewrite length_unset; lia.
    + rewrite length_unset; lia.
    + intros i I. rewrite !nth_unset by lia. destruct (Nat.leb (sd + 1) i) eqn:F1; cbn [andb]; [|now right]. destruct (Nat.ltb i (vd + 1)) eqn:F2; [left|now right]. apply Nat.leb_le in F1. apply Nat.ltb_lt in F2. split; [apply W; lia|reflexivity].
Qed.

(** * Long division *)
Lemma dep_sig_dd s p xs ys sd lz : known s p xs ys -> dep s eq (w_sig_dd p xs sd lz) (w_sig_dd p ys sd lz).
Proof. intros K. unfold w_sig_dd. destruct (lz =? 0); repeat first [gk|go]; now apply dep_val. Qed.
Lemma dep_sub_row s q m (F : free s Sub) : forall n i o o' xs ys c, cells s q (seq i n) o o' xs ys -> dep s eq (w_sub_row q i m xs c) (w_sub_row q i m ys c).
Proof.
  induction n as [|n IH]; intros i o o' xs ys c H; inversion H as [|? ? ? ? ? ? ? ? ? ? HC HT]; subst; cbn [w_sub_row]; [now apply dep_val|]. seen. destruct HC as (R & V & _). split; [roomy; [exact R|split; apply F]|]. destruct V as [<-|[V _]]; [|contradiction].
  destruct (d_carrying_mul_add m _ c). apply dep_eq; [now apply IH with (1 := HT)|]. intros [? ?]. now apply dep_val.
Qed.
Lemma slice_seq k n : skipn 1 (firstn k (seq 0 n)) = seq 1 (Nat.min k n - 1).
Proof.
  assert (forall k n lo, firstn k (seq lo n) = seq lo (Nat.min k n)) as E. { intros k0. induction k0 as [|k0 IH]; intros [|n0] lo; cbn; [reflexivity|reflexivity|reflexivity|]. now rewrite IH. }
  rewrite E. destruct (Nat.min k n) as [|m]; [reflexivity|]. cbn. now rewrite Nat.sub_0_r.
Qed.
Lemma dep_row s q o o' m k xs ys c : free s Sub -> lists s q o o' xs ys -> dep s eq (w_sub_row q 1 m (skipn 1 (firstn k xs)) c) (w_sub_row q 1 m (skipn 1 (firstn k ys)) c).
Proof.
  intros F H. apply (cells_split _ _ k) in H as [H _]. apply (cells_split _ _ 1) in H as [_ H]. rewrite slice_seq in H. exact (dep_sub_row s q m F _ _ _ _ _ _ _ H).
Qed.
Lemma dep_finish1 s q o o' v v' len duo duo' div div' sub mul : open s Self -> open s q -> free s Sub -> lists s Self o o' duo duo' -> lists s q v v' div div' ->
  dep s (two (lists s Self o o') (lists s q v v')) (w_finish_mul_sub1 q len duo div sub mul) (w_finish_mul_sub1 q len duo' div' sub mul).
Proof.
  intros P1 P2 F H1 H2. unfold w_finish_mul_sub1, w_twos_complement. apply dep_eq; [now apply dep_twos_free|]. intros. apply dep_eq; [apply dep_add_macro_free; [exact F|now apply lists_known in H2]|]. intros. now apply dep_special0.
Qed.
Lemma dep_finish s q o o' v v' len duo duo' div div' sub mul : open s Self -> open s q -> free s Sub -> lists s Self o o' duo duo' -> lists s q v v' div div' ->
  dep s (two (lists s Self o o') (lists s q v v')) (w_finish_mul q len duo div sub mul) (w_finish_mul q len duo' div' sub mul).
Proof. intros P1 P2 F H1 H2. unfold w_finish_mul, w_twos_complement. apply dep_eq; [now apply dep_twos_free|]. intros. now apply dep_special0. Qed.
Lemma dep_seen_free {C} s p lo n (Q : C -> C -> Prop) k k' : free s p -> dep s Q (k tt) (k' tt) -> dep s Q (wbind (see (writes p lo n)) k) (wbind (see (writes p lo n)) k').
Proof. intros [P F] K. apply dep_see. intros _. split; [apply roomy_writes; auto|exact K]. Qed.
Lemma dep_mul_or s q o o' v v' len duo duo' sd lz div div' vd : open s Self -> open s q -> free s Sub -> lists s Self o o' duo duo' -> lists s q v v' div div' ->
  dep s (two (lists s Self o o') (lists s q v v')) (w_mul_or_mul_sub1 q len duo sd lz div vd) (w_mul_or_mul_sub1 q len duo' sd lz div' vd).
Proof.
  intros P1 P2 F H1 H2. pose proof (lists_known _ _ _ _ _ _ H1) as K1. pose proof (lists_known _ _ _ _ _ _ H2) as K2. unfold w_mul_or_mul_sub1. go. apply dep_eq; [now apply dep_sig_dd|]. intros. apply dep_eq; [now apply dep_sig_dd|]. intros. repeat go.
  apply dep_eq; [now apply dep_row with (2 := H2)|]. intros [row carry]. repeat go.
  - now apply dep_finish1.
  - apply dep_eq; [apply dep_ugt; [now apply free_known|exact K1]|]. intros [|]; [now apply dep_finish1|now apply dep_finish].
  - apply dep_seen_free; [exact F|]. apply dep_eq; [apply dep_ugt; [now apply free_known|exact K1]|]. intros [|]; [now apply dep_finish1|now apply dep_finish].
Qed.
Lemma dep_carry_into s : free s Quo -> forall ds i c, dep s eq (w_carry_into i ds c) (w_carry_into i ds c).
Proof. intros F. induction ds as [|d ds IH]; intros i c; cbn [w_carry_into]; [now apply dep_val|]. go. go; [now apply dep_val|]. repeat go. apply dep_eq; [apply IH|]. intros. now apply dep_val. Qed.
Lemma dep_add_to_quo s quo n b m : free s Quo -> dep s eq (w_add_to_quo quo n b m) (w_add_to_quo quo n b m).
Proof. intros F. unfold w_add_to_quo. repeat go. apply dep_eq; [now apply dep_carry_into|]. intros. now apply dep_val. Qed.
Lemma dep_sub_lo s q o o' duo duo' div div' sd n b m : open s Self -> lists s Self o o' duo duo' -> known s q div div' -> dep s (lists s Self o o') (w_sub_lo q duo div sd n b m) (w_sub_lo q duo' div' sd n b m).
Proof.
  intros P H K. unfold w_sub_lo. cbv zeta. repeat first [gk|go]. via (fst_rel (C:=Z) (fst_rel (C:=Z) (fst_rel (C:=Z) (lists s Self o o')))).
  - apply dep_for; [repeat split; assumption|]. intros i st st' ?. pairs. unfold w_sub_lo_step. repeat first [gk|go]. fin.
  - now apply dep_val.
Qed.
Lemma dep_sub_hi s q o o' duo duo' div div' sd n b m : open s Self -> lists s Self o o' duo duo' -> known s q div div' -> dep s (lists s Self o o') (w_sub_hi q duo div sd n b m) (w_sub_hi q duo' div' sd n b m).
Proof.
  intros P H K. unfold w_sub_hi. cbv zeta. repeat first [gk|go]. via (fst_rel (C:=Z) (fst_rel (C:=Z) (fst_rel (C:=Z) (fst_rel (C:=Z) (lists s Self o o'))))).
  - apply dep_for; [repeat split; assumption|]. intros i st st' ?. pairs. unfold w_sub_hi_step. repeat first [gk|go]. fin.
  - now apply dep_val.
Qed.
Lemma dep_mul_or_quo s q o o' v v' len duo duo' sd lz sig div div' vd quo : open s Self -> open s q -> free s Sub -> free s Quo -> lists s Self o o' duo duo' -> lists s q v v' div div' ->
  dep s (two (lists s Self o o') (lists s q v v')) (w_mul_or_mul_sub1_quo q len duo sd lz sig div vd quo) (w_mul_or_mul_sub1_quo q len duo' sd lz sig div' vd quo).
Proof.
  intros P1 P2 F F2 H1 H2. pose proof (lists_known _ _ _ _ _ _ H1) as K1. pose proof (lists_known _ _ _ _ _ _ H2) as K2. unfold w_mul_or_mul_sub1_quo. go. apply dep_eq; [now apply dep_sig_dd|]. intros. repeat go.
  apply dep_eq; [now apply dep_row with (2 := H2)|]. intros [row carry]. repeat go. apply dep_seen_free; [exact F|]. cbv zeta. apply dep_eq; [apply dep_ugt; [now apply free_known|exact K1]|]. unfold w_twos_complement. intros [|].
  - apply dep_eq; [now apply dep_twos_free|]. intros. apply dep_eq; [now apply dep_add_macro_free|]. intros. now apply dep_special1.
  - apply dep_eq; [now apply dep_twos_free|]. intros. now apply dep_special1.
Qed.
Lemma dep_find_sd s xs ys n : known s Self xs ys -> dep s eq (w_find_sd n xs) (w_find_sd n ys).
Proof. intros K. induction n as [|n IH]; cbn [w_find_sd]; [now apply dep_val|]. gk. go. go; [now apply dep_val|]. go. exact IH. Qed.
Lemma dep_quo_add1 s o o' quo len : open s Self -> free s Quo -> forall n i duo duo', lists s Self o o' duo duo' -> (i + n <= List.length o)%nat -> dep s (lists s Self o o') (w_quo_add1_from n i len duo quo) (w_quo_add1_from n i len duo' quo).
Proof.
  intros P F. induction n as [|n IH]; intros i duo duo' H N; cbn [w_quo_add1_from]; [now apply dep_val|]. go. go. destruct (d_overflowing_add x ONE) as [v [|]]; go; [apply IH; [assumption|lia]|]. apply dep_copy_range; [assumption|assumption|now apply free_known].
Qed.
Lemma dep_quo_add_carry s o o' quo len : open s Self -> free s Quo -> forall n i duo duo' c, lists s Self o o' duo duo' -> dep s (lists s Self o o') (w_quo_add_carry_from n i len duo quo c) (w_quo_add_carry_from n i len duo' quo c).
Proof.
  intros P F. induction n as [|n IH]; intros i duo duo' c H; cbn [w_quo_add_carry_from]; [now apply dep_val|]. go. go; [apply dep_copy_range; [assumption|assumption|now apply free_known]|]. repeat go. now apply IH.
Qed.
Lemma dep_small_tail s q o o' v v' len duo duo' div div' quo : open s Self -> open s q -> free s Quo -> lists s Self o o' duo duo' -> lists s q v v' div div' ->
  dep s (two (lists s Self o o') (lists s q v v')) (w_small_tail q len duo div quo) (w_small_tail q len duo' div' quo).
Proof.
  intros P1 P2 F H1 H2. unfold w_small_tail. repeat go. via (lists s Self o o'); [now apply dep_quo_add_carry|]. fin.
Qed.
