(** What a call accesses is all that matters to it: shifts, casts, conversions. *)
From Verif Require Export LTouch2.
From Coq Require Import Lia ZArith.

(** * Shifts *)
Lemma dep_known {A} s (Q2 : A -> A -> Prop) {C} (o o' : C) k k' : dep s Q2 (k o) (k' o') -> dep s Q2 (wbind (wlift (Val o)) k) (wbind (wlift (Val o')) k').
Proof. intros H. exact H. Qed.
Lemma firstn_equal s p o o' xs ys k : lists s p o o' xs ys -> (forall i, (i < k)%nat -> (i < List.length o)%nat -> rd s p i) -> firstn k xs = firstn k ys.
Proof.
  intros H R. destruct (cells_split _ _ k _ _ _ _ _ H) as [C _]. apply (cells_equal _ _ _ _ _ _ _ C). apply Forall_forall. intros i I.
  assert (In i (seq 0 (List.length o))) as J by (rewrite <- (firstn_skipn k); apply in_or_app; now left). apply in_seq in J. apply R; [|lia].
  apply In_nth_error in I as [j J2]. assert (j < k)%nat as Hj by (destruct (Nat.lt_ge_cases j k) as [Q|Q]; [exact Q|]; assert (nth_error (firstn k (seq 0 (List.length o))) j <> None) as F by congruence; apply nth_error_Some in F; rewrite firstn_length in F; lia).
  assert (nth_error (firstn k (seq 0 (List.length o))) j = nth_error (seq 0 (List.length o)) j) as E. { rewrite <- (firstn_skipn k (seq 0 (List.length o))) at 2. symmetry. apply nth_error_app1. apply nth_error_Some. congruence. }
  rewrite E, nth_seq in J2. destruct (Nat.ltb j (List.length o)); [|discriminate J2]. injection J2 as <-. lia.
Qed.
Lemma dep_shl_digits s k o o' xs ys : open s Self -> lists s Self o o' xs ys -> dep s (lists s Self o o') (w_shl_digits k xs) (w_shl_digits k ys).
Proof.
  intros P H. destruct (lists_length _ _ _ _ _ _ H) as [M M2]. pose proof (cells_length _ _ _ _ _ _ _ H) as C. rewrite seq_length in C. unfold w_shl_digits, shl_digits. rewrite <- M. apply dep_branch. destruct (Nat.eqb k 0) eqn:E; [now apply dep_lift|]. destruct (Nat.leb k (List.length xs)) eqn:E2.
  - apply Nat.leb_le in E2. apply dep_known. apply dep_see. intros W. unfold within in W. rewrite Forall_flat, Forall_forall in W.
    assert (forall i, (i < List.length xs - k)%nat -> rd s Self i /\ wr s Self (i + k)) as W1.
    { intros i I. assert (In i (seq 0 (List.length xs - k))) as J by (apply in_seq; lia). specialize (W i J). inversion W as [|? ? X1 X2]; subst. inversion X2; subst. now split. }
    split. { unfold roomy. rewrite Forall_flat, Forall_forall. intros i J. apply in_seq in J. repeat constructor; try exact P; apply (lists_room _ _ _ _ _ _ _ H); lia. }
    apply dep_see. intros W2. rewrite within_writes in W2. split; [apply roomy_writes; [exact P|]; intros; apply (lists_room _ _ _ _ _ _ _ H); lia|]. apply dep_val.
    rewrite <- (firstn_equal _ _ _ _ _ _ (List.length xs - k) H); [|intros; apply W1; lia]. apply lists_fresh; [lia|rewrite app_length, repeat_length, firstn_length; lia|]. intros i I. split; [|apply (lists_room _ _ _ _ _ _ _ H); lia].
    destruct (Nat.lt_ge_cases i k); [apply W2; lia|]. replace i with (i - k + k)%nat by lia. apply W1. lia.
  - intros _. split; [reflexivity|]. split; [reflexivity|discriminate].
Qed.
Lemma dep_shl_loop s bits (P : open s Self) : forall n i c o o' xs ys, cells s Self (seq i n) o o' xs ys -> dep s (cells s Self (seq i n) o o') (w_shl_loop bits i c xs) (w_shl_loop bits i c ys).
Proof.
  induction n as [|n IH]; intros i c o o' xs ys H; cut H; cbn [w_shl_loop seq]; [now apply dep_val|]. seen. split; [roomy; [now apply cell_room in HC|split; [now apply cell_room in HC|exact P]]|]. rewrite (cell_eq _ _ _ _ _ _ _ HC SV). do 3 (apply dep_lift_eq; intros). apply cells_lift with (1 := HC); [exact SV0|now apply IH].
Qed.
Lemma dep_modify_from s k o o' xs ys (f : list Z -> watched (list Z)) : lists s Self o o' xs ys ->
  (forall n a a' us vs, cells s Self (seq k n) a a' us vs -> dep s (cells s Self (seq k n) a a') (f us) (f vs)) ->
  dep s (lists s Self o o') (w_modify_from k f xs) (w_modify_from k f ys).
Proof.
  intros H F. destruct (lists_length _ _ _ _ _ _ H) as [M M2]. unfold w_modify_from. rewrite <- M. destruct (Nat.leb k (List.length xs)) eqn:E; [|now apply dep_lift]. apply Nat.leb_le in E.
  destruct (cells_split _ _ k _ _ _ _ _ H) as [C1 C2]. assert (seq 0 (List.length o) = seq 0 k ++ seq k (List.length o - k)) as S by (rewrite <- seq_app; f_equal; lia).
  rewrite S, firstn_app, firstn_all2, seq_length, Nat.sub_diag in C1 by (rewrite seq_length; lia). rewrite S, skipn_app, skipn_all2, seq_length, Nat.sub_diag in C2 by (rewrite seq_length; lia). cbn [firstn skipn] in C1, C2. rewrite app_nil_r in C1. cbn [app] in C2.
  apply (dep_bind s _ _ _ _ _ _ (F _ _ _ _ _ C2)). intros u v K. apply dep_val. unfold lists. rewrite S. pose proof (cells_app _ _ _ _ _ _ _ _ _ _ _ _ C1 K) as C3. rewrite !firstn_skipn in C3. exact C3.
Qed.
Lemma dep_shl s o o' a a' n : open s Self -> held s Self o o' a a' -> dep s (paired s o o') (w_wrapping_shl_assign a n) (w_wrapping_shl_assign a' n).
Proof.
  intros P H. pose proof H as (L & _). unfold w_wrapping_shl_assign, width. rewrite <- L. destruct (verify_shift_amount (len a) n); seen; (split; [roomy|]); [|apply dep_val; now split]. apply (dep_access s Self o o' a a' _ _ _ H).
  - intros d E. apply (dep_bind s (held s Self o o')); [apply dep_lift_eq; intros d'; small H P|]. intros. now apply dep_clear_ok.
  - intros K. apply (dep_bind s (held s Self o o')); [|intros; now apply dep_clear_ok]. apply (dep_bind s _ _ _ _ _ _ (dep_shl_digits s (digit_steps n) _ _ _ _ P K)). intros u v K2. apply dep_branch.
    apply (dep_bind s (lists s Self (digits o) (digits o'))); [|intros; apply dep_val; now apply held_ext]. destruct (negb (bit_steps n =? 0)); [|now apply dep_val]. apply dep_modify_from; [exact K2|]. intros. now apply dep_shl_loop.
Qed.
Lemma dep_lshr_digits s k o o' xs ys : open s Self -> lists s Self o o' xs ys -> dep s (lists s Self o o') (w_lshr_digits k xs) (w_lshr_digits k ys).
Proof.
  intros P H. destruct (lists_length _ _ _ _ _ _ H) as [M M2]. pose proof (cells_length _ _ _ _ _ _ _ H) as C. rewrite seq_length in C. unfold w_lshr_digits, lshr_digits. rewrite <- M. apply dep_branch. destruct (Nat.eqb k 0) eqn:E; [now apply dep_lift|]. destruct (Nat.leb k (List.length xs)) eqn:E2.
  - apply Nat.leb_le in E2. apply dep_known. apply dep_see. intros W. apply within_app in W as [W1 W2]. rewrite within_reads in W1. rewrite within_writes in W2. split; [apply roomy_app; split; [apply roomy_reads|apply roomy_writes; [exact P|]]; intros; apply (lists_room _ _ _ _ _ _ _ H); lia|].
    apply dep_see. intros _. split; [apply Forall_rev, roomy_writes; [exact P|]; intros; apply (lists_room _ _ _ _ _ _ _ H); lia|]. apply dep_val.
    rewrite <- (lists_equal _ _ _ _ _ _ H); [|intros; apply W1; lia]. apply lists_fresh; [lia|rewrite app_length, repeat_length, firstn_length, !app_length, skipn_length, firstn_length; lia|]. intros i I. split; [apply W2; lia|apply (lists_room _ _ _ _ _ _ _ H); lia].
  - intros _. split; [reflexivity|]. split; [reflexivity|discriminate].
Qed.
Lemma dep_lshr_loop s bits (P : open s Self) : forall n c o o' xs ys, cells s Self (down n) o o' xs ys -> dep s (cells s Self (down n) o o') (w_lshr_loop bits (n - 1) c xs) (w_lshr_loop bits (n - 1) c ys).
Proof.
  induction n as [|n IH]; intros c o o' xs ys H; cut H; cbn [w_lshr_loop down]; [now apply dep_val|]. replace (S n - 1)%nat with n by lia. seen. split; [roomy; [now apply cell_room in HC|split; [now apply cell_room in HC|exact P]]|]. rewrite (cell_eq _ _ _ _ _ _ _ HC SV). do 3 (apply dep_lift_eq; intros). apply cells_lift with (1 := HC); [exact SV0|]. rewrite <- Nat.sub_1_r. now apply IH.
Qed.
Lemma dep_lshr s o o' a a' n : open s Self -> held s Self o o' a a' -> dep s (paired s o o') (w_wrapping_lshr_assign a n) (w_wrapping_lshr_assign a' n).
Proof.
  intros P H. pose proof H as (L & _). unfold w_wrapping_lshr_assign, width. rewrite <- L. destruct (verify_shift_amount (len a) n); seen; (split; [roomy|]); [|apply dep_val; now split]. apply (dep_access s Self o o' a a' _ _ _ H).
  - intros d E. apply dep_lift_eq. intros d'. seen. split; [roomy; split; [apply (held_room _ _ _ _ _ _ _ H); lia|exact P]|]. apply dep_val. split; [now apply held_inl|reflexivity].
  - intros K. apply (dep_bind s _ _ _ _ _ _ (dep_lshr_digits s (digit_steps n) _ _ _ _ P K)). intros u v K2. apply dep_branch.
    apply (dep_bind s (lists s Self (digits o) (digits o'))); [|intros; apply dep_val; split; [now apply held_ext|reflexivity]]. destruct (0 <? bit_steps n); [|now apply dep_val]. destruct (lists_length _ _ _ _ _ _ K2) as [M M2]. rewrite <- M.
    apply (dep_bind s _ _ _ _ _ _ (dep_lshr_loop s _ P _ 0 _ _ _ _ (lists_down _ _ _ _ _ _ K2))). intros x y K3. apply dep_val. apply cells_rev in K3. rewrite !rev_involutive, <- rev_seq, rev_involutive, M2 in K3. exact K3.
Qed.
Ltac idx K := apply dep_eq; [apply (dep_idx _ _ _ _ _ _ _ K)|intros].
Lemma dep_ashr_fill s o o' n d xs ys : open s Self -> lists s Self o o' xs ys -> dep s (lists s Self o o') (w_ashr_fill n d xs) (w_ashr_fill n d ys).
Proof. intros P H. unfold w_ashr_fill. apply dep_for; [exact H|]. intros i x y K. idx K. now apply dep_upd. Qed.
Lemma dep_ashr_subdigit s o o' bits uns xs ys : open s Self -> lists s Self o o' xs ys -> dep s (lists s Self o o') (w_ashr_subdigit bits uns xs) (w_ashr_subdigit bits uns ys).
Proof.
  intros P H. destruct (lists_length _ _ _ _ _ _ H) as [M M2]. unfold w_ashr_subdigit. rewrite <- M. apply dep_lift_eq. intros last. apply (dep_bind s (lists s Self o o')); [apply dep_for; [exact H|]; intros i x y K; idx K; idx K; now apply dep_upd|]. intros x y K. idx K. now apply dep_upd.
Qed.
Lemma dep_ashr_digit s o o' n d xs ys : open s Self -> lists s Self o o' xs ys -> dep s (lists s Self o o') (w_ashr_digit n d xs) (w_ashr_digit n d ys).
Proof.
  intros P H. destruct (lists_length _ _ _ _ _ _ H) as [M M2]. unfold w_ashr_digit. rewrite <- M. apply (dep_bind s (lists s Self o o')); [apply dep_for; [exact H|]; intros i x y K; idx K; apply dep_lift_eq; intros; now apply dep_upd|]. intros x y K. now apply dep_ashr_fill.
Qed.
Lemma dep_ashr_both s o o' n d bits uns xs ys : open s Self -> lists s Self o o' xs ys -> dep s (lists s Self o o') (w_ashr_both n d bits uns xs) (w_ashr_both n d bits uns ys).
Proof.
  intros P H. destruct (lists_length _ _ _ _ _ _ H) as [M M2]. unfold w_ashr_both. rewrite <- M. apply dep_lift_eq. intros last. apply (dep_bind s (lists s Self o o')); [apply dep_for; [exact H|]; intros i x y K; idx K; idx K; apply dep_lift_eq; intros; now apply dep_upd|]. intros x y K.
  apply dep_lift_eq. intros j. idx K. apply (dep_bind s (lists s Self o o')); [now apply dep_upd|]. intros. now apply dep_ashr_fill.
Qed.
Lemma dep_ashr s o o' a a' n : open s Self -> held s Self o o' a a' -> dep s (paired s o o') (w_wrapping_ashr_assign a n) (w_wrapping_ashr_assign a' n).
Proof.
  intros P H. pose proof H as (L & _). unfold w_wrapping_ashr_assign. apply dep_eq; [now apply dep_msb with (1 := H)|]. intros m. apply dep_branch. destruct (negb m); [now apply dep_lshr|]. unfold width. rewrite <- L. destruct (verify_shift_amount (len a) n); seen; (split; [roomy|]); [|apply dep_val; now split].
  apply dep_branch. destruct (n =? 0); [apply dep_val; now split|]. apply dep_lift_eq. intros uns. apply (dep_access s Self o o' a a' _ _ _ H).
  - intros d E. apply (dep_bind s (held s Self o o')); [apply dep_lift_eq; intros d'; small H P|]. intros. now apply dep_clear_ok.
  - intros K. apply (dep_bind s (held s Self o o')); [|intros; now apply dep_clear_ok]. apply dep_branch. destruct (lists_length _ _ _ _ _ _ K) as [M M2]. rewrite <- M.
    apply (dep_bind s (lists s Self (digits o) (digits o'))). { destruct (negb (len a mod 64 =? 0)); [|now apply dep_val]. apply dep_lift_eq. intros. idx K. apply dep_lift_eq. intros. apply dep_lift_eq. intros. now apply dep_upd. }
    intros x y K2. destruct (lists_length _ _ _ _ _ _ K2) as [M3 M4]. rewrite <- M3. apply dep_lift_eq. intros diff. apply dep_branch. apply (dep_bind s (lists s Self (digits o) (digits o'))); [|intros; apply dep_val; now apply held_ext].
    destruct (Nat.eqb (Z.to_nat (n / 64)) 0); [now apply dep_ashr_subdigit|]. apply dep_branch. destruct (n mod 64 =? 0); [now apply dep_ashr_digit|now apply dep_ashr_both].
Qed.

(** * Copies *)
(** The result is what is left of the operand, or it is new and each of its digits was written. *)
Definition made (s : scope) (o o' c c' : apint) : Prop := held s Self o o' c c' \/ (c = c' /\ forall i, (i < List.length (digits c))%nat -> wr s Self i \/ wr s New i).
Definition fresh (s : scope) (c c' : apint) : Prop := c = c' /\ forall i, (i < List.length (digits c))%nat -> wr s New i.
Lemma apint_eq (a a' : apint) : len a = len a' -> digits a = digits a' -> a = a'. Proof. destruct a, a'; cbn; congruence. Qed.
Lemma clone_digits a c : clone a = Val c -> digits c = digits a.
Proof.
  unfold clone, read_inl, new_inl, new_ext, as_digit_slice. destruct (storage (len a)).
  - destruct (digits a) as [|d [|]]; try discriminate. cbn. intros E. now injection E as <-.
  - destruct (Nat.eqb _ _); [|discriminate]. intros E. now injection E as <-.
Qed.
Lemma dep_lift_self {A} s (Q : A -> A -> Prop) o : (forall v, o = Val v -> Q v v) -> dep s Q (wlift o) (wlift o).
Proof. intros H. apply dep_lift. destruct o; cbn; auto. Qed.
Lemma dep_clone s p o o' a a' : free s New -> held s p o o' a a' -> dep s (fun c c' => fresh s c c' /\ digits c = digits a) (w_clone p a) (w_clone p a').
Proof.
  intros F H. pose proof H as (L & N & K). destruct (lists_length _ _ _ _ _ _ K) as [M M2]. unfold w_clone, as_digit_slice. rewrite <- L, <- M. destruct (storage (len a)) eqn:S.
  - seen. split; [roomy; [apply (held_room _ _ _ _ _ _ _ H); lia|split; [apply F|apply F]]|].
    unfold clone. rewrite <- L, S. unfold read_inl, new_inl. rewrite S. destruct (digits a) as [|x [|x2 xs]] eqn:Ea; destruct (digits a') as [|y [|y2 ys]] eqn:Eb; try discriminate M; cbn; try (now apply dep_lift).
    assert ([x] = [y]) as E by (apply (lists_equal _ _ _ _ _ _ K); intros i I; cbn in M2; replace i with 0%nat by lia; exact SV0). injection E as <-. apply dep_lift. cbn. split; [|reflexivity]. split; [reflexivity|]. intros i I. cbn in I. replace i with 0%nat by lia. exact SV1.
  - apply dep_see. intros W. change (Branch false :: Allocate (List.length (digits a)) :: copies p New (List.length (digits a))) with ([Branch false; Allocate (List.length (digits a))] ++ copies p New (List.length (digits a))) in W |- *. apply within_app in W as [_ W]. rewrite within_copies in W.
    split. { apply roomy_app. split; [roomy|]. apply roomy_copies; [apply F|]. intros. split; [apply (held_room _ _ _ _ _ _ _ H); lia|apply F]. }
    rewrite <- (apint_eq a a' L); [|apply (lists_equal _ _ _ _ _ _ K); intros; apply W; lia]. apply dep_lift_self. intros v V. apply clone_digits in V. split; [|exact V]. split; [reflexivity|]. rewrite V. intros i I. now apply W.
Qed.
Definition made2 (s : scope) (o o' : apint) (x y : apint * result unit) : Prop := made s o o' (fst x) (fst y) /\ snd x = snd y.
Lemma dep_copy {A} s b b' (us vs : list Z) n (Q : A -> A -> Prop) k k' (N : List.length us = n) : open s Self -> (forall i, (i < n)%nat -> room s Self i) -> lists s Other b b' us vs ->
  ((forall i, (i < n)%nat -> wr s Self i) -> us = vs -> dep s Q (k tt) (k' tt)) -> dep s Q (wbind (see (copies Other Self (List.length us))) k) (wbind (see (copies Other Self (List.length us))) k').
Proof.
  intros P R H K. destruct (lists_length _ _ _ _ _ _ H) as [M M2]. apply dep_see. intros W. rewrite within_copies in W. split; [apply roomy_copies; [exact P|]; intros i I; split; [apply (lists_room _ _ _ _ _ _ _ H); lia|apply R; lia]|].
  apply K; [intros; apply W; lia|]. apply (lists_equal _ _ _ _ _ _ H). intros. apply W. lia.
Qed.
Lemma dep_assign s o o' b b' a a' c c' : open s Self -> free s New -> held s Self o o' a a' -> held s Other b b' c c' -> dep s (made s o o') (w_assign a c) (w_assign a' c').
Proof.
  intros P F H H2. pose proof H as (L & N & K). pose proof H2 as (L2 & N2 & K2). destruct (lists_length _ _ _ _ _ _ K) as [M M2], (lists_length _ _ _ _ _ _ K2) as [M3 M4]. unfold w_assign, len_digits, width. rewrite <- L, <- L2. apply dep_branch. destruct (Nat.eqb _ _).
  - unfold copy_from_slice, as_digit_slice. rewrite <- M, <- M3. destruct (Nat.eqb (List.length (digits a)) (List.length (digits c))) eqn:E; [|intros _; split; [reflexivity|]; split; [reflexivity|discriminate]]. apply Nat.eqb_eq in E. apply dep_known. apply (dep_copy s (digits b) (digits b') (digits c) (digits c') _ _ _ _ eq_refl P); [intros; apply (lists_room _ _ _ _ _ _ _ K); lia|exact K2|].
    intros W EQ. apply dep_val. right. split; [now rewrite EQ|]. cbn. intros. left. now apply W.
  - destruct (storage (len c)).
    + unfold read_inl. destruct (digits c) as [|x [|x2 xs]] eqn:Ea; destruct (digits c') as [|y [|y2 ys]] eqn:Eb; try discriminate M3; try (intros _; split; [reflexivity|]; split; [reflexivity|discriminate]). apply dep_known. seen. split; [roomy; [apply (lists_room _ _ _ _ _ _ _ K2); lia|split; [apply (lists_room _ _ _ _ _ _ _ K); lia|exact P]]|].
      assert ([x] = [y]) as E by (apply (lists_equal _ _ _ _ _ _ K2); intros i I; cbn in M4; replace i with 0%nat by lia; exact SV0). injection E as <-. apply dep_val. right. split; [reflexivity|]. cbn. intros i I. replace i with 0%nat by lia. now left.
    + seen. split; [roomy|]. apply (dep_bind s _ _ _ _ _ _ (dep_clone s Other b b' c c' F H2)). intros x y [[<- W] _]. apply dep_val. right. split; [reflexivity|]. cbn. intros. right. now apply W.
Qed.
Lemma dep_strict_assign s o o' b b' a a' c c' : open s Self -> held s Self o o' a a' -> held s Other b b' c c' -> dep s (made2 s o o') (w_strict_assign a c) (w_strict_assign a' c').
Proof.
  intros P H H2. pose proof H as (L & N & K). pose proof H2 as (L2 & N2 & K2). destruct (lists_length _ _ _ _ _ _ K) as [M M2], (lists_length _ _ _ _ _ _ K2) as [M3 M4]. unfold w_strict_assign, width. rewrite <- L, <- L2. apply dep_branch. destruct (negb _); [apply dep_val; split; [now left|reflexivity]|].
  unfold copy_from_slice, as_digit_slice. rewrite <- M, <- M3. destruct (Nat.eqb (List.length (digits a)) (List.length (digits c))) eqn:E; [|intros _; split; [reflexivity|]; split; [reflexivity|discriminate]]. apply Nat.eqb_eq in E. apply dep_known. apply (dep_copy s (digits b) (digits b') (digits c) (digits c') _ _ _ _ eq_refl P); [intros; apply (lists_room _ _ _ _ _ _ _ K); lia|exact K2|].
  intros W EQ. apply dep_val. split; [|reflexivity]. right. cbn. split; [now rewrite EQ|]. intros. left. now apply W.
Qed.
Lemma from_iter_digits ds x : from_iter ds = Val (Ok x) -> digits x = ds.
Proof.
  unfold from_iter, new_inl, new_ext. destruct ds as [|d [|d2 ds]]; cbn [List.length]; [discriminate| |].
  - cbn [idx nth_error bind]. destruct (storage 64); [|discriminate]. intros E. now injection E as <-.
  - destruct (unwrap _) as [w| |]; try discriminate. cbn [bind]. destruct (Nat.eqb _ _); [|discriminate]. destruct (storage w); [discriminate|]. intros E. now injection E as <-.
Qed.
Lemma from_iter_some ds x : from_iter ds = Val (Ok x) -> (0 < List.length ds)%nat.
Proof. destruct ds; [discriminate|cbn; lia]. Qed.
Definition fresh_result (s : scope) (x y : result apint) : Prop := match x, y with Ok c, Ok c' => fresh s c c' | Err e, Err e' => e = e' | _, _ => False end.
Lemma dep_from_iter s p o o' xs ys n ds ds' : free s New -> lists s p o o' xs ys -> (n <= List.length o)%nat -> (n <= List.length ds)%nat -> List.length ds = List.length ds' -> ((forall i, (i < n)%nat -> rd s p i) -> ds = ds') ->
  dep s (fun x y => fresh_result s x y /\ (forall c, x = Ok c -> digits c = ds /\ (0 < List.length ds)%nat)) (w_from_iter p n ds) (w_from_iter p n ds').
Proof.
  intros F H N N2 E Q. unfold w_from_iter. rewrite <- E. apply dep_see. intros W.
  set (hd := Branch (Nat.eqb (List.length ds) 1) :: (if Nat.leb (List.length ds) 1 then [] else [Allocate (List.length ds)])) in *.
  change (within s (hd ++ copies p New n ++ writes New n (List.length ds - n))) in W. change (roomy s (hd ++ copies p New n ++ writes New n (List.length ds - n)) /\ dep s (fun x y => fresh_result s x y /\ (forall c, x = Ok c -> digits c = ds /\ (0 < List.length ds)%nat)) (wlift (from_iter ds)) (wlift (from_iter ds'))).
  apply within_app in W as [_ W]. apply within_app in W as [W1 W2]. rewrite within_copies in W1. rewrite within_writes in W2.
  split. { apply roomy_app. split; [unfold hd; constructor; [exact I|]; destruct (Nat.leb _ _); roomy|]. apply roomy_app. split; [apply roomy_copies; [apply F|]; intros; split; [apply (lists_room _ _ _ _ _ _ _ H); lia|apply F]|apply roomy_writes; [apply F|intros; apply F]]. }
  rewrite <- Q by (intros j J; exact (proj1 (W1 j J))). apply dep_lift_self. intros [v|e] V; [|split; [reflexivity|discriminate]]. pose proof (from_iter_some _ _ V) as V2. apply from_iter_digits in V. split; [|intros c C; split; [congruence|exact V2]]. split; [reflexivity|]. rewrite V. intros i I. destruct (Nat.lt_ge_cases i n) as [J|J]; [exact (proj2 (W1 i J))|apply W2; lia].
Qed.

(** * Casts *)
Lemma lists_self s p o xs ys : lists s p o o xs ys -> xs = ys.
Proof.
  unfold lists. generalize (seq 0 (List.length o)). intros is H. remember o as o' eqn:E in H at 2. revert E. induction H as [|i is o' os o2 os2 x xs y ys (R & V & _) H IH]; intros E; [reflexivity|]. injection E as <- ->. f_equal; [|auto]. destruct V as [V|(_ & -> & ->)]; auto.
Qed.
Lemma held_self s p a : free s p -> (0 < List.length (digits a))%nat -> held s p a a a a.
Proof.
  intros [_ F] N. split; [reflexivity|]. split; [exact N|]. unfold lists. generalize 0%nat. generalize (digits a). intros l. induction l as [|x l IH]; intros k; cbn; constructor; [|apply IH]. split; [apply F|]. split; [now left|now split].
Qed.
Definition truncated (s : scope) (p : place) (o o' : apint) (x y : apint * result unit) : Prop := (held s p o o' (fst x) (fst y) \/ fresh s (fst x) (fst y)) /\ snd x = snd y.
Lemma dep_truncate_fuel s t : free s New -> forall fuel p o o' a a', open s p -> held s p o o' a a' -> dep s (truncated s p o o') (w_truncate_fuel fuel p a t) (w_truncate_fuel fuel p a' t).
Proof.
  intros F. induction fuel as [|fuel IH]; intros p o o' a a' P H; cbn [w_truncate_fuel]; [now apply dep_lift|]. pose proof H as (L & N & K). destruct (lists_length _ _ _ _ _ _ K) as [M M2]. unfold width. rewrite <- L.
  apply dep_branch. destruct (t =? len a); [apply dep_val; split; [now left|reflexivity]|]. apply dep_branch. destruct (len a <? t); [apply dep_val; split; [now left|reflexivity]|]. apply dep_branch. destruct (Nat.eqb _ _).
  - apply dep_lift_eq. intros e. apply (dep_bind s _ _ _ _ _ _ (dep_modify_msd s p _ o o' a a' P H)). intros x y (L1 & N1 & K1). apply dep_val. split; [|reflexivity]. left. cbn. split; [reflexivity|]. now split.
  - unfold as_digit_slice. assert (List.length (firstn (required_digits t) (digits a)) = List.length (firstn (required_digits t) (digits a'))) as E by (rewrite !firstn_length, M; reflexivity). rewrite <- E.
    eapply dep_bind. { apply (dep_from_iter s p _ _ _ _ _ _ _ F K); [rewrite firstn_length; lia|lia|exact E|]. intros R. apply (firstn_equal _ _ _ _ _ _ _ K). intros i I I2. apply R. rewrite firstn_length. lia. }
    intros x y [X X2]. cbv beta in X, X2. destruct x as [x|e], y as [y|e']; try contradiction; [|intros _; split; [reflexivity|]; split; [reflexivity|discriminate]]. destruct X as [<- X]. cbn [unwrap]. apply dep_known. apply dep_branch.
    destruct (negb _); [|apply dep_val; split; [right; split; [reflexivity|exact X]|reflexivity]].
    destruct (X2 x eq_refl) as [D D2]. rewrite <- D in D2.
    apply (dep_bind s _ _ _ _ _ _ (IH New x x x x (proj1 F) (held_self s New x F D2))). intros [u ru] [v rv] [HV HR]. cbn [fst snd] in HV, HR. subst rv.
    assert (fresh s u v) as FR. { destruct HV as [(L1 & N1 & K1)|FR]; [|exact FR]. split; [apply apint_eq; [exact L1|now apply lists_self with (1 := K1)]|]. destruct (lists_length _ _ _ _ _ _ K1) as [_ M5]. rewrite M5. exact X. }
    destruct ru; apply dep_val; split; try reflexivity; [now right|now left].
Qed.
