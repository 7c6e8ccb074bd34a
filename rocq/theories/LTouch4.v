(** What a call accesses is all that matters to it: extensions, conversions, multiplication, signed comparisons. *)
From Verif Require Export LTouch3 MWatchMul.
From Coq Require Import Lia ZArith.

Lemma dep_truncate s o o' a a' t : open s Self -> free s New -> held s Self o o' a a' -> dep s (made2 s o o') (w_truncate Self a t) (w_truncate Self a' t).
Proof.
  intros P F H. apply (dep_weak s (truncated s Self o o')); [now apply dep_truncate_fuel|]. intros [x r] [y q] [[K|[K W]] E]; split; try exact E; [now left|right; split; [exact K|]; intros; right; now apply W].
Qed.
Lemma dep_from_iter_truncated s o o' xs ys n ds ds' t : free s New -> lists s Self o o' xs ys -> (n <= List.length o)%nat -> (n <= List.length ds)%nat -> List.length ds = List.length ds' -> ((forall i, (i < n)%nat -> rd s Self i) -> ds = ds') ->
  dep s (fresh_result s) (w_from_iter_truncated n ds t) (w_from_iter_truncated n ds' t).
Proof.
  intros F H N N2 E Q. unfold w_from_iter_truncated. apply (dep_bind s _ _ _ _ _ _ (dep_from_iter s Self o o' xs ys n ds ds' F H N N2 E Q)). intros [x|e] [y|e'] [X X2]; try contradiction; [|apply dep_val; exact X]. destruct X as [<- X].
  destruct (X2 x eq_refl) as [D D2]. rewrite <- D in D2. apply (dep_bind s _ _ _ _ _ _ (dep_truncate_fuel s t F 2 New x x x x (proj1 F) (held_self s New x F D2))). intros [u ru] [v rv] [HV HR]. cbn [fst snd] in HV, HR. subst rv.
  assert (fresh s u v) as FR. { destruct HV as [(L1 & N1 & K1)|FR]; [|exact FR]. split; [apply apint_eq; [exact L1|now apply lists_self with (1 := K1)]|]. destruct (lists_length _ _ _ _ _ _ K1) as [_ M5]. rewrite M5. exact X. }
  destruct ru; apply dep_val; [exact FR|reflexivity].
Qed.
Lemma made_held s o o' a a' : held s Self o o' a a' -> made s o o' a a'. Proof. now left. Qed.
Lemma made_fresh s o o' a a' : fresh s a a' -> made s o o' a a'. Proof. intros [E W]. right. split; [exact E|]. intros. right. now apply W. Qed.
Lemma dep_grown s o o' a a' t k d : free s New -> held s Self o o' a a' ->
  dep s (fresh_result s) (w_from_iter_truncated (List.length (as_digit_slice a)) (as_digit_slice a ++ repeat d k) t) (w_from_iter_truncated (List.length (as_digit_slice a')) (as_digit_slice a' ++ repeat d k) t).
Proof.
  intros F (L & N & K). destruct (lists_length _ _ _ _ _ _ K) as [M M2]. unfold as_digit_slice. rewrite <- M. apply (dep_from_iter_truncated s _ _ _ _ _ _ _ t F K); [lia|rewrite app_length; lia|rewrite !app_length; lia|]. intros R. f_equal. apply (lists_equal _ _ _ _ _ _ K). intros. apply R. lia.
Qed.
Lemma dep_panic {A} s (Q : A -> A -> Prop) : dep s Q (wlift Panic) (wlift Panic). Proof. now apply dep_lift. Qed.
Ltac kept H := apply dep_val; split; [now apply made_held|reflexivity].
Lemma dep_zero_extend s o o' a a' t : free s New -> held s Self o o' a a' -> dep s (made2 s o o') (w_zero_extend a t) (w_zero_extend a' t).
Proof.
  intros F H. pose proof H as (L & N & K). unfold w_zero_extend, width. rewrite <- L. apply dep_branch. destruct (t =? len a); [kept H|]. apply dep_branch. destruct (t <? len a); [kept H|]. apply dep_branch. destruct (Nat.eqb _ _).
  - apply dep_val. split; [|reflexivity]. left. cbn. split; [reflexivity|]. now split.
  - destruct (negb _); [apply dep_panic|]. apply (dep_bind s _ _ _ _ _ _ (dep_grown s o o' a a' t _ ZERO F H)). intros [x|e] [y|e'] X; try contradiction; apply dep_val; cbn in X; [split; [now apply made_fresh|reflexivity]|subst; split; [now apply made_held|reflexivity]].
Qed.
Lemma dep_fill s o o' a a' w : open s Self -> held s Self o o' a a' -> dep s (paired s o o') (w_fill_most_significant_digit a w) (w_fill_most_significant_digit a' w).
Proof.
  intros P H. unfold w_fill_most_significant_digit. destruct (excess_width w); seen; (split; [roomy|]); [|apply dep_val; now split]. apply dep_eq; [now apply dep_msd with (1 := H)|]. intros d. apply dep_lift_eq. intros [d'|e]; [|apply dep_val; now split]. apply (dep_bind s _ _ _ _ _ _ (dep_modify_msd s Self _ o o' a a' P H)). intros. apply dep_val. now split.
Qed.
Lemma dep_sign_extend s o o' a a' t : open s Self -> free s New -> held s Self o o' a a' -> dep s (made2 s o o') (w_sign_extend a t) (w_sign_extend a' t).
Proof.
  intros P F H. pose proof H as (L & N & K). unfold w_sign_extend, width. rewrite <- L. apply dep_branch. destruct (t =? len a); [kept H|]. apply dep_branch. destruct (t <? len a); [kept H|]. apply dep_eq; [now apply dep_msb with (1 := H)|]. intros m. apply dep_branch. destruct (negb m); [now apply dep_zero_extend|]. apply dep_branch. destruct (Nat.eqb _ _).
  - apply (dep_bind s (paired s o o')); [apply dep_fill; [exact P|]; split; [reflexivity|now split]|]. intros [x rx] [y ry] [X E]. cbn [fst snd] in X, E. subst ry. destruct rx; [|kept X]. apply (dep_bind s _ _ _ _ _ _ (dep_clear s Self o o' x y P X)). intros u v U. kept U.
  - destruct (negb _); [apply dep_panic|]. apply (dep_bind s _ _ _ _ _ _ (dep_fill s o o' a a' (len a) P H)). intros [x rx] [y ry] [X E]. cbn [fst snd] in X, E. subst ry. destruct rx; [|kept X].
    apply (dep_bind s _ _ _ _ _ _ (dep_grown s o o' x y t _ ONES F X)). intros [u|e] [v|e'] U; try contradiction; [|cbn in U; subst; kept X]. apply (dep_bind s _ _ _ _ _ _ (dep_clear s Self o o' x y P X)). intros. apply dep_val. split; [now apply made_fresh|reflexivity].
Qed.
Lemma dep_expect s o o' m m' : dep s (made2 s o o') m m' -> dep s (made s o o') (w_expect_mut m) (w_expect_mut m').
Proof. intros H. apply (dep_bind s _ _ _ _ _ _ H). intros [x r] [y q] [X E]. cbn in X, E. subst q. apply dep_lift_eq. intros. now apply dep_val. Qed.
Lemma dep_zero_resize s o o' a a' t : open s Self -> free s New -> held s Self o o' a a' -> dep s (made s o o') (w_zero_resize a t) (w_zero_resize a' t).
Proof. intros P F H. pose proof H as (L & _). unfold w_zero_resize, width. rewrite <- L. apply dep_branch. destruct (t <=? len a); apply dep_expect; [now apply dep_truncate|now apply dep_zero_extend]. Qed.
Lemma dep_sign_resize s o o' a a' t : open s Self -> free s New -> held s Self o o' a a' -> dep s (made s o o') (w_sign_resize a t) (w_sign_resize a' t).
Proof. intros P F H. pose proof H as (L & _). unfold w_sign_resize, width. rewrite <- L. apply dep_branch. destruct (t <=? len a); apply dep_expect; [now apply dep_truncate|now apply dep_sign_extend]. Qed.

(** * Conversions *)
Lemma dep_resize_to s o o' a a' ty : held s Self o o' a a' -> dep s eq (w_resize_to_primitive_ty a ty) (w_resize_to_primitive_ty a' ty).
Proof.
  intros H. pose proof H as (L & _). unfold w_resize_to_primitive_ty, width. rewrite <- L. destruct (is_128 ty); [now apply dep_lift|]. apply dep_eq; [now apply dep_lsd with (1 := H)|]. intros d. apply dep_branch. apply dep_eq.
  - destruct (is_signed ty && (len a <? associated_width ty)); [|now apply dep_val]. apply dep_lift_eq. intros. apply dep_lift, okay_eq.
  - intros e. destruct (associated_width ty <? 64); [|now apply dep_val]. apply dep_lift_eq. intros. apply dep_lift, okay_eq.
Qed.
Lemma two_digits s o o' a a' : held s Self o o' a a' -> (forall i, (i < Nat.min 2 (List.length (digits a)))%nat -> rd s Self i) -> firstn 2 (digits a) = firstn 2 (digits a').
Proof. intros (L & N & K) R. destruct (lists_length _ _ _ _ _ _ K) as [M M2]. apply (firstn_equal _ _ _ _ _ _ _ K). intros. apply R. lia. Qed.
Lemma split_two a a' : len a = len a' -> List.length (digits a) = List.length (digits a') -> firstn 2 (digits a) = firstn 2 (digits a') ->
  forall A (f : Z -> Z -> outcome A), (let! (d, rest) := split_least_significant_digit a in let '(e, _) := split_first_or_zero rest in f d e) = (let! (d, rest) := split_least_significant_digit a' in let '(e, _) := split_first_or_zero rest in f d e).
Proof.
  intros L M E A f. unfold split_least_significant_digit, access_data, read_inl, as_digit_slice, split_first_or_zero. rewrite <- L. destruct (storage (len a)); destruct (digits a) as [|x [|x2 xs]], (digits a') as [|y [|y2 ys]]; try discriminate M; cbn in E |- *; try reflexivity; injection E; intros; subst; reflexivity.
Qed.
Lemma dep_u128 s o o' a a' : held s Self o o' a a' -> dep s eq (w_resize_to_u128 a) (w_resize_to_u128 a').
Proof.
  intros H. pose proof H as (L & N & K). destruct (lists_length _ _ _ _ _ _ K) as [M M2]. unfold w_resize_to_u128, as_digit_slice. rewrite <- L, <- M. apply dep_see. intros W. apply Forall_cons_iff in W as [_ W]. fold (within s (reads Self 0 (Nat.min 2 (List.length (digits a))))) in W. rewrite within_reads in W.
  split. { constructor; [exact I|]. apply roomy_reads. intros. apply (held_room _ _ _ _ _ _ _ H). lia. }
  unfold resize_to_u128. rewrite <- (split_two a a' L M (two_digits _ _ _ _ _ H ltac:(intros; apply W; lia)) _ (fun d e => let! hi := u128_shl e 64 in u128_add hi d)). apply dep_lift, okay_eq.
Qed.
Lemma dep_i128 s o o' a a' : held s Self o o' a a' -> dep s eq (w_resize_to_i128 a) (w_resize_to_i128 a').
Proof.
  intros H. pose proof H as (L & N & K). destruct (lists_length _ _ _ _ _ _ K) as [M M2]. unfold w_resize_to_i128, as_digit_slice, width. rewrite <- L, <- M. apply dep_see. intros W. apply Forall_cons_iff in W as [_ W]. apply Forall_app in W as [W _]. fold (within s (reads Self 0 (Nat.min 2 (List.length (digits a))))) in W. rewrite within_reads in W.
  split. { constructor; [exact I|]. apply Forall_app. split; [|roomy]. apply roomy_reads. intros. apply (held_room _ _ _ _ _ _ _ H). lia. }
  unfold resize_to_i128, width. rewrite <- L. rewrite <- (split_two a a' L M (two_digits _ _ _ _ _ H ltac:(intros; apply W; lia)) _ (fun d e => let! hi := i128_shl e 64 in let! result := i128_add hi d in if len a <? 128 then let! b1 := usize_sub (len a) 1 in let! m := i128_shl 1 b1 in i128_sub (Z.lxor result m) m else Val result)). apply dep_lift, okay_eq.
Qed.

(** * Multiplication *)
Lemma dep_rposition s p o o' xs ys : lists s p o o' xs ys -> forall n, dep s eq (w_rposition p xs n) (w_rposition p ys n).
Proof. intros H. induction n as [|n IH]; cbn [w_rposition]; [now apply dep_val|]. idx H. apply dep_branch. destruct (negb _); [now apply dep_val|exact IH]. Qed.
Lemma dep_sig_bits s p o o' xs ys n : lists s p o o' xs ys -> dep s eq (w_sig_bits p xs n) (w_sig_bits p ys n).
Proof. intros H. unfold w_sig_bits. idx H. now apply dep_val. Qed.
Lemma dep_push_loop s again m : free s New -> roomy s again -> forall n i o o' us vs sum c, cells s Other (seq i n) o o' us vs -> dep s eq (w_mul_push_loop again m i us sum c) (w_mul_push_loop again m i vs sum c).
Proof.
  intros F R. induction n as [|n IH]; intros i o o' us vs sum c H; cut H; cbn [w_mul_push_loop]; [now apply dep_val|]. apply dep_see. intros W. apply Forall_app in W as [_ W]. apply Forall_cons_iff in W as [W _]. cbv beta iota in W.
  split. { apply Forall_app. split; [exact R|]. roomy; [now apply cell_room in HC|]. split; apply F. }
  rewrite (cell_eq _ _ _ _ _ _ _ HC W). destruct (d_carrying_mul_add m y c) as [lo hi]. now apply IH with (1 := HT).
Qed.
Lemma cells_tail s p o o' xs ys n : lists s p o o' xs ys -> (n <= List.length xs)%nat -> exists a a', cells s p (seq 1 (n - 1)) a a' (skipn 1 (firstn n xs)) (skipn 1 (firstn n ys)).
Proof.
  intros H N. destruct (lists_length _ _ _ _ _ _ H) as [M M2]. destruct (cells_split _ _ n _ _ _ _ _ H) as [C _]. destruct (cells_split _ _ 1 _ _ _ _ _ C) as [_ C2]. exists (skipn 1 (firstn n o)), (skipn 1 (firstn n o')).
  assert (skipn 1 (firstn n (seq 0 (List.length o))) = seq 1 (n - 1)) as E; [|now rewrite E in C2].
  replace (List.length o) with (n + (List.length o - n))%nat by lia. rewrite seq_app, firstn_app, firstn_all2, seq_length, Nat.sub_diag by (rewrite seq_length; lia). cbn [firstn]. rewrite app_nil_r. destruct n; [reflexivity|]. cbn [seq skipn]. f_equal. lia.
Qed.
Lemma dep_row_step s again m k o o' us vs i x : free s New -> roomy s again -> lists s Other o o' us vs -> dep s eq (w_mul_row_step again m us k i x) (w_mul_row_step again m vs k i x).
Proof.
  intros F R H. unfold w_mul_row_step. destruct x as [[sum mc] ac]. apply dep_see. intros _. split; [exact R|]. idx H. destruct (d_carrying_mul_add m a mc) as [lo hi]. apply dep_eq; [now apply dep_idx_free|]. intros q. apply dep_eq; [now apply dep_upd_free|]. intros. now apply dep_val.
Qed.
Lemma dep_row_first s m k o o' us vs sum : free s New -> lists s Other o o' us vs -> dep s eq (w_mul_row_first m us k sum) (w_mul_row_first m vs k sum).
Proof.
  intros F H. unfold w_mul_row_first. idx H. destruct (d_carrying_mul m a) as [lo hi]. apply dep_eq; [now apply dep_idx_free|]. intros q. destruct (d_carrying_add q lo) as [v c]. apply dep_eq; [now apply dep_upd_free|]. intros. now apply dep_val.
Qed.
Lemma dep_for_eq {S} s n lo (f f' : nat -> S -> watched S) x : (forall i x, (lo <= i < lo + n)%nat -> dep s eq (f i x) (f' i x)) -> dep s eq (w_for_range n lo f x) (w_for_range n lo f' x).
Proof. revert lo x. induction n as [|n IH]; intros lo x K; cbn [w_for_range]; [now apply dep_val|]. apply dep_eq; [apply K; lia|]. intros. apply IH. intros. apply K. lia. Qed.
Lemma roomy_nil s : roomy s []. Proof. constructor. Qed.
Lemma dep_full_row s o o' b b' xs ys us vs sig k sum : free s New -> lists s Self o o' xs ys -> lists s Other b b' us vs -> dep s eq (w_mul_full_row xs us sig k sum) (w_mul_full_row ys vs sig k sum).
Proof.
  intros F H H2. unfold w_mul_full_row. idx H. apply dep_eq; [now apply dep_row_first with (2 := H2)|]. intros st. apply dep_eq; [apply dep_for_eq; intros; now apply (dep_row_step s _ _ _ _ _ _ _ _ _ F (roomy_nil s) H2)|]. intros [[sm mc] ac]. idx H2. destruct (d_carrying_mul_add a a0 mc) as [lo hi].
  apply dep_eq; [now apply dep_idx_free|]. intros q. apply dep_eq; [now apply dep_upd_free|]. intros sm2. seen. split; [roomy; split; apply F|]. now apply dep_val.
Qed.
Lemma lists_part s o o' xs ys zs n : lists s Self o o' xs ys -> List.length zs = n -> (n <= List.length xs)%nat -> (forall i, (i < n)%nat -> wr s Self i) -> lists s Self o o' (zs ++ skipn n xs) (zs ++ skipn n ys).
Proof.
  intros H Z N W. destruct (lists_length _ _ _ _ _ _ H) as [M M2]. pose proof (cells_length _ _ _ _ _ _ _ H) as C. rewrite seq_length in C. destruct (cells_split _ _ n _ _ _ _ _ H) as [_ C2].
  assert (cells s Self (firstn n (seq 0 (List.length o))) (firstn n o) (firstn n o') zs zs) as C1; [|pose proof (cells_app _ _ _ _ _ _ _ _ _ _ _ _ C1 C2) as C3; rewrite !firstn_skipn in C3; exact C3].
  apply cells_fresh; rewrite ?firstn_length, ?seq_length; try lia. apply Forall_forall. intros i I. apply In_nth_error in I as [j J].
  assert (j < n)%nat as Hj by (assert (nth_error (firstn n (seq 0 (List.length o))) j <> None) as Q by congruence; apply nth_error_Some in Q; rewrite firstn_length in Q; lia).
  assert (nth_error (firstn n (seq 0 (List.length o))) j = nth_error (seq 0 (List.length o)) j) as E. { rewrite <- (firstn_skipn n (seq 0 (List.length o))) at 2. symmetry. apply nth_error_app1. apply nth_error_Some. congruence. }
  rewrite E, nth_seq in J. destruct (Nat.ltb j (List.length o)) eqn:E2; [|discriminate J]. injection J as <-. apply Nat.ltb_lt in E2. split; [apply W; lia|apply (lists_room _ _ _ _ _ _ _ H); lia].
Qed.
Lemma dep_mul_no_overflow s o o' b b' xs ys us vs lsig rsig : open s Self -> free s New -> lists s Self o o' xs ys -> lists s Other b b' us vs -> (rsig <= List.length us)%nat -> dep s (lists s Self o o') (w_mul_no_overflow xs us lsig rsig) (w_mul_no_overflow ys vs lsig rsig).
Proof.
  intros P F H H2 R. pose proof (cells_length _ _ _ _ _ _ _ H) as C. rewrite seq_length in C. destruct (lists_length _ _ _ _ _ _ H) as [M M2]. unfold w_mul_no_overflow. idx H. idx H2. destruct (d_carrying_mul a a0) as [lo hi]. seen. split; [roomy; split; apply F|].
  destruct (cells_tail _ _ _ _ _ _ rsig H2 R) as (t & t' & T). apply dep_eq; [now apply (dep_push_loop s [] _ F (roomy_nil s) _ _ _ _ _ _ _ _ T)|]. intros [sum mc]. idx H2. destruct (d_carrying_mul_add a a1 mc) as [lo2 hi2]. seen. split; [roomy; split; apply F|].
  apply dep_eq; [apply dep_for_eq; intros; now apply (dep_full_row s _ _ _ _ _ _ _ _ _ _ _ F H H2)|]. intros s2. apply dep_eq; [now apply (dep_full_row s _ _ _ _ _ _ _ _ _ _ _ F H H2)|]. intros s3. rewrite <- M. apply dep_branch. destruct (Nat.ltb (List.length xs) (List.length s3)) eqn:E.
  - apply Nat.ltb_lt in E. apply dep_see. intros W. rewrite within_copies in W. split; [apply roomy_copies; [exact P|]; intros; split; [apply F|apply (lists_room _ _ _ _ _ _ _ H); lia]|]. apply dep_val. apply lists_fresh; [lia|rewrite firstn_length; lia|]. intros i I. split; [apply W; lia|apply (lists_room _ _ _ _ _ _ _ H); lia].
  - apply Nat.ltb_ge in E. apply dep_see. intros W. rewrite within_copies in W. split; [apply roomy_copies; [exact P|]; intros; split; [apply F|apply (lists_room _ _ _ _ _ _ _ H); lia]|]. apply dep_val. apply lists_part; [exact H|reflexivity|lia|]. intros. now apply W.
Qed.
Lemma dep_wrap_row s o o' b b' xs ys us vs sig k sum : free s New -> lists s Self o o' xs ys -> lists s Other b b' us vs -> (k < List.length xs)%nat -> dep s eq (w_mul_wrap_row xs us sig k sum) (w_mul_wrap_row ys vs sig k sum).
Proof.
  intros F H H2 K. destruct (lists_length _ _ _ _ _ _ H) as [M M2]. assert (roomy s [Read Self k]) as R by (roomy; apply (lists_room _ _ _ _ _ _ _ H); lia). unfold w_mul_wrap_row. idx H. apply dep_eq; [now apply dep_row_first with (2 := H2)|]. intros st. apply dep_eq; [apply dep_for_eq; intros; now apply (dep_row_step s _ _ _ _ _ _ _ _ _ F R H2)|]. intros [[sm mc] ac].
  apply dep_see. intros _. split; [exact R|]. idx H2. apply dep_eq; [now apply dep_idx_free|]. intros q. now apply dep_upd_free.
Qed.
Lemma nsub_val n m : (m <= n)%nat -> nsub n m = Val (n - m)%nat.
Proof. intros H. unfold nsub. apply Nat.leb_le in H. now rewrite H. Qed.
Lemma dep_mul_wrapping s o o' b b' xs ys us vs : open s Self -> free s New -> lists s Self o o' xs ys -> lists s Other b b' us vs -> List.length xs = List.length us -> (0 < List.length xs)%nat -> dep s (lists s Self o o') (w_mul_wrapping xs us) (w_mul_wrapping ys vs).
Proof.
  intros P F H H2 E N. pose proof (cells_length _ _ _ _ _ _ _ H) as C. rewrite seq_length in C. destruct (lists_length _ _ _ _ _ _ H) as [M M2], (lists_length _ _ _ _ _ _ H2) as [M3 M4]. assert (roomy s [Read Self 0]) as R by (roomy; apply (lists_room _ _ _ _ _ _ _ H); lia).
  unfold w_mul_wrapping. rewrite <- M, nsub_val by lia. apply dep_known. set (sig := (List.length xs - 1)%nat). idx H. idx H2. destruct (d_carrying_mul a a0) as [lo hi]. seen. split; [roomy; split; apply F|].
  destruct (cells_tail _ _ _ _ _ _ sig H2 ltac:(unfold sig; lia)) as (t & t' & T). apply dep_eq; [now apply (dep_push_loop s _ _ F R _ _ _ _ _ _ _ _ T)|]. intros [sum mc]. apply dep_see. intros _. split; [exact R|]. idx H2. seen. split; [roomy; split; apply F|].
  apply dep_eq; [apply dep_for_eq; intros; apply (dep_wrap_row s _ _ _ _ _ _ _ _ _ _ _ F H H2); unfold sig in *; lia|]. intros s2. apply dep_see. intros W. rewrite within_copies in W. split; [apply roomy_copies; [exact P|]; intros; split; [apply F|apply (lists_room _ _ _ _ _ _ _ H); unfold sig in *; lia]|].
  idx H. seen. split; [roomy; apply (lists_room _ _ _ _ _ _ _ H2); lia|]. apply (dep_bind s (fun x y => x = y /\ (sig < List.length s2)%nat)).
  { intros Wi. destruct (dep_idx_free s New s2 sig F Wi) as (A1 & A2 & A3). split; [exact A1|]. split; [|exact A3]. unfold w_idx, idx in *. cbn [snd fst] in *. destruct (nth_error s2 sig) eqn:Es; cbn in *; [|reflexivity]. split; [reflexivity|]. apply nth_error_Some. congruence. }
  intros q ? [<- Ls]. seen. split; [roomy; split; [apply (lists_room _ _ _ _ _ _ _ H); unfold sig; lia|exact P]|]. apply dep_val. apply lists_fresh; [lia|rewrite app_length, firstn_length; cbn [List.length]; unfold sig in *; lia|]. intros i I. split; [|apply (lists_room _ _ _ _ _ _ _ H); lia].
  destruct (Nat.eq_dec i sig) as [->|D]; [assumption|]. apply W. unfold sig in *. lia.
Qed.
Lemma dep_small_lhs s o o' b b' xs ys us vs n : open s Self -> lists s Self o o' xs ys -> lists s Other b b' us vs -> dep s (lists s Self o o') (w_mul_small_lhs xs us n) (w_mul_small_lhs ys vs n).
Proof.
  intros P H H2. unfold w_mul_small_lhs. idx H. idx H2. destruct (d_carrying_mul a a0) as [lo hi]. apply (dep_bind s _ _ _ _ _ _ (dep_upd _ _ _ _ _ _ _ _ P H)). intros x y K. apply (dep_bind s (carried s o o')).
  - apply dep_for; [now split|]. intros i [x1 c1] [y1 c2] [K1 K2]. cbn in K1, K2. subst c2. unfold w_mul_small_step. idx H2. destruct (d_carrying_mul_add a a1 c1) as [l2 h2]. apply (dep_bind s _ _ _ _ _ _ (dep_upd _ _ _ _ _ _ _ _ P K1)). intros. apply dep_val. now split.
  - intros [x1 c1] [y1 c2] [K1 K2]. cbn in K1, K2. subst c2. destruct (lists_length _ _ _ _ _ _ K1) as [M M2]. rewrite <- M. apply dep_lift_eq. intros last. apply dep_branch. idx H2. destruct (Nat.eqb n last); [now apply dep_upd|]. destruct (d_carrying_mul_add a a1 c1) as [l2 h2]. apply (dep_bind s _ _ _ _ _ _ (dep_upd _ _ _ _ _ _ _ _ P K1)). intros. now apply dep_upd.
Qed.
Lemma dep_small_rhs s o o' b b' xs ys us vs n : open s Self -> lists s Self o o' xs ys -> lists s Other b b' us vs -> (0 < List.length us)%nat -> dep s (lists s Self o o') (w_mul_small_rhs xs us n) (w_mul_small_rhs ys vs n).
Proof.
  intros P H H2 N. destruct (lists_length _ _ _ _ _ _ H2) as [M3 M4]. assert (roomy s [Read Other 0]) as R by (roomy; apply (lists_room _ _ _ _ _ _ _ H2); lia). unfold w_mul_small_rhs. idx H2. idx H. destruct (d_carrying_mul a a0) as [lo hi]. apply (dep_bind s _ _ _ _ _ _ (dep_upd _ _ _ _ _ _ _ _ P H)). intros x y K. apply (dep_bind s (carried s o o')).
  - apply dep_for; [now split|]. intros i [x1 c1] [y1 c2] [K1 K2]. cbn in K1, K2. subst c2. unfold w_mul_small_step_inplace. apply dep_see. intros _. split; [exact R|]. idx K1. destruct (d_carrying_mul_add a a1 c1) as [l2 h2]. apply (dep_bind s _ _ _ _ _ _ (dep_upd _ _ _ _ _ _ _ _ P K1)). intros. apply dep_val. now split.
  - intros [x1 c1] [y1 c2] [K1 K2]. cbn in K1, K2. subst c2. destruct (lists_length _ _ _ _ _ _ K1) as [M M2]. rewrite <- M. apply dep_lift_eq. intros last. apply dep_branch. apply dep_see. intros _. split; [exact R|]. idx K1. destruct (Nat.eqb n last); [now apply dep_upd|]. destruct (d_carrying_mul_add a a1 c1) as [l2 h2]. apply (dep_bind s _ _ _ _ _ _ (dep_upd _ _ _ _ _ _ _ _ P K1)). intros. now apply dep_upd.
Qed.
Lemma dep_small_both s o o' b b' xs ys us vs : open s Self -> lists s Self o o' xs ys -> lists s Other b b' us vs -> dep s (lists s Self o o') (w_mul_small_both xs us) (w_mul_small_both ys vs).
Proof. intros P H H2. unfold w_mul_small_both. idx H. idx H2. destruct (d_carrying_mul a a0) as [lo hi]. apply (dep_bind s _ _ _ _ _ _ (dep_upd _ _ _ _ _ _ _ _ P H)). intros. now apply dep_upd. Qed.
Lemma dep_mul_cases s o o' b b' xs ys us vs l r : open s Self -> free s New -> lists s Self o o' xs ys -> lists s Other b b' us vs -> List.length xs = List.length us -> (0 < List.length xs)%nat -> (r <= List.length us)%nat -> dep s (lists s Self o o') (w_mul_cases xs us l r) (w_mul_cases ys vs l r).
Proof.
  intros P F H H2 E N R. unfold w_mul_cases. apply dep_branch. apply dep_branch. destruct (Nat.eqb l 0), (Nat.eqb r 0).
  - now apply dep_small_both with (3 := H2).
  - now apply dep_small_lhs with (3 := H2).
  - apply dep_small_rhs with (3 := H2); auto; lia.
  - apply dep_eq; [now apply dep_sig_bits with (1 := H)|]. intros lb. apply dep_eq; [now apply dep_sig_bits with (1 := H2)|]. intros rb. destruct (lists_length _ _ _ _ _ _ H) as [M M2]. rewrite <- M. apply dep_branch. destruct (_ <=? _); [now apply dep_mul_no_overflow with (4 := H2)|now apply dep_mul_wrapping with (4 := H2)].
Qed.
Lemma rpos_bound p ds n k : snd (w_rposition p ds n) = Val (Some k) -> (k < n)%nat.
Proof.
  induction n as [|n IH]; cbn [w_rposition]; [discriminate|]. unfold w_idx, wbind at 1. cbn [snd fst]. destruct (idx ds n) as [d| |]; try discriminate. cbn. destruct (negb (d_is_zero d)); cbn; [intros E; injection E; lia|]. intros E. apply IH in E. lia.
Qed.
Lemma dep_rposition_bound s p o o' xs ys n : lists s p o o' xs ys -> dep s (fun x y => x = y /\ forall k, x = Some k -> (k < n)%nat) (w_rposition p xs n) (w_rposition p ys n).
Proof.
  intros H W. destruct (dep_rposition s p o o' xs ys H n W) as (E & O & R). split; [exact E|]. split; [|exact R]. pose proof (rpos_bound p xs n) as B. destruct (snd (w_rposition p xs n)), (snd (w_rposition p ys n)); cbn in O |- *; try exact O; try contradiction. split; [exact O|]. intros k ->. now apply B.
Qed.
Lemma dep_mul_digits s o o' b b' xs ys us vs : open s Self -> free s New -> lists s Self o o' xs ys -> lists s Other b b' us vs -> List.length xs = List.length us -> (0 < List.length xs)%nat ->
  dep s (fun x y => match x, y with Some u, Some v => lists s Self o o' u v | None, None => forall i, (i < List.length o)%nat -> wr s Self i | _, _ => False end) (w_mul_digits xs us) (w_mul_digits ys vs).
Proof.
  intros P F H H2 E N. destruct (lists_length _ _ _ _ _ _ H) as [M M2], (lists_length _ _ _ _ _ _ H2) as [M3 M4]. unfold w_mul_digits. rewrite <- M, <- M3. apply (dep_bind s _ _ _ _ _ _ (dep_rposition_bound s Other b b' us vs _ H2)). intros r ? [<- B].
  assert (forall k k' : unit -> watched (option (list Z)), dep s (fun x y => match x, y with Some u, Some v => lists s Self o o' u v | None, None => forall i, (i < List.length o)%nat -> wr s Self i | _, _ => False end) (let& _ := see (writes Self 0 (List.length xs)) in wval None) (let& _ := see (writes Self 0 (List.length xs)) in wval None)) as Z0.
  { intros _ _. apply dep_see. intros W. rewrite within_writes in W. split; [apply roomy_writes; [exact P|]; intros; apply (lists_room _ _ _ _ _ _ _ H); lia|]. apply dep_val. intros. apply W. lia. }
  destruct r as [r|]; [|apply Z0; intros; exact (wval None)]. apply dep_eq; [now apply dep_rposition with (1 := H)|]. intros [l|]; [|apply Z0; intros; exact (wval None)]. specialize (B r eq_refl). apply (dep_bind s (lists s Self o o')); [apply dep_mul_cases with (4 := H2); auto; lia|]. intros. now apply dep_val.
Qed.
Lemma map_zero (xs ys : list Z) : List.length xs = List.length ys -> map d_unset_all xs = map d_unset_all ys.
Proof. revert ys. induction xs as [|x xs IH]; intros [|y ys] E; try discriminate E; [reflexivity|]. cbn [map]. f_equal; [unfold d_unset_all, ZERO; now rewrite !Z.land_0_r|]. apply IH. now injection E. Qed.
Lemma dep_mul s o o' b b' a a' c c' : open s Self -> free s New -> held s Self o o' a a' -> held s Other b b' c c' -> (len a = len c -> List.length (digits o) = List.length (digits b)) -> dep s (paired s o o') (w_wrapping_mul_assign a c) (w_wrapping_mul_assign a' c').
Proof.
  intros P F H H2 E. unfold w_wrapping_mul_assign. apply (dep_zip s o o' b b' a a' c c' _ _ _ H H2).
  - intros e. apply dep_val. now split.
  - intros l r E1. seen. split; [roomy; split; [apply (held_room _ _ _ _ _ _ _ H); lia|exact P]|]. apply dep_clear_ok; [exact P|]. now apply held_inl.
  - intros W _. pose proof H as (L & N & K). pose proof H2 as (L2 & N2 & K2). specialize (E W). destruct (lists_length _ _ _ _ _ _ K) as [M M2], (lists_length _ _ _ _ _ _ K2) as [M3 M4]. pose proof (cells_length _ _ _ _ _ _ _ K) as C. rewrite seq_length in C.
    eapply dep_bind; [apply dep_mul_digits with (3 := K) (4 := K2); auto; lia|]. intros [u|] [v|] X; try contradiction; [apply dep_clear_ok; [exact P|]; now apply held_ext|]. apply dep_val. split; [|reflexivity]. apply held_ext; [exact H|]. rewrite <- (map_zero _ _ M). apply lists_fresh; [lia|rewrite map_length; lia|]. intros i I. split; [now apply X|apply (lists_room _ _ _ _ _ _ _ K); lia].
Qed.

(** * Signed comparisons *)
Lemma msb_of_equal s p o o' a a' : held s p o o' a a' -> storage (len a) = SExt -> rd s p (List.length (digits a) - 1) -> msb a = msb a'.
Proof.
  intros (L & N & K) S R. unfold msb, most_significant_digit, access_data, as_digit_slice, width. rewrite <- L, S. cbn [bind]. now rewrite (lists_last _ _ _ _ _ _ K N R).
Qed.
Lemma dep_msb_of s p o o' a a' : held s p o o' a a' -> storage (len a) = SExt -> dep s eq (w_msb_of p a) (w_msb_of p a').
Proof.
  intros H S. pose proof H as (L & N & K). destruct (lists_length _ _ _ _ _ _ K) as [M M2]. unfold w_msb_of, as_digit_slice. rewrite <- M. seen. split; [roomy; apply (lists_room _ _ _ _ _ _ _ K); lia|]. rewrite (msb_of_equal _ _ _ _ _ _ H S SV0). apply dep_lift, okay_eq.
Qed.
Lemma dep_slt s o o' b b' a a' c c' : held s Self o o' a a' -> held s Other b b' c c' -> (len a = len c -> List.length (digits o) = List.length (digits b)) -> dep s eq (w_checked_slt a c) (w_checked_slt a' c').
Proof.
  intros H H2 E. pose proof H as (L & _). unfold w_checked_slt, width. rewrite <- L. apply (dep_zip s o o' b b' a a' c c' _ _ _ H H2); [intros; now apply dep_val| |].
  - intros l r _. do 3 (apply dep_lift_eq; intros). now apply dep_val.
  - intros W S. apply dep_eq; [now apply (dep_msb_of s Self _ _ _ _ H)|]. intros x. apply dep_eq; [apply (dep_msb_of s Other _ _ _ _ H2); congruence|]. intros y. apply dep_branch. apply dep_branch. destruct x, y; try (now apply dep_val); now apply (dep_ult s o o' b b').
Qed.
