(** How many digits are read, written and allocated: the calls that stop early. *)
From Verif Require Export LWork3.
From Coq Require Import Lia ZArith List Bool.
Import ListNotations.
Open Scope Z_scope.

(** How many elements are looked at up to the first that fails. *)
Fixpoint looked {A} (q : A -> bool) (l : list A) : Z :=
  match l with [] => 0 | x :: r => 1 + if q x then looked q r else 0 end.
Lemma filter_length_ext {A} (p q : A -> bool) l : (forall x, In x l -> p x = q x) -> filter p l = filter q l.
Proof. intros H. induction l as [|x l IH]; [reflexivity|]. cbn. rewrite H by now left. rewrite IH; [reflexivity|]. intros. apply H. now right. Qed.
Lemma filter_none {A} (p : A -> bool) l : (forall x, In x l -> p x = false) -> filter p l = [].
Proof. intros H. induction l as [|x l IH]; [reflexivity|]. cbn. rewrite H by now left. apply IH. intros. apply H. now right. Qed.
Lemma filter_map_length {A C} (p : C -> bool) (f : A -> C) l : List.length (filter p (map f l)) = List.length (filter (fun x => p (f x)) l).
Proof. induction l as [|x l IH]; [reflexivity|]. cbn. destruct (p (f x)); cbn; now rewrite IH. Qed.
Lemma looked_many {A} (q : A -> bool) l : looked q l = Z.of_nat (List.length (filter (fun k => forallb q (firstn k l)) (seq 0 (List.length l)))).
Proof.
  induction l as [|x l IH]; [reflexivity|]. cbn [looked List.length seq]. cbn [filter firstn forallb]. cbn [List.length]. rewrite <- seq_shift.
  rewrite filter_map_length. cbn [firstn forallb]. destruct (q x) eqn:E; cbn [andb].
  - rewrite IH. lia.
  - rewrite filter_none by reflexivity. reflexivity.
Qed.
Lemma looked_is {A} (q : A -> bool) l n p : Z.of_nat (List.length l) = n -> (forall k, (k < List.length l)%nat -> (forallb q (firstn k l) = true <-> p (Z.of_nat k) = true)) -> looked q l = how_many n p.
Proof.
  intros <- H. rewrite looked_many. unfold how_many. rewrite Nat2Z.id, filter_map_length. do 2 f_equal. apply filter_length_ext. intros k K. apply in_seq in K.
  specialize (H k ltac:(lia)). destruct (forallb q (firstn k l)), (p (Z.of_nat k)); intuition congruence.
Qed.

Lemma y_inc_loop ds : forall i, yields (w_inc_loop i ds) (looked (fun x => snd (d_overflowing_add x ONE)) ds) (looked (fun x => snd (d_overflowing_add x ONE)) ds) 0 (fun v => List.length v = List.length ds).
Proof.
  induction ds as [|d ds IH]; intros i; cbn [w_inc_loop looked].
  - eapply y_is; [ystep; reflexivity|..]; reflexivity.
  - destruct (d_overflowing_add d ONE) as [v c]. cbn [snd]. destruct c.
    + eapply y_is; [ystep; ystep; ystep; eapply y_bind; [apply IH|intros t T; ystep; cbn [List.length]; now rewrite T]|..]; evald; lia.
    + eapply y_is; [ystep; ystep; ystep; ystep; reflexivity|..]; evald; lia.
Qed.
Lemma y_dec_loop ds : forall i, yields (w_dec_loop i ds) (looked (fun x => snd (d_overflowing_sub x ONE)) ds) (looked (fun x => snd (d_overflowing_sub x ONE)) ds) 0 (fun v => List.length v = List.length ds).
Proof.
  induction ds as [|d ds IH]; intros i; cbn [w_dec_loop looked].
  - eapply y_is; [ystep; reflexivity|..]; reflexivity.
  - destruct (d_overflowing_sub d ONE) as [v c]. cbn [snd]. destruct c.
    + eapply y_is; [ystep; ystep; ystep; eapply y_bind; [apply IH|intros t T; ystep; cbn [List.length]; now rewrite T]|..]; evald; lia.
    + eapply y_is; [ystep; ystep; ystep; ystep; reflexivity|..]; evald; lia.
Qed.
Lemma y_all_zero ds : forall i, yields (w_all_zero i ds) (looked d_is_zero ds) 0 0 (fun _ => True).
Proof.
  induction ds as [|d ds IH]; intros i; cbn [w_all_zero looked].
  - eapply y_is; [ystep; exact I|..]; reflexivity.
  - destruct (d_is_zero d); (eapply y_is; [ystep; ystep; first [apply IH|ystep; exact I]|..]); evald; lia.
Qed.
Lemma y_count_run up f ds : forall i z, yields (w_count_run up f i ds z) (looked (fun d => f d =? 64) ds) 0 0 (fun _ => True).
Proof.
  induction ds as [|d ds IH]; intros i z; cbn [w_count_run looked].
  - eapply y_is; [ystep; exact I|..]; reflexivity.
  - cbv zeta. destruct (f d =? 64); cbn [negb]; (eapply y_is; [ystep; ystep; first [apply IH|ystep; exact I]|..]); evald; lia.
Qed.
Lemma y_digits_eqb xs : forall ys i, List.length xs = List.length ys -> yields (w_digits_eqb i xs ys) (2 * looked (fun p => fst p =? snd p) (combine xs ys)) 0 0 (fun _ => True).
Proof.
  induction xs as [|x xs IH]; intros [|y ys] i E; try discriminate E; cbn [w_digits_eqb looked combine].
  - eapply y_is; [ystep; exact I|..]; reflexivity.
  - cbn [fst snd]. destruct (x =? y); (eapply y_is; [ystep; ystep; first [apply IH; now injection E|ystep; exact I]|..]); evald; lia.
Qed.
Lemma y_ult_loop xs : forall ys i, List.length xs = List.length ys -> yields (w_ult_loop i xs ys) (2 * looked (fun p => fst p =? snd p) (combine xs ys)) 0 0 (fun _ => True).
Proof.
  induction xs as [|x xs IH]; intros [|y ys] i E; try discriminate E; cbn [w_ult_loop looked combine].
  - eapply y_is; [ystep; exact I|..]; reflexivity.
  - cbn [fst snd]. destruct (Z.compare_spec x y) as [C|C|C]; destruct (Z.eqb_spec x y); try lia; (eapply y_is; [ystep; ystep; first [apply IH; now injection E|ystep; exact I]|..]); evald; lia.
Qed.

Lemma how_many_one p : p 0 = true -> how_many 1 p = 1.
Proof. intros H. unfold how_many. change (map Z.of_nat (seq 0 (Z.to_nat 1))) with [0]. cbn [filter]. now rewrite H. Qed.
Lemma y_inc a : wf a -> yields (w_wrapping_inc a) (how_many (Nd a) (fun i => (unsigned a + 1) mod 2 ^ (64 * i) =? 0) + Xd a) (how_many (Nd a) (fun i => (unsigned a + 1) mod 2 ^ (64 * i) =? 0) + Xd a) 0 (fun _ => True).
Proof.
  intros W. pose proof (wf_sized a W) as S. unfold w_wrapping_inc. destruct (Z_le_gt_dec (len a) 64) as [L|L].
  - rewrite (small_n a S L). rewrite how_many_one by (cbn [Z.mul Z.pow]; now rewrite Z.mod_1_r).
    eapply y_is; [eapply y_bind; [now apply y_access_small|intros v [d ->]]; ybind_as (kin a); [ystep; ystep; now apply kin_inl|intros v V];
      eapply y_weak; [exact (y_clear_kin Self a v V)|intros; exact I]|..]; evald; lia.
  - assert (looked (fun x => snd (d_overflowing_add x ONE)) (digits a) = how_many (Nd a) (fun i => (unsigned a + 1) mod 2 ^ (64 * i) =? 0)) as <-.
    { apply looked_is; [apply S|]. intros k K. destruct (wf_parts a W) as (_ & D & U). rewrite inc_prefix, low_ones by (assumption || lia). rewrite Z.eqb_eq. unfold unsigned.
      set (M := 2 ^ (64 * Z.of_nat k)). assert (0 < M) by (apply Z.pow_pos_nonneg; lia). pose proof (Z.mod_pos_bound (uval (digits a)) M ltac:(lia)) as B. pose proof (Z.div_mod (uval (digits a)) M ltac:(lia)) as DM.
      set (q := uval (digits a) / M) in *. set (r := uval (digits a) mod M) in *. rewrite DM. clearbody q r M. clear - B. 
      replace (M * q + r + 1) with ((r + 1) + q * M) by lia. rewrite Z.mod_add by lia. split; intros E.
      - rewrite E. replace (M - 1 + 1) with M by lia. apply Z.mod_same. lia.
      - destruct (Z.eq_dec (r + 1) M); [lia|]. rewrite Z.mod_small in E by lia. lia. }
    eapply y_is; [eapply y_bind; [apply y_access_large; lia|intros v ->]; ybind_as (kin a); [eapply y_bind; [apply y_inc_loop|intros t T; ystep; now apply kin_ext]|intros v V];
      eapply y_weak; [exact (y_clear_kin Self a v V)|intros; exact I]|..]; evald; lia.
Qed.
Lemma y_dec a : wf a -> yields (w_wrapping_dec a) (how_many (Nd a) (fun i => unsigned a mod 2 ^ (64 * i) =? 0) + Xd a) (how_many (Nd a) (fun i => unsigned a mod 2 ^ (64 * i) =? 0) + Xd a) 0 (fun _ => True).
Proof.
  intros W. pose proof (wf_sized a W) as S. unfold w_wrapping_dec. destruct (Z_le_gt_dec (len a) 64) as [L|L].
  - rewrite (small_n a S L). rewrite how_many_one by (cbn [Z.mul Z.pow]; now rewrite Z.mod_1_r).
    eapply y_is; [eapply y_bind; [now apply y_access_small|intros v [d ->]]; ybind_as (kin a); [ystep; ystep; now apply kin_inl|intros v V];
      eapply y_weak; [exact (y_clear_kin Self a v V)|intros; exact I]|..]; evald; lia.
  - assert (looked (fun x => snd (d_overflowing_sub x ONE)) (digits a) = how_many (Nd a) (fun i => unsigned a mod 2 ^ (64 * i) =? 0)) as <-.
    { apply looked_is; [apply S|]. intros k K. destruct (wf_parts a W) as (_ & D & U). rewrite dec_prefix, low_zero by (assumption || lia). now rewrite Z.eqb_eq. }
    eapply y_is; [eapply y_bind; [apply y_access_large; lia|intros v ->]; ybind_as (kin a); [eapply y_bind; [apply y_dec_loop|intros t T; ystep; now apply kin_ext]|intros v V];
      eapply y_weak; [exact (y_clear_kin Self a v V)|intros; exact I]|..]; evald; lia.
Qed.
Lemma y_is_zero a : wf a -> yields (w_is_zero a) (how_many (Nd a) (fun i => unsigned a mod 2 ^ (64 * i) =? 0)) 0 0 (fun _ => True).
Proof.
  intros W. pose proof (wf_sized a W) as S. unfold w_is_zero. destruct (Z_le_gt_dec (len a) 64) as [L|L].
  - rewrite (small_n a S L). rewrite how_many_one by (cbn [Z.mul Z.pow]; now rewrite Z.mod_1_r).
    eapply y_is; [eapply y_bind; [now apply y_access_small|intros v [d ->]]; ystep; exact I|..]; evald; lia.
  - assert (looked d_is_zero (digits a) = how_many (Nd a) (fun i => unsigned a mod 2 ^ (64 * i) =? 0)) as <-.
    { apply looked_is; [apply S|]. intros k K. destruct (wf_parts a W) as (_ & D & U). rewrite low_zero by (assumption || lia). now rewrite Z.eqb_eq. }
    eapply y_is; [eapply y_bind; [apply y_access_large; lia|intros v ->]; apply y_all_zero|..]; lia.
Qed.
Lemma y_neg a : wf a -> yields (w_wrapping_neg a) (Nd a + how_many (Nd a) (fun i => unsigned a mod 2 ^ (64 * i) =? 0) + 2 * Xd a) (Nd a + how_many (Nd a) (fun i => unsigned a mod 2 ^ (64 * i) =? 0) + 2 * Xd a) 0 (fun _ => True).
Proof.
  intros W. unfold w_wrapping_neg. destruct (bitnot_spec a W) as (b & E & Wb & Lb & Ub).
  assert (how_many (Nd b) (fun i => (unsigned b + 1) mod 2 ^ (64 * i) =? 0) = how_many (Nd a) (fun i => unsigned a mod 2 ^ (64 * i) =? 0)) as H.
  { rewrite (N_len b a Lb). unfold how_many. do 2 f_equal. apply filter_length_ext. intros i I. apply in_map_iff in I as (k & <- & K). apply in_seq in K.
    assert (Z.of_nat k < Nd a) as Kb by (pose proof (many_digits a W); lia). rewrite Ub. replace (2 ^ len a - 1 - unsigned a + 1) with (- unsigned a + 2 ^ len a) by lia.
    assert (64 * Z.of_nat k <= len a) as Kl. { pose proof (Z.div_mod (len a + 63) 64 ltac:(lia)). pose proof (Z.mod_pos_bound (len a + 63) 64 ltac:(lia)). unfold Nd, digit_count in Kb. lia. }
    replace (len a) with (64 * Z.of_nat k + (len a - 64 * Z.of_nat k)) by lia. rewrite Z.pow_add_r by lia. rewrite (Z.mul_comm (2 ^ (64 * Z.of_nat k))).
    assert (0 < 2 ^ (64 * Z.of_nat k)) by (apply Z.pow_pos_nonneg; lia). rewrite Z.mod_add by lia. generalize dependent (2 ^ (64 * Z.of_nat k)). intros M PM. clear - PM. generalize (unsigned a). intros u.
    destruct (Z.eqb_spec (u mod M) 0) as [Z0|Z0]; apply Z.eqb_eq || apply Z.eqb_neq.
    - rewrite Z.mod_opp_l_z; lia.
    - rewrite Z.mod_opp_l_nz by lia. pose proof (Z.mod_pos_bound u M). lia. }
  eapply y_is; [eapply y_bind; [eapply y_exact; [apply y_modified; now apply wf_sized|rewrite <- (we_bitnot a) in E; exact E]|intros v [_ V]; injection V as <-; apply (y_inc b Wb)]|..]; rewrite ?H, ?(X_len b a Lb); lia.
Qed.

(** * Counting zeros and comparing *)
Lemma all_alike {A} (q q' : A -> bool) l : (forall x, In x l -> q x = q' x) -> looked q l = looked q' l.
Proof. intros H. induction l as [|x l IH]; [reflexivity|]. cbn. rewrite H by now left. rewrite IH; [reflexivity|]. intros. apply H. now right. Qed.
Lemma y_leading a : wf a -> yields (w_leading_zeros a) (how_many (Nd a) (fun i => unsigned a / 2 ^ (64 * (Nd a - i)) =? 0)) 0 0 (fun _ => True).
Proof.
  intros W. pose proof (wf_sized a W) as S. unfold w_leading_zeros, as_digit_slice.
  assert (looked (fun d => u64_leading_zeros d =? 64) (rev (digits a)) = how_many (Nd a) (fun i => unsigned a / 2 ^ (64 * (Nd a - i)) =? 0)) as <-.
  { apply looked_is; [rewrite rev_length; apply S|]. rewrite rev_length. intros k K. destruct (wf_parts a W) as (_ & D & U). rewrite leading_prefix by now apply digs_rev.
    rewrite high_zero by (assumption || lia). rewrite Z.eqb_eq. unfold unsigned. destruct S as [_ S]. now replace (Z.of_nat (List.length (digits a) - k)) with (Nd a - Z.of_nat k) by lia. }
  eapply y_is; [eapply y_bind; [apply y_count_run|intros v _; ystep; ystep; exact I]|..]; lia.
Qed.
Lemma y_trailing a : wf a -> yields (w_trailing_zeros a) (how_many (Nd a) (fun i => unsigned a mod 2 ^ (64 * i) =? 0)) 0 0 (fun _ => True).
Proof.
  intros W. pose proof (wf_sized a W) as S. unfold w_trailing_zeros, as_digit_slice.
  assert (looked (fun d => u64_trailing_zeros d =? 64) (digits a) = how_many (Nd a) (fun i => unsigned a mod 2 ^ (64 * i) =? 0)) as <-.
  { apply looked_is; [apply S|]. intros k K. destruct (wf_parts a W) as (_ & D & U). rewrite trailing_prefix, low_zero by (assumption || lia). now rewrite Z.eqb_eq. }
  eapply y_is; [eapply y_bind; [apply y_count_run|intros v _; eapply y_bind; [apply y_branch|intros b _]]|..].
  - instantiate (1 := 0). instantiate (1 := 0). instantiate (1 := 0). destruct b; [eapply y_is; [ystep; ystep; exact I|..]; reflexivity|ystep; exact I].
  - lia.
  - lia.
  - lia.
Qed.
Lemma y_eq a b : wf a -> wf b -> len a = len b -> yields (w_apint_eqb a b) (2 * how_many (Nd a) (fun i => unsigned a mod 2 ^ (64 * i) =? unsigned b mod 2 ^ (64 * i))) 0 0 (fun _ => True).
Proof.
  intros W V E. pose proof (wf_alike a b W V E) as [_ L]. unfold alike, alike_digits in L. unfold w_apint_eqb, len_bits, as_digit_slice. rewrite E, Z.eqb_refl. cbn [negb].
  assert (looked (fun p => fst p =? snd p) (combine (digits a) (digits b)) = how_many (Nd a) (fun i => unsigned a mod 2 ^ (64 * i) =? unsigned b mod 2 ^ (64 * i))) as <-.
  { assert (List.length (combine (digits a) (digits b)) = List.length (digits a)) as LC by (rewrite combine_length; lia). apply looked_is; [rewrite LC; now apply wf_sized|]. rewrite LC. intros k K.
    destruct (wf_parts a W) as (_ & D & _), (wf_parts b V) as (_ & D' & _). rewrite low_equal by (assumption || lia). now rewrite Z.eqb_eq. }
  eapply y_is; [ystep; now apply y_digits_eqb|..]; lia.
Qed.
Lemma y_ult a b : wf a -> wf b -> len a = len b -> yields (w_checked_ult a b) (2 * how_many (Nd a) (fun i => unsigned a / 2 ^ (64 * (Nd a - i)) =? unsigned b / 2 ^ (64 * (Nd a - i)))) 0 0 (fun _ => True).
Proof.
  intros W V E. pose proof (wf_alike a b W V E) as [_ L]. unfold alike, alike_digits in L. unfold w_checked_ult. pose proof (wf_sized a W) as S. destruct (Z_le_gt_dec (len a) 64) as [T|T].
  - rewrite (small_n a S T). rewrite how_many_one.
    + eapply y_is; [eapply y_bind; [now apply y_zip_small|intros v (l & r & ->)]; ystep; exact I|..]; evald; lia.
    + apply Z.eqb_eq. rewrite !Z.div_small; [reflexivity|..].
      * pose proof (wf_parts b V) as (_ & _ & U). rewrite <- L, (proj2 S), (small_n a S T) in U. exact U.
      * pose proof (wf_parts a W) as (_ & _ & U). rewrite (proj2 S), (small_n a S T) in U. exact U.
  - assert (looked (fun p => fst p =? snd p) (combine (rev (digits a)) (rev (digits b))) = how_many (Nd a) (fun i => unsigned a / 2 ^ (64 * (Nd a - i)) =? unsigned b / 2 ^ (64 * (Nd a - i)))) as <-.
    { assert (List.length (combine (rev (digits a)) (rev (digits b))) = List.length (digits a)) as LC by (rewrite combine_length, !rev_length; lia). apply looked_is; [rewrite LC; apply S|]. rewrite LC. intros k K.
      destruct (wf_parts a W) as (_ & D & _), (wf_parts b V) as (_ & D' & _). rewrite high_equal by (assumption || lia). rewrite Z.eqb_eq. unfold unsigned. destruct S as [_ S].
      now replace (Z.of_nat (List.length (digits a) - k)) with (Nd a - Z.of_nat k) by lia. }
    eapply y_is; [eapply y_bind; [apply y_zip_large; [exact E|lia]|intros v ->]; eapply y_bind; [apply y_ult_loop; rewrite !rev_length; exact L|intros v _; ystep; exact I]|..]; lia.
Qed.
Lemma y_slt_small a b : len a = len b -> len a <= 64 -> yields (w_checked_slt a b) 2 0 0 (fun _ => True).
Proof. intros E T. unfold w_checked_slt. eapply y_is; [eapply y_bind; [now apply y_zip_small|intros v (l & r & ->)]; ystep; ystep; ystep; ystep; exact I|..]; reflexivity. Qed.
Lemma y_slt_large a b : wf a -> wf b -> len a = len b -> 64 < len a ->
  yields (w_checked_slt a b) (2 + if Bool.eqb (signed a <? 0) (signed b <? 0) then 2 * how_many (Nd a) (fun i => unsigned a / 2 ^ (64 * (Nd a - i)) =? unsigned b / 2 ^ (64 * (Nd a - i))) else 0) 0 0 (fun _ => True).
Proof.
  intros W V E T. unfold w_checked_slt.
  assert (forall p x, wf x -> yields (w_msb_of p x) 1 0 0 (fun v => v = (signed x <? 0))) as M.
  { intros p x Wx. unfold w_msb_of. eapply y_is; [ystep; ystep|..]; try reflexivity. rewrite msb_sign in H by exact Wx. now injection H as <-. }
  eapply y_is; [eapply y_bind; [apply y_zip_large; [exact E|lia]|intros v ->]; eapply y_bind; [now apply M|intros v ->]; eapply y_bind; [now apply M|intros v ->]; ystep; ystep|..].
  - instantiate (1 := 0). instantiate (1 := 0).
    instantiate (1 := if Bool.eqb (signed a <? 0) (signed b <? 0) then 2 * how_many (Nd a) (fun i => unsigned a / 2 ^ (64 * (Nd a - i)) =? unsigned b / 2 ^ (64 * (Nd a - i))) else 0).
    destruct (signed a <? 0), (signed b <? 0); cbn [Bool.eqb]; first [now apply y_ult|ystep; exact I].
  - lia.
  - lia.
  - lia.
Qed.
