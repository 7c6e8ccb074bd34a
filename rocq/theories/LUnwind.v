(** Unwinding: facts about programs that catch panics. *)
From Coq Require Import Permutation.
From Verif Require Export LHeap5 MUnwind SpecUnwind.

(** * The signed divisions over lists of digits *)
Definition u_signed (op : div_op) (f : apint -> apint -> mut2_result) (negate : bool -> bool -> bool) (x y : apint) :
    outcome (apint * option (result unit)) :=
  let! z := is_zero y in
  if z : bool then let! e := division_by_zero op x in Val (x, Some (Err e))
  else
    let! ml := msb x in
    let! mr := msb y in
    let! x := neg_if ml x in
    let! y := neg_if mr y in
    let! (x, y, r) := f x y in
    match r with
    | Err e => Val (x, None)
    | Ok _ => let! x := neg_if (negate ml mr) x in Val (x, Some (Ok tt))
    end.
Definition u_pair (op : div_op) (f : apint -> apint -> mut2_result) (negate : bool -> bool -> bool * bool) (x y : apint) :
    outcome (apint * apint * option (result unit)) :=
  let! z := is_zero y in
  if z : bool then let! e := division_by_zero op x in Val (x, y, Some (Err e))
  else
    let! ml := msb x in
    let! mr := msb y in
    let '(nl, nr) := negate ml mr in
    let! x := neg_if ml x in
    let! y := neg_if mr y in
    let! (x, y, r) := f x y in
    match r with
    | Err e => Val (x, y, None)
    | Ok _ => let! x := neg_if nl x in let! y := neg_if nr y in Val (x, y, Some (Ok tt))
    end.

Definition good_pair (f : apint -> apint -> mut2_result) : Prop := forall x y, wf x -> wf y ->
  (len x <> len y -> exists e, f x y = Val (x, y, Err e)) /\
  (len x = len y -> unsigned y <> 0 -> exists q r, f x y = Val (q, r, Ok tt) /\ wf q /\ wf r /\ len q = len x /\ len r = len y).

Lemma abs_rel x v : rel x v -> exists c, neg_if (bit x (len x - 1)) x = Val c /\ rel c (magnitude v).
Proof.
  intros H. destruct (rel_open x v H) as (W & L & U & S). destruct (abs_spec x W) as (c & E & Hc). exists c. split; [exact E|].
  unfold rel, magnitude. cbn [fst snd]. rewrite L, S. exact Hc.
Qed.

Lemma magnitude_zero v x : rel x v -> snd v <> 0 -> snd (magnitude v) <> 0.
Proof.
  intros H N. destruct (rel_open x v H) as (W & L & U & S). cbn [magnitude snd]. rewrite S. pose proof (signed_zero x W) as Z. lia.
Qed.

Lemma h_neg_if_ref f b a x L y : b = true -> reprb b a x L -> wf x -> neg_if f x = Val y ->
  refines (h_neg_if f a) L (Val y) (fun a' y' L' => repr a' y' L') /\ wf y /\ len y = len x.
Proof.
  intros -> Ha W E. unfold h_neg_if, neg_if in *. destruct f.
  - destruct (wrapping_neg_spec x W) as (c & E' & Hc). assert (c = y) by congruence. subst c.
    destruct Hc as (Wy & Ly & _). split; [|split; [exact Wy|exact Ly]].
    assert (Em : with_unit wrapping_neg x = Val (y, tt)) by (unfold with_unit; rewrite E; reflexivity).
    eapply ref_step; [|].
    + rewrite <- Em. apply (ref_modify (with_unit wrapping_neg) a x L Ha). intros y' r E2. rewrite Em in E2.
      assert (y' = y) by congruence. subst y'. destruct (wf_size x y W Wy Ly) as (S1 & S2). auto.
    + intros [a' u] L' (_ & Hr). apply ref_ret. exact Hr.
  - assert (x = y) by congruence. subst y. split; [apply ref_ret; exact Ha|auto].
Qed.

(** Steps on the first or the second of two groups of buffers. *)
Lemma ref_left {A B} (h : HM A) La G (b : B) Q : refines h La (Val b) Q ->
  refines h (La ++ G) (Val b) (fun a b L' => exists L'', L' = L'' ++ G /\ Q a b L'').
Proof. apply ref_frame. Qed.
Lemma ref_right {A B} (h : HM A) G Lb (b : B) Q : refines h Lb (Val b) Q ->
  refines h (G ++ Lb) (Val b) (fun a b L' => exists L'', L' = G ++ L'' /\ Q a b L'').
Proof.
  intros H. eapply ref_perm; [apply Permutation_app_comm|]. eapply ref_conseq; [apply ref_frame, H|].
  intros p q L' (L'' & -> & HQ). exists (G ++ L''). split; [apply Permutation_app_comm|eauto].
Qed.

Definition umut (p : hapint * option (result unit)) (q : apint * option (result unit)) (L : list cell) : Prop :=
  snd p = snd q /\ repr (fst p) (fst q) L.

Lemma ref_unsigned f a x La b y Lb : good_pair f -> repr a x La -> repr b y Lb -> wf x -> wf y -> unsigned y <> 0 ->
  exists x' y' r, f x y = Val (x', y', r) /\ wf x' /\ wf y' /\ len x' = len x /\ len y' = len y /\
  (r = Ok tt <-> len x = len y) /\
  refines (h_modify_both f a b) (La ++ Lb) (Val (x', y', r))
    (fun p q L' => snd p = snd q /\ exists L1 L2, L' = L1 ++ L2 /\ repr (fst (fst p)) (fst (fst q)) L1 /\ repr (snd (fst p)) (snd (fst q)) L2).
Proof.
  intros G Ha Hb Wx Wy N. destruct (G x y Wx Wy) as (G1 & G2).
  assert (E : exists x' y' r, f x y = Val (x', y', r) /\ wf x' /\ wf y' /\ len x' = len x /\ len y' = len y /\ (r = Ok tt <-> len x = len y)).
  { destruct (Z.eq_dec (len x) (len y)) as [D|D].
    - destruct (G2 D N) as (q & r & E & ? & ? & ? & ?). exists q, r, (Ok tt). split; [exact E|]. tauto.
    - destruct (G1 D) as (e & E). exists x, y, (Err e). split; [exact E|]. split; [exact Wx|]. split; [exact Wy|].
      split; [reflexivity|]. split; [reflexivity|]. split; [discriminate|tauto]. }
  destruct E as (x' & y' & r & E & W1 & W2 & L1 & L2 & R). exists x', y', r. split; [exact E|]. do 5 (split; [assumption|]).
  rewrite <- E. apply (ref_modify_both f a x La b y Lb Ha Hb). intros x2 y2 r2 E2. rewrite E in E2.
  assert (x2 = x' /\ y2 = y') as (-> & ->) by (split; congruence).
  split; now apply wf_size.
Qed.

Lemma ref_signed op f negate a x La g b y Lb : good_pair f -> repr a x La -> reprb g b y Lb -> wf x -> wf y ->
  refines (h_signed_assign op f negate a b) (La ++ Lb) (u_signed op f negate x y) (fun p q L' => exists L'', L' = L'' ++ Lb /\ umut p q L'').
Proof.
  intros G Ha Hb Wx Wy. unfold h_signed_assign, u_signed. rewrite (is_zero_spec y (wf_sh y Wy)).
  eapply ref_step; [apply ref_right|].
  { rewrite <- (is_zero_spec y (wf_sh y Wy)). exact (ref_ask is_zero g b y Lb Hb). }
  intros z L' (L'' & -> & -> & ->). cbn [bind]. destruct (Z.eqb_spec (unsigned y) 0) as [Z|Z].
  - unfold division_by_zero. rewrite (clone_id true a x La Ha). cbn [bind].
    eapply ref_step; [apply ref_left|].
    { replace (Val (DivisionByZero op x)) with (division_by_zero op x) by (unfold division_by_zero; rewrite (clone_id true a x La Ha); reflexivity).
      exact (ref_ask (division_by_zero op) true a x La Ha). }
    intros e L' (L'' & -> & -> & ->). eapply ref_step; [apply ref_left, (ref_error_copy true a x La _ Ha)|].
    intros _ L' (L'' & -> & ->). apply ref_ret. exists La. split; [reflexivity|]. split; [reflexivity|exact Ha].
  - rewrite (msb_spec x (wf_sh x Wx)), (msb_spec y (wf_sh y Wy)). cbn [bind].
    eapply ref_step; [apply ref_right, (ref_clone g b y Lb Hb)|]. intros c L' (L'' & -> & Lc & -> & Hc). rewrite app_assoc.
    eapply ref_conseq; [apply ref_frame|].
    2:{ intros p q L' (L'' & -> & HQ). exists (L'' ++ Lb). split; [reflexivity|]. exists L''. split; [reflexivity|]. exact HQ. }
    eapply ref_step; [apply ref_left|].
    { rewrite <- (msb_spec x (wf_sh x Wx)). exact (ref_ask msb true a x La Ha). }
    intros ml L' (L'' & -> & -> & ->). eapply ref_step; [apply ref_right|].
    { rewrite <- (msb_spec y (wf_sh y Wy)). exact (ref_ask msb true c y Lc Hc). }
    intros mr L' (L'' & -> & -> & ->).
    destruct (abs_spec x Wx) as (x1 & Ex & Hx1). destruct (abs_spec y Wy) as (y1 & Ey & Hy1).
    destruct (h_neg_if_ref _ true a x La x1 eq_refl Ha Wx Ex) as (Rx & Wx1 & Lx1).
    destruct (h_neg_if_ref _ true c y Lc y1 eq_refl Hc Wy Ey) as (Ry & Wy1 & Ly1).
    rewrite Ex, Ey. cbn [bind].
    eapply ref_step; [apply ref_left, Rx|]. intros a1 L' (La1 & -> & Ha1).
    eapply ref_step; [apply ref_right, Ry|]. intros c1 L' (Lc1 & -> & Hc1).
    assert (N : unsigned y1 <> 0).
    { destruct Hy1 as (_ & _ & ->). pose proof (signed_zero y Wy). lia. }
    destruct (ref_unsigned f a1 x1 La1 c1 y1 Lc1 G Ha1 Hc1 Wx1 Wy1 N) as (x2 & y2 & r & Ef & Wx2 & Wy2 & Lx2 & Ly2 & Rr & Rf).
    rewrite Ef. cbn [bind]. eapply ref_step; [exact Rf|]. intros [[a2 c2] r'] L' (Er & L1 & L2 & -> & Ha2 & Hc2). cbn [fst snd] in *. subst r'.
    destruct r as [u|e].
    + destruct (neg_if_spec (negate (bit x (len x - 1)) (bit y (len y - 1))) x2 (len x2) (signed x2) (self_signed x2 Wx2)) as (x3 & E3 & _).
      destruct (h_neg_if_ref _ true a2 x2 L1 x3 eq_refl Ha2 Wx2 E3) as (R3 & Wx3 & Lx3). rewrite E3. cbn [bind].
      eapply ref_step; [apply ref_left, R3|]. intros a3 L' (L3 & -> & Ha3).
      eapply ref_step; [apply ref_right, (ref_drop c2 y2 L2 Hc2)|]. intros _ L' (L4 & -> & ->).
      apply ref_ret. rewrite app_nil_r. split; [reflexivity|exact Ha3].
    + eapply ref_step; [apply ref_left, (ref_error_copy true a2 x2 L1 _ Ha2)|]. intros _ L' (L3 & -> & ->).
      eapply ref_step; [apply ref_right, (ref_drop c2 y2 L2 Hc2)|]. intros _ L' (L4 & -> & ->).
      apply ref_ret. rewrite app_nil_r. split; [reflexivity|exact Ha2].
Qed.

Lemma ref_spair op f negate a x La b y Lb : good_pair f -> repr a x La -> repr b y Lb -> wf x -> wf y ->
  refines (h_signed_pair op f negate a b) (La ++ Lb) (u_pair op f negate x y)
    (fun p q L' => snd p = snd q /\ exists L1 L2, L' = L1 ++ L2 /\ repr (fst (fst p)) (fst (fst q)) L1 /\ repr (snd (fst p)) (snd (fst q)) L2).
Proof.
  intros G Ha Hb Wx Wy. unfold h_signed_pair, u_pair. rewrite (is_zero_spec y (wf_sh y Wy)).
  eapply ref_step; [apply ref_right|].
  { rewrite <- (is_zero_spec y (wf_sh y Wy)). exact (ref_ask is_zero true b y Lb Hb). }
  intros z L' (L'' & -> & -> & ->). cbn [bind]. destruct (Z.eqb_spec (unsigned y) 0) as [Z|Z].
  - unfold division_by_zero. rewrite (clone_id true a x La Ha). cbn [bind].
    eapply ref_step; [apply ref_left|].
    { replace (Val (DivisionByZero op x)) with (division_by_zero op x) by (unfold division_by_zero; rewrite (clone_id true a x La Ha); reflexivity).
      exact (ref_ask (division_by_zero op) true a x La Ha). }
    intros e L' (L'' & -> & -> & ->). eapply ref_step; [apply ref_left, (ref_error_copy true a x La _ Ha)|].
    intros _ L' (L'' & -> & ->). apply ref_ret. split; [reflexivity|]. exists La, Lb. auto.
  - rewrite (msb_spec x (wf_sh x Wx)), (msb_spec y (wf_sh y Wy)). cbn [bind].
    eapply ref_step; [apply ref_left|].
    { rewrite <- (msb_spec x (wf_sh x Wx)). exact (ref_ask msb true a x La Ha). }
    intros ml L' (L'' & -> & -> & ->). eapply ref_step; [apply ref_right|].
    { rewrite <- (msb_spec y (wf_sh y Wy)). exact (ref_ask msb true b y Lb Hb). }
    intros mr L' (L'' & -> & -> & ->). destruct (negate (bit x (len x - 1)) (bit y (len y - 1))) as [nl nr].
    destruct (abs_spec x Wx) as (x1 & Ex & Hx1). destruct (abs_spec y Wy) as (y1 & Ey & Hy1).
    destruct (h_neg_if_ref _ true a x La x1 eq_refl Ha Wx Ex) as (Rx & Wx1 & Lx1).
    destruct (h_neg_if_ref _ true b y Lb y1 eq_refl Hb Wy Ey) as (Ry & Wy1 & Ly1).
    rewrite Ex, Ey. cbn [bind].
    eapply ref_step; [apply ref_left, Rx|]. intros a1 L' (La1 & -> & Ha1).
    eapply ref_step; [apply ref_right, Ry|]. intros c1 L' (Lc1 & -> & Hc1).
    assert (N : unsigned y1 <> 0).
    { destruct Hy1 as (_ & _ & ->). pose proof (signed_zero y Wy). lia. }
    destruct (ref_unsigned f a1 x1 La1 c1 y1 Lc1 G Ha1 Hc1 Wx1 Wy1 N) as (x2 & y2 & r & Ef & Wx2 & Wy2 & Lx2 & Ly2 & Rr & Rf).
    rewrite Ef. cbn [bind]. eapply ref_step; [exact Rf|]. intros [[a2 c2] r'] L' (Er & L1 & L2 & -> & Ha2 & Hc2). cbn [fst snd] in *. subst r'.
    destruct r as [u|e].
    + destruct (neg_if_spec nl x2 (len x2) (signed x2) (self_signed x2 Wx2)) as (x3 & E3 & _).
      destruct (h_neg_if_ref _ true a2 x2 L1 x3 eq_refl Ha2 Wx2 E3) as (R3 & Wx3 & Lx3). rewrite E3. cbn [bind].
      destruct (neg_if_spec nr y2 (len y2) (signed y2) (self_signed y2 Wy2)) as (y3 & E4 & _).
      destruct (h_neg_if_ref _ true c2 y2 L2 y3 eq_refl Hc2 Wy2 E4) as (R4 & Wy3 & Ly3). rewrite E4. cbn [bind].
      eapply ref_step; [apply ref_left, R3|]. intros a3 L' (L3 & -> & Ha3).
      eapply ref_step; [apply ref_right, R4|]. intros c3 L' (L4 & -> & Hc3).
      apply ref_ret. split; [reflexivity|]. exists L3, L4. auto.
    + eapply ref_step; [apply ref_left, (ref_error_copy true a2 x2 L1 _ Ha2)|]. intros _ L' (L3 & -> & ->).
      apply ref_ret. split; [reflexivity|]. exists L1, L2. auto.
Qed.

(** * Against the abstract machine *)
Lemma good_udivrem : good_pair wrapping_udivrem_assign.
Proof.
  intros x y Wx Wy. split.
  - intros D. destruct (udiv_mismatch x y D) as (-> & _). eauto.
  - intros D N. destruct (udiv_all x y Wx Wy D N) as (q & r & E & _ & _ & _ & _ & _ & (Wq & Lq & _) & (Wr & Lr & _)).
    exists q, r. split; [exact E|]. repeat (split; [assumption|]). congruence.
Qed.
Lemma good_uremdiv : good_pair wrapping_uremdiv_assign.
Proof.
  intros x y Wx Wy. split.
  - intros D. destruct (udiv_mismatch x y D) as (_ & -> & _). eauto.
  - intros D N. destruct (udiv_all x y Wx Wy D N) as (q & r & _ & E & _ & _ & _ & _ & (Wq & Lq & _) & (Wr & Lr & _)).
    exists r, q. split; [exact E|]. repeat (split; [assumption|]). congruence.
Qed.

Definition give {A : Type} (m : outcome (A * option (result unit))) : outcome (A * result unit) :=
  let! (x, r) := m in match r with Some r => Val (x, r) | None => Panic end.

Definition sdiv_sign (ml mr : bool) : bool := match ml, mr with false, false => false | true, false => true | false, true => true | true, true => false end.
Definition srem_sign (ml mr : bool) : bool := match ml, mr with false, false => false | true, false => true | false, true => false | true, true => true end.
Definition sdivrem_sign (ml mr : bool) : bool * bool :=
  match ml, mr with false, false => (false, false) | true, false => (true, true) | false, true => (true, false) | true, true => (false, true) end.
Definition sremdiv_sign (ml mr : bool) : bool * bool :=
  match ml, mr with false, false => (false, false) | true, false => (true, true) | false, true => (false, true) | true, true => (true, false) end.

Definition u_bin (o : binop) : apint -> apint -> outcome (apint * option (result unit)) :=
  match o with BSdiv => u_signed SignedDiv wrapping_udivrem_assign sdiv_sign | _ => u_signed SignedRem wrapping_uremdiv_assign srem_sign end.
Definition u_both (o : pairop) : apint -> apint -> outcome (apint * apint * option (result unit)) :=
  match o with PSDivRem => u_pair SignedDivRem wrapping_udivrem_assign sdivrem_sign | _ => u_pair SignedRemDiv wrapping_uremdiv_assign sremdiv_sign end.
Definition signed_bin (o : binop) : Prop := o = BSdiv \/ o = BSrem.
Definition signed_pairop (o : pairop) : Prop := o = PSDivRem \/ o = PSRemDiv.

Lemma give_bin o x y : signed_bin o -> wf y -> cbin o x y = give (u_bin o x y).
Proof.
  intros [-> | ->] Wy; cbn [cbin u_bin]; unfold wrapping_sdiv_assign, wrapping_srem_assign, u_signed, give, unwrap_mut2;
    destruct (is_zero y) as [[]| |]; cbn [bind]; auto.
  - destruct (division_by_zero SignedDiv x); cbn [bind]; auto.
  - rewrite clone_spec by auto. cbn [bind]. destruct (msb x) as [ml| |]; cbn [bind]; auto. destruct (msb y) as [mr| |]; cbn [bind]; auto.
    destruct (neg_if ml x) as [x1| |]; cbn [bind]; auto. destruct (neg_if mr y) as [y1| |]; cbn [bind]; auto.
    destruct (wrapping_udivrem_assign x1 y1) as [[[x2 y2] [[]|e]]| |]; cbn [bind unwrap]; auto.
    unfold sdiv_sign. destruct (neg_if _ x2) as [x3| |]; cbn [bind]; auto.
  - destruct (division_by_zero SignedRem x); cbn [bind]; auto.
  - rewrite clone_spec by auto. cbn [bind]. destruct (msb x) as [ml| |]; cbn [bind]; auto. destruct (msb y) as [mr| |]; cbn [bind]; auto.
    destruct (neg_if ml x) as [x1| |]; cbn [bind]; auto. destruct (neg_if mr y) as [y1| |]; cbn [bind]; auto.
    destruct (wrapping_uremdiv_assign x1 y1) as [[[x2 y2] [[]|e]]| |]; cbn [bind unwrap]; auto.
    unfold srem_sign. destruct (neg_if _ x2) as [x3| |]; cbn [bind]; auto.
Qed.

Lemma give_both o x y : signed_pairop o -> cpair o x y = give (u_both o x y).
Proof.
  intros [-> | ->]; cbn [cpair u_both]; unfold wrapping_sdivrem_assign, wrapping_sremdiv_assign, u_pair, give, unwrap_mut2;
    destruct (is_zero y) as [[]| |]; cbn [bind]; auto.
  - destruct (division_by_zero SignedDivRem x); cbn [bind]; auto.
  - destruct (msb x) as [ml| |]; cbn [bind]; auto. destruct (msb y) as [mr| |]; cbn [bind]; auto.
    fold (sdivrem_sign ml mr). destruct (sdivrem_sign ml mr) as [nl nr].
    destruct (neg_if ml x) as [x1| |]; cbn [bind]; auto. destruct (neg_if mr y) as [y1| |]; cbn [bind]; auto.
    destruct (wrapping_udivrem_assign x1 y1) as [[[x2 y2] [[]|e]]| |]; cbn [bind unwrap]; auto.
    destruct (neg_if nl x2) as [x3| |]; cbn [bind]; auto. destruct (neg_if nr y2) as [y3| |]; cbn [bind]; auto.
  - destruct (division_by_zero SignedRemDiv x); cbn [bind]; auto.
  - destruct (msb x) as [ml| |]; cbn [bind]; auto. destruct (msb y) as [mr| |]; cbn [bind]; auto.
    fold (sremdiv_sign ml mr). destruct (sremdiv_sign ml mr) as [nl nr].
    destruct (neg_if ml x) as [x1| |]; cbn [bind]; auto. destruct (neg_if mr y) as [y1| |]; cbn [bind]; auto.
    destruct (wrapping_uremdiv_assign x1 y1) as [[[x2 y2] [[]|e]]| |]; cbn [bind unwrap]; auto.
    destruct (neg_if nl x2) as [x3| |]; cbn [bind]; auto. destruct (neg_if nr y2) as [y3| |]; cbn [bind]; auto.
Qed.

Lemma give_val {A} (m : outcome (A * option (result unit))) x r : give m = Val (x, r) -> m = Val (x, Some r).
Proof. destruct m as [[z [s|]]| |]; cbn; congruence. Qed.

Lemma u_signed_panic op f negate x y v u : good_pair f -> rel x v -> rel y u -> snd u <> 0 -> fst v <> fst u ->
  exists x', u_signed op f negate x y = Val (x', None) /\ rel x' (magnitude v).
Proof.
  intros G Hx Hy N D. destruct (rel_open x v Hx) as (Wx & Lx & Ux & Sx). destruct (rel_open y u Hy) as (Wy & Ly & Uy & Sy).
  destruct (abs_rel x v Hx) as (x1 & Ex & Rx). destruct (abs_rel y u Hy) as (y1 & Ey & Ry).
  destruct (rel_open x1 _ Rx) as (Wx1 & Lx1 & _). destruct (rel_open y1 _ Ry) as (Wy1 & Ly1 & _).
  destruct (G x1 y1 Wx1 Wy1) as (G1 & _). cbn [magnitude fst] in *. destruct G1 as (e & E); [congruence|].
  exists x1. split; [|exact Rx]. unfold u_signed. rewrite (is_zero_spec y (wf_sh y Wy)), <- Uy. cbn [bind].
  rewrite (proj2 (Z.eqb_neq (snd u) 0) N). rewrite (msb_spec x (wf_sh x Wx)), (msb_spec y (wf_sh y Wy)). cbn [bind].
  rewrite Ex, Ey. cbn [bind]. rewrite E. reflexivity.
Qed.
Lemma u_pair_panic op f negate x y v u : good_pair f -> rel x v -> rel y u -> snd u <> 0 -> fst v <> fst u ->
  exists x' y', u_pair op f negate x y = Val (x', y', None) /\ rel x' (magnitude v) /\ rel y' (magnitude u).
Proof.
  intros G Hx Hy N D. destruct (rel_open x v Hx) as (Wx & Lx & Ux & Sx). destruct (rel_open y u Hy) as (Wy & Ly & Uy & Sy).
  destruct (abs_rel x v Hx) as (x1 & Ex & Rx). destruct (abs_rel y u Hy) as (y1 & Ey & Ry).
  destruct (rel_open x1 _ Rx) as (Wx1 & Lx1 & _). destruct (rel_open y1 _ Ry) as (Wy1 & Ly1 & _).
  destruct (G x1 y1 Wx1 Wy1) as (G1 & _). cbn [magnitude fst] in *. destruct G1 as (e & E); [congruence|].
  exists x1, y1. split; [|auto]. unfold u_pair. rewrite (is_zero_spec y (wf_sh y Wy)), <- Uy. cbn [bind].
  rewrite (proj2 (Z.eqb_neq (snd u) 0) N). rewrite (msb_spec x (wf_sh x Wx)), (msb_spec y (wf_sh y Wy)). cbn [bind].
  destruct (negate _ _) as [nl nr]. rewrite Ex, Ey. cbn [bind]. rewrite E. reflexivity.
Qed.

Lemma u_bin_sim o x y v u : signed_bin o -> rel x v -> rel y u ->
  exists x' r, u_bin o x y = Val (x', r) /\
    match abin o v u with
    | Some (inl v') => r = Some (Ok tt) /\ rel x' v'
    | Some (inr e) => x' = x /\ exists k, r = Some (Err k) /\ observe k = e
    | None => r = None /\ rel x' (magnitude v)
    end.
Proof.
  intros Ho Hx Hy. destruct (rel_open y u Hy) as (Wy & _).
  destruct (bin_sim o x y v u Hx Hy) as (Bm & _). rewrite (give_bin o x y Ho Wy) in Bm.
  assert (P : abin o v u = None -> snd u <> 0 /\ fst v <> fst u).
  { destruct Ho as [-> | ->]; cbn [abin]; unfold signed_div; destruct (Z.eqb_spec (snd u) 0); try discriminate;
      destruct (Z.eqb_spec (fst v) (fst u)); try discriminate; auto. }
  destruct (abin o v u) as [[v'|e]|]; cbn [rel_mut] in Bm.
  - destruct Bm as (c & E & R). apply give_val in E. rewrite E. exists c, (Some (Ok tt)). auto.
  - destruct Bm as (k & E & R). apply give_val in E. rewrite E. exists x, (Some (Err k)). eauto.
  - destruct (P eq_refl) as (N & D). destruct Ho as [-> | ->]; cbn [u_bin].
    + destruct (u_signed_panic SignedDiv _ sdiv_sign x y v u good_udivrem Hx Hy N D) as (x' & E & R). exists x', None. auto.
    + destruct (u_signed_panic SignedRem _ srem_sign x y v u good_uremdiv Hx Hy N D) as (x' & E & R). exists x', None. auto.
Qed.
Lemma u_both_sim o x y v u : signed_pairop o -> rel x v -> rel y u ->
  exists x' y' r, u_both o x y = Val (x', y', r) /\
    match apair o v u with
    | Some (inl (v', u')) => r = Some (Ok tt) /\ rel x' v' /\ rel y' u'
    | Some (inr e) => x' = x /\ y' = y /\ exists k, r = Some (Err k) /\ observe k = e
    | None => r = None /\ rel x' (magnitude v) /\ rel y' (magnitude u)
    end.
Proof.
  intros Ho Hx Hy. pose proof (pair_sim o x y v u Hx Hy) as Bm. rewrite (give_both o x y Ho) in Bm.
  assert (P : apair o v u = None -> snd u <> 0 /\ fst v <> fst u).
  { destruct Ho as [-> | ->]; cbn [apair]; destruct (Z.eqb_spec (snd u) 0); try discriminate;
      destruct (Z.eqb_spec (fst v) (fst u)); try discriminate; auto. }
  destruct (apair o v u) as [[[v' u']|e]|].
  - destruct Bm as (c & d & E & R). apply give_val in E. rewrite E. exists c, d, (Some (Ok tt)). auto.
  - destruct Bm as (k & E & R). apply give_val in E. rewrite E. exists x, y, (Some (Err k)). eauto 6.
  - destruct (P eq_refl) as (N & D). destruct Ho as [-> | ->]; cbn [u_both].
    + destruct (u_pair_panic SignedDivRem _ sdivrem_sign x y v u good_udivrem Hx Hy N D) as (x' & y' & E & R). exists x', y', None. auto.
    + destruct (u_pair_panic SignedRemDiv _ sremdiv_sign x y v u good_uremdiv Hx Hy N D) as (x' & y' & E & R). exists x', y', None. auto.
Qed.

(** * Programs *)
Definition upost {R : Type} (p : hvars * R) (q : vars * R) (L : list cell) : Prop := snd p = snd q /\ sown all_owned (fst p) (fst q) L.

(** The same when [g] says which variables are owned and which are lent. *)
Definition gpost {R : Type} (g : nat -> bool) (p : hvars * R) (q : vars * R) (L : list cell) : Prop := snd p = snd q /\ sown g (fst p) (fst q) L.

Lemma ref_usual g hs cs L s c : cmd_ok c -> Forall2 holds cs s -> opens g (length hs) -> allowed g c -> sown g hs cs L -> forall s' o, astep s c = Some (s', o) ->
  exists cs', refines (let* (s, o) := hstep hs c in hret (s, Some o)) L (Val (cs', Some o)) (gpost g) /\ Forall2 holds cs' s'.
Proof.
  intros Hc H Go Gw So s' o E. pose proof (step_sim cs s c Hc H) as St. rewrite E in St. destruct St as (cs' & Ec & H').
  exists cs'. split; [|exact H'].
  pose proof (ref_step_cmd g hs cs L c Hc ltac:(now exists s) Go Gw So) as R.
  rewrite Ec in R. eapply ref_step; [exact R|]. intros [hs' o'] L' (Eo & S'). cbn [fst snd] in *. subst o'.
  apply ref_ret. split; [reflexivity|exact S'].
Qed.

Lemma ref_catch2 g hs cs L s x y k (c : cmd) :
  Forall2 holds cs s -> sown g hs cs L ->
  (x = y \/ (forall v, nth_error s x <> Some (Some v)) \/ (forall u, nth_error s y <> Some (Some u)) -> astep s c = Some (s, ORejected)) ->
  (forall a w La b z Lb Lr v u, x <> y -> nth_error hs x = Some (Some a) -> nth_error cs x = Some (Some w) -> reprb (g x) a w La ->
    nth_error hs y = Some (Some b) -> nth_error cs y = Some (Some z) -> reprb (g y) b z Lb ->
    nth_error s x = Some (Some v) -> nth_error s y = Some (Some u) -> rel w v -> rel z u ->
    sown g (update y None (update x None hs)) (update y None (update x None cs)) Lr ->
    exists cs', refines (k a b) (La ++ Lb ++ Lr) (Val (cs', snd (acatch s c))) (gpost g) /\ Forall2 holds cs' (fst (acatch s c))) ->
  exists cs', refines (hcatch_get2 hs x y k) L (Val (cs', snd (acatch s c))) (gpost g) /\ Forall2 holds cs' (fst (acatch s c)).
Proof.
  intros H So Rj K. unfold hcatch_get2.
  assert (RJ : x = y \/ (forall v, nth_error s x <> Some (Some v)) \/ (forall u, nth_error s y <> Some (Some u)) ->
    exists cs', refines (hret (hs, Some ORejected)) L (Val (cs', snd (acatch s c))) (gpost g) /\ Forall2 holds cs' (fst (acatch s c))).
  { intros D. unfold acatch. rewrite (Rj D). exists cs. cbn [fst snd]. split; [|exact H]. apply ref_ret. split; [reflexivity|exact So]. }
  destruct (Nat.eqb_spec x y) as [D|D]; [apply RJ; auto|].
  assert (T : forall i, match nth_error hs i, nth_error cs i with Some (Some _), Some (Some _) => True | Some None, Some None => True | None, None => True | _, _ => False end).
  { intros i. destruct So as (L' & _ & S'). pose proof (srepr_focus g hs cs L' S' i) as F.
    destruct (nth_error hs i) as [[?|]|], (nth_error cs i) as [[?|]|]; auto. }
  destruct (nth_error hs x) as [[a|]|] eqn:Ex.
  2,3: pose proof (T x) as Tx; rewrite Ex in Tx; pose proof (get_sim cs s x H) as G; apply RJ; right; left; intros v Ev; rewrite Ev in G;
    destruct (nth_error cs x) as [[?|]|]; tauto.
  destruct (nth_error hs y) as [[b|]|] eqn:Ey.
  2,3: pose proof (T y) as Tx; rewrite Ey in Tx; pose proof (get_sim cs s y H) as G; apply RJ; right; right; intros v Ev; rewrite Ev in G;
    destruct (nth_error cs y) as [[?|]|]; tauto.
  destruct (sown_take g hs cs L x a So Ex) as (w & La & Lr & Ec & P & Ha & Hs).
  assert (Ey' : nth_error (update x None hs) y = Some (Some b)) by (rewrite nth_update_other; auto).
  destruct (sown_take g _ _ Lr y b Hs Ey') as (z & Lb & Lq & Fc & Q & Hb & Ht).
  rewrite nth_update_other in Fc by exact D.
  pose proof (get_sim cs s x H) as G1. rewrite Ec in G1. destruct (nth_error s x) as [[v|]|] eqn:Es; try tauto.
  pose proof (get_sim cs s y H) as G2. rewrite Fc in G2. destruct (nth_error s y) as [[u|]|] eqn:Fs; try tauto.
  destruct (K a w La b z Lb Lq v u) as (cs' & R & F); auto. exists cs'. split; [|exact F].
  eapply ref_perm; [transitivity (La ++ Lr); [exact P|apply Permutation_app_head; exact Q]|]. exact R.
Qed.

Definition h_sbin (o : binop) : hapint -> hapint -> HM (hapint * option (result unit)) :=
  match o with BSdiv => h_sdiv_assign | _ => h_srem_assign end.
Definition h_sboth (o : pairop) : hapint -> hapint -> HM (hapint * hapint * option (result unit)) :=
  match o with PSDivRem => h_sdivrem_assign | _ => h_sremdiv_assign end.

Lemma ref_sbin o a x La gb b y Lb Lr : signed_bin o -> repr a x La -> reprb gb b y Lb -> wf x -> wf y ->
  refines (h_sbin o a b) (La ++ Lb ++ Lr) (u_bin o x y) (fun p q L' => exists L'', L' = L'' ++ Lb ++ Lr /\ umut p q L'').
Proof.
  intros Ho Ha Hb Wx Wy. rewrite app_assoc.
  assert (R : refines (h_sbin o a b) (La ++ Lb) (u_bin o x y) (fun p q L' => exists L'', L' = L'' ++ Lb /\ umut p q L'')).
  { destruct Ho as [-> | ->]; cbn [h_sbin u_bin].
    - exact (ref_signed SignedDiv _ sdiv_sign a x La gb b y Lb good_udivrem Ha Hb Wx Wy).
    - exact (ref_signed SignedRem _ srem_sign a x La gb b y Lb good_uremdiv Ha Hb Wx Wy). }
  eapply ref_conseq; [apply ref_frame, R|]. intros p q L' (L1 & -> & L2 & -> & Q). exists (L2 ++ Lb ++ Lr).
  split; [now rewrite app_assoc|eauto].
Qed.

Lemma after_sbin o a w La gb b z Lb Lr v u : signed_bin o -> repr a w La -> reprb gb b z Lb -> rel w v -> rel z u ->
  exists w' r, refines (h_sbin o a b) (La ++ Lb ++ Lr) (Val (w', r)) (fun p q L' => exists L'', L' = L'' ++ Lb ++ Lr /\ umut p q L'') /\
    match abin o v u with
    | Some (inl v') => r = Some (Ok tt) /\ rel w' v'
    | Some (inr e) => w' = w /\ exists k, r = Some (Err k) /\ observe k = e
    | None => r = None /\ rel w' (magnitude v)
    end.
Proof.
  intros Ho Ha Hb Hw Hz. destruct (rel_open w v Hw) as (Ww & _). destruct (rel_open z u Hz) as (Wz & _).
  destruct (u_bin_sim o w z v u Ho Hw Hz) as (w' & r & E & M). exists w', r. split; [|exact M].
  rewrite <- E. exact (ref_sbin o a w La gb b z Lb Lr Ho Ha Hb Ww Wz).
Qed.

Lemma holds_update cs s x w v : Forall2 holds cs s -> rel w v -> Forall2 holds (update x (Some w) cs) (update x (Some v) s).
Proof. intros H R. apply update_sim; [exact H|]. now apply holds_rel. Qed.

Lemma catch_bin o g hs cs L s x y : signed_bin o -> Forall2 holds cs s -> g x = true -> sown g hs cs L ->
  exists cs', refines (hcatch_get2 hs x y (fun a b => hcatch_change hs x (h_sbin o a b))) L (Val (cs', snd (acatch s (Bin o x y)))) (gpost g) /\
    Forall2 holds cs' (fst (acatch s (Bin o x y))).
Proof.
  intros Ho H Gx So. apply (ref_catch2 g hs cs L s x y); auto.
  { intros D. cbn [astep]. destruct (Nat.eqb_spec x y) as [|N]; [reflexivity|]. unfold get2, get1.
    destruct D as [|[D|D]]; [tauto| |]; destruct (nth_error s x) as [[v|]|]; try reflexivity.
    - now specialize (D v).
    - destruct (nth_error s y) as [[u|]|]; try reflexivity. now specialize (D u). }
  intros a w La b z Lb Lr v u N Ea Ew Ha Eb Ez Hb Ev Eu Rw Rz Hs. rewrite Gx in Ha.
  destruct (after_sbin o a w La (g y) b z Lb Lr v u Ho Ha Hb Rw Rz) as (w' & r & R & M).
  exists (update x (Some w') cs). split.
  - unfold hcatch_change. eapply ref_step; [exact R|]. intros [a' r'] L' (L1 & -> & Er & Hr). cbn [fst snd] in *. subst r'.
    apply ref_ret. split.
    + cbn [snd]. unfold acatch, astep. destruct (Nat.eqb_spec x y) as [|_]; [tauto|]. unfold get2, get1. rewrite Ev, Eu.
      destruct (abin o v u) as [[v'|e]|]; cbn [option_map change snd].
      * destruct M as (-> & _). reflexivity.
      * destruct M as (_ & k & -> & <-). reflexivity.
      * destruct M as (-> & _). reflexivity.
    + cbn [fst]. rewrite <- (update_twice x (Some a') None hs), <- (update_twice x (Some w') None cs).
      apply sown_fill; [now apply (sown_put_back g hs cs x y b z)| |rewrite Gx; exact Hr]. exact (nth_update_same x None _ hs Ea).
  - unfold acatch, astep. destruct (Nat.eqb_spec x y) as [|_]; [tauto|]. unfold get2, get1. rewrite Ev, Eu.
    destruct (abin o v u) as [[v'|e]|]; cbn [option_map change fst after_panic].
    + apply holds_update; tauto.
    + destruct M as (-> & _). now rewrite update_id.
    + unfold disturb. rewrite Ev. apply holds_update; tauto.
Qed.

Lemma catch_into o g hs cs L s x y : signed_bin o -> Forall2 holds cs s -> g x = true -> g (length hs) = true -> sown g hs cs L ->
  exists cs', refines (hcatch_get2 hs x y (fun a b => hcatch_create (update x None hs) (h_forward_catch (h_sbin o a b)))) L
      (Val (cs', snd (acatch s (IntoBin o x y)))) (gpost g) /\
    Forall2 holds cs' (fst (acatch s (IntoBin o x y))).
Proof.
  intros Ho H Gx Gn So. apply (ref_catch2 g hs cs L s x y); auto.
  { intros D. cbn [astep]. destruct (Nat.eqb_spec x y) as [|N]; [reflexivity|]. unfold get2, get1.
    destruct D as [|[D|D]]; [tauto| |]; destruct (nth_error s x) as [[v|]|]; try reflexivity.
    - now specialize (D v).
    - destruct (nth_error s y) as [[u|]|]; try reflexivity. now specialize (D u). }
  intros a w La b z Lb Lr v u N Ea Ew Ha Eb Ez Hb Ev Eu Rw Rz Hs. rewrite Gx in Ha.
  destruct (after_sbin o a w La (g y) b z Lb Lr v u Ho Ha Hb Rw Rz) as (w' & r & R & M).
  pose proof (sown_put_back g hs cs x y b z Lb Lr N Eb Ez Hb Hs) as Sx.
  assert (Hn : Forall2 holds (update x None cs) (update x None s)) by (apply update_sim; [exact H|exact Logic.I]).
  unfold acatch, astep. destruct (Nat.eqb_spec x y) as [|_]; [tauto|]. unfold get2, get1. rewrite Ev, Eu. unfold hcatch_create, h_forward_catch.
  destruct (abin o v u) as [[v'|e]|]; cbn [option_map create fst snd after_panic].
  - destruct M as (-> & Rw'). exists (update x None cs ++ [Some w']). split.
    + eapply ref_step; [|].
      { eapply ref_step; [exact R|]. intros [a' r'] L' (L1 & -> & Er & Hr). cbn [fst snd] in *. subst r'.
        apply (ref_ret (Some (Ok a')) (Some (Ok w')) _ (fun p q L' => match p, q with
          | Some (Ok a), Some (Ok x) => exists L'', L' = L'' ++ Lb ++ Lr /\ repr a x L'' | _, _ => False end)). exists L1. auto. }
      intros [[a'|]|] L' Q; try tauto. destruct Q as (L1 & -> & Hr). apply ref_ret. split; [reflexivity|]. cbn [fst].
      apply sown_append; [exact Sx|]. rewrite update_length, Gn. exact Hr.
    + apply Forall2_app; [exact Hn|]. constructor; [now apply holds_rel|constructor].
  - destruct M as (_ & k & -> & <-). exists (update x None cs). split; [|exact Hn].
    eapply ref_step; [|].
    { eapply ref_step; [exact R|]. intros [a' r'] L' (L1 & -> & Er & Hr). cbn [fst snd] in *. subst r'.
      eapply ref_step; [apply ref_left, (ref_drop a' w' L1 Hr)|]. intros _ L' (L2 & -> & ->).
      apply (ref_ret (Some (Err k)) tt _ (fun p _ L' => p = Some (Err k) /\ L' = Lb ++ Lr)). auto. }
    intros p L' (-> & ->). apply ref_ret. split; [reflexivity|exact Sx].
  - destruct M as (-> & _). exists (update x None cs). split; [|exact Hn].
    eapply ref_step; [|].
    { eapply ref_step; [exact R|]. intros [a' r'] L' (L1 & -> & Er & Hr). cbn [fst snd] in *. subst r'.
      eapply ref_step; [apply ref_left, (ref_drop a' w' L1 Hr)|]. intros _ L' (L2 & -> & ->).
      apply (ref_ret None tt _ (fun p _ L' => p = None /\ L' = Lb ++ Lr)). auto. }
    intros p L' (-> & ->). apply ref_ret. split; [reflexivity|exact Sx].
Qed.

Lemma catch_pair o g hs cs L s x y : signed_pairop o -> Forall2 holds cs s -> g x = true -> g y = true -> sown g hs cs L ->
  exists cs', refines (hcatch_get2 hs x y (fun a b =>
      let* (a, b, r) := h_sboth o a b in hret (update y (Some b) (update x (Some a) hs), option_map done r))) L
      (Val (cs', snd (acatch s (Pair o x y)))) (gpost g) /\
    Forall2 holds cs' (fst (acatch s (Pair o x y))).
Proof.
  intros Ho H Gx Gy So. apply (ref_catch2 g hs cs L s x y); auto.
  { intros D. cbn [astep]. destruct (Nat.eqb_spec x y) as [|N]; [reflexivity|]. unfold get2, get1.
    destruct D as [|[D|D]]; [tauto| |]; destruct (nth_error s x) as [[v|]|]; try reflexivity.
    - now specialize (D v).
    - destruct (nth_error s y) as [[u|]|]; try reflexivity. now specialize (D u). }
  intros a w La b z Lb Lr v u N Ea Ew Ha Eb Ez Hb Ev Eu Rw Rz Hs. rewrite Gx in Ha. rewrite Gy in Hb.
  destruct (rel_open w v Rw) as (Ww & _). destruct (rel_open z u Rz) as (Wz & _).
  destruct (u_both_sim o w z v u Ho Rw Rz) as (w' & z' & r & E & M).
  assert (R : refines (h_sboth o a b) (La ++ Lb) (u_both o w z)
    (fun p q L' => snd p = snd q /\ exists L1 L2, L' = L1 ++ L2 /\ repr (fst (fst p)) (fst (fst q)) L1 /\ repr (snd (fst p)) (snd (fst q)) L2)).
  { destruct Ho as [-> | ->]; cbn [h_sboth u_both].
    - exact (ref_spair SignedDivRem _ sdivrem_sign a w La b z Lb good_udivrem Ha Hb Ww Wz).
    - exact (ref_spair SignedRemDiv _ sremdiv_sign a w La b z Lb good_uremdiv Ha Hb Ww Wz). }
  rewrite E in R. exists (update y (Some z') (update x (Some w') cs)). split.
  - rewrite app_assoc. eapply ref_step; [apply ref_left, R|]. intros [[a' b'] r'] L' (L0 & -> & Er & L1 & L2 & -> & R1 & R2). cbn [fst snd] in *. subst r'.
    apply ref_ret. split.
    + cbn [snd]. unfold acatch, astep. destruct (Nat.eqb_spec x y) as [|_]; [tauto|]. unfold get2, get1. rewrite Ev, Eu.
      destruct (apair o v u) as [[[v' u']|e]|]; cbn [option_map snd].
      * destruct M as (-> & _). reflexivity.
      * destruct M as (_ & _ & k & -> & <-). reflexivity.
      * destruct M as (-> & _). reflexivity.
    + cbn [fst].
      assert (F1 : nth_error (update y None (update x None hs)) y = Some None).
      { apply (nth_update_same y None (Some b)). rewrite nth_update_other; auto. }
      pose proof (sown_fill g _ _ Lr y b' z' L2 Hs F1 ltac:(rewrite Gy; exact R2)) as S1. rewrite !update_twice in S1.
      rewrite (update_swap y x) in S1 by auto. rewrite (update_swap y x) in S1 by auto.
      assert (F2 : nth_error (update x None (update y (Some b') hs)) x = Some None).
      { apply (nth_update_same x None (Some a)). rewrite nth_update_other; auto. }
      pose proof (sown_fill g _ _ (L2 ++ Lr) x a' w' L1 S1 F2 ltac:(rewrite Gx; exact R1)) as S2. rewrite !update_twice in S2.
      rewrite (update_swap y x (Some b')) by auto. rewrite (update_swap y x (Some z')) by auto.
      rewrite <- app_assoc. exact S2.
  - unfold acatch, astep. destruct (Nat.eqb_spec x y) as [|_]; [tauto|]. unfold get2, get1. rewrite Ev, Eu.
    destruct (apair o v u) as [[[v' u']|e]|]; cbn [option_map fst after_panic].
    + destruct M as (_ & M1 & M2). auto using holds_update.
    + destruct M as (-> & -> & _). rewrite (update_id x) by auto. now rewrite update_id.
    + destruct M as (_ & M1 & M2). unfold disturb. rewrite Ev. rewrite nth_update_other by exact N. rewrite Eu. auto using holds_update.
Qed.

Definition may_panic (c : cmd) : Prop :=
  match c with
  | New (NParse _ _) | Bin BSdiv _ _ | Bin BSrem _ _ | IntoBin BSdiv _ _ | IntoBin BSrem _ _ | Pair PSDivRem _ _ | Pair PSRemDiv _ _ => True
  | _ => False
  end.
Lemma astep_total s c : ~ may_panic c -> exists s' o, astep s c = Some (s', o).
Proof.
  assert (E1 : forall {A} (p : A * obs), exists s o, Some p = Some (s, o)) by (intros A [? ?]; eauto).
  destruct c as [n|x|x|m x|m x|m x|o x y|o x y|o x y|x y|x y|o x y|x y|q x]; cbn [astep may_panic]; intros N; unfold get2, get1.
  1: { destruct n; cbn [anew option_map]; try apply E1. tauto. }
  all: repeat match goal with
    | |- context [if Nat.eqb ?a ?b then _ else _] => destruct (Nat.eqb a b)
    | |- context [match nth_error ?l ?i with _ => _ end] => destruct (nth_error l i) as [[?|]|]
    end; try apply E1; eauto.
  1,2: destruct o; try tauto; cbn [abin]; apply E1.
  destruct o; try tauto; cbn [apair option_map]; apply E1.
Qed.

Lemma catch_step_g g hs cs L s c : cmd_ok c -> Forall2 holds cs s -> opens g (length hs) -> allowed g c -> sown g hs cs L ->
  exists cs', refines (hcatch hs c) L (Val (cs', snd (acatch s c))) (gpost g) /\ Forall2 holds cs' (fst (acatch s c)).
Proof.
  intros Hc H Go Gw So. assert (Gn : g (length hs) = true) by (apply Go; lia).
  assert (U : ~ may_panic c -> exists cs', refines (let* (s, o) := hstep hs c in hret (s, Some o)) L (Val (cs', snd (acatch s c))) (gpost g) /\
    Forall2 holds cs' (fst (acatch s c))).
  { intros N. destruct (astep_total s c N) as (s' & o & E). unfold acatch. rewrite E. exact (ref_usual g hs cs L s c Hc H Go Gw So s' o E). }
  unfold hcatch.
  destruct c as [n|x|x|m x|m x|m x|o x y|o x y|o x y|x y|x y|o x y|x y|q x]; try (apply U; cbn; tauto).
  - destruct n as [| | | | | | | | | | | | | | | | | | | |r t]; try (apply U; cbn; tauto).
    destruct Hc as (Hr & Ht). unfold has_type, type_range in Hr. cbn [fst snd] in Hr.
    assert (Er : radix_from r = if (2 <=? r) && (r <=? 36) then Val r else Panic).
    { unfold radix_from, radix_new. destruct ((2 <=? r) && (r <=? 36)); reflexivity. }
    rewrite Er. destruct ((2 <=? r) && (r <=? 36)) eqn:R.
    + assert (E : exists s' o, astep s (New (NParse r t)) = Some (s', o)).
      { cbn [astep anew]. rewrite R. cbn [option_map]. destruct (create s _) as [s' o]. eauto. }
      destruct E as (s' & o & E). unfold acatch. rewrite E.
      apply (ref_usual g hs cs L s (New (NParse r t))); auto. split; [exact Hr|exact Ht].
    + unfold acatch. cbn [astep anew]. rewrite R. cbn [option_map fst snd after_panic]. exists cs. split; [|exact H].
      apply ref_ret. split; [reflexivity|exact So].
  - destruct o; try (apply U; cbn; tauto).
    + exact (catch_bin BSdiv g hs cs L s x y ltac:(now left) H (Gw x ltac:(cbn; auto)) So).
    + exact (catch_bin BSrem g hs cs L s x y ltac:(now right) H (Gw x ltac:(cbn; auto)) So).
  - destruct o; try (apply U; cbn; tauto).
    + exact (catch_into BSdiv g hs cs L s x y ltac:(now left) H (Gw x ltac:(cbn; auto)) Gn So).
    + exact (catch_into BSrem g hs cs L s x y ltac:(now right) H (Gw x ltac:(cbn; auto)) Gn So).
  - destruct o; try (apply U; cbn; tauto).
    + exact (catch_pair PSDivRem g hs cs L s x y ltac:(now left) H (Gw x ltac:(cbn; auto)) (Gw y ltac:(cbn; auto)) So).
    + exact (catch_pair PSRemDiv g hs cs L s x y ltac:(now right) H (Gw x ltac:(cbn; auto)) (Gw y ltac:(cbn; auto)) So).
Qed.

Lemma catch_step hs cs L s c : cmd_ok c -> Forall2 holds cs s -> sown all_owned hs cs L ->
  exists cs', refines (hcatch hs c) L (Val (cs', snd (acatch s c))) upost /\ Forall2 holds cs' (fst (acatch s c)).
Proof. intros Hc H So. exact (catch_step_g all_owned hs cs L s c Hc H ltac:(intros k _; reflexivity) ltac:(intros x _; reflexivity) So). Qed.

Definition apost {R : Type} (s : store) (p : hvars * R) (o : R) (L : list cell) : Prop :=
  snd p = o /\ exists cs, Forall2 holds cs s /\ sown all_owned (fst p) cs L.

Lemma catch_run p : Forall cmd_ok p -> forall hs cs L s, Forall2 holds cs s -> sown all_owned hs cs L ->
  refines (hcatches hs p) L (Val (snd (acatches s p))) (apost (fst (acatches s p))).
Proof.
  induction 1 as [|c p Hc Hp IH]; intros hs cs L s H So; cbn [hcatches acatches].
  - apply ref_ret. split; [reflexivity|]. exists cs. auto.
  - destruct (catch_step hs cs L s c Hc H So) as (cs1 & R1 & H1). destruct (acatch s c) as [s1 o1]. cbn [fst snd] in *.
    eapply ref_step; [exact R1|]. intros [hs1 o'] L1 (Eo & S1). cbn [fst snd] in *. subst o'.
    specialize (IH hs1 cs1 L1 s1 H1 S1). destruct (acatches s1 p) as [s2 os]. cbn [fst snd] in *.
    eapply ref_step; [exact IH|]. intros [hs2 os'] L2 (Eo & K). cbn [fst snd] in *. subst os'. apply ref_ret. split; [reflexivity|exact K].
Qed.

Lemma catch_fact p slack : Forall cmd_ok p ->
  exists vs m cs, exec (hcatches [] p) (empty_memory slack) = MVal (vs, snd (acatches [] p)) m /\
    Forall2 holds cs (fst (acatches [] p)) /\ Forall2 (stored m) vs cs /\ owned_once m vs.
Proof.
  intros Hp. pose proof (catch_run p Hp [] [] [] [] ltac:(constructor) (sown_nil _)) as R.
  pose proof (ref_exec _ _ _ _ [] (empty_memory slack) R (live_empty slack)) as (r & m & L & E & K & Hm).
  destruct r as [vs os]. destruct K as (Eo & cs & Hcs & So). cbn [fst snd] in *. subst os. rewrite app_nil_r in Hm.
  exists vs, m, cs. split; [exact E|]. split; [exact Hcs|]. exact (sown_order _ vs cs L m Hm So ltac:(now exists (fst (acatches [] p)))).
Qed.

Lemma acatches_app p q : forall s, acatches s (p ++ q) =
  let (s1, os) := acatches s p in let (s2, os2) := acatches s1 q in (s2, os ++ os2).
Proof.
  induction p as [|c p IH]; intros s; cbn [app acatches].
  - now destruct (acatches s q).
  - destruct (acatch s c) as [s1 o]. rewrite IH. destruct (acatches s1 p) as [s2 os]. destruct (acatches s2 q). reflexivity.
Qed.
Lemma acatches_drops s : forall n k, (n + k = length s)%nat -> (forall i, (i < k)%nat -> nth_error s i = Some None) ->
  fst (acatches s (map Drop (seq k n))) = repeat None (length s).
Proof.
  intros n. revert s. induction n as [|n IH]; intros s k E Z; cbn [seq map acatches].
  - cbn [fst]. replace k with (length s) in Z by lia. clear E. induction s as [|c s IH]; [reflexivity|].
    cbn [length repeat]. pose proof (Z O ltac:(cbn; lia)) as Z0. cbn in Z0. f_equal; [congruence|]. apply IH. intros i Hi. apply (Z (S i)). cbn. lia.
  - destruct (nth_error s k) as [v|] eqn:Ek; [|apply nth_error_None in Ek; lia].
    assert (exists o, acatch s (Drop k) = (update k None s, o)) as (o & ->).
    { unfold acatch. cbn [astep]. unfold get1. rewrite Ek. destruct v as [x|]; [eauto|]. rewrite update_id by exact Ek. eauto. }
    assert (Lu : length (update k None s) = length s) by apply update_length.
    specialize (IH (update k None s) (S k) ltac:(lia)). rewrite Lu in IH. rewrite <- IH.
    + now destruct (acatches (update k None s) (map Drop (seq (S k) n))).
    + intros i Hi. destruct (Nat.eq_dec k i) as [->|D].
      * exact (nth_update_same i None v s Ek).
      * rewrite nth_update_other by exact D. apply Z. lia.
Qed.

Lemma catch_no_leak_fact p slack : Forall cmd_ok p ->
  exists vs os m, exec (hcatches [] (p ++ map Drop (seq 0 (length (fst (acatches [] p)))))) (empty_memory slack) = MVal (vs, os) m /\ all_freed m.
Proof.
  intros Hp. set (n := length (fst (acatches [] p))). set (q := map Drop (seq 0 n)).
  assert (Hq : Forall cmd_ok (p ++ q)).
  { apply Forall_app. split; [exact Hp|]. unfold q. clear. induction (seq 0 n); constructor; [exact Logic.I|exact IHl]. }
  assert (E : fst (acatches [] (p ++ q)) = repeat None n).
  { rewrite acatches_app. unfold n, q, n. destruct (acatches [] p) as [s os]. cbn [fst].
    pose proof (acatches_drops s (length s) 0 ltac:(lia) ltac:(intros; lia)) as D.
    destruct (acatches s (map Drop (seq 0 (length s)))). exact D. }
  destruct (catch_fact (p ++ q) slack Hq) as (vs & m & cs & X & Hc & S & O). rewrite E in Hc.
  eexists. eexists. exists m. split; [exact X|]. intros b ds Hb. destruct (O b ds Hb) as (i & (a & Ei & _) & _).
  clear - S Ei Hc. revert i Ei. remember (repeat (@None aval) n) as l eqn:El.
  assert (A : forall c, In c l -> c = None) by (intros c Hi; rewrite El in Hi; now apply repeat_spec in Hi). clear El.
  revert l A Hc. induction S as [|v c vs cs Hv S IH]; intros l A Hc [|i] Ei; cbn in Ei; try discriminate.
  - injection Ei as ->. inversion Hc as [|? z ? l' Hz Hl]; subst. rewrite (A z ltac:(now left)) in Hz. destruct c; [exact Hz|exact Hv].
  - inversion Hc as [|? z ? l' Hz Hl]; subst. apply (IH l' ltac:(intros; apply A; now right) Hl i Ei).
Qed.

(** Nothing panics: both machines agree. *)
Lemma catch_none_fact p s os : arun [] p = Some (s, os) -> acatches [] p = (s, map Some os).
Proof.
  generalize (@nil (option aval)). revert s os. induction p as [|c p IH]; intros s os s0; cbn [arun acatches].
  - intros E. injection E as <- <-. reflexivity.
  - unfold acatch. destruct (astep s0 c) as [[s1 o]|]; [|discriminate]. destruct (arun s1 p) as [[s2 os']|] eqn:E; [|discriminate].
    intros F. injection F as <- <-. rewrite (IH _ _ _ E). reflexivity.
Qed.

Lemma catch_same_fact p slack vs os m : Forall cmd_ok p -> exec (hrun [] p) (empty_memory slack) = MVal (vs, os) m ->
  exists vs' m', exec (hcatches [] p) (empty_memory slack) = MVal (vs', map Some os) m'.
Proof.
  intros Hp E. destruct (heap_fact p slack Hp) as [(_ & E')|(cs & os' & vs' & m' & Ec & E' & _)]; [congruence|].
  assert (os' = os) by congruence. subst os'. pose proof (simulation_fact p Hp) as Sm.
  destruct (arun [] p) as [[s os']|] eqn:Ea; [|congruence]. destruct Sm as (cs' & Ec' & _). assert (os' = os) by congruence. subst os'.
  destruct (catch_fact p slack Hp) as (vs2 & m2 & cs2 & X & _). rewrite (catch_none_fact p s os Ea) in X. eauto.
Qed.

Lemma stored_unique m v x y : stored m v x -> stored m v y -> x = y.
Proof.
  destruct v as [a|], x as [x|], y as [y|]; cbn [stored]; try tauto. intros (L1 & D1 & I1 & E1) (L2 & D2 & I2 & E2).
  f_equal. destruct x as [w ds], y as [w' es]; cbn [len digits] in *. assert (w = w') by congruence. subst w' w. f_equal.
  destruct (Z_le_gt_dec (hlen a) 64) as [D|D].
  - destruct (I1 D) as (d & F1 & ->). destruct (I2 D) as (e & F2 & ->). congruence.
  - destruct (E1 ltac:(lia)) as (q & F1 & G1). destruct (E2 ltac:(lia)) as (q' & F2 & G2). congruence.
Qed.

Lemma disturb_other s x i : i <> x -> nth_error (disturb s x) i = nth_error s i.
Proof. intros N. unfold disturb. destruct (nth_error s x) as [[a|]|]; auto. now rewrite nth_update_other by auto. Qed.
Lemma disturb_same s x a : nth_error s x = Some (Some a) -> nth_error (disturb s x) x = Some (Some (magnitude a)).
Proof. intros E. unfold disturb. rewrite E. exact (nth_update_same x _ _ s E). Qed.

Lemma panic_store s c i a : astep s c = None -> nth_error s i = Some (Some a) ->
  nth_error (after_panic s c) i =
    if in_dec Nat.eq_dec i (writes c) then match c with IntoBin _ _ _ => Some None | _ => Some (Some (magnitude a)) end else Some (Some a).
Proof.
  intros P E. assert (M : may_panic c).
  { destruct c as [n|x|x|m x|m x|m x|o x y|o x y|o x y|x y|x y|o x y|x y|q x]; try (destruct n); try (destruct o); cbn [may_panic]; auto;
    match goal with |- False => idtac end; 
    match type of P with astep ?s ?c = None => destruct (astep_total s c ltac:(cbn; tauto)) as (? & ? & ?); congruence end. }
  assert (D : forall o x y, c = Pair o x y -> x <> y).
  { intros o x y ->. cbn [astep] in P. destruct (Nat.eqb_spec x y); [discriminate|auto]. }
  destruct c as [n|x|x|m x|m x|m x|o x y|o x y|o x y|x y|x y|o x y|x y|q x]; cbn [may_panic] in M; try tauto; cbn [after_panic writes].
  - destruct (in_dec Nat.eq_dec i [x]) as [[<-|[]]|N]; [now apply disturb_same|]. rewrite disturb_other; auto. intros ->. apply N. now left.
  - destruct (in_dec Nat.eq_dec i [x]) as [[<-|[]]|N]; [exact (nth_update_same x _ _ s E)|].
    rewrite nth_update_other; auto. intros ->. apply N. now left.
  - specialize (D o x y eq_refl). destruct (in_dec Nat.eq_dec i [x; y]) as [[<-|[<-|[]]]|N].
    + rewrite disturb_other by auto. now apply disturb_same.
    + apply disturb_same. now rewrite disturb_other by auto.
    + rewrite !disturb_other; auto; intros ->; apply N; cbn; auto.
Qed.

Lemma forall2_get {A B} (R : A -> B -> Prop) l l' i : Forall2 R l l' ->
  match nth_error l i, nth_error l' i with Some a, Some b => R a b | None, None => True | _, _ => False end.
Proof. intros H. revert i. induction H as [|a b l l' Hab H IH]; intros [|i]; cbn; auto. apply IH. Qed.

Lemma panic_effect_fact p c slack vs os m vs' m' i v x : Forall cmd_ok p -> cmd_ok c ->
  exec (hcatches [] p) (empty_memory slack) = MVal (vs, os) m ->
  exec (hcatches [] (p ++ [c])) (empty_memory slack) = MVal (vs', os ++ [None]) m' ->
  nth_error vs i = Some v -> stored m v (Some x) ->
  exists v', nth_error vs' i = Some v' /\
    if in_dec Nat.eq_dec i (writes c) then
      match c with
      | IntoBin _ _ _ => v' = None
      | _ => exists y, stored m' v' (Some y) /\ is_apint y (len x) (Z.abs (signed x))
      end
    else stored m' v' (Some x).
Proof.
  intros Hp Hc E1 E2 Ei Sx.
  destruct (catch_fact p slack Hp) as (vs1 & m1 & cs1 & X1 & H1 & S1 & _). rewrite E1 in X1. injection X1 as <- Eo <-.
  destruct (catch_fact (p ++ [c]) slack ltac:(apply Forall_app; auto)) as (vs2 & m2 & cs2 & X2 & H2 & S2 & _).
  rewrite E2 in X2. injection X2 as <- Eo2 <-. rewrite acatches_app in H2, Eo2. destruct (acatches [] p) as [s os1]. cbn [fst snd] in *. subst os1.
  cbn [acatches] in H2, Eo2. destruct (acatch s c) as [s' o] eqn:Ec. cbn [fst snd] in *.
  apply app_inv_head in Eo2. injection Eo2 as <-. unfold acatch in Ec. destruct (astep s c) as [[? ?]|] eqn:Es; [discriminate|]. injection Ec as <-.
  pose proof (forall2_get _ _ _ i S1) as G1. rewrite Ei in G1. destruct (nth_error cs1 i) as [x1|] eqn:Ex; [|tauto].
  pose proof (stored_unique m v x1 (Some x) G1 Sx). subst x1.
  pose proof (get_sim cs1 s i H1) as G2. rewrite Ex in G2. destruct (nth_error s i) as [[a|]|] eqn:Ea; try tauto.
  destruct (rel_open x a G2) as (Wx & La & Ua & Sa).
  pose proof (panic_store s c i a Es Ea) as P.
  pose proof (get_sim cs2 (after_panic s c) i H2) as G3. rewrite P in G3.
  pose proof (forall2_get _ _ _ i S2) as G4.
  destruct (in_dec Nat.eq_dec i (writes c)) as [I|I].
  - assert (Q : forall (K : nth_error (after_panic s c) i = Some (Some (magnitude a))), exists v', nth_error vs' i = Some v' /\
      exists y, stored m' v' (Some y) /\ is_apint y (len x) (Z.abs (signed x))).
    { intros K. pose proof (get_sim cs2 (after_panic s c) i H2) as G5. rewrite K in G5.
      destruct (nth_error cs2 i) as [[y|]|]; try tauto. destruct (nth_error vs' i) as [v'|]; [|tauto]. exists v'. split; [reflexivity|].
      exists y. split; [exact G4|]. unfold rel, magnitude in G5. cbn [fst snd] in G5. now rewrite La, Sa in G5. }
    destruct c; try (exact (Q P)).
    destruct (nth_error cs2 i) as [[?|]|]; try tauto. destruct (nth_error vs' i) as [v'|]; [|tauto]. exists v'. split; [reflexivity|].
    destruct v'; [destruct G4|reflexivity].
  - destruct (nth_error cs2 i) as [[y|]|] eqn:Ey; try tauto. destruct (nth_error vs' i) as [v'|]; [|tauto]. exists v'. split; [reflexivity|].
    assert (y = x). { unfold rel in G2, G3. exact (is_apint_unique _ _ _ _ G3 G2). } now subst y.
Qed.

Lemma panic_changes_fact : exists p c vs os m vs' m' v v' x y,
  Forall cmd_ok p /\ cmd_ok c /\
  exec (hcatches [] p) (empty_memory (fun n => n)) = MVal (vs, os) m /\
  exec (hcatches [] (p ++ [c])) (empty_memory (fun n => n)) = MVal (vs', os ++ [None]) m' /\
  nth_error vs 0 = Some v /\ stored m v (Some x) /\ nth_error vs' 0 = Some v' /\ stored m' v' (Some y) /\
  signed x = -5 /\ signed y = 5.
Proof.
  exists [New (NI8 (-5)); New (NU16 7)], (Bin BSdiv 0 1).
  do 5 eexists. exists (Some (mk_hapint 8 (UInl 251))), (Some (mk_hapint 8 (UInl 5))), (mk_apint 8 [251]), (mk_apint 8 [5]).
  split; [repeat constructor; cbn; lia|]. split; [exact Logic.I|].
  split; [vm_compute; reflexivity|]. split; [vm_compute; reflexivity|].
  split; [reflexivity|]. split; [split; [reflexivity|split; [reflexivity|split; [intros _; exists 251; auto|cbn; lia]]]|].
  split; [reflexivity|]. split; [split; [reflexivity|split; [reflexivity|split; [intros _; exists 5; auto|cbn; lia]]]|].
  split; reflexivity.
Qed.
