(** Proofs about signed division on a machine whose [usize] is small. *)
From Verif Require Export LUsize5 MUsizeSigned LDiv7.

Lemma bind_same {A B} (m : outcome A) (f g : A -> outcome B) :
  (forall x, m = Val x -> f x = g x) -> (let! x := m in f x) = (let! x := m in g x).
Proof. destruct m; cbn; auto. Qed.
Lemma neg_if_kept f x y : wf x -> neg_if f x = Val y -> wf y /\ len y = len x.
Proof.
  intros W E. destruct f; cbn [neg_if] in E.
  - destruct (wrapping_neg_spec x W) as (c & E' & Hc). rewrite E in E'. injection E' as <-.
    destruct Hc as (Wc & Lc & _). auto.
  - injection E as <-. auto.
Qed.
Lemma z_divide_signed M checks a b : usize_bound M -> wf a -> wf b -> len a <= M - 64 ->
  z_wrapping_sdivrem_assign M checks a b = wrapping_sdivrem_assign a b /\
  z_wrapping_sremdiv_assign M checks a b = wrapping_sremdiv_assign a b /\
  z_wrapping_sdiv_assign M checks a b = wrapping_sdiv_assign a b /\
  z_wrapping_srem_assign M checks a b = wrapping_srem_assign a b.
Proof.
  intros HM Ha Hb HL.
  unfold z_wrapping_sdivrem_assign, wrapping_sdivrem_assign, z_wrapping_sremdiv_assign, wrapping_sremdiv_assign,
    z_wrapping_sdiv_assign, wrapping_sdiv_assign, z_wrapping_srem_assign, wrapping_srem_assign.
  assert (D : forall ml mr x y, neg_if ml a = Val x -> neg_if mr b = Val y ->
    z_wrapping_udivrem_assign M checks x y = wrapping_udivrem_assign x y /\
    z_wrapping_uremdiv_assign M checks x y = wrapping_uremdiv_assign x y).
  { intros ml mr x y Ex Ey. destruct (neg_if_kept _ _ _ Ha Ex) as (Wx & Lx). destruct (neg_if_kept _ _ _ Hb Ey) as (Wy & _).
    destruct (z_divide M checks x y HM Wx Wy ltac:(lia)) as (E1 & E2 & _). auto. }
  rewrite (clone_spec b Hb). cbn [bind].
  repeat split; apply bind_same; intros z _; destruct z; try reflexivity;
    apply bind_same; intros ml _; apply bind_same; intros mr _; destruct ml, mr;
    apply bind_same; intros x Ex; apply bind_same; intros y Ey;
    destruct (D _ _ _ _ Ex Ey) as (E1 & E2); rewrite ?E1, ?E2; reflexivity.
Qed.
