(** The machine over the code of [UInt] and [Int] simulates the abstract one:
    stores and programs. *)
From Verif Require Export LTyped2.

Lemma tget_sim cs s x : Forall2 tholds cs s ->
  match nth_error cs x, nth_error s x with
  | Some (Some a), Some (Some v) => tholds (Some a) (Some v)
  | Some None, Some None => True
  | None, None => True
  | _, _ => False
  end.
Proof.
  intros H. revert x. induction H as [|a v cs s Hav H IH]; intros [|x]; cbn [nth_error]; auto; [|apply IH].
  destruct a as [[a|a]|], v as [[[|] w z]|]; auto.
Qed.
Lemma tupdate_sim cs s x a v : Forall2 tholds cs s -> tholds a v -> Forall2 tholds (update x a cs) (update x v s).
Proof.
  intros H Hav. revert x. induction H as [|a' v' cs s Hav' H IH]; intros [|x]; cbn [update]; constructor; auto.
Qed.

Definition tstep_rel (m : tstep_result) (r : option (tstore * tobs)) : Prop :=
  match r with
  | None => m = Panic
  | Some (s, o) => exists cs, m = Val (cs, o) /\ Forall2 tholds cs s
  end.
Lemma treject_sim cs s : Forall2 tholds cs s -> tstep_rel (reject cs) (Some (s, rejected)).
Proof. intros H. exists cs. auto. Qed.
Lemma tget1_sim cs s x f f' : Forall2 tholds cs s ->
  (forall a v, nth_error cs x = Some (Some a) -> tholds (Some a) (Some v) -> tstep_rel (f a) (f' v)) ->
  tstep_rel (mget1 cs x f) (tget1 s x f').
Proof.
  intros H Hf. pose proof (tget_sim cs s x H) as G. unfold mget1, tget1.
  destruct (nth_error cs x) as [[a|]|], (nth_error s x) as [[v|]|]; try contradiction; [now apply Hf| |]; now apply treject_sim.
Qed.
Lemma tget2_sim cs s x y fu fi f' : Forall2 tholds cs s ->
  (forall a b w z w' z', nth_error cs x = Some (Some (VU a)) -> is_uint a w z -> is_uint b w' z' ->
    tstep_rel (fu a b) (f' (mk_tval KU w z) (mk_tval KU w' z'))) ->
  (forall a b w z w' z', nth_error cs x = Some (Some (VI a)) -> is_int a w z -> is_int b w' z' ->
    tstep_rel (fi a b) (f' (mk_tval KI w z) (mk_tval KI w' z'))) ->
  tstep_rel (mget2 cs x y fu fi) (tget2 s x y f').
Proof.
  intros H Hu Hi. unfold mget2, tget2. apply tget1_sim; [exact H|]. intros a v Ea Ha. apply tget1_sim; [exact H|]. intros b u _ Hb.
  destruct a as [a|a], v as [[|] w z], b as [b|b], u as [[|] w' z']; cbn [tholds tkind same_kind] in *; try contradiction; auto using treject_sim.
Qed.
Lemma tget2'_sim cs s x y fu fi f' : Forall2 tholds cs s ->
  (forall a b w z w' z', nth_error cs x = Some (Some (VU a)) -> is_uint a w z -> is_uint b w' z' ->
    tstep_rel (fu a b) (f' (mk_tval KU w z) (mk_tval KU w' z'))) ->
  (forall a b w z w' z', nth_error cs x = Some (Some (VI a)) -> is_int a w z -> is_int b w' z' ->
    tstep_rel (fi a b) (f' (mk_tval KI w z) (mk_tval KI w' z'))) ->
  tstep_rel (mget2' cs x y fu fi) (tget2' s x y f').
Proof. intros H Hu Hi. unfold mget2', tget2'. destruct (Nat.eqb x y); [now apply treject_sim|now apply tget2_sim]. Qed.

Lemma good_u c v : good is_uint KU c v -> tholds (Some (VU c)) (Some v).
Proof. intros (E & H). destruct v as [k w z]. cbn in E. subst k. exact H. Qed.
Lemma good_i c v : good is_int KI c v -> tholds (Some (VI c)) (Some v).
Proof. intros (E & H). destruct v as [k w z]. cbn in E. subst k. exact H. Qed.

Section Steps.
Context {T : Type} (P : T -> Z -> Z -> Prop) (k : kind) (V : T -> tvar).
Hypothesis HV : forall c v, good P k c v -> tholds (Some (V c)) (Some v).

Lemma mcreate_sim cs s m r : Forall2 tholds cs s -> trel_res P k m r ->
  tstep_rel (mcreate V cs m) (option_map (tcreate s) r).
Proof.
  intros H Hr. unfold mcreate. destruct r as [[v|e]|]; cbn [option_map tcreate tstep_rel trel_res] in *.
  - destruct Hr as (a & -> & Hav). cbn [bind]. exists (cs ++ [Some (V a)]). split; [reflexivity|]. apply Forall2_app; auto.
  - destruct Hr as (er & -> & <-). exists cs. auto.
  - rewrite Hr. reflexivity.
Qed.
Lemma mcreate_opt_sim cs s m r : Forall2 tholds cs s -> trel_new P k m r ->
  tstep_rel (mcreate_opt V cs m) (Some (match r with
    | inl (Some v) => (s ++ [Some v], Shows ODone) | inl None => (s, Nothing) | inr e => (s, Shows (OFail e)) end)).
Proof.
  intros H Hr. unfold mcreate_opt. destruct r as [[v|]|e]; cbn [tstep_rel trel_new] in *.
  - destruct Hr as (a & -> & Hav). cbn [bind]. exists (cs ++ [Some (V a)]). split; [reflexivity|]. apply Forall2_app; auto.
  - rewrite Hr. exists cs. auto.
  - destruct Hr as (er & -> & <-). exists cs. auto.
Qed.
Lemma mchange_sim cs s x a m r : Forall2 tholds cs s -> nth_error cs x = Some (Some (V a)) -> trel_mut P k a m r ->
  tstep_rel (mchange V cs x m) (option_map (tchange s x) r).
Proof.
  intros H Hx Hr. unfold mchange. destruct r as [[v|e]|]; cbn [option_map tchange tstep_rel trel_mut] in *.
  - destruct Hr as (c & -> & Hcv). cbn [bind done]. exists (update x (Some (V c)) cs). split; [reflexivity|]. auto using tupdate_sim.
  - destruct Hr as (er & -> & <-). cbn [bind done]. exists (update x (Some (V a)) cs). split; [reflexivity|]. now rewrite update_id.
  - rewrite Hr. reflexivity.
Qed.
End Steps.
Lemma mshow_sim cs s m o : Forall2 tholds cs s -> m = Val o -> tstep_rel (mshow cs m) (Some (s, Shows o)).
Proof. intros H ->. exists cs. auto. Qed.

Lemma some_map {A B : Type} (f : A -> B) r : Some (f r) = option_map f (Some r). Proof. reflexivity. Qed.

(** Which form exists. *)
Lemma umut_all f m a w z : tmut_ok m -> is_uint a w z ->
  (if has_mut f KU m then exists g, umut f m a = Some g /\ trel_mut is_uint KU a g (by_form f (tamut m (mk_tval KU w z)))
    else umut f m a = None) /\
  (if has_into f KU m then exists g, uinto f m a = Some g /\ trel_res is_uint KU g (by_form f (tamut m (mk_tval KU w z)))
    else uinto f m a = None).
Proof.
  intros Hm Ha. assert (D : m = TAbs \/ m <> TAbs) by (destruct m; (now left) || (right; discriminate)). destruct D as [->|D].
  - destruct f; split; reflexivity.
  - destruct (umut_sim m a w z Hm Ha D) as (g & h & E1 & E2 & R1 & R2). destruct f.
    + assert (Hh : for_kind KU (signed_only_mut m) = true) by (destruct m; (contradiction || reflexivity)).
      cbn [has_mut has_into]. rewrite Hh. split; [exists g|exists h]; auto.
    + destruct m as [| | |n|n|n|n|n]; cbn [has_mut has_into umut uinto] in *; split; try reflexivity; eexists; (split; [reflexivity|]);
        injection E1 as <-; injection E2 as <-.
      * exact R2.
      * exact R2.
      * exact (operator_mut _ _ _ _ _ R1).
      * exact (operator_res _ _ _ _ R2).
      * exact (operator_mut _ _ _ _ _ R1).
      * exact (operator_res _ _ _ _ R2).
Qed.
Lemma imut_all f m a w z : tmut_ok m -> is_int a w z ->
  (if has_mut f KI m then exists g, imut f m a = Some g /\ trel_mut is_int KI a g (by_form f (tamut m (mk_tval KI w z)))
    else imut f m a = None) /\
  (if has_into f KI m then exists g, iinto f m a = Some g /\ trel_res is_int KI g (by_form f (tamut m (mk_tval KI w z)))
    else iinto f m a = None).
Proof.
  intros Hm Ha. destruct (imut_sim m a w z Hm Ha) as (g & h & E1 & E2 & R1 & R2). destruct f.
  - cbn [has_mut has_into for_kind]. split; [exists g|exists h]; auto.
  - destruct m as [| | |n|n|n|n|n]; cbn [has_mut has_into imut iinto] in *; split; try reflexivity; eexists; (split; [reflexivity|]);
      injection E1 as <-; injection E2 as <-.
    + exact R2.
    + exact R2.
    + exact (operator_mut _ _ _ _ _ R1).
    + exact (operator_res _ _ _ _ R2).
    + exact (operator_mut _ _ _ _ _ R1).
    + exact (operator_res _ _ _ _ R2).
Qed.
Lemma ubin_all f o a b w z w' z' : is_uint a w z -> is_uint b w' z' ->
  trel_mut is_uint KU a (ubin f o a b) (opt_bind (tabin o (mk_tval KU w z) (mk_tval KU w' z')) (by_form f)) /\
  trel_res is_uint KU (ubin_into f o a b) (opt_bind (tabin o (mk_tval KU w z) (mk_tval KU w' z')) (by_form f)).
Proof.
  intros Ha Hb. destruct (ubin_sim o a b w z w' z' Ha Hb) as (R1 & R2). destruct f; [rewrite method_form'; auto|].
  apply operator_mut' in R1. apply operator_res' in R2. destruct o; split; [exact R1|exact R2|exact R1|exact R2|exact R1|exact R2|
    exact R1|exact R2|exact R1|exact R2|exact R1|exact R2|exact R1|exact R2|exact R1|exact R2].
Qed.
Lemma ibin_all f o a b w z w' z' : is_int a w z -> is_int b w' z' ->
  trel_mut is_int KI a (ibin f o a b) (opt_bind (tabin o (mk_tval KI w z) (mk_tval KI w' z')) (by_form f)) /\
  trel_res is_int KI (ibin_into f o a b) (opt_bind (tabin o (mk_tval KI w z) (mk_tval KI w' z')) (by_form f)).
Proof.
  intros Ha Hb. destruct (ibin_sim o a b w z w' z' Ha Hb) as (R1 & R2). destruct f; [rewrite method_form'; auto|].
  apply operator_mut' in R1. apply operator_res' in R2. destruct o; split; [exact R1|exact R2|exact R1|exact R2|exact R1|exact R2|
    exact R1|exact R2|exact R1|exact R2|exact R1|exact R2|exact R1|exact R2|exact R1|exact R2].
Qed.

Lemma good_mk {T : Type} (P : T -> Z -> Z -> Prop) k c w z : P c w z -> good P k c (mk_tval k w z).
Proof. intros H. split; auto. Qed.
Lemma to_int a w z : is_apint a w (z mod 2 ^ w) -> is_int (mk_int a) w (norm KI w z).
Proof. intros H. apply int_of_mod; [|exact H]. destruct H as (W & <- & _). now apply wf_len. Qed.
Lemma of_int a w z : is_int a w z -> is_apint (iapint a) w (z mod 2 ^ w).
Proof. intros H. destruct (is_int_open a w z H) as (W & L & _ & _ & U). split; auto. Qed.
Lemma of_uint a w z : is_uint a w z -> is_apint (uapint a) w (z mod 2 ^ w).
Proof. intros H. pose proof (uint_norm a w z H) as E. cbn [norm] in E. rewrite E. exact H. Qed.

Lemma tstep_sim cs s c : tcmd_ok c -> Forall2 tholds cs s -> tstep_rel (tstep cs c) (tastep s c).
Proof.
  intros Hc H. pose proof (treject_sim cs s H) as RJ.
  assert (Hn : forall x, Forall2 tholds (update x None cs) (update x None s)) by (intros x; apply tupdate_sim; [exact H|exact I]).
  pose proof (fun V' => mcreate_sim is_uint KU VU good_u V') as CU. pose proof (fun V' => mcreate_sim is_int KI VI good_i V') as CI.
  pose proof (fun V' => mchange_sim is_uint KU VU good_u V') as MU. pose proof (fun V' => mchange_sim is_int KI VI good_i V') as MI.
  destruct c as [k n|x|x|f m x|f m x|m x|f o x y|f o x y|x y|x y|o x y|o x y|x y|x y|x|k x|q x]; cbn [tcmd_ok tstep tastep] in *.
  - destruct k.
    + apply (mcreate_opt_sim is_uint KU VU good_u); [exact H|now apply unew_sim].
    + apply (mcreate_opt_sim is_int KI VI good_i); [exact H|now apply inew_sim].
  - apply tget1_sim; [exact H|]. intros a v _ Ha. destruct a as [a|a], v as [[|] w z]; try contradiction; cbn [tholds] in Ha.
    + destruct (uint_other_fact a a w z w z Ha Ha) as (-> & _). exists (cs ++ [Some (VU a)]). split; [reflexivity|]. apply Forall2_app; auto.
    + destruct (int_other_fact a a w z w z Ha Ha) as (-> & _). exists (cs ++ [Some (VI a)]). split; [reflexivity|]. apply Forall2_app; auto.
  - apply tget1_sim; [exact H|]. intros a v _ _. exists (update x None cs). auto.
  - apply tget1_sim; [exact H|]. intros a v Ea Ha. destruct a as [a|a], v as [[|] w z]; try contradiction; cbn [tholds tkind] in *.
    + destruct (umut_all f m a w z Hc Ha) as (E & _). destruct (has_mut f KU m).
      * destruct E as (g & -> & R). cbn [if_any]. exact (MU cs s x a g _ H Ea R).
      * rewrite E. exact RJ.
    + destruct (imut_all f m a w z Hc Ha) as (E & _). destruct (has_mut f KI m).
      * destruct E as (g & -> & R). cbn [if_any]. exact (MI cs s x a g _ H Ea R).
      * rewrite E. exact RJ.
  - apply tget1_sim; [exact H|]. intros a v Ea Ha. destruct a as [a|a], v as [[|] w z]; try contradiction; cbn [tholds tkind] in *.
    + destruct (umut_all f m a w z Hc Ha) as (_ & E). destruct (has_into f KU m).
      * destruct E as (g & -> & R). cbn [if_any]. exact (CU _ _ g _ (Hn x) R).
      * rewrite E. exact RJ.
    + destruct (imut_all f m a w z Hc Ha) as (_ & E). destruct (has_into f KI m).
      * destruct E as (g & -> & R). cbn [if_any]. exact (CI _ _ g _ (Hn x) R).
      * rewrite E. exact RJ.
  - apply tget1_sim; [exact H|]. intros a v Ea Ha. destruct a as [a|a], v as [[|] w z]; try contradiction; cbn [tholds tkind for_kind] in *.
    + destruct (signed_only_set m) eqn:So; cbn [negb].
      * destruct m; try discriminate; exact RJ.
      * destruct (uput_sim m a w z Hc Ha So) as (g & -> & R). cbn [if_any]. rewrite some_map. exact (MU cs s x a g _ H Ea R).
    + rewrite some_map. exact (MI cs s x a _ _ H Ea (iput_sim m a w z Hc Ha)).
  - apply tget2'_sim; [exact H| |]; intros a b w z w' z' Ea Ha Hb.
    + exact (MU cs s x a _ _ H Ea (proj1 (ubin_all f o a b w z w' z' Ha Hb))).
    + exact (MI cs s x a _ _ H Ea (proj1 (ibin_all f o a b w z w' z' Ha Hb))).
  - apply tget2'_sim; [exact H| |]; intros a b w z w' z' Ea Ha Hb.
    + exact (CU _ _ _ _ (Hn x) (proj2 (ubin_all f o a b w z w' z' Ha Hb))).
    + exact (CI _ _ _ _ (Hn x) (proj2 (ibin_all f o a b w z w' z' Ha Hb))).
  - apply tget2'_sim; [exact H| |]; intros a b w z w' z' Ea Ha Hb.
    + destruct (uint_other_fact a b w z w' z' Ha Hb) as (_ & -> & _). exists (update x (Some (VU b)) cs). split; [reflexivity|]. now apply tupdate_sim.
    + destruct (int_other_fact a b w z w' z' Ha Hb) as (_ & -> & _). exists (update x (Some (VI b)) cs). split; [reflexivity|]. now apply tupdate_sim.
  - apply tget2'_sim; [exact H| |]; intros a b w z w' z' Ea Ha Hb; cbn [twidth]; rewrite some_map.
    + apply (MU cs s x a _ _ H Ea). destruct (Z.eqb_spec w w') as [E|N].
      * destruct (uint_other_fact a b w z w' z' Ha Hb) as (_ & _ & A & _). exists b. split; [exact (A E)|]. now apply good_mk.
      * assert (N' : uint_width a <> uint_width b).
        { rewrite (proj1 (uint_query_fact a w z Ha)), (proj1 (uint_query_fact b w' z' Hb)). exact N. }
        eexists. split; [exact (proj2 (proj2 (proj2 (proj2 (proj2 (proj2 (proj2 (proj2 (proj2 (proj2 (proj2 (proj2 (proj2 (proj2 (proj2 (proj2 (uint_mismatch_fact a b N'))))))))))))))))) |].
        cbn [observe]. now rewrite (proj1 (uint_query_fact a w z Ha)), (proj1 (uint_query_fact b w' z' Hb)).
    + apply (MI cs s x a _ _ H Ea). destruct (Z.eqb_spec w w') as [E|N].
      * destruct (int_other_fact a b w z w' z' Ha Hb) as (_ & _ & A & _). exists b. split; [exact (A E)|]. now apply good_mk.
      * assert (N' : int_width a <> int_width b).
        { rewrite (proj1 (int_query_fact a w z Ha)), (proj1 (int_query_fact b w' z' Hb)). exact N. }
        eexists. split; [exact (proj2 (proj2 (proj2 (proj2 (proj2 (proj2 (proj2 (proj2 (proj2 (proj2 (proj2 (proj2 (int_mismatch_fact a b N')))))))))))))|].
        cbn [observe]. now rewrite (proj1 (int_query_fact a w z Ha)), (proj1 (int_query_fact b w' z' Hb)).
  - apply tget2_sim; [exact H| |]; intros a b w z w' z' Ea Ha Hb; apply mshow_sim; [exact H| |exact H|].
    + exact (proj1 (ucmp_sim o a b w z w' z' Ha Hb)).
    + exact (proj1 (icmp_sim o a b w z w' z' Ha Hb)).
  - apply tget2_sim; [exact H| |]; intros a b w z w' z' Ea Ha Hb; (apply mshow_sim; [exact H|]); unfold obs_bool.
    + now rewrite (proj1 (proj2 (ucmp_sim o a b w z w' z' Ha Hb))).
    + now rewrite (proj1 (proj2 (icmp_sim o a b w z w' z' Ha Hb))).
  - apply tget2_sim; [exact H| |]; intros a b w z w' z' Ea Ha Hb.
    + rewrite (proj1 (proj2 (proj2 (ucmp_sim TLt a b w z w' z' Ha Hb)))). exists cs. auto.
    + rewrite (proj1 (proj2 (proj2 (icmp_sim TLt a b w z w' z' Ha Hb)))). exists cs. auto.
  - apply tget2_sim; [exact H| |]; intros a b w z w' z' Ea Ha Hb; (apply mshow_sim; [exact H|]); cbn [twidth tvalue].
    + now rewrite (proj2 (proj2 (proj2 (ucmp_sim TLt a b w z w' z' Ha Hb)))).
    + now rewrite (proj2 (proj2 (proj2 (icmp_sim TLt a b w z w' z' Ha Hb)))).
  - apply tget1_sim; [exact H|]. intros a v Ea Ha. destruct a as [a|a], v as [[|] w z]; try contradiction; cbn [tholds tkind twidth tvalue] in *.
    + rewrite some_map. apply CI; [apply Hn|]. eexists. split; [reflexivity|]. apply good_mk. apply to_int. now apply of_uint.
    + rewrite some_map. apply CU; [apply Hn|]. eexists. split; [reflexivity|]. apply good_mk. now apply of_int.
  - apply tget1_sim; [exact H|]. intros a v Ea Ha. rewrite some_map. destruct a as [a|a], v as [[|] w z]; try contradiction; destruct k; cbn [tholds tkind twidth tvalue] in *.
    + apply CU; [apply Hn|]. eexists. split; [reflexivity|]. apply good_mk. now apply of_uint.
    + apply CI; [apply Hn|]. eexists. split; [reflexivity|]. apply good_mk. apply to_int. now apply of_uint.
    + apply CU; [apply Hn|]. eexists. split; [reflexivity|]. apply good_mk. now apply of_int.
    + apply CI; [apply Hn|]. eexists. split; [reflexivity|]. apply good_mk. apply to_int. now apply of_int.
  - apply tget1_sim; [exact H|]. intros a v Ea Ha.
    assert (Hq : match q with TBit p => 0 <= p | _ => True end) by (destruct q; auto).
    destruct a as [a|a], v as [[|] w z]; try contradiction; cbn [tholds tkind for_kind] in *.
    + destruct (signed_only_query q) eqn:So; cbn [negb].
      * destruct q; try discriminate; exact RJ.
      * destruct (uask_sim q a w z Hq Ha So) as (g & -> & R). cbn [if_any]. destruct (taask q (mk_tval KU w z)) as [o|]; cbn [option_map].
        -- now apply mshow_sim.
        -- rewrite R. reflexivity.
    + pose proof (iask_sim q a w z Hq Ha) as R. destruct (taask q (mk_tval KI w z)) as [o|]; cbn [option_map].
      * now apply mshow_sim.
      * rewrite R. reflexivity.
Qed.

Lemma trun_sim p : Forall tcmd_ok p -> forall cs s, Forall2 tholds cs s ->
  match tarun s p with
  | None => trun cs p = Panic
  | Some (s', os) => exists cs', trun cs p = Val (cs', os) /\ Forall2 tholds cs' s'
  end.
Proof.
  induction 1 as [|c p Hc Hp IH]; intros cs s H; cbn [tarun trun].
  - exists cs. auto.
  - pose proof (tstep_sim cs s c Hc H) as St. destruct (tastep s c) as [[s1 o]|]; cbn [tstep_rel opt_bind] in *.
    + destruct St as (cs1 & -> & H1). cbn [bind]. specialize (IH cs1 s1 H1). destruct (tarun s1 p) as [[s2 os]|]; cbn [option_map].
      * destruct IH as (cs2 & -> & H2). cbn [bind]. exists cs2. auto.
      * rewrite IH. reflexivity.
    + rewrite St. reflexivity.
Qed.

Lemma typed_simulation_fact p : Forall tcmd_ok p ->
  match tarun [] p with
  | None => trun [] p = Panic
  | Some (s, os) => exists cs, trun [] p = Val (cs, os) /\ Forall2 tholds cs s
  end.
Proof. intros H. apply (trun_sim p H [] []). constructor. Qed.

(** Memory is determined by what the abstract machine says. *)
Lemma tholds_unique a b v : tholds a v -> tholds b v -> a = b.
Proof.
  destruct a as [[a|a]|], b as [[b|b]|], v as [[[|] w z]|]; cbn [tholds]; try contradiction; auto; intros Ha Hb.
  - do 2 f_equal. destruct a as [a], b as [b]. f_equal. exact (is_apint_unique a b w z Ha Hb).
  - do 2 f_equal. pose proof (of_int a w z Ha) as A. pose proof (of_int b w z Hb) as B. destruct a as [a], b as [b]. f_equal.
    exact (is_apint_unique a b w _ A B).
Qed.
Lemma typed_memory_fact p q cs os cs' os' s : Forall tcmd_ok p -> Forall tcmd_ok q ->
  trun [] p = Val (cs, os) -> trun [] q = Val (cs', os') ->
  option_map fst (tarun [] p) = Some s -> option_map fst (tarun [] q) = Some s -> cs = cs'.
Proof.
  intros Hp Hq Ep Eq Sp Sq. pose proof (typed_simulation_fact p Hp) as A. pose proof (typed_simulation_fact q Hq) as B.
  destruct (tarun [] p) as [[sp op]|]; [|discriminate]. destruct (tarun [] q) as [[sq oq]|]; [|discriminate].
  cbn [option_map fst] in *. injection Sp as ->. injection Sq as ->.
  destruct A as (c & E & A). destruct B as (c' & E' & B). rewrite Ep in E. rewrite Eq in E'. injection E as <- _. injection E' as <- _.
  clear - A B. revert cs' B. induction A as [|a v cs s Ha A IH]; intros cs' B; inversion B; subst; [reflexivity|].
  f_equal; [eapply tholds_unique; eassumption|auto].
Qed.

(** Every variable holds an integer of its type. *)
Lemma typed_range_fact p s os : Forall tcmd_ok p -> tarun [] p = Some (s, os) ->
  Forall (fun o => match o with
    | Some v => 0 < twidth v /\ least (tkind v) (twidth v) <= tvalue v <= greatest (tkind v) (twidth v)
    | None => True end) s.
Proof.
  intros Hp E. pose proof (typed_simulation_fact p Hp) as H. rewrite E in H. destruct H as (cs & _ & H).
  clear - H. induction H as [|a v cs s Ha H IH]; constructor; auto. destruct v as [[[|] w z]|]; [| |exact I]; destruct a as [[a|a]|]; try contradiction;
    cbn [tholds twidth tkind tvalue least greatest] in *.
  - apply is_uint_range in Ha. lia.
  - apply is_int_range in Ha. lia.
Qed.

(** Panics come only from operators, from signed divisions and from octal output. *)
Lemma typed_no_panic_fact p : Forall tcmd_ok p ->
  Forall (fun c => match c with
    | TMut Operator _ _ | TInto Operator _ _ | TBin Operator _ _ _ | TIntoBin Operator _ _ _ => False
    | TBin _ (TDiv | TRem) _ _ | TIntoBin _ (TDiv | TRem) _ _ => False
    | TAsk TOctal _ => False
    | _ => True
    end) p ->
  exists cs os, trun [] p = Val (cs, os) /\ length os = length p.
Proof.
  intros Hp Hq. pose proof (typed_simulation_fact p Hp) as H.
  assert (G : forall s, exists s' os, tarun s p = Some (s', os) /\ length os = length p).
  { clear H Hp. induction Hq as [|c p Hc Hq IH]; intros s; cbn [tarun].
    - exists s, []. auto.
    - assert (A : exists r, tastep s c = Some r).
      { destruct c as [k n|x|x|f m x|f m x|m x|f o x y|f o x y|x y|x y|o x y|o x y|x y|x y|x|k x|q x]; cbn [tastep];
          unfold tget2', tget2, tget1; try destruct f; try contradiction; try (destruct (Nat.eqb x y); [eauto|]);
          try (destruct (nth_error s x) as [[a|]|]; eauto); try (destruct (nth_error s y) as [[b|]|]; eauto);
          try (destruct (same_kind (tkind a) (tkind b)); [|eauto]); eauto.
        - destruct (has_mut Method (tkind a) m); cbn [by_form option_map]; eauto.
        - destruct (has_into Method (tkind a) m); cbn [by_form option_map]; eauto.
        - destruct (for_kind (tkind a) (signed_only_set m)); eauto.
        - destruct o; try contradiction; cbn [tabin opt_bind by_form option_map]; eauto.
        - destruct o; try contradiction; cbn [tabin opt_bind by_form option_map]; eauto.
        - destruct (for_kind (tkind a) (signed_only_query q)); [|eauto]. destruct q; try contradiction; cbn [taask option_map]; eauto. }
      destruct A as ([s1 o] & ->). cbn [opt_bind]. destruct (IH s1) as (s2 & os & -> & L). cbn [option_map]. exists s2, (o :: os).
      split; [reflexivity|]. cbn [length]. now rewrite L. }
  destruct (G []) as (s & os & E & L). rewrite E in H. destruct H as (cs & E' & _). eauto.
Qed.
