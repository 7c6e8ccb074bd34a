(** How many digits are read, written and allocated: assignment, truncation, extension, conversion. *)
From Verif Require Export LWork7.
From Verif Require Import LBits LShift LCount LCast LRel LHom LPrim.
From Coq Require Import Lia ZArith List Bool.
Import ListNotations.
Open Scope Z_scope.

Lemma required_count w : 0 < w -> Z.of_nat (required_digits w) = digit_count w.
Proof. exact (required_digits_Z w). Qed.
Lemma required_eqb v w : 0 < v -> 0 < w -> Nat.eqb (required_digits v) (required_digits w) = (digit_count v =? digit_count w).
Proof.
  intros V W. pose proof (required_count v V). pose proof (required_count w W). destruct (Nat.eqb_spec (required_digits v) (required_digits w)), (Z.eqb_spec (digit_count v) (digit_count w)); lia.
Qed.
Lemma y_assign a b : sized a -> sized b ->
  yields (w_assign a b) (Nd b) (Nd b) (if Nd a =? Nd b then 0 else if len b <=? 64 then 0 else Nd b) (fun _ => True).
Proof.
  intros [K A] [L B]. unfold w_assign, len_digits, width. rewrite (required_eqb (len a) (len b) K L). fold (Nd a) (Nd b).
  destruct (work_copies Other Self (List.length (as_digit_slice b))) as (U & V & W). unfold as_digit_slice in *.
  destruct (Z.eqb_spec (Nd a) (Nd b)) as [E|E].
  - eapply y_is; [ystep; ystep; ystep; ystep; exact I|..]; evald; lia.
  - unfold storage. destruct (Z.leb_spec (len b) 64) as [M|M].
    + pose proof (small_n b (conj L B) M). eapply y_is; [ystep; ystep; ystep; ystep; exact I|..]; evald; lia.
    + eapply y_is; [ystep; ystep; eapply y_bind; [exact (y_clone Other b (conj L B))|intros v _; ystep; exact I]|..]; evald; try lia.
      rewrite (proj2 (Z.leb_gt (len b) 64)) by lia. lia.
Qed.
Lemma y_strict_assign a b : sized b -> len a = len b -> yields (w_strict_assign a b) (Nd b) (Nd b) 0 (fun _ => True).
Proof.
  intros [_ B] E. unfold w_strict_assign, width. rewrite E, Z.eqb_refl. cbn [negb]. destruct (work_copies Other Self (List.length (as_digit_slice b))) as (U & V & W). unfold as_digit_slice in *.
  eapply y_is; [ystep; ystep; ystep; ystep; exact I|..]; evald; lia.
Qed.

(** * Truncation *)
Lemma y_from_iter p n ds : ds <> [] -> (n <= List.length ds)%nat ->
  yields (w_from_iter p n ds) (Z.of_nat n) (Z.of_nat (List.length ds)) (if Z.of_nat (List.length ds) =? 1 then 0 else Z.of_nat (List.length ds))
    (fun v => v = Ok (mk_apint (64 * Z.of_nat (List.length ds)) ds)).
Proof.
  intros D N. unfold w_from_iter. destruct (work_copies p New n) as (U & V & W), (work_writes New n (List.length ds - n)) as (U' & V' & W').
  assert (0 < List.length ds)%nat by (destruct ds; [congruence|cbn; lia]).
  eapply y_is; [ystep; ystep; rewrite (from_iter_spec ds D) in H0; now injection H0 as <-|..]; evald;
    rewrite ?read_app, ?written_app, ?allocated_app, ?U, ?V, ?W, ?U', ?V', ?W'; destruct (Nat.leb_spec (List.length ds) 1); evald; try destruct (Z.eqb_spec (Z.of_nat (List.length ds)) 1); lia.
Qed.
(** Within the same number of digits, the top digit is cut. *)
Lemma y_truncate_in f p a t : sized a -> 0 < t -> t <= len a -> digit_count t = Nd a ->
  yields (w_truncate_fuel (S f) p a t) (if t =? len a then 0 else 1) (if t =? len a then 0 else 1) 0 (fun v => snd v = Ok tt /\ len (fst v) = t).
Proof.
  intros S T L C. cbn [w_truncate_fuel]. unfold width. destruct (Z.eqb_spec t (len a)) as [E|E].
  - eapply y_is; [ystep; ystep; now subst|..]; reflexivity.
  - eapply y_is; [ystep; ystep|..].
    + rewrite (proj2 (Z.ltb_ge (len a) t)) by lia. ystep. rewrite (required_eqb (len a) t) by (destruct S; lia). unfold Nd in C. rewrite C, Z.eqb_refl. ystep.
      eapply y_bind; [now apply y_modify_top|intros v _]. ystep. now split.
    + reflexivity.
    + reflexivity.
    + reflexivity.
Qed.
Lemma count_full n : 0 < n -> digit_count (64 * n) = n.
Proof. intros N. unfold digit_count. replace (64 * n + 63) with (63 + n * 64) by lia. rewrite Z.div_add by lia. reflexivity. Qed.
Lemma full_width t : 0 < t -> (t =? 64 * digit_count t) = (partly_used t =? 0).
Proof.
  intros T. unfold digit_count, partly_used. pose proof (Z.div_mod t 64 ltac:(lia)). pose proof (Z.mod_pos_bound t 64 ltac:(lia)).
  pose proof (Z.div_mod (t + 63) 64 ltac:(lia)). pose proof (Z.mod_pos_bound (t + 63) 64 ltac:(lia)).
  destruct (Z.eqb_spec (t mod 64) 0), (Z.eqb_spec t (64 * ((t + 63) / 64))); cbn; lia.
Qed.
Lemma partly_is t : 0 < t -> (if t =? 64 * digit_count t then 0 else 1) = partly_used t.
Proof. intros T. rewrite full_width by exact T. unfold partly_used. now destruct (t mod 64 =? 0). Qed.
Lemma count_covers t : 0 < t -> t <= 64 * digit_count t < t + 64.
Proof. intros T. unfold digit_count. pose proof (Z.div_mod (t + 63) 64 ltac:(lia)). pose proof (Z.mod_pos_bound (t + 63) 64 ltac:(lia)). lia. Qed.
Lemma count_mono v w : v <= w -> digit_count v <= digit_count w.
Proof. intros L. apply Z.div_le_mono; lia. Qed.
Lemma y_truncate_out p a t : sized a -> 0 < t -> t <= len a -> digit_count t <> Nd a ->
  yields (w_truncate p a t) (digit_count t + partly_used t) (digit_count t + partly_used t) (if digit_count t =? 1 then 0 else digit_count t) (fun v => snd v = Ok tt).
Proof.
  intros Sa T L C. unfold w_truncate. remember 1%nat as f eqn:F. cbn [w_truncate_fuel]. unfold width. pose proof (count_covers t T) as Cv. pose proof (count_mono t (len a) L) as Cm. fold (Nd a) in Cm.
  assert (t <> len a) as N by (intros ->; now apply C). rewrite (proj2 (Z.eqb_neq t (len a)) N).
  destruct Sa as [La Da]. pose proof (required_count t T) as Rq.
  assert (List.length (firstn (required_digits t) (as_digit_slice a)) = required_digits t) as Fl by (rewrite firstn_length; unfold as_digit_slice; lia).
  eapply y_is; [ystep; ystep|..].
  - rewrite (proj2 (Z.ltb_ge (len a) t)) by lia. ystep. rewrite (required_eqb (len a) t) by lia. fold (Nd a). rewrite (proj2 (Z.eqb_neq (Nd a) (digit_count t))) by lia.
    eapply y_bind; [apply y_from_iter; [intros Z0; rewrite Z0 in Fl; cbn in Fl; lia|lia]|intros v ->]. ystep. injection H as <-. rewrite Fl, Rq.
    change (len (mk_apint (64 * digit_count t) _)) with (64 * digit_count t). ystep. rewrite Z.eqb_sym, (full_width t T).
    instantiate (1 := 0). instantiate (1 := partly_used t). instantiate (1 := partly_used t).
    destruct (Z.eqb_spec (partly_used t) 0) as [Pt|Pt]; cbn [negb].
    + eapply y_is; [ystep; reflexivity|..]; lia.
    + subst f. eapply y_is; [eapply y_bind; [apply y_truncate_in|intros [v r] [V _]; cbn [snd] in V; subst r; ystep; reflexivity]|..].
      * split; cbn [len digits]; [lia|]. unfold Nd. cbn [len]. rewrite count_full by lia. lia.
      * exact T.
      * cbn [len]. lia.
      * unfold Nd. cbn [len]. rewrite count_full by lia. reflexivity.
      * cbn [len]. rewrite (partly_is t T). lia.
      * cbn [len]. rewrite (partly_is t T). lia.
      * reflexivity.
  - rewrite Fl. lia.
  - rewrite Fl. lia.
  - rewrite Fl, Rq. lia.
Qed.
Definition cut_reads (w t : Z) : Z := if t =? w then 0 else if digit_count t =? digit_count w then 1 else digit_count t + partly_used t.
Definition cut_space (w t : Z) : Z := if digit_count t =? digit_count w then 0 else if digit_count t =? 1 then 0 else digit_count t.
Lemma y_truncate p a t : sized a -> 0 < t <= len a -> yields (w_truncate p a t) (cut_reads (len a) t) (cut_reads (len a) t) (cut_space (len a) t) (fun v => snd v = Ok tt).
Proof.
  intros S [T L]. unfold cut_reads, cut_space. fold (Nd a). destruct (Z.eqb_spec (digit_count t) (Nd a)) as [E|E].
  - eapply y_weak; [now apply y_truncate_in|now intros v [V _]].
  - destruct (Z.eqb_spec t (len a)) as [->|N]; [contradiction E; reflexivity|]. now apply y_truncate_out.
Qed.

(** * Extension *)
Lemma y_padded n ds t : ds <> [] -> (n <= List.length ds)%nat -> 0 < t -> Z.of_nat (List.length ds) = digit_count t ->
  yields (w_from_iter_truncated n ds t) (Z.of_nat n + partly_used t) (digit_count t + partly_used t) (if digit_count t =? 1 then 0 else digit_count t) (fun v => exists c, v = Ok c).
Proof.
  intros D N T E. unfold w_from_iter_truncated. pose proof (count_covers t T) as Cv.
  eapply y_is; [eapply y_bind; [now apply y_from_iter|intros v ->]; eapply y_bind; [unfold w_truncate; apply y_truncate_in|intros [v r] [V _]; cbn [snd] in V; subst r; ystep; eauto]|..].
  - split; cbn [len digits]; [lia|]. unfold Nd. cbn [len]. rewrite count_full; lia.
  - exact T.
  - cbn [len]. lia.
  - unfold Nd. cbn [len]. rewrite count_full; lia.
  - cbn [len]. rewrite E, (partly_is t T). lia.
  - cbn [len]. rewrite E, (partly_is t T). lia.
  - rewrite E. lia.
Qed.
Lemma y_zero_extend a t : sized a -> len a < t ->
  yields (w_zero_extend a t) (if digit_count t =? Nd a then 0 else Nd a + partly_used t) (if digit_count t =? Nd a then 0 else digit_count t + partly_used t)
    (if digit_count t =? Nd a then 0 else digit_count t) (fun v => snd v = Ok tt).
Proof.
  intros [L D] T. unfold w_zero_extend, width. rewrite (proj2 (Z.eqb_neq t (len a))), (proj2 (Z.ltb_ge t (len a))), (required_eqb (len a) t) by lia. fold (Nd a). rewrite (Z.eqb_sym (Nd a)).
  pose proof (count_mono (len a) t ltac:(lia)) as Cm. fold (Nd a) in Cm. pose proof (required_count (len a) L) as R1. pose proof (required_count t ltac:(lia)) as R2. fold (Nd a) in R1.
  assert (0 < Nd a) as Np by (pose proof (count_covers (len a) L); unfold Nd; lia).
  destruct (Z.eqb_spec (digit_count t) (Nd a)) as [E|E].
  - eapply y_is; [ystep; ystep; ystep; ystep; reflexivity|..]; reflexivity.
  - eapply y_is; [ystep; ystep; ystep|..].
    + rewrite (proj2 (Nat.ltb_lt (required_digits (len a)) (required_digits t))) by lia. cbn [negb].
      eapply y_bind; [apply y_padded|intros v [c ->]; ystep; reflexivity].
      * unfold as_digit_slice. destruct (digits a); [cbn in D; lia|discriminate].
      * rewrite app_length. lia.
      * lia.
      * rewrite app_length, repeat_length. unfold as_digit_slice. lia.
    + unfold as_digit_slice. lia.
    + lia.
    + destruct (Z.eqb_spec (digit_count t) 1); lia.
Qed.
Lemma y_top a : yields (w_most_significant_digit a) 1 0 0 (fun _ => True).
Proof.
  unfold w_most_significant_digit. destruct (Z_le_gt_dec (len a) 64) as [L|L].
  - eapply y_is; [eapply y_bind; [now apply y_access_small|intros v [d ->]]; ystep; exact I|..]; reflexivity.
  - eapply y_is; [eapply y_bind; [apply y_access_large; lia|intros v ->]; ystep; ystep; exact I|..]; reflexivity.
Qed.
Lemma modify_last_length f ds : forall es, modify_last f ds = Val es -> List.length es = List.length ds.
Proof.
  intros es. destruct ds as [|d0 r]; [discriminate|]. destruct (exists_last (l := d0 :: r)) as (init & d & E); [discriminate|]. rewrite E, modify_last_app.
  destruct (f d); cbn [bind]; try discriminate. intros H. injection H as <-. now rewrite !app_length.
Qed.
Lemma modify_top_kin p f a : sized a -> yields (w_modify_most_significant_digit p f a) 1 1 0 (kin a).
Proof.
  intros S. unfold w_modify_most_significant_digit. destruct (Z_le_gt_dec (len a) 64) as [L|L].
  - eapply y_is; [eapply y_bind; [now apply y_access_small|intros v [d ->]]; ystep; ystep; ystep; now apply kin_inl|..]; reflexivity.
  - eapply y_is; [eapply y_bind; [apply y_access_large; lia|intros v ->]; ystep; ystep; ystep; ystep|..]; try reflexivity.
    apply kin_ext; [exact S|]. match goal with G : modify_last f _ = Val ?x |- List.length ?x = _ => exact (modify_last_length f (digits a) x G) end.
Qed.
Lemma y_fill a w : sized a -> 0 < w -> yields (w_fill_most_significant_digit a w) (2 * partly_used w) (partly_used w) 0 (fun v => snd v = Ok tt /\ kin a (fst v)).
Proof.
  intros S W. unfold w_fill_most_significant_digit, excess_width, partly_used. pose proof (Z.mod_pos_bound w 64 ltac:(lia)). destruct (Z.eqb_spec (w mod 64) 0) as [E|E]; cbv zeta.
  - eapply y_is; [ystep; ystep; split; [reflexivity|split; [exact S|reflexivity]]|..]; reflexivity.
  - eapply y_is; [ystep; eapply y_bind; [apply y_top|intros d _]; ybind_as (fun v : result Z => exists d' : Z, v = Ok d')|..].
    + eapply y_weak; [apply y_lift|]. intros [d'|e] G; [eauto|]. exfalso. revert G. unfold d_sign_extend_from, d_verify_valid_bitwidth.
      destruct (Z.ltb_spec 64 (w mod 64)); [lia|]. cbv zeta. repeat match goal with |- bind ?m _ = _ -> _ => destruct m; cbn [bind]; try discriminate end.
    + intros v [d' ->]. eapply y_bind; [now apply modify_top_kin|intros v K]. ystep. now split.
    + reflexivity.
    + reflexivity.
    + reflexivity.
Qed.

Lemma y_sign_extend_neg a t : sized a -> len a < t -> msb a = Val true ->
  yields (w_sign_extend a t)
    (if digit_count t =? Nd a then 3 + partly_used t else 1 + Nd a + 3 * Xd a + partly_used t)
    (if digit_count t =? Nd a then 1 + partly_used t else digit_count t + 2 * Xd a + partly_used t)
    (if digit_count t =? Nd a then 0 else digit_count t) (fun v => snd v = Ok tt).
Proof.
  intros [L D] T M. unfold w_sign_extend, width. rewrite (proj2 (Z.eqb_neq t (len a))), (proj2 (Z.ltb_ge t (len a))), (required_eqb (len a) t) by lia. fold (Nd a). rewrite (Z.eqb_sym (Nd a)).
  pose proof (count_mono (len a) t ltac:(lia)) as Cm. fold (Nd a) in Cm. pose proof (required_count (len a) L) as R1. pose proof (required_count t ltac:(lia)) as R2. fold (Nd a) in R1.
  pose proof (count_covers (len a) L) as C1. fold (Nd a) in C1. pose proof (count_covers t ltac:(lia)) as C2.
  assert (yields (w_msb a) 1 0 0 (fun v => v = true)) as Ym.
  { eapply y_weak; [apply (y_exact _ _ _ _ _ _ (y_msb a) (we_msb a))|]. intros v [_ E]. rewrite M in E. now injection E as <-. }
  destruct (Z.eqb_spec (digit_count t) (Nd a)) as [E|E].
  - set (a1 := mk_apint t (digits a)). assert (sized a1) as S1 by (split; cbn [len digits a1]; [lia|]; unfold Nd; cbn [len a1]; lia).
    assert (partly_used (len a) = 1) as Pu.
    { unfold partly_used. destruct (Z.eqb_spec (len a mod 64) 0) as [Z0|Z0]; [|reflexivity]. pose proof (Z.div_mod (len a) 64 ltac:(lia)). exfalso. lia. }
    eapply y_is; [ystep; ystep; eapply y_bind; [exact Ym|intros v ->]; ystep; cbn [negb]; ystep; eapply y_bind; [apply (y_fill a1 (len a) S1 L)|intros [a2 r] [V K]; cbn [snd fst] in V, K; subst r];
      eapply y_bind; [exact (y_clear_kin Self a1 a2 K)|intros v _; ystep; reflexivity]|..]; rewrite ?Pu; unfold Xd; cbn [len a1]; lia.
  - eapply y_is; [ystep; ystep; eapply y_bind; [exact Ym|intros v ->]; ystep; cbn [negb]; ystep|..].
    + rewrite (proj2 (Nat.ltb_lt (required_digits (len a)) (required_digits t))) by lia. cbn [negb].
      eapply y_bind; [apply (y_fill a (len a) (conj L D) L)|intros [a1 r] [V K]; cbn [snd fst] in V, K; subst r].
      assert (Z.of_nat (List.length (digits a1)) = Nd a) as D1 by (destruct K as [[_ K1] K2]; rewrite K1; now apply N_len).
      eapply y_bind; [eapply y_is; [apply y_padded|..]|intros v [c ->]; eapply y_bind; [exact (y_clear_kin Self a a1 K)|intros v _; ystep; reflexivity]].
      * unfold as_digit_slice. destruct (digits a1); [cbn in D1; lia|discriminate].
      * rewrite app_length. lia.
      * lia.
      * rewrite app_length, repeat_length. unfold as_digit_slice. lia.
      * unfold as_digit_slice. rewrite D1. reflexivity.
      * reflexivity.
      * reflexivity.
    + fold (Xd a). lia.
    + fold (Xd a). lia.
    + destruct (Z.eqb_spec (digit_count t) 1); lia.
Qed.
Lemma y_sign_extend_pos a t : sized a -> len a < t -> msb a = Val false ->
  yields (w_sign_extend a t) (1 + if digit_count t =? Nd a then 0 else Nd a + partly_used t) (if digit_count t =? Nd a then 0 else digit_count t + partly_used t)
    (if digit_count t =? Nd a then 0 else digit_count t) (fun v => snd v = Ok tt).
Proof.
  intros S T M. unfold w_sign_extend, width. rewrite (proj2 (Z.eqb_neq t (len a))), (proj2 (Z.ltb_ge t (len a))) by lia.
  assert (yields (w_msb a) 1 0 0 (fun v => v = false)) as Ym.
  { eapply y_weak; [apply (y_exact _ _ _ _ _ _ (y_msb a) (we_msb a))|]. intros v [_ E]. rewrite M in E. now injection E as <-. }
  eapply y_is; [ystep; ystep; eapply y_bind; [exact Ym|intros v ->]; ystep; cbn [negb]; now apply y_zero_extend|..]; lia.
Qed.

(** * The statements *)
Lemma work_assign_fact a b n : wf a -> wf b -> n = digit_count (len b) ->
  work (fst (w_assign a b)) n n (if (digit_count (len a) =? n) || (len b <=? 64) then 0 else n) /\ (len a = len b -> work (fst (w_strict_assign a b)) n n 0).
Proof.
  intros A B ->. fold (Nd a) (Nd b). pose proof (wf_sized a A) as S. pose proof (wf_sized b B) as T. split.
  - pose proof (y_assign a b S T) as Y. destruct (Nd a =? Nd b); cbn [orb]; (eapply y_work; [exact Y|]); rewrite we_assign; now apply assign_spec.
  - intros E. eapply y_work; [now apply y_strict_assign|]. rewrite we_strict_assign. now apply strict_assign_spec.
Qed.
Lemma expect_work m r w k c : work (fst m) r w k -> snd m = Val (c, Ok tt) -> work (fst (w_expect_mut m)) r w k.
Proof. intros W E. unfold w_expect_mut. rewrite (fst_bind _ (c, Ok tt)) by exact E. cbn. rewrite app_nil_r. exact W. Qed.
Lemma branch_work {A} b (f : bool -> watched A) r w k : work (fst (f b)) r w k -> work (fst (let& x := branch b in f x)) r w k.
Proof. intros W. exact W. Qed.
Lemma work_truncate_fact a p t m x : wf a -> 0 < t -> m = digit_count t -> x = partly_used t ->
  (t = len a -> work (fst (w_truncate p a t)) 0 0 0) /\
  (t < len a -> m = digit_count (len a) -> work (fst (w_truncate p a t)) 1 1 0) /\
  (m < digit_count (len a) -> work (fst (w_truncate p a t)) (m + x) (m + x) (if m =? 1 then 0 else m)) /\
  (len a < t -> work (fst (w_truncate p a t)) 0 0 0).
Proof.
  intros W T -> ->. pose proof (wf_sized a W) as S. fold (Nd a).
  assert (t <= len a -> work (fst (w_truncate p a t)) (cut_reads (len a) t) (cut_reads (len a) t) (cut_space (len a) t)) as G.
  { intros L. destruct (truncate_spec a t W (conj T L)) as (c & E & _). eapply y_work; [apply (y_truncate p a t S (conj T L))|]. rewrite we_truncate. exact E. }
  unfold cut_reads, cut_space in G. fold (Nd a) in G. split; [|split; [|split]].
  - intros E. assert (t <= len a) as L by lia. specialize (G L). rewrite E, Z.eqb_refl in G. unfold Nd in G. rewrite Z.eqb_refl in G. now rewrite E.
  - intros L E. specialize (G ltac:(lia)). rewrite E, Z.eqb_refl, (proj2 (Z.eqb_neq t (len a))) in G by lia. exact G.
  - intros L. assert (t < len a) as L' by (destruct (Z_lt_ge_dec t (len a)); [lia|]; pose proof (count_mono (len a) t ltac:(lia)); unfold Nd in L; lia).
    specialize (G ltac:(lia)). rewrite (proj2 (Z.eqb_neq t (len a))), (proj2 (Z.eqb_neq (digit_count t) (Nd a))) in G by lia. exact G.
  - intros L. unfold w_truncate. cbn [w_truncate_fuel]. unfold width. rewrite (proj2 (Z.eqb_neq t (len a))), (proj2 (Z.ltb_lt (len a) t)) by lia. now repeat split.
Qed.
Lemma work_extend_fact a t n m x y : wf a -> n = digit_count (len a) -> m = digit_count t -> x = partly_used t -> y = partly_used (len a) ->
  (t <= len a -> work (fst (w_zero_extend a t)) 0 0 0 /\ work (fst (w_sign_extend a t)) 0 0 0) /\
  (len a < t -> m = n -> work (fst (w_zero_extend a t)) 0 0 0) /\
  (len a < t -> n < m -> work (fst (w_zero_extend a t)) (n + x) (m + x) m) /\
  (len a < t -> 0 <= signed a -> forall r w k, work (fst (w_zero_extend a t)) r w k -> work (fst (w_sign_extend a t)) (1 + r) w k) /\
  (len a < t -> signed a < 0 -> m = n -> work (fst (w_sign_extend a t)) (3 + x) (1 + x) 0) /\
  (len a < t -> signed a < 0 -> n < m -> work (fst (w_sign_extend a t)) (1 + n + x + 3 * y) (m + x + 2 * y) m).
Proof.
  intros W -> -> -> ->. pose proof (wf_sized a W) as S. pose proof (sign_bit a W) as M. fold (Nd a) (Xd a).
  assert (len a < t -> work (fst (w_zero_extend a t)) (if digit_count t =? Nd a then 0 else Nd a + partly_used t) (if digit_count t =? Nd a then 0 else digit_count t + partly_used t) (if digit_count t =? Nd a then 0 else digit_count t)) as G.
  { intros L. destruct (zero_extend_spec a t W ltac:(lia)) as (c & E & _). eapply y_work; [apply (y_zero_extend a t S L)|]. rewrite we_zero_extend. exact E. }
  split; [|split; [|split; [|split; [|split]]]].
  - intros L. unfold w_zero_extend, w_sign_extend, width. destruct (Z.eqb_spec t (len a)); [now repeat split|]. rewrite (proj2 (Z.ltb_lt t (len a))) by lia. now repeat split.
  - intros L E. specialize (G L). now rewrite (proj2 (Z.eqb_eq _ _) E) in G.
  - intros L E. specialize (G L). rewrite (proj2 (Z.eqb_neq (digit_count t) (Nd a))) in G by lia. exact G.
  - intros L P r w k H. specialize (G L). rewrite (proj2 (Z.ltb_ge (signed a) 0)) in M by lia. destruct (sign_extend_spec a t W ltac:(lia)) as (c & E & _).
    assert (snd (w_sign_extend a t) = Val (c, Ok tt)) as E' by (rewrite we_sign_extend; exact E).
    pose proof (y_work _ _ _ _ _ _ (y_sign_extend_pos a t S L M) E') as (A1 & A2 & A3). destruct G as (B1 & B2 & B3), H as (C1 & C2 & C3). unfold work. lia.
  - intros L P E. rewrite (proj2 (Z.ltb_lt (signed a) 0) P) in M. destruct (sign_extend_spec a t W ltac:(lia)) as (c & E' & _). rewrite <- we_sign_extend in E'.
    pose proof (y_work _ _ _ _ _ _ (y_sign_extend_neg a t S L M) E') as H. now rewrite (proj2 (Z.eqb_eq _ _) E) in H.
  - intros L P E. rewrite (proj2 (Z.ltb_lt (signed a) 0) P) in M. destruct (sign_extend_spec a t W ltac:(lia)) as (c & E' & _). rewrite <- we_sign_extend in E'.
    pose proof (y_work _ _ _ _ _ _ (y_sign_extend_neg a t S L M) E') as H. rewrite (proj2 (Z.eqb_neq (digit_count t) (Nd a))) in H by lia.
    eapply work_is; [exact H|lia|lia|reflexivity].
Qed.
Lemma work_resize_fact a t r w k : wf a -> 0 < t ->
  (t <= len a -> work (fst (w_truncate Self a t)) r w k -> work (fst (w_zero_resize a t)) r w k /\ work (fst (w_sign_resize a t)) r w k) /\
  (len a < t -> work (fst (w_zero_extend a t)) r w k -> work (fst (w_zero_resize a t)) r w k) /\
  (len a < t -> work (fst (w_sign_extend a t)) r w k -> work (fst (w_sign_resize a t)) r w k).
Proof.
  intros W T. unfold w_zero_resize, w_sign_resize, width. split; [|split]; intros L H.
  - destruct (truncate_spec a t W (conj T L)) as (c & E & _). rewrite <- (we_truncate Self) in E. rewrite (proj2 (Z.leb_le t (len a)) L).
    split; apply branch_work; eapply expect_work; eassumption.
  - destruct (zero_extend_spec a t W ltac:(lia)) as (c & E & _). rewrite <- we_zero_extend in E. rewrite (proj2 (Z.leb_gt t (len a)) L). apply branch_work. eapply expect_work; eassumption.
  - destruct (sign_extend_spec a t W ltac:(lia)) as (c & E & _). rewrite <- we_sign_extend in E. rewrite (proj2 (Z.leb_gt t (len a)) L). apply branch_work. eapply expect_work; eassumption.
Qed.

Lemma y_primitive a ty : yields (w_resize_to_primitive_ty a ty) 1 0 0 (fun _ => True).
Proof.
  unfold w_resize_to_primitive_ty. destruct (is_128 ty); [intros v H; discriminate H|].
  assert (yields (w_least_significant_digit a) 1 0 0 (fun _ => True)) as Y.
  { unfold w_least_significant_digit. destruct (Z_le_gt_dec (len a) 64) as [L|L].
    - eapply y_is; [eapply y_bind; [now apply y_access_small|intros v [d ->]]; ystep; exact I|..]; reflexivity.
    - eapply y_is; [eapply y_bind; [apply y_access_large; lia|intros v ->]; ystep; exact I|..]; reflexivity. }
  eapply y_is; [eapply y_bind; [exact Y|intros d _]; ystep; ybind_as (fun _ : Z => True)|..].
  - instantiate (1 := 0). instantiate (1 := 0). instantiate (1 := 0). destruct (is_signed ty && (width a <? associated_width ty)); [eapply y_is; [ystep; ystep; exact I|..]; reflexivity|ystep; exact I].
  - intros v _. instantiate (1 := 0). instantiate (1 := 0). instantiate (1 := 0). destruct (associated_width ty <? 64); [eapply y_is; [ystep; ystep; exact I|..]; reflexivity|ystep; exact I].
  - reflexivity.
  - reflexivity.
  - reflexivity.
Qed.
Lemma work_convert_fact a ty : wf a -> In ty [PU8; PI8; PU16; PI16; PU32; PI32; PU64; PI64] ->
  work (fst (w_resize_to_primitive_ty a ty)) 1 0 0 /\ work (fst (w_resize_to_bool a)) 1 0 0 /\
  work (fst (w_resize_to_u128 a)) (Z.min 2 (digit_count (len a))) 0 0 /\ work (fst (w_resize_to_i128 a)) (Z.min 2 (digit_count (len a))) 0 0.
Proof.
  intros W I. destruct (resize_prim_fact a W) as (_ & U1 & U2 & U3 & U4 & _ & I1 & I2 & I3 & I4 & _). split; [|split; [|split]].
  - assert (exists v, resize_to_primitive_ty a ty = Val v) as [v E].
    { unfold resize_to_u8, resize_to_u16, resize_to_u32, resize_to_u64, resize_to_i8, resize_to_i16, resize_to_i32, resize_to_i64 in *.
      cbn [In] in I. decompose [or] I; subst; try contradiction;
      match goal with |- exists v, ?m = Val v => destruct m as [v|b|]; [now exists v|discriminate|discriminate] end. }
    eapply y_work; [apply y_primitive|]. rewrite we_resize_to_primitive_ty. exact E.
  - eapply y_work; [apply y_lsb|]. rewrite we_lsb. apply lsb_spec. now apply wf_sh.
  - unfold w_resize_to_u128. rewrite (fst_bind _ tt) by reflexivity. cbn [fst see wlift]. rewrite app_nil_r. rewrite <- (required_count (len a)) by apply W. destruct (wf_sized a W) as [L D].
    pose proof (work_reads Self 0 (Nat.min 2 (List.length (as_digit_slice a)))) as (A & B & C). unfold as_digit_slice in *. unfold work. evald. rewrite A, B, C. pose proof (required_count (len a) L). unfold Nd in D. lia.
  - unfold w_resize_to_i128. rewrite (fst_bind _ tt) by reflexivity. cbn [fst see wlift]. rewrite app_nil_r. rewrite <- (required_count (len a)) by apply W. destruct (wf_sized a W) as [L D].
    pose proof (work_reads Self 0 (Nat.min 2 (List.length (as_digit_slice a)))) as (A & B & C). unfold as_digit_slice in *. unfold work. cbn [digits_read digits_written digits_allocated]. rewrite read_app, written_app, allocated_app, A, B, C.
    evald. pose proof (required_count (len a) L). unfold Nd in D. lia.
Qed.
