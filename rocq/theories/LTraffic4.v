(** How many digits divisions access and allocate: the facts. *)
From Verif Require Export SpecTraffic LTraffic3.
From Verif Require Import SpecTime LTimeFacts LWatchDiv LDiv7.

Lemma within_of {A} (w : watched A) c r n k al0 al1 j v : paid k w c -> takes c r n -> al al0 w -> r = Val v -> 2 * n + k <= j -> al0 <= al1 -> within w r j al1.
Proof.
  intros P T L Hr Hj Ha. assert (E : snd w = r) by (destruct P as (-> & _); exact (proj1 T)). split; [exact E|]. split; [now exists v|]. split; [|unfold al in L; lia].
  rewrite Hr in E. pose proof (paid_bound k n w c r v P T E). lia.
Qed.
Lemma digits_of a : wf a -> Z.of_nat (length (digits a)) = digit_count (len a).
Proof. intros (_ & H & _). exact H. Qed.
Lemma returns_udiv a b : wf a -> wf b -> exists v1 v2 v3 v4, wrapping_udivrem_assign a b = Val v1 /\ wrapping_uremdiv_assign a b = Val v2 /\ wrapping_udiv_assign a b = Val v3 /\ wrapping_urem_assign a b = Val v4.
Proof.
  intros Wa Wb. destruct (Z.eq_dec (len a) (len b)) as [E|E].
  - destruct (Z.eq_dec (unsigned b) 0) as [Z0|Z0].
    + destruct (udiv_zero_fact a b Wa Wb E Z0) as (-> & -> & -> & _ & -> & _). eauto 10.
    + destruct (udiv_all a b Wa Wb E Z0) as (q & s & -> & -> & -> & _ & -> & _). eauto 10.
  - destruct (udiv_mismatch a b E) as (-> & -> & -> & _ & -> & _). eauto 10.
Qed.
Lemma signed_nonzero b : wf b -> unsigned b <> 0 -> signed b <> 0.
Proof. intros W H E. apply H. apply (signed_zero b W). exact E. Qed.
Lemma returns_sdiv a b : wf a -> wf b -> len a = len b \/ unsigned b = 0 -> exists v1 v2 v3 v4, wrapping_sdivrem_assign a b = Val v1 /\ wrapping_sremdiv_assign a b = Val v2 /\ wrapping_sdiv_assign a b = Val v3 /\ wrapping_srem_assign a b = Val v4.
Proof.
  intros Wa Wb H. destruct (Z.eq_dec (unsigned b) 0) as [Z0|Z0].
  - destruct (sdiv_zero_fact a b Wa Wb Z0) as (-> & -> & -> & _ & -> & _). eauto 10.
  - destruct H as [E|E]; [|contradiction]. destruct (sdiv_identity a b Wa Wb E Z0) as (q & r & _ & _ & -> & -> & _).
    destruct (sdiv_all a b Wa Wb E (signed_nonzero b Wb Z0)) as (q' & r' & _ & _ & -> & _ & -> & _). eauto 10.
Qed.
Lemma traffic_unsigned a b : wf a -> wf b ->
  let n := digit_count (len a) in let m := digit_count (len b) in
  within (w_wrapping_udivrem_assign a b) (wrapping_udivrem_assign a b) (14 * n ^ 2 + 116 * n + 165) (2 * n) /\
  within (w_wrapping_uremdiv_assign a b) (wrapping_uremdiv_assign a b) (14 * n ^ 2 + 116 * n + 165) (2 * n) /\
  within (w_wrapping_udiv_assign a b) (wrapping_udiv_assign a b) (14 * n ^ 2 + 116 * n + 165) (2 * n + m) /\
  within (w_wrapping_urem_assign a b) (wrapping_urem_assign a b) (14 * n ^ 2 + 116 * n + 165) (2 * n + m).
Proof.
  intros Wa Wb n m. destruct (time_udiv_fact a b Wa Wb) as (T1 & T2 & T3 & T4). destruct (returns_udiv a b Wa Wb) as (v1 & v2 & v3 & v4 & R1 & R2 & R3 & R4).
  pose proof (digits_of a Wa) as Da. pose proof (digits_of b Wb) as Db. change (words (len a)) with n in *. fold n in Da. fold m in Db. rewrite <- Da, <- Db in *.
  split; [eapply within_of; [apply t_udivrem|exact T1|apply a_udivrem|exact R1|lia|lia]|].
  split; [eapply within_of; [apply t_uremdiv|exact T2|apply a_uremdiv|exact R2|lia|lia]|].
  split; [eapply within_of; [apply t_udiv|exact T3|apply a_udiv|exact R3|lia|lia]|].
  eapply within_of; [apply t_urem|exact T4|apply a_urem|exact R4|lia|lia].
Qed.
Lemma traffic_signed a b : wf a -> wf b -> len a = len b \/ unsigned b = 0 ->
  let n := digit_count (len a) in let m := digit_count (len b) in
  within (w_wrapping_sdivrem_assign a b) (wrapping_sdivrem_assign a b) (14 * n ^ 2 + 132 * n + 16 * m + 208) (2 * n) /\
  within (w_wrapping_sremdiv_assign a b) (wrapping_sremdiv_assign a b) (14 * n ^ 2 + 132 * n + 16 * m + 208) (2 * n) /\
  within (w_wrapping_sdiv_assign a b) (wrapping_sdiv_assign a b) (14 * n ^ 2 + 132 * n + 16 * m + 208) (2 * n + m) /\
  within (w_wrapping_srem_assign a b) (wrapping_srem_assign a b) (14 * n ^ 2 + 132 * n + 16 * m + 208) (2 * n + m).
Proof.
  intros Wa Wb H n m. destruct (time_sdiv_fact a b Wa Wb) as (T1 & T2 & T3 & T4). destruct (returns_sdiv a b Wa Wb H) as (v1 & v2 & v3 & v4 & R1 & R2 & R3 & R4).
  pose proof (digits_of a Wa) as Da. pose proof (digits_of b Wb) as Db. change (words (len a)) with n in *. change (words (len b)) with m in *. fold n in Da. fold m in Db. rewrite <- Da, <- Db in *.
  split; [eapply within_of; [apply t_sdivrem|exact T1|apply a_sdivrem; exact Wa|exact R1|lia|lia]|].
  split; [eapply within_of; [apply t_sremdiv|exact T2|apply a_sremdiv; exact Wa|exact R2|lia|lia]|].
  split; [eapply within_of; [apply t_sdiv|exact T3|apply a_sdiv; exact Wa|exact R3|lia|lia]|].
  eapply within_of; [apply t_srem|exact T4|apply a_srem; exact Wa|exact R4|lia|lia].
Qed.
Lemma traffic_counted a b :
  counted (w_wrapping_udivrem_assign a b) (c_wrapping_udivrem_assign a b) 5 /\ counted (w_wrapping_uremdiv_assign a b) (c_wrapping_uremdiv_assign a b) 5 /\
  counted (w_wrapping_udiv_assign a b) (c_wrapping_udiv_assign a b) 5 /\ counted (w_wrapping_urem_assign a b) (c_wrapping_urem_assign a b) 5 /\
  counted (w_wrapping_sdivrem_assign a b) (c_wrapping_sdivrem_assign a b) 6 /\ counted (w_wrapping_sremdiv_assign a b) (c_wrapping_sremdiv_assign a b) 6 /\
  counted (w_wrapping_sdiv_assign a b) (c_wrapping_sdiv_assign a b) 8 /\ counted (w_wrapping_srem_assign a b) (c_wrapping_srem_assign a b) 8.
Proof.
  split; [apply t_udivrem|]. split; [apply t_uremdiv|]. split; [apply t_udiv|]. split; [apply t_urem|].
  split; [apply t_sdivrem|]. split; [apply t_sremdiv|]. split; [apply t_sdiv|]. apply t_srem.
Qed.
