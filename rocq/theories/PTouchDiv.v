(** Property C106 for division: the accesses listed in MWatchDiv.v are all there are.  SpecTouch.v and SpecTouchDiv.v say when a call depends on nothing but the digits it reads, changes nothing but the digits it writes, and stays
    within the digits its operands have. *)
From Verif Require Import LTouchDiv5 LEx.

(** C106: quotients and remainders in place; the divisor is never written. *)
Theorem C106_divisions :
  changes w_wrapping_udiv_assign /\ changes w_wrapping_urem_assign /\ changes w_wrapping_sdiv_assign /\ changes w_wrapping_srem_assign.
Proof. exact touch_div. Qed.
Print Assumptions C106_divisions.
Definition C106_u := mk_apint 192 [1; 2; 3].
Definition C106_v := mk_apint 192 [7; 8; 200].
Definition C106_v2 := mk_apint 192 [9; 1; 200].
Example C106_divisions_ex : twins C106_u C106_v /\
  w_wrapping_udiv_assign C106_u C106_v = ([Branch true; Branch false; Allocate 3; Read Other 0; Write New 0; Read Other 1; Write New 1; Read Other 2; Write New 2; Read New 2; Branch true; Read Self 2; Branch true; Branch false;
    Branch false; Branch false; Branch false; Read Self 2; Read New 2; Branch true; Read Self 0; Write New 0; Write Self 0; Read Self 1; Write New 1; Write Self 1; Read Self 2; Write New 2; Write Self 2; Branch true],
    Val (mk_apint 192 [0; 0; 0], Ok tt)) /\
  ~ agree (fst (w_wrapping_udiv_assign C106_u C106_v)) Other C106_v C106_v2 /\
  ~ agree (fst (w_wrapping_srem_assign C106_u (mk_apint 192 [0; 0; 0]))) Self C106_u C106_v /\
  agree (fst (w_wrapping_urem_assign C106_u (mk_apint 64 [1]))) Self C106_u C106_v.
Proof.
  split; [split; [wf_now|split; [wf_now|reflexivity]]|]. split; [vm_compute; reflexivity|]. split; [intros H; specialize (H 0%nat); vm_compute in H; discriminate H; tauto|].
  split; [intros H; specialize (H 0%nat); vm_compute in H; discriminate H; tauto|]. intros i H. vm_compute in H. decompose [or] H; try discriminate; contradiction.
Qed.

(** C106: calls that leave the quotient in one operand and the remainder in the other. *)
Theorem C106_both_operands :
  changes_both w_wrapping_udivrem_assign /\ changes_both w_wrapping_uremdiv_assign /\ changes_both w_wrapping_sdivrem_assign /\ changes_both w_wrapping_sremdiv_assign.
Proof. exact touch_divrem. Qed.
Print Assumptions C106_both_operands.
Example C106_both_operands_ex : twins C106_v C106_v2 /\
  w_wrapping_udivrem_assign C106_u C106_v = ([Branch true; Branch false; Read Other 2; Branch true; Read Self 2; Branch true; Branch false; Branch false; Branch false; Branch false; Read Self 2; Read Other 2; Branch true; Read Self 0;
    Write Other 0; Write Self 0; Read Self 1; Write Other 1; Write Self 1; Read Self 2; Write Other 2; Write Self 2; Branch true], Val (mk_apint 192 [0; 0; 0], mk_apint 192 [1; 2; 3], Ok tt)) /\
  agree (fst (w_wrapping_udivrem_assign C106_u C106_v)) Other C106_v C106_v2 /\ w_wrapping_udivrem_assign C106_u C106_v2 = w_wrapping_udivrem_assign C106_u C106_v /\
  ~ agree (fst (w_wrapping_udivrem_assign C106_v C106_u)) Other C106_u C106_v.
Proof.
  split; [split; [wf_now|split; [wf_now|reflexivity]]|]. split; [vm_compute; reflexivity|]. split; [intros i H; vm_compute in H; decompose [or] H; try discriminate; try contradiction; match goal with E : _ = Read _ _ |- _ => injection E as <- end; reflexivity|].
  split; [vm_compute; reflexivity|]. intros H. specialize (H 2%nat). vm_compute in H. discriminate H; tauto.
Qed.
