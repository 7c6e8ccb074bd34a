(** Concrete integers used by the examples beside the theorems. *)
From Verif Require Export LConstr MRelational MDiv.

Ltac wf_now :=
  unfold wf; split; [reflexivity | split; [reflexivity | split;
    [repeat constructor; discriminate | vm_compute; reflexivity]]].

(** Width 1, 8 and 64: inline storage. *)
Definition e1 := mk_apint 1 [1].
Definition e8 := mk_apint 8 [200].
Definition f8 := mk_apint 8 [100].
Definition e64 := mk_apint 64 [18446744073709551615].
(** Width 100: two digits, the top one partly used. *)
Definition e100 := mk_apint 100 [18446744073709551615; 68719476735].
Definition f100 := mk_apint 100 [2; 34359738368].
Definition g100 := mk_apint 100 [12345678901234567890; 7].
Definition z100 := mk_apint 100 [0; 0].
(** Width 192: three digits, all used. *)
Definition e192 := mk_apint 192 [1; 0; 9223372036854775808].
Definition f192 := mk_apint 192 [18446744073709551615; 18446744073709551615; 5].

Lemma wf_e1 : wf e1. Proof. wf_now. Qed.
Lemma wf_e8 : wf e8. Proof. wf_now. Qed.
Lemma wf_f8 : wf f8. Proof. wf_now. Qed.
Lemma wf_e64 : wf e64. Proof. wf_now. Qed.
Lemma wf_e100 : wf e100. Proof. wf_now. Qed.
Lemma wf_f100 : wf f100. Proof. wf_now. Qed.
Lemma wf_g100 : wf g100. Proof. wf_now. Qed.
Lemma wf_z100 : wf z100. Proof. wf_now. Qed.
Lemma wf_e192 : wf e192. Proof. wf_now. Qed.
Lemma wf_f192 : wf f192. Proof. wf_now. Qed.
