(** Concrete [UInt] and [Int] values used by the examples beside the theorems. *)
From Verif Require Export LEx LInt4.

Definition u100 := mk_uint g100.
Definition v100 := mk_uint f100.
Definition i8 := mk_int e8.
Definition j8 := mk_int f8.
Definition m8 := mk_int (mk_apint 8 [128]).
Lemma is_u100 : is_uint u100 100 141472887417201429202.
Proof. split; [apply wf_g100|]. split; reflexivity. Qed.
Lemma is_v100 : is_uint v100 100 633825300114114700748351602690.
Proof. split; [apply wf_f100|]. split; reflexivity. Qed.
Lemma is_i8 : is_int i8 8 (-56).
Proof. split; [apply wf_e8|]. split; reflexivity. Qed.
Lemma is_j8 : is_int j8 8 100.
Proof. split; [apply wf_f8|]. split; reflexivity. Qed.
Lemma is_m8 : is_int m8 8 (-128).
Proof. split; [wf_now|]. split; reflexivity. Qed.
Lemma is_i100 : is_int (mk_int f100) 100 (-633825300114114700748351602686).
Proof. split; [apply wf_f100|]. split; reflexivity. Qed.
