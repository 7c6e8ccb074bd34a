(** Properties C10-C12: comparison, equality and hashing. *)
From Verif Require Import LFacts LEx.

(** C10: the unsigned comparisons are the order of the unsigned values. *)
Theorem C10_unsigned_order a b :
  wf a -> wf b -> len a = len b ->
  checked_ult a b = Val (Ok (unsigned a <? unsigned b)) /\
  checked_ule a b = Val (Ok (unsigned a <=? unsigned b)) /\
  checked_ugt a b = Val (Ok (unsigned a >? unsigned b)) /\
  checked_uge a b = Val (Ok (unsigned a >=? unsigned b)).
Proof. exact (ucmp_fact a b). Qed.
Print Assumptions C10_unsigned_order.
Example C10_ex : wf e100 /\ wf f100 /\ len e100 = len f100 /\ checked_ult f100 e100 = Val (Ok true).
Proof. split; [apply wf_e100|split; [apply wf_f100|split; [reflexivity|vm_compute; reflexivity]]]. Qed.

(** C11: the signed comparisons are the order of the two's complement values. *)
Theorem C11_signed_order a b :
  wf a -> wf b -> len a = len b ->
  checked_slt a b = Val (Ok (signed a <? signed b)) /\
  checked_sle a b = Val (Ok (signed a <=? signed b)) /\
  checked_sgt a b = Val (Ok (signed a >? signed b)) /\
  checked_sge a b = Val (Ok (signed a >=? signed b)).
Proof. exact (scmp_fact a b). Qed.
Print Assumptions C11_signed_order.
Example C11_ex : wf e100 /\ wf f100 /\ len e100 = len f100 /\ signed f100 < signed e100 < 0 /\
  checked_slt f100 e100 = Val (Ok true) /\ checked_slt e100 g100 = Val (Ok true).
Proof.
  split; [apply wf_e100|split; [apply wf_f100|split; [reflexivity|split; [|split; vm_compute; reflexivity]]]].
  vm_compute. split; reflexivity.
Qed.

(** C12: == holds iff width and value agree, and iff the hashers are fed the same. *)
Theorem C12_eq_hash a b :
  wf a -> wf b ->
  (apint_eqb a b = true <-> len a = len b /\ unsigned a = unsigned b) /\
  (apint_eqb a b = true <-> hash_feed a = hash_feed b).
Proof. exact (eq_hash_fact a b). Qed.
Print Assumptions C12_eq_hash.
Example C12_ex : wf e64 /\ wf e100 /\ apint_eqb e64 e100 = false /\ apint_eqb e100 e100 = true.
Proof. split; [apply wf_e64|split; [apply wf_e100|split; vm_compute; reflexivity]]. Qed.
