(** Property C107: how many digits divisions read, write and allocate.  The accesses are those of MWatchDiv.v, the steps those of MTime.v.
    The words used in the statements are defined in SpecTraffic.v and SpecWork.v. *)
From Verif Require Import LTraffic4 LEx.

(** C107: unsigned divisions of every width and every value, also by zero and with another width. *)
Theorem C107_unsigned a b :
  wf a -> wf b ->
  let n := digit_count (len a) in let m := digit_count (len b) in
  within (w_wrapping_udivrem_assign a b) (wrapping_udivrem_assign a b) (14 * n ^ 2 + 116 * n + 165) (2 * n) /\
  within (w_wrapping_uremdiv_assign a b) (wrapping_uremdiv_assign a b) (14 * n ^ 2 + 116 * n + 165) (2 * n) /\
  within (w_wrapping_udiv_assign a b) (wrapping_udiv_assign a b) (14 * n ^ 2 + 116 * n + 165) (2 * n + m) /\
  within (w_wrapping_urem_assign a b) (wrapping_urem_assign a b) (14 * n ^ 2 + 116 * n + 165) (2 * n + m).
Proof. exact (traffic_unsigned a b). Qed.
Print Assumptions C107_unsigned.
Definition C107_a : apint := mk_apint 200 [5; 0; 2^63; 2^7 + 1].
Definition C107_b : apint := mk_apint 200 [2^64 - 1; 77; 0; 0].
Definition C107_0 : apint := mk_apint 200 [0; 0; 0; 0].
Example C107_unsigned_ex : wf C107_a /\ wf C107_b /\ digit_count 200 = 4 /\
  work (fst (w_wrapping_udivrem_assign C107_a C107_b)) 61 28 8 /\ work (fst (w_wrapping_urem_assign C107_a C107_b)) 73 40 12 /\
  work (fst (w_wrapping_udiv_assign C107_a C107_0)) 12 8 8 /\ work (fst (w_wrapping_udiv_assign C107_a (mk_apint 64 [3]))) 0 0 0.
Proof. split; [wf_now|]. split; [wf_now|]. vm_compute. repeat split; reflexivity. Qed.

(** C107: signed divisions, unless they panic because the widths differ. *)
Theorem C107_signed a b :
  wf a -> wf b -> len a = len b \/ unsigned b = 0 ->
  let n := digit_count (len a) in let m := digit_count (len b) in
  within (w_wrapping_sdivrem_assign a b) (wrapping_sdivrem_assign a b) (14 * n ^ 2 + 132 * n + 16 * m + 208) (2 * n) /\
  within (w_wrapping_sremdiv_assign a b) (wrapping_sremdiv_assign a b) (14 * n ^ 2 + 132 * n + 16 * m + 208) (2 * n) /\
  within (w_wrapping_sdiv_assign a b) (wrapping_sdiv_assign a b) (14 * n ^ 2 + 132 * n + 16 * m + 208) (2 * n + m) /\
  within (w_wrapping_srem_assign a b) (wrapping_srem_assign a b) (14 * n ^ 2 + 132 * n + 16 * m + 208) (2 * n + m).
Proof. exact (traffic_signed a b). Qed.
Print Assumptions C107_signed.
Example C107_signed_ex : wf C107_a /\ wf C107_b /\ len C107_a = len C107_b /\
  work (fst (w_wrapping_sdiv_assign C107_a C107_b)) 67 40 8 /\ unsigned (mk_apint 64 [0]) = 0 /\
  work (fst (w_wrapping_srem_assign C107_a (mk_apint 64 [0]))) 5 4 4.
Proof. split; [wf_now|]. split; [wf_now|]. vm_compute. repeat split; reflexivity. Qed.

(** C107: so the number of steps counted for C96 leaves no access out, except a fixed number of them. *)
Theorem C107_counted a b :
  counted (w_wrapping_udivrem_assign a b) (c_wrapping_udivrem_assign a b) 5 /\ counted (w_wrapping_uremdiv_assign a b) (c_wrapping_uremdiv_assign a b) 5 /\
  counted (w_wrapping_udiv_assign a b) (c_wrapping_udiv_assign a b) 5 /\ counted (w_wrapping_urem_assign a b) (c_wrapping_urem_assign a b) 5 /\
  counted (w_wrapping_sdivrem_assign a b) (c_wrapping_sdivrem_assign a b) 6 /\ counted (w_wrapping_sremdiv_assign a b) (c_wrapping_sremdiv_assign a b) 6 /\
  counted (w_wrapping_sdiv_assign a b) (c_wrapping_sdiv_assign a b) 8 /\ counted (w_wrapping_srem_assign a b) (c_wrapping_srem_assign a b) 8.
Proof. exact (traffic_counted a b). Qed.
Print Assumptions C107_counted.
Example C107_counted_ex : fst (c_wrapping_udivrem_assign C107_a C107_b) = 84 /\ fst (c_wrapping_sdiv_assign C107_a C107_b) = 100 /\
  fst (c_wrapping_udivrem_assign (mk_apint 40 [9]) (mk_apint 40 [4])) = 0 /\ work (fst (w_wrapping_udivrem_assign (mk_apint 40 [9]) (mk_apint 40 [4]))) 2 2 0 /\
  fst (c_wrapping_sdiv_assign (mk_apint 40 [9]) (mk_apint 40 [4])) = 4 /\ work (fst (w_wrapping_sdiv_assign (mk_apint 40 [9]) (mk_apint 40 [4]))) 6 3 0.
Proof. vm_compute. repeat split; reflexivity. Qed.
