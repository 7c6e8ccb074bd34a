(** Property C101: how long whole programs take.  MTimeProgram.v runs the programs of C51 (SpecMachine.v) with their steps counted: one for each call, each digit (of 64 bits) that is
    read, written or passed over and each character of an error's message and annotation.  [within n] says that a program works with at most [n] digits at a time and [call_bound n] what
    a call may cost; both are in SpecTimeProgram.v. *)
From Verif Require Import LTimeProgram LEx.

(** C101: a program of any calls in any order, failing calls included, takes at most the sum of the bounds of its calls, and returns what it returns. *)
Theorem C101_program n p :
  2 <= n -> Forall cmd_ok p -> Forall (within n) p ->
  takes (t_run [] p) (crun [] p) (sum (map (call_bound n) p)).
Proof. exact (time_program_fact n p). Qed.
Print Assumptions C101_program.
Definition C101_p : list cmd :=
  [New (NParse 16 [49; 95; 102; 48; 102; 48; 102; 48; 102; 48; 102; 48; 102; 48; 102; 48; 102; 48; 102; 48]); New (NZero 128); Mut MNot 1; Bin BUdiv 1 0;
   New (NAllSet 128); IntoBin BMul 2 1; Cmp CUle 3 1; Mut (MTruncate 3) 1; Cmp CSlt 3 1; Bin BSdiv 3 1; Ask QBinary 0].
Example C101_program_ex : Forall cmd_ok C101_p /\ Forall (within 20) C101_p /\ fst (t_run [] C101_p) = 775 /\ snd (t_run [] C101_p) = crun [] C101_p /\
  sum (map (call_bound 20) C101_p) = 43270.
Proof. split; [repeat (constructor; [try exact I; cbn; repeat split; repeat constructor; try discriminate|]); constructor|]. split; [repeat (constructor; [try exact I; cbn; try discriminate|]); constructor|]. vm_compute. repeat split; reflexivity. Qed.

(** C101: so that its time is at most the number of its calls times a quadratic polynomial in the number of digits. *)
Theorem C101_calls n p :
  2 <= n -> Forall cmd_ok p -> Forall (within n) p ->
  takes (t_run [] p) (crun [] p) (Z.of_nat (length p) * (7 * n ^ 2 + 128 * n + 610)).
Proof. exact (time_calls_fact n p). Qed.
Print Assumptions C101_calls.
Example C101_calls_ex : List.length C101_p = 11%nat /\ 11 * (7 * 20 ^ 2 + 128 * 20 + 610) = 65670.
Proof. vm_compute. repeat split; reflexivity. Qed.

(** C101: without multiplications and divisions the polynomial is linear. *)
Theorem C101_light n p :
  2 <= n -> Forall cmd_ok p -> Forall (within n) p -> Forall (fun c => heavy c = false) p ->
  takes (t_run [] p) (crun [] p) (Z.of_nat (length p) * (128 * n + 610)).
Proof. exact (time_light_fact n p). Qed.
Print Assumptions C101_light.
Definition C101_q : list cmd := [New (NAllSet 200); New (NZero 65); Mut MInc 0; Cmp CUle 0 1; StrictAssign 0 1; Ask QLowerHex 0; Mut (MShl 200) 0; Ask (QTryTo PU8) 1].
Example C101_light_ex : Forall cmd_ok C101_q /\ Forall (within 4) C101_q /\ Forall (fun c => heavy c = false) C101_q /\ fst (t_run [] C101_q) = 994 /\
  8 * (128 * 4 + 610) = 8976.
Proof. split; [repeat (constructor; [try exact I; cbn; repeat split; repeat constructor; try discriminate|]); constructor|]. split; [repeat (constructor; [try exact I; cbn; try discriminate|]); constructor|].
  split; [repeat constructor|]. vm_compute. repeat split; reflexivity. Qed.

(** C101: and no integer a program holds has more digits than that. *)
Theorem C101_space n p cs os :
  2 <= n -> Forall cmd_ok p -> Forall (within n) p -> crun [] p = Val (cs, os) ->
  Forall (fun v => forall a, v = Some a -> Z.of_nat (length (digits a)) <= n) cs.
Proof. exact (program_size_fact n p cs os). Qed.
Print Assumptions C101_space.
Example C101_space_ex : match crun [] (firstn 9 C101_p) with Val (cs, _) => map (option_map (fun a => List.length (digits a))) cs = [Some 2%nat; Some 1%nat; None; Some 2%nat] | _ => False end.
Proof. vm_compute. reflexivity. Qed.
