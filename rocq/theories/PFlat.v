(** Property C92: programs on a flat memory, with an allocator that may use addresses again and may refuse.  The
    words used in the statements are defined in SpecFlat.v and in the files of C46, C73 and C91. *)
From Verif Require Import LFlat.

(** C92: any program on [ApInt] with any generator and any deserializer, which catches all panics, on any memory with any
    honest allocator, while others change the memory that is not allocated: unless the allocator refuses or
    the process is killed, it shows what the abstract machine shows; the integers are in memory as they should,
    allocated is what they need and what was allocated before, in regions that share no address; and no
    memory of others has been written to. *)
Theorem C92_flat {S : Type} (next : S -> drawn S) g p w m0 :
  generator_ok next -> Forall fcmd_ok p -> honest w -> apart (taken m0) ->
  (fexec w 0 (hrun_foreign next [] g p) m0 = FAborted /\ ~ generous w) \/
  exists vs m cs, fexec w 0 (hrun_foreign next [] g p) m0 = FVal (vs, snd (arun_foreign next [] g p)) m /\
    Forall2 holds cs (fst (arun_foreign next [] g p)) /\ Forall2 (fstored m) vs cs /\ tidy m0 m vs.
Proof. exact (flat_fact next  g p w m0). Qed.
Print Assumptions C92_flat.
(** Takes the first region that is free, looking at address 0 and behind every allocated region. *)
Definition C92_fits (m : flat) (n p : nat) : bool := forallb (fun a => negb (is_taken m a)) (seq p n).
Definition C92_place (t : nat) (m : flat) (n : nat) : option nat :=
  let ends := map (fun r => (fst r + snd r)%nat) (taken m) in
  match find (C92_fits m n) (0%nat :: ends) with Some p => Some p | None => Some (list_max ends) end.
(** Garbage everywhere else, and 0, 1 or 2 digits of spare room. *)
Definition C92_world : world := mk_world C92_place (fun t m a => 1000 + Z.of_nat (t + a)) (fun t n => Nat.modulo t 3) (fun t => false).
Lemma C92_place_ok t m n p : C92_place t m n = Some p -> forall a, within a (p, n) -> ~ occupied m a.
Proof.
  intros E a W (r & I & Wr). unfold C92_place in E. destruct (find _ _) as [q|] eqn:Ef.
  - injection E as ->. apply find_some in Ef as (_ & Ef). unfold C92_fits in Ef. rewrite forallb_forall in Ef.
    specialize (Ef a). rewrite in_seq in Ef. specialize (Ef W).
    assert (Ht : is_taken m a = true) by (apply is_taken_spec; exists r; auto). rewrite Ht in Ef. discriminate.
  - injection E as <-. pose proof (proj1 (list_max_le (map (fun r => (fst r + snd r)%nat) (taken m)) _) (le_n _)) as M.
    rewrite Forall_forall in M. specialize (M (fst r + snd r)%nat ltac:(apply in_map_iff; exists r; auto)).
    unfold within in *. cbn [fst snd] in *. lia.
Qed.
Lemma C92_world_ok : honest C92_world /\ generous C92_world.
Proof.
  split; [exact C92_place_ok|]. split; [|reflexivity].
  intros t m n. cbn [place C92_world]. unfold C92_place. destruct (find _ _); discriminate.
Qed.
(** At most 10 words are allocated. *)
Definition C92_small : world :=
  mk_world (fun t m n => if Nat.ltb 10 (n + list_sum (map snd (taken m))) then None else C92_place t m n)
    (others C92_world) (room C92_world) (killed C92_world).
Lemma C92_small_ok : honest C92_small.
Proof. intros t m n p E. cbn [place C92_small] in E. destruct (Nat.ltb _ _); [discriminate|]. exact (C92_place_ok t m n p E). Qed.
(** Words 3 and 4 belong to others. *)
Definition C92_before : flat := mk_flat (fun a => Z.of_nat a) [(3, 2)]%nat.
(** Gives the numbers of its state; panics on a negative number and when none is left. *)
Definition C92_play (s : list Z) : drawn (list Z) :=
  match s with
  | [] => Unwinds []
  | d :: r => if d <? 0 then Unwinds r else Word (d mod 2 ^ 64) r
  end.
Lemma C92_play_ok : generator_ok C92_play.
Proof.
  intros s d s'. unfold C92_play. destruct s as [|e r]; [discriminate|]. destruct (e <? 0); [discriminate|].
  intros E. injection E as <- _. apply Z.mod_pos_bound. reflexivity.
Qed.
(** The first integer and the random one of 100 bits are at the same address, one after the other. *)
Definition C92_program : list fcmd :=
  [FCall (New (NAllSet 70)); FCall (New (NU8 3)); FCall (New (NSMin 200)); FCall (Drop 0); FCall (Clone 2); FRandom 100;
   FCall (Bin BMul 2 4); FRandomize 2; FCall (Assign 1 2); FCall (Mut (MSignExtend 128) 4)].
Example C92_flat_ex : Forall fcmd_ok C92_program /\ apart (taken C92_before) /\
  match fexec C92_world 0 (hrun_foreign C92_play [] [7; 8; 9; -1] (firstn 1 C92_program)) C92_before with
  | FVal (vs, _) m => vs = [Some (mk_hapint 70 (UExt 0))] /\ words_at m 0 4 = [2 ^ 64 - 1; 2 ^ 6 - 1; 1006; 3]
  | _ => False
  end /\
  match fexec C92_world 0 (hrun_foreign C92_play [] [7; 8; 9; -1] C92_program) C92_before with
  | FVal (vs, r) m =>
      vs = [None; Some (mk_hapint 200 (UExt 18)); Some (mk_hapint 200 (UExt 10)); Some (mk_hapint 200 (UExt 14)); Some (mk_hapint 128 (UExt 0))] /\
      r = ([], [FShows ODone; FShows ODone; FShows ODone; FShows ODone; FShows ODone; FShows ODone; FShows (OFail (EWidths 200 100)); FPanicked;
                FShows ODone; FShows ODone]) /\
      taken m = [(18, 4); (0, 2); (14, 4); (10, 4); (3, 2)]%nat /\
      words_at m 0 2 = [7; 8] /\ words_at m 3 2 = [3; 4] /\ words_at m 10 4 = [9; 0; 0; 128]
  | _ => False
  end /\
  fexec C92_small 0 (hrun_foreign C92_play [] [7; 8; 9; -1] C92_program) C92_before = FAborted.
Proof.
  split; [repeat constructor; vm_compute; discriminate|]. split; [repeat constructor|].
  split; [vm_compute; split; reflexivity|]. split; [vm_compute; repeat split; reflexivity|vm_compute; reflexivity].
Qed.

(** C92: the same for programs on [UInt] and [Int]. *)
Theorem C92_flat_typed {S : Type} (next : S -> drawn S) g p w m0 :
  generator_ok next -> Forall tfcmd_ok p -> honest w -> apart (taken m0) ->
  (fexec w 0 (htrun_foreign next [] g p) m0 = FAborted /\ ~ generous w) \/
  exists vs m, fexec w 0 (htrun_foreign next [] g p) m0 = FVal (vs, snd (tarun_foreign next [] g p)) m /\
    Forall2 (fin_memory m) vs (fst (tarun_foreign next [] g p)) /\ tidy m0 m (inside vs).
Proof. exact (tflat_fact next  g p w m0). Qed.
Print Assumptions C92_flat_typed.
Definition C92_typed_program : list tfcmd :=
  [TFRandom KI 70; TFCall (TNew KI (TMin 150)); TFCall (TDrop 0); TFRandom KU 128; TFCall (TBin Operator TDiv 1 2); TFRandomize 1; TFRandom KI 65].
Example C92_flat_typed_ex : Forall tfcmd_ok C92_typed_program /\
  match fexec C92_world 0 (htrun_foreign C92_play [] [5; 63; 6; 7; 8; -1; 9; 1] C92_typed_program) C92_before with
  | FVal (vs, r) m =>
      vs = [None; Some (mk_htvar KI (mk_hapint 150 (UExt 9))); Some (mk_htvar KU (mk_hapint 128 (UExt 12))); Some (mk_htvar KI (mk_hapint 65 (UExt 14)))] /\
      snd r = [TFShows (Shows ODone); TFShows (Shows ODone); TFShows (Shows ODone); TFShows (Shows ODone); TFShows rejected; TFPanicked; TFShows (Shows ODone)] /\
      words_at m 12 2 = [6; 7] /\ words_at m 9 3 = [8; 0; 2 ^ 21] /\ words_at m 14 2 = [9; 1]
  | _ => False
  end.
Proof. split; [repeat constructor; vm_compute; discriminate|]. vm_compute. repeat split; reflexivity. Qed.

(** C92: programs on [ApInt] that catch no panic: they end in a panic if and only if the abstract machine does,
    and otherwise everything is as in [C92_flat]. *)
Theorem C92_uncaught p w m0 :
  Forall cmd_ok p -> honest w -> apart (taken m0) ->
  (fexec w 0 (hrun [] p) m0 = FAborted /\ ~ generous w) \/
  match arun [] p with
  | None => fexec w 0 (hrun [] p) m0 = FPanic
  | Some (s, os) => exists vs m cs, fexec w 0 (hrun [] p) m0 = FVal (vs, os) m /\ Forall2 holds cs s /\ Forall2 (fstored m) vs cs /\ tidy m0 m vs
  end.
Proof. exact (flat_uncaught_fact p w m0). Qed.
Print Assumptions C92_uncaught.
Example C92_uncaught_ex :
  fexec C92_world 0 (hrun [] [New (NSMin 100); New (NU8 7); Bin BSdiv 0 1; Clone 0]) C92_before = FPanic /\
  match fexec C92_world 0 (hrun [] [New (NSMin 100); New (NU8 7); Bin BUdiv 0 1; Clone 0; Drop 0]) C92_before with
  | FVal (vs, os) m => os = [ODone; ODone; OFail (EWidths 100 8); ODone; ODone] /\ taken m = [(5, 2); (3, 2)]%nat
  | _ => False
  end.
Proof. split; [vm_compute; reflexivity|]. vm_compute. split; reflexivity. Qed.

(** C92: the same for programs on [UInt] and [Int]. *)
Theorem C92_uncaught_typed p w m0 :
  Forall tcmd_ok p -> honest w -> apart (taken m0) ->
  (fexec w 0 (htrun [] p) m0 = FAborted /\ ~ generous w) \/
  match tarun [] p with
  | None => fexec w 0 (htrun [] p) m0 = FPanic
  | Some (s, os) => exists vs m, fexec w 0 (htrun [] p) m0 = FVal (vs, os) m /\ Forall2 (fin_memory m) vs s /\ tidy m0 m (inside vs)
  end.
Proof. exact (tflat_uncaught_fact p w m0). Qed.
Print Assumptions C92_uncaught_typed.
Example C92_uncaught_typed_ex :
  fexec C92_world 0 (htrun [] [TNew KI (TMin 150); TNew KI (TMin 100); TBin Operator TAdd 0 1]) C92_before = FPanic /\
  match fexec C92_world 0 (htrun [] [TNew KI (TMin 150); TNew KI (TMax 150); TBin Operator TAdd 0 1]) C92_before with
  | FVal (vs, os) m =>
      inside vs = [Some (mk_hapint 150 (UExt 0)); Some (mk_hapint 150 (UExt 5))] /\
      words_at m 0 3 = [2 ^ 64 - 1; 2 ^ 64 - 1; 2 ^ 22 - 1] /\ words_at m 5 3 = [2 ^ 64 - 1; 2 ^ 64 - 1; 2 ^ 21 - 1]
  | _ => False
  end.
Proof. split; [vm_compute; reflexivity|]. vm_compute. repeat split; reflexivity. Qed.

(** C92: when every variable is dropped after that, exactly what was allocated before the program is allocated. *)
Theorem C92_no_leak {S : Type} (next : S -> drawn S) g p w m0 :
  generator_ok next -> Forall fcmd_ok p -> honest w -> apart (taken m0) ->
  (fexec w 0 (hrun_foreign next [] g (p ++ map (fun i => FCall (Drop i)) (seq 0 (length (fst (arun_foreign next [] g p)))))) m0 = FAborted /\ ~ generous w) \/
  exists vs r m,
    fexec w 0 (hrun_foreign next [] g (p ++ map (fun i => FCall (Drop i)) (seq 0 (length (fst (arun_foreign next [] g p)))))) m0 = FVal (vs, r) m /\
    Permutation (taken m) (taken m0).
Proof. exact (flat_no_leak_fact next  g p w m0). Qed.
Print Assumptions C92_no_leak.
Example C92_no_leak_ex :
  match fexec C92_world 0 (hrun_foreign C92_play [] [7; 8; 9; -1] (C92_program ++ map (fun i => FCall (Drop i)) (seq 0 5))) C92_before with
  | FVal _ m => taken m = [(3, 2)]%nat
  | _ => False
  end.
Proof. vm_compute. reflexivity. Qed.

(** C92: the same for programs on [UInt] and [Int]. *)
Theorem C92_no_leak_typed {S : Type} (next : S -> drawn S) g p w m0 :
  generator_ok next -> Forall tfcmd_ok p -> honest w -> apart (taken m0) ->
  (fexec w 0 (htrun_foreign next [] g (p ++ map (fun i => TFCall (TDrop i)) (seq 0 (length (fst (tarun_foreign next [] g p)))))) m0 = FAborted /\ ~ generous w) \/
  exists vs r m,
    fexec w 0 (htrun_foreign next [] g (p ++ map (fun i => TFCall (TDrop i)) (seq 0 (length (fst (tarun_foreign next [] g p)))))) m0 = FVal (vs, r) m /\
    Permutation (taken m) (taken m0).
Proof. exact (tflat_no_leak_fact next  g p w m0). Qed.
Print Assumptions C92_no_leak_typed.
Example C92_no_leak_typed_ex :
  match fexec C92_world 0 (htrun_foreign C92_play [] [5; 63; 6; 7; 8; -1; 9; 1] (C92_typed_program ++ map (fun i => TFCall (TDrop i)) (seq 0 4))) C92_before with
  | FVal _ m => taken m = [(3, 2)]%nat
  | _ => False
  end.
Proof. vm_compute. reflexivity. Qed.
