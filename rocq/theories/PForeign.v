(** Properties C73 and C74.  [exec (hrun_foreign next [] g p)] (MForeign.v) runs programs that also
    call a random number generator [next] in state [g], which may panic, and read and
    write documents (SpecForeign.v), over the heap of MHeap.v, with every panic caught. *)
From Verif Require Import LForeign.

(** C73: whatever the generator gives and whenever it panics, and whatever the
    documents hold, the run goes on as [arun_foreign] says (SpecForeign.v):
    nothing undefined happens, every variable holds a canonical integer of the
    right value in a buffer of its own of exactly the right size, and no other
    buffer is allocated. *)
Theorem C73_foreign {S : Type} (next : S -> drawn S) g p slack :
  generator_ok next -> Forall fcmd_ok p ->
  exists vs m cs, exec (hrun_foreign next [] g p) (empty_memory slack) = MVal (vs, snd (arun_foreign next [] g p)) m /\
    Forall2 holds cs (fst (arun_foreign next [] g p)) /\ Forall2 (stored m) vs cs /\ owned_once m vs.
Proof. exact (foreign_fact next  g p slack). Qed.
Print Assumptions C73_foreign.
(** Gives the numbers of its state; panics on a negative number and when none is left. *)
Definition C73_play (s : list Z) : drawn (list Z) :=
  match s with
  | [] => Unwinds []
  | d :: r => if d <? 0 then Unwinds r else Word (d mod 2 ^ 64) r
  end.
Lemma C73_play_ok : generator_ok C73_play.
Proof.
  intros s d s'. unfold C73_play. destruct s as [|e r]; [discriminate|]. destruct (e <? 0); [discriminate|].
  intros E. injection E as <- _. apply Z.mod_pos_bound. reflexivity.
Qed.
Definition C73_program : list fcmd :=
  [FRandom 100; FRandom 100; FCall (New (NUMax 150)); FRandomize 0; FRandom 0; FRandomize 7;
   FSave true 0; FLoad true (DMap [(DStr "digits", DSeq [DU64 5; DU64 (2 ^ 64 - 1)]); (DStr "width", DSeq [DU64 70])]);
   FLoad false (DSeq [DU64 70; DSeq [DU64 5]]); FLoad false (DSeq []); FLoad false (DSeq [DU64 8; DSeq [DU64 1000]; DBad]);
   FSave false 2; FRandom 64; FRandom 40; FCall (Bin BSdiv 0 2)].
Example C73_foreign_ex : Forall fcmd_ok C73_program /\
  arun_foreign C73_play [] [7; 8; 9; -1; 11; 12; -1; 2 ^ 40 + 4] C73_program =
    ([Some (100, 11 + 2 ^ 64 * 12); Some (150, 2 ^ 150 - 1); Some (70, 2 ^ 70 - 2 ^ 64 + 5); Some (8, 232); Some (40, 4)],
     ([], [FShows ODone; FPanicked; FShows ODone; FShows ODone; FShows (OFail (EBitWidth 0)); FShows ORejected;
           FWrote (SStruct "ApInt" [("width"%string, STupleStruct "BitWidth" [SU64 100]); ("digits"%string, SSeq [SU64 11; SU64 12])]);
           FShows ODone; FRefused; FPanicked; FShows ODone; FWrote (STuple [SU64 70; SSeq [SU64 5; SU64 63]]); FPanicked; FShows ODone; FPanicked])) /\
  exists m, exec (hrun_foreign C73_play [] [7; 8; 9; -1; 11; 12; -1; 2 ^ 40 + 4] C73_program) (empty_memory (fun n => n)) =
    MVal ([Some (mk_hapint 100 (UExt 1)); Some (mk_hapint 150 (UExt 4)); Some (mk_hapint 70 (UExt 6)); Some (mk_hapint 8 (UInl 232)); Some (mk_hapint 40 (UInl 4))],
      snd (arun_foreign C73_play [] [7; 8; 9; -1; 11; 12; -1; 2 ^ 40 + 4] C73_program)) m /\
    nth_error (blocks m) 1 = Some (Some [11; 12]) /\ nth_error (blocks m) 2 = Some None.
Proof.
  split; [repeat constructor; vm_compute; intuition discriminate|]. split; [vm_compute; reflexivity|].
  eexists. split; [vm_compute; reflexivity|split; reflexivity].
Qed.

(** C73: when every variable is dropped after that, nothing stays allocated. *)
Theorem C73_no_leak {S : Type} (next : S -> drawn S) g p slack :
  generator_ok next -> Forall fcmd_ok p ->
  exists vs r m,
    exec (hrun_foreign next [] g (p ++ map (fun i => FCall (Drop i)) (seq 0 (length (fst (arun_foreign next [] g p)))))) (empty_memory slack) = MVal (vs, r) m /\
    all_freed m.
Proof. exact (foreign_no_leak_fact next  g p slack). Qed.
Print Assumptions C73_no_leak.
Example C73_no_leak_ex : exists vs r m,
  exec (hrun_foreign C73_play [] [7; 8; 9; -1; 11] ([FRandom 100; FRandom 200; FRandomize 0;
    FLoad false (DSeq [DU64 70; DSeq [DU64 5; DU64 6]])] ++ map (fun i => FCall (Drop i)) (seq 0 2))) (empty_memory (fun n => n)) =
    MVal (vs, r) m /\ snd r = [FShows ODone; FPanicked; FPanicked; FShows ODone; FShows ODone; FShows ODone] /\
  (length (blocks m) > 4)%nat /\ Forall (eq None) (blocks m).
Proof. eexists. eexists. eexists. split; [vm_compute; reflexivity|]. split; [reflexivity|]. split; [cbn; lia|]. repeat constructor. Qed.

(** C73: a document that is refused is refused with the error that C39 is about, and leaves the
    memory as it was. *)
Theorem C73_refused human d e m :
  de_apint human d = Val (DErr e) -> exec (h_de_apint human d) m = MVal (Some (DErr e)) m.
Proof. exact (foreign_refused human d e m). Qed.
Print Assumptions C73_refused.
Example C73_refused_ex :
  de_apint true (DMap [(DStr "digits", DSeq [DU64 5])]) = Val (DErr (EMissingField "width")) /\
  de_apint false (DSeq [DU64 70]) = Val (DErr (EInvalidLength 1)).
Proof. split; reflexivity. Qed.

(** C73: every integer that is left is canonical: it has a positive width, the
    digits that the width needs, and no bit set above the width. *)
Theorem C73_canonical {S : Type} (next : S -> drawn S) g p slack vs r m i v :
  generator_ok next -> Forall fcmd_ok p ->
  exec (hrun_foreign next [] g p) (empty_memory slack) = MVal (vs, r) m -> nth_error vs i = Some (Some v) ->
  exists x, stored m (Some v) (Some x) /\ wf x.
Proof. exact (foreign_canonical_fact next  g p slack vs r m i v). Qed.
Print Assumptions C73_canonical.
Example C73_canonical_ex : exists vs r m,
  exec (hrun_foreign C73_play [] [2 ^ 64 - 1; -1] [FCall (New (NZero 70)); FRandomize 0]) (empty_memory (fun n => n)) = MVal (vs, r) m /\
  r = ([], [FShows ODone; FPanicked]) /\ nth_error vs 0 = Some (Some (mk_hapint 70 (UExt 1))) /\
  nth_error (blocks m) 1 = Some (Some [2 ^ 64 - 1; 0]).
Proof. eexists. eexists. eexists. split; [vm_compute; reflexivity|]. repeat split. Qed.

(** C74: a generator that panics in [randomize_using] leaves every other integer as
    it was, and replaces in the integer itself no more than the words that came:
    the words above stay, and so does the width. *)
Theorem C74_interrupted {S : Type} (next : S -> drawn S) g p slack vs g1 os m x vs' g2 m' i v a :
  generator_ok next -> Forall fcmd_ok p ->
  exec (hrun_foreign next [] g p) (empty_memory slack) = MVal (vs, (g1, os)) m ->
  exec (hrun_foreign next [] g (p ++ [FRandomize x])) (empty_memory slack) = MVal (vs', (g2, os ++ [FPanicked])) m' ->
  nth_error vs i = Some v -> stored m v (Some a) ->
  exists v' b, nth_error vs' i = Some v' /\ stored m' v' (Some b) /\
    (i <> x -> b = a) /\
    (i = x -> exists u k, pull next (word_count (len a)) g1 = (u, k, g2) /\ (k < word_count (len a))%nat /\
       is_apint b (len a) (u + 2 ^ (64 * Z.of_nat k) * (unsigned a / 2 ^ (64 * Z.of_nat k)))).
Proof. exact (interrupted_fact next  g p slack vs g1 os m x vs' g2 m' i v a). Qed.
Print Assumptions C74_interrupted.
Example C74_interrupted_ex : exists vs m vs' m',
  exec (hrun_foreign C73_play [] [5; 6; -1] [FCall (New (NUMax 150)); FCall (Clone 0)]) (empty_memory (fun n => n)) =
    MVal (vs, ([5; 6; -1], [FShows ODone; FShows ODone])) m /\
  exec (hrun_foreign C73_play [] [5; 6; -1] ([FCall (New (NUMax 150)); FCall (Clone 0)] ++ [FRandomize 0])) (empty_memory (fun n => n)) =
    MVal (vs', ([], [FShows ODone; FShows ODone] ++ [FPanicked])) m' /\
  pull C73_play (word_count 150) [5; 6; -1] = (5 + 2 ^ 64 * 6, 2%nat, []) /\
  map (nth_error (blocks m)) [1%nat; 2%nat] = [Some (Some [2 ^ 64 - 1; 2 ^ 64 - 1; 2 ^ 22 - 1]); Some (Some [2 ^ 64 - 1; 2 ^ 64 - 1; 2 ^ 22 - 1])] /\
  map (nth_error (blocks m')) [1%nat; 2%nat] = [Some (Some [5; 6; 2 ^ 22 - 1]); Some (Some [2 ^ 64 - 1; 2 ^ 64 - 1; 2 ^ 22 - 1])].
Proof. do 4 eexists. split; [vm_compute; reflexivity|]. split; [vm_compute; reflexivity|]. repeat split; vm_compute; reflexivity. Qed.
