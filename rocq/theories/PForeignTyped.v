(** Property C91: random number generators of others, which may panic, and [UInt] and [Int].  The words
    used in the statements are defined in SpecForeignTyped.v and in the files of C69 and C73. *)
From Verif Require Import LForeignTyped.

(** C91: any program on [UInt] and [Int] that makes and changes integers with any generator and
    catches all panics shows what the abstract machine shows, leaves the generator in the
    state in which the machine leaves it, and the memory is in order: it has the integers of
    the machine, and every buffer belongs to one variable. *)
Theorem C91_foreign {S : Type} (next : S -> drawn S) g p slack :
  generator_ok next -> Forall tfcmd_ok p ->
  exists vs m, exec (htrun_foreign next [] g p) (empty_memory slack) = MVal (vs, snd (tarun_foreign next [] g p)) m /\
    Forall2 (in_memory m) vs (fst (tarun_foreign next [] g p)) /\ owned_once m (inside vs).
Proof. exact (tforeign_fact next  g p slack). Qed.
Print Assumptions C91_foreign.
(** Gives the numbers of its state; panics on a negative number and when none is left. *)
Definition C91_play (s : list Z) : drawn (list Z) :=
  match s with
  | [] => Unwinds []
  | d :: r => if d <? 0 then Unwinds r else Word (d mod 2 ^ 64) r
  end.
Lemma C91_play_ok : generator_ok C91_play.
Proof.
  intros s d s'. unfold C91_play. destruct s as [|e r]; [discriminate|]. destruct (e <? 0); [discriminate|].
  intros E. injection E as <- _. apply Z.mod_pos_bound. reflexivity.
Qed.
Definition C91_program : list tfcmd :=
  [TFRandom KI 70; TFRandom KU 70; TFCall (TBin Operator TAdd 0 1); TFCall (TSwitch 1); TFRandomize 0; TFRandom KI 0; TFRandomize 7;
   TFRandom KI 8; TFRandom KI 128; TFCall (TNew KI (TMin 150)); TFRandomize 4; TFCall (TBin Operator TDiv 3 4)].
Definition C91_words : list Z := [5; 63; 6; 63; 7; 33; 255; 1; -1; 77; 78; -1].
Example C91_foreign_ex : Forall tfcmd_ok C91_program /\
  tarun_foreign C91_play [] C91_words C91_program =
    ([Some (mk_tval KI 70 (7 - 31 * 2 ^ 64)); None; Some (mk_tval KI 70 (6 - 2 ^ 64)); Some (mk_tval KI 8 1);
      Some (mk_tval KI 150 (77 + 2 ^ 64 * 78 - 2 ^ 149))],
     ([], [TFShows (Shows ODone); TFShows (Shows ODone); TFShows rejected; TFShows (Shows ODone); TFShows (Shows ODone);
           TFShows (Shows (OFail (EBitWidth 0))); TFShows rejected; TFShows (Shows ODone); TFPanicked; TFShows (Shows ODone); TFPanicked; TFPanicked])) /\
  exists vs m, exec (htrun_foreign C91_play [] C91_words C91_program) (empty_memory (fun n => n)) = MVal (vs, snd (tarun_foreign C91_play [] C91_words C91_program)) m.
Proof. split; [repeat constructor; vm_compute; discriminate|]. split; [vm_compute; reflexivity|]. do 2 eexists. vm_compute. reflexivity. Qed.

(** C91: when every variable is dropped after that, nothing stays allocated. *)
Theorem C91_no_leak {S : Type} (next : S -> drawn S) g p slack :
  generator_ok next -> Forall tfcmd_ok p ->
  exists vs r m,
    exec (htrun_foreign next [] g (p ++ map (fun i => TFCall (TDrop i)) (seq 0 (length (fst (tarun_foreign next [] g p)))))) (empty_memory slack) = MVal (vs, r) m /\
    all_freed m.
Proof. exact (tforeign_no_leak_fact next  g p slack). Qed.
Print Assumptions C91_no_leak.
Example C91_no_leak_ex : exists vs r m,
  exec (htrun_foreign C91_play [] [7; 8; 9; -1; 11] ([TFRandom KI 100; TFRandom KU 200; TFRandomize 0] ++ map (fun i => TFCall (TDrop i)) (seq 0 1))) (empty_memory (fun n => n)) =
    MVal (vs, r) m /\ snd r = [TFShows (Shows ODone); TFPanicked; TFPanicked; TFShows (Shows ODone)] /\ (length (blocks m) > 2)%nat /\ Forall (eq None) (blocks m).
Proof. eexists. eexists. eexists. split; [vm_compute; reflexivity|]. split; [reflexivity|]. split; [cbn; lia|]. repeat constructor. Qed.

(** C91: every integer of the machine is one that its type can hold, whatever the generator gave. *)
Theorem C91_range {S : Type} (next : S -> drawn S) g p :
  generator_ok next -> Forall tfcmd_ok p ->
  Forall (fun o => match o with Some v => in_type v | None => True end) (fst (tarun_foreign next [] g p)).
Proof. exact (tforeign_range_fact next  g p). Qed.
Print Assumptions C91_range.
Example C91_range_ex : map (option_map in_type) (fst (tarun_foreign C91_play [] [2 ^ 64 - 1; 2 ^ 63; 200; -1] [TFRandom KI 64; TFRandom KI 64; TFRandom KI 8; TFRandomize 0])) =
  [Some (in_type (mk_tval KI 64 (-1))); Some (in_type (mk_tval KI 64 (- 2 ^ 63))); Some (in_type (mk_tval KI 8 (-56)))].
Proof. reflexivity. Qed.

(** C91: a generator that panics in [randomize_using] leaves every other integer as it was, and replaces
    in the integer itself no more than the words that came: type, width and the words above
    stay, with them the sign. *)
Theorem C91_interrupted {S : Type} (next : S -> drawn S) g p slack vs g1 os m x vs' g2 m' i v t :
  generator_ok next -> Forall tfcmd_ok p ->
  exec (htrun_foreign next [] g p) (empty_memory slack) = MVal (vs, (g1, os)) m ->
  exec (htrun_foreign next [] g (p ++ [TFRandomize x])) (empty_memory slack) = MVal (vs', (g2, os ++ [TFPanicked])) m' ->
  nth_error vs i = Some v -> in_type t -> in_memory m v (Some t) ->
  exists v' t', nth_error vs' i = Some v' /\ in_memory m' v' (Some t') /\ in_type t' /\ (i <> x -> t' = t) /\
    (i = x -> tkind t' = tkind t /\ twidth t' = twidth t /\
      exists u k, pull next (word_count (twidth t)) g1 = (u, k, g2) /\ (k < word_count (twidth t))%nat /\ tvalue t' = low_replaced u k (tvalue t)).
Proof. exact (tinterrupted_fact next  g p slack vs g1 os m x vs' g2 m' i v t). Qed.
Print Assumptions C91_interrupted.
Example C91_interrupted_ex : exists vs m vs' m',
  exec (htrun_foreign C91_play [] [5; 6; -1] [TFCall (TNew KI (TMin 150)); TFCall (TClone 0)]) (empty_memory (fun n => n)) =
    MVal (vs, ([5; 6; -1], [TFShows (Shows ODone); TFShows (Shows ODone)])) m /\
  exec (htrun_foreign C91_play [] [5; 6; -1] ([TFCall (TNew KI (TMin 150)); TFCall (TClone 0)] ++ [TFRandomize 0])) (empty_memory (fun n => n)) =
    MVal (vs', ([], [TFShows (Shows ODone); TFShows (Shows ODone)] ++ [TFPanicked])) m' /\
  low_replaced (5 + 2 ^ 64 * 6) 2 (- 2 ^ 149) = 5 + 2 ^ 64 * 6 - 2 ^ 149 /\
  map (nth_error (blocks m')) [1%nat; 2%nat] = [Some (Some [5; 6; 2 ^ 21]); Some (Some [0; 0; 2 ^ 21])].
Proof. do 4 eexists. split; [vm_compute; reflexivity|]. split; [vm_compute; reflexivity|]. split; vm_compute; reflexivity. Qed.
