(** What a call accesses is all that matters to it: the rules. *)
From Verif Require Export LWatch LWatchSame.
From Coq Require Import Lia ZArith.

(** What the whole call reads and writes, which positions exist, and which operands may be written. *)
Record scope := mk_scope { rd : place -> nat -> Prop; wr : place -> nat -> Prop; room : place -> nat -> Prop; open : place -> Prop }.
Definition within (s : scope) (es : list event) : Prop :=
  Forall (fun e => match e with Read p i => rd s p i | Write p i => wr s p i | _ => True end) es.
Definition roomy (s : scope) (es : list event) : Prop :=
  Forall (fun e => match e with Read p i => room s p i | Write p i => room s p i /\ open s p | _ => True end) es.
Definition okay {A} (Q : A -> A -> Prop) (o o' : outcome A) : Prop :=
  match o, o' with Val a, Val a' => Q a a' | Stop b, Stop b' => b = b' | OutOfFuel, OutOfFuel => True | _, _ => False end.
Definition dep {A} (s : scope) (Q : A -> A -> Prop) (m m' : watched A) : Prop :=
  within s (fst m) -> fst m = fst m' /\ okay Q (snd m) (snd m') /\ (forall v, snd m = Val v -> roomy s (fst m)).
(** One digit that was [o] in one execution and [o'] in the other and is [x] and [y] now. *)
Definition cell (s : scope) (p : place) (i : nat) (o o' x y : Z) : Prop :=
  room s p i /\ (x = y \/ ~ rd s p i /\ x = o /\ y = o') /\ (~ wr s p i -> x = o /\ y = o').
Inductive cells (s : scope) (p : place) : list nat -> list Z -> list Z -> list Z -> list Z -> Prop :=
  | cells_nil : cells s p [] [] [] [] []
  | cells_cons i is o os o' os' x xs y ys : cell s p i o o' x y -> cells s p is os os' xs ys -> cells s p (i :: is) (o :: os) (o' :: os') (x :: xs) (y :: ys).
Definition lists (s : scope) (p : place) (o o' xs ys : list Z) : Prop := cells s p (seq 0 (List.length o)) o o' xs ys.

(** * The rules *)
Lemma okay_eq {A} (o : outcome A) : okay eq o o. Proof. destruct o; cbn; auto. Qed.
Lemma okay_weak {A} (Q Q2 : A -> A -> Prop) o o' : okay Q o o' -> (forall a a', Q a a' -> Q2 a a') -> okay Q2 o o'.
Proof. destruct o, o'; cbn; auto. Qed.
Lemma dep_weak {A} s (Q Q2 : A -> A -> Prop) m m' : dep s Q m m' -> (forall a a', Q a a' -> Q2 a a') -> dep s Q2 m m'.
Proof. intros H K W. destruct (H W) as (E & O & R). split; [exact E|]. split; [|exact R]. revert O. destruct (snd m), (snd m'); cbn; auto. Qed.
Lemma dep_bind {A C} s (Q : A -> A -> Prop) (Q2 : C -> C -> Prop) (m m' : watched A) (k k' : A -> watched C) :
  dep s Q m m' -> (forall a a', Q a a' -> dep s Q2 (k a) (k' a')) -> dep s Q2 (wbind m k) (wbind m' k').
Proof.
  intros H K. unfold dep, wbind. destruct (snd m) as [a| |] eqn:E.
  - cbn [fst snd]. intros W. apply Forall_app in W as [W1 W2]. destruct (H W1) as (E1 & O & R). rewrite E in O. destruct (snd m') as [a'| |]; try contradiction. cbn in O. destruct (K a a' O W2) as (E2 & O2 & R2).
    cbn [fst snd]. split; [congruence|]. split; [exact O2|]. intros v V. apply Forall_app. split; [now apply (R a)|now apply (R2 v)].
  - cbn [fst snd]. intros W. destruct (H W) as (E1 & O & R). rewrite E in O. destruct (snd m'); try contradiction. cbn in O. subst. cbn. split; [exact E1|]. split; [reflexivity|discriminate].
  - cbn [fst snd]. intros W. destruct (H W) as (E1 & O & R). rewrite E in O. destruct (snd m'); try contradiction. cbn. split; [exact E1|]. split; [exact I|discriminate].
Qed.
Lemma dep_val {A} s (Q : A -> A -> Prop) a a' : Q a a' -> dep s Q (wval a) (wval a').
Proof. intros H _. split; [reflexivity|]. split; [exact H|]. intros. constructor. Qed.
Lemma dep_lift {A} s (Q : A -> A -> Prop) o o' : okay Q o o' -> dep s Q (wlift o) (wlift o').
Proof. intros H _. split; [reflexivity|]. split; [exact H|]. intros. constructor. Qed.
Lemma dep_eq {A C} s (Q2 : C -> C -> Prop) (m m' : watched A) (k k' : A -> watched C) :
  dep s eq m m' -> (forall a, dep s Q2 (k a) (k' a)) -> dep s Q2 (wbind m k) (wbind m' k').
Proof. intros H K. apply (dep_bind s eq); [exact H|]. intros a ? <-. apply K. Qed.
Lemma dep_lift_eq {A C} s (Q2 : C -> C -> Prop) (o : outcome A) (k k' : A -> watched C) : (forall a, dep s Q2 (k a) (k' a)) -> dep s Q2 (wbind (wlift o) k) (wbind (wlift o) k').
Proof. intros K. apply dep_eq; [apply dep_lift, okay_eq|exact K]. Qed.
Lemma dep_branch {C} s (Q2 : C -> C -> Prop) b (k k' : bool -> watched C) : dep s Q2 (k b) (k' b) -> dep s Q2 (wbind (branch b) k) (wbind (branch b) k').
Proof. intros K. apply (dep_bind s (fun x y => x = b /\ y = b)); [|intros ? ? [-> ->]; exact K]. intros _. split; [reflexivity|]. split; [now split|]. intros. constructor; [exact I|constructor]. Qed.
Lemma dep_see {C} s (Q2 : C -> C -> Prop) es (k k' : unit -> watched C) : (within s es -> roomy s es /\ dep s Q2 (k tt) (k' tt)) -> dep s Q2 (wbind (see es) k) (wbind (see es) k').
Proof.
  intros K. unfold dep, wbind, see. cbn [fst snd]. intros W. apply Forall_app in W as [W1 W2]. destruct (K W1) as [R D]. destruct (D W2) as (E & O & T). split; [congruence|]. split; [exact O|]. intros v V. apply Forall_app. split; [exact R|exact (T v V)].
Qed.
Lemma dep_for {S} s (Q : S -> S -> Prop) n : forall lo (f f' : nat -> S -> watched S) x x', Q x x' -> (forall i x x', Q x x' -> dep s Q (f i x) (f' i x')) -> dep s Q (w_for_range n lo f x) (w_for_range n lo f' x').
Proof. induction n as [|n IH]; intros lo f f' x x' H K; cbn [w_for_range]; [now apply dep_val|]. apply (dep_bind s Q); [now apply K|]. intros. now apply IH. Qed.

(** * Digits *)
Lemma cells_length s p is o o' xs ys : cells s p is o o' xs ys -> List.length xs = List.length is /\ List.length ys = List.length is /\ List.length o = List.length is /\ List.length o' = List.length is.
Proof. induction 1; cbn; lia. Qed.
Lemma cells_nth s p is o o' xs ys k : cells s p is o o' xs ys ->
  match nth_error is k with
  | Some i => exists a a' x y, nth_error o k = Some a /\ nth_error o' k = Some a' /\ nth_error xs k = Some x /\ nth_error ys k = Some y /\ cell s p i a a' x y
  | None => nth_error o k = None /\ nth_error o' k = None /\ nth_error xs k = None /\ nth_error ys k = None
  end.
Proof.
  intros H. revert k. induction H as [|i is o os o' os' x xs y ys C H IH]; intros [|k]; cbn; [repeat split|repeat split| |exact (IH k)]. exists o, o', x, y. repeat (split; [reflexivity|]). exact C.
Qed.
Lemma nth_seq n : forall lo k, nth_error (seq lo n) k = if Nat.ltb k n then Some (lo + k)%nat else None.
Proof.
  induction n as [|n IH]; intros lo [|k]; cbn [seq nth_error]; [reflexivity|reflexivity|change (Nat.ltb 0 (S n)) with true; now rewrite Nat.add_0_r|]. rewrite IH. change (Nat.ltb (S k) (S n)) with (Nat.ltb k n). destruct (Nat.ltb k n); [f_equal; lia|reflexivity].
Qed.
Lemma lists_length s p o o' xs ys : lists s p o o' xs ys -> List.length xs = List.length ys /\ List.length xs = List.length o.
Proof. intros H. apply cells_length in H. rewrite seq_length in H. lia. Qed.
Lemma dep_idx s p o o' xs ys i : lists s p o o' xs ys -> dep s eq (w_idx p xs i) (w_idx p ys i).
Proof.
  intros H W. inversion W as [|? ? W1 _]; subst. cbn in W1. split; [reflexivity|]. unfold w_idx, idx. cbn [snd fst]. pose proof (cells_nth _ _ _ _ _ _ _ i H) as K. rewrite nth_seq in K. destruct (Nat.ltb i (List.length o)).
  - destruct K as (a & a' & x & y & _ & _ & X & Y & (R & V & _)). rewrite X, Y. cbn. split; [destruct V as [V|[V _]]; [exact V|contradiction]|]. intros. constructor; [exact R|constructor].
  - destruct K as (_ & _ & X & Y). rewrite X, Y. cbn. split; [reflexivity|discriminate].
Qed.
Lemma cells_upd s p v is o o' xs ys i k : cells s p is o o' xs ys -> nth_error is k = Some i -> wr s p i -> cells s p is o o' (firstn k xs ++ v :: skipn (S k) xs) (firstn k ys ++ v :: skipn (S k) ys).
Proof.
  intros H. revert k. induction H as [|j is o os o' os' x xs y ys C H IH]; intros [|k] E W; try discriminate E.
  - cbn in E. injection E as ->. cbn [firstn skipn app]. constructor; [|exact H]. destruct C as (R & _ & _). split; [exact R|]. split; [now left|contradiction].
  - cbn [firstn skipn app]. constructor; [exact C|]. now apply IH.
Qed.
Lemma okay_upd s p o o' xs ys i v : lists s p o o' xs ys -> wr s p i -> okay (lists s p o o') (upd xs i v) (upd ys i v).
Proof.
  intros H W1. destruct (lists_length _ _ _ _ _ _ H) as [L L']. unfold upd. rewrite <- L, L'. destruct (Nat.ltb i (List.length o)) eqn:E; [|reflexivity].
  cbn. apply (cells_upd s p v _ _ _ _ _ i i H); [|exact W1]. now rewrite nth_seq, E.
Qed.
Lemma lists_room s p o o' xs ys i : lists s p o o' xs ys -> (i < List.length o)%nat -> room s p i.
Proof. intros H L. pose proof (cells_nth _ _ _ _ _ _ _ i H) as K. rewrite nth_seq in K. apply Nat.ltb_lt in L. rewrite L in K. destruct K as (a & a' & x & y & _ & _ & X & Y & (R & V & _)). exact R. Qed.
Lemma dep_upd s p o o' xs ys i v : open s p -> lists s p o o' xs ys -> dep s (lists s p o o') (w_upd p xs i v) (w_upd p ys i v).
Proof.
  intros P H W. inversion W as [|? ? W1 _]; subst. cbn in W1. split; [reflexivity|]. split; [now apply okay_upd|]. intros u U. constructor; [|constructor]. split; [|exact P].
  cbn in U. unfold upd in U. destruct (Nat.ltb i (List.length xs)) eqn:E; [|discriminate U]. apply (lists_room _ _ _ _ _ _ _ H). apply Nat.ltb_lt in E. destruct (lists_length _ _ _ _ _ _ H). lia.
Qed.
Definition free (s : scope) (p : place) : Prop := open s p /\ forall i, room s p i.
Lemma dep_idx_free s p xs i : free s p -> dep s eq (w_idx p xs i) (w_idx p xs i).
Proof. intros [P F] W. split; [reflexivity|]. split; [apply okay_eq|]. intros. constructor; [apply F|constructor]. Qed.
Lemma dep_upd_free s p xs i v : free s p -> dep s eq (w_upd p xs i v) (w_upd p xs i v).
Proof. intros [P F] W. split; [reflexivity|]. split; [apply okay_eq|]. intros. constructor; [split; [apply F|exact P]|constructor]. Qed.

(** * Whole lists *)
Lemma cells_equal s p is o o' xs ys : cells s p is o o' xs ys -> Forall (rd s p) is -> xs = ys.
Proof.
  induction 1 as [|i is o os o' os' x xs y ys (R & V & _) H IH]; intros F; [reflexivity|]. inversion F as [|? ? F1 F2]; subst. f_equal; [|auto]. destruct V as [V|[V _]]; [exact V|contradiction].
Qed.
Lemma lists_equal s p o o' xs ys : lists s p o o' xs ys -> (forall i, (i < List.length o)%nat -> rd s p i) -> xs = ys.
Proof. intros H K. apply (cells_equal _ _ _ _ _ _ _ H). apply Forall_forall. intros i I. apply in_seq in I. apply K. lia. Qed.
Lemma cells_fresh s p is : forall o o' xs, List.length o = List.length is -> List.length o' = List.length is -> List.length xs = List.length is -> Forall (fun i => wr s p i /\ room s p i) is -> cells s p is o o' xs xs.
Proof.
  induction is as [|i is IH]; intros [|a o] [|a' o'] [|x xs] L1 L2 L3 F; try discriminate; [constructor|]. inversion F as [|? ? [F1 F1'] F2]; subst. constructor; [split; [exact F1'|]; split; [now left|contradiction]|].
  apply IH; [now injection L1|now injection L2|now injection L3|exact F2].
Qed.
Lemma lists_fresh s p o o' zs : List.length o = List.length o' -> List.length zs = List.length o -> (forall i, (i < List.length o)%nat -> wr s p i /\ room s p i) -> lists s p o o' zs zs.
Proof. intros L L' F. apply cells_fresh; rewrite ?seq_length; try lia. apply Forall_forall. intros i I. apply in_seq in I. apply F. lia. Qed.
Lemma cells_app s p is o o' xs ys is2 o2 o2' xs2 ys2 : cells s p is o o' xs ys -> cells s p is2 o2 o2' xs2 ys2 -> cells s p (is ++ is2) (o ++ o2) (o' ++ o2') (xs ++ xs2) (ys ++ ys2).
Proof. induction 1; cbn; intros; [assumption|]. constructor; auto. Qed.
Lemma cells_split s p k is o o' xs ys : cells s p is o o' xs ys -> cells s p (firstn k is) (firstn k o) (firstn k o') (firstn k xs) (firstn k ys) /\ cells s p (skipn k is) (skipn k o) (skipn k o') (skipn k xs) (skipn k ys).
Proof.
  intros H. revert k. induction H as [|i is o os o' os' x xs y ys C H IH]; intros [|k]; cbn; [split; constructor|split; constructor|split; [constructor|constructor; assumption]|]. destruct (IH k). split; [constructor; assumption|assumption].
Qed.
Lemma cells_rev s p is o o' xs ys : cells s p is o o' xs ys -> cells s p (rev is) (rev o) (rev o') (rev xs) (rev ys).
Proof. induction 1; cbn; [constructor|]. apply cells_app; [assumption|]. constructor; [assumption|constructor]. Qed.
Lemma within_app s x y : within s (x ++ y) <-> within s x /\ within s y. Proof. apply Forall_app. Qed.
Lemma roomy_app s x y : roomy s (x ++ y) <-> roomy s x /\ roomy s y. Proof. apply Forall_app. Qed.
Lemma within_reads s p lo n : within s (reads p lo n) <-> forall i, (lo <= i < lo + n)%nat -> rd s p i.
Proof. unfold within, reads. rewrite Forall_map, Forall_forall. split; intros H i I; [apply H, in_seq, I|apply in_seq in I; now apply H]. Qed.
Lemma within_writes s p lo n : within s (writes p lo n) <-> forall i, (lo <= i < lo + n)%nat -> wr s p i.
Proof. unfold within, writes. rewrite Forall_map, Forall_forall. split; intros H i I; [apply H, in_seq, I|apply in_seq in I; now apply H]. Qed.
Lemma roomy_reads s p lo n : (forall i, (lo <= i < lo + n)%nat -> room s p i) -> roomy s (reads p lo n).
Proof. intros H. unfold roomy, reads. rewrite Forall_map, Forall_forall. intros i I. apply in_seq in I. now apply H. Qed.
Lemma roomy_writes s p lo n : open s p -> (forall i, (lo <= i < lo + n)%nat -> room s p i) -> roomy s (writes p lo n).
Proof. intros P H. unfold roomy, writes. rewrite Forall_map, Forall_forall. intros i I. apply in_seq in I. split; [now apply H|exact P]. Qed.
Lemma Forall_flat {A C} (P : C -> Prop) (f : A -> list C) l : Forall P (flat_map f l) <-> Forall (fun x => Forall P (f x)) l.
Proof. induction l as [|x l IH]; cbn; [split; constructor|]. rewrite Forall_app, IH. split; [intros []; now constructor|intros H; inversion H; now split]. Qed.
Lemma within_copies s p q n : within s (copies p q n) <-> forall i, (i < n)%nat -> rd s p i /\ wr s q i.
Proof.
  unfold within, copies. rewrite Forall_flat, Forall_forall. split; intros H i I.
  - assert (In i (seq 0 n)) as J by (apply in_seq; lia). specialize (H i J). inversion H as [|? ? H1 H2]; subst. inversion H2 as [|? ? H3 H4]; subst. now split.
  - apply in_seq in I. destruct (H i ltac:(lia)). repeat constructor; assumption.
Qed.
Lemma roomy_copies s p q n : open s q -> (forall i, (i < n)%nat -> room s p i /\ room s q i) -> roomy s (copies p q n).
Proof. intros P H. unfold roomy, copies. rewrite Forall_flat, Forall_forall. intros i I. apply in_seq in I. destruct (H i ltac:(lia)). repeat constructor; assumption. Qed.

(** * Integers *)
Definition held (s : scope) (p : place) (o o' a a' : apint) : Prop :=
  len a = len a' /\ (0 < List.length (digits o))%nat /\ lists s p (digits o) (digits o') (digits a) (digits a').
Lemma held_ext s p o o' a a' xs ys : held s p o o' a a' -> lists s p (digits o) (digits o') xs ys -> held s p o o' (write_ext a xs) (write_ext a' ys).
Proof. intros (L & N & _) H. split; [exact L|]. split; [exact N|exact H]. Qed.
Lemma held_room s p o o' a a' i : held s p o o' a a' -> (i < List.length (digits o))%nat -> room s p i.
Proof. intros (L & N & H). now apply lists_room with (1 := H). Qed.
Lemma held_inl s p o o' a a' d : held s p o o' a a' -> List.length (digits o) = 1%nat -> wr s p 0 -> held s p o o' (write_inl a d) (write_inl a' d).
Proof.
  intros (L & N & H) E W. split; [exact L|]. split; [exact N|]. pose proof (cells_length _ _ _ _ _ _ _ H) as C. rewrite seq_length in C. apply lists_fresh; [lia|cbn; lia|].
  intros i I. replace i with 0%nat by lia. split; [exact W|]. apply (lists_room _ _ _ _ _ _ _ H). lia.
Qed.
Ltac seen := apply dep_see; let W := fresh "SW" in intros W; unfold within in W; repeat match goal with W : Forall _ (_ :: _) |- _ => let V := fresh "SV" in apply Forall_cons_iff in W; destruct W as [V W]; cbv beta iota in V | W : Forall _ [] |- _ => clear W end.
Ltac roomy := repeat (apply Forall_cons; [|]); try apply Forall_nil; try exact I.
(** Both executions read the same first digit or find the same slices. *)
Lemma dep_access {A} s p o o' a a' (Q : A -> A -> Prop) k k' : held s p o o' a a' ->
  (forall d, List.length (digits o) = 1%nat -> dep s Q (k (DInl d)) (k' (DInl d))) ->
  (lists s p (digits o) (digits o') (digits a) (digits a') -> dep s Q (k (DExt (digits a))) (k' (DExt (digits a')))) ->
  dep s Q (wbind (w_access_data p a) k) (wbind (w_access_data p a') k').
Proof.
  intros H K1 K2. apply (dep_bind s (fun x y => (exists d, x = DInl d /\ y = DInl d /\ List.length (digits o) = 1%nat) \/ (x = DExt (digits a) /\ y = DExt (digits a')))).
  2:{ intros ? ? [(d & -> & -> & E)|[-> ->]]; [now apply K1|apply K2; apply H]. }
  destruct H as (L & N & H). unfold w_access_data, access_data. rewrite <- L. destruct (storage (len a)).
  - seen. split; [roomy; now apply (lists_room _ _ _ _ _ _ _ H)|]. apply dep_lift. unfold read_inl. destruct (lists_length _ _ _ _ _ _ H) as [L1 L2]. destruct (digits a) as [|x [|x2 xs]] eqn:Ea; destruct (digits a') as [|y [|y2 ys]] eqn:Eb; try discriminate L1; try reflexivity.
    cbn. left. exists x. cbn in L2. pose proof (cells_nth _ _ _ _ _ _ _ 0 H) as C. rewrite <- L2 in C. cbn in C. destruct C as (? & ? & ? & ? & _ & _ & X & Y & (_ & V & _)). injection X as <-. injection Y as <-. destruct V as [<-|[V _]]; [auto|contradiction].
  - seen. split; [roomy|]. apply dep_lift. right. auto.
Qed.
Lemma dep_zip {A} s o o' b b' a a' c c' (Q : A -> A -> Prop) k k' : held s Self o o' a a' -> held s Other b b' c c' ->
  (forall e, dep s Q (k (Err e)) (k' (Err e))) ->
  (forall l r, List.length (digits o) = 1%nat -> dep s Q (k (Ok (ZInl l r))) (k' (Ok (ZInl l r)))) ->
  (len a = len c -> storage (len a) = SExt -> dep s Q (k (Ok (ZExt (digits a) (digits c)))) (k' (Ok (ZExt (digits a') (digits c'))))) ->
  dep s Q (wbind (w_zip_access_data a c) k) (wbind (w_zip_access_data a' c') k').
Proof.
  intros (L & N & H) (L2 & N2 & H2) K0 K1 K2.
  apply (dep_bind s (fun x y => (exists e, x = Err e /\ y = Err e) \/ (exists l r, x = Ok (ZInl l r) /\ y = Ok (ZInl l r) /\ List.length (digits o) = 1%nat) \/ (x = Ok (ZExt (digits a) (digits c)) /\ y = Ok (ZExt (digits a') (digits c')) /\ len a = len c /\ storage (len a) = SExt))).
  2:{ intros ? ? [(e & -> & ->)|[(l & r & -> & -> & E)|(-> & -> & E & S)]]; [apply K0|now apply K1|now apply K2]. }
  unfold w_zip_access_data, zip_access_data, width. rewrite <- L, <- L2. apply dep_branch. destruct (len a =? len c) eqn:E; cbn [negb].
  - destruct (storage (len a)) eqn:S.
    + seen. split; [roomy; [now apply (lists_room _ _ _ _ _ _ _ H)|now apply (lists_room _ _ _ _ _ _ _ H2)]|]. apply dep_lift. unfold read_inl.
      destruct (lists_length _ _ _ _ _ _ H) as [M1 M2]. destruct (digits a) as [|x [|x2 xs]] eqn:Ea; destruct (digits a') as [|y [|y2 ys]] eqn:Eb; try discriminate M1; try reflexivity.
      destruct (lists_length _ _ _ _ _ _ H2) as [M3 M4]. destruct (digits c) as [|u [|u2 us]] eqn:Ec; destruct (digits c') as [|v [|v2 vs]] eqn:Ed; try discriminate M3; try reflexivity.
      cbn. right. left. exists x, u. cbn in M2, M4. pose proof (cells_nth _ _ _ _ _ _ _ 0 H) as C. rewrite <- M2 in C. cbn in C. destruct C as (? & ? & ? & ? & _ & _ & X & Y & (_ & V & _)). injection X as <-. injection Y as <-. destruct V as [<-|[V _]]; [|contradiction].
      pose proof (cells_nth _ _ _ _ _ _ _ 0 H2) as C. rewrite <- M4 in C. cbn in C. destruct C as (? & ? & ? & ? & _ & _ & X & Y & (_ & V & _)). injection X as <-. injection Y as <-. destruct V as [<-|[V _]]; [|contradiction]. auto.
    + seen. split; [roomy|]. apply dep_lift. right. right. apply Z.eqb_eq in E. auto.
  - apply dep_lift. left. eauto.
Qed.
