(** Fair schedules. *)
From Verif Require Export LThreadsBuffers SpecFair.
From Coq Require Import Lia.

Lemma first_step {A} n (f : nat -> A) : first (S n) f = f O :: first n (fun k => f (S k)).
Proof. unfold first. cbn [seq map]. now rewrite <- seq_shift, map_map. Qed.
Lemma first_app {A} a b (f : nat -> A) : first (a + b) f = first a f ++ map f (seq a b).
Proof. unfold first. now rewrite seq_app, map_app. Qed.
Lemma recurs_step {A} (f : nat -> A) x : recurs f x -> recurs (fun k => f (S k)) x.
Proof. intros H n. destruct (H (S n)) as (m & L & E). destruct m as [|m]; [lia|]. exists m. split; [lia|exact E]. Qed.
Lemma common_bound (P : nat -> nat -> Prop) k : (forall i n m, (n <= m)%nat -> P i n -> P i m) ->
  (forall i, (i < k)%nat -> exists n, P i n) -> exists N, forall i, (i < k)%nat -> P i N.
Proof.
  intros M. induction k as [|k IH]; intros H; [exists O; lia|].
  destruct IH as (N & HN); [intros i Hi; apply H; lia|]. destruct (H k ltac:(lia)) as (n & Hn). exists (Nat.max N n).
  intros i Hi. destruct (Nat.eq_dec i k) as [->|Ne]; [apply (M k n); [lia|exact Hn]|]. apply (M i N); [lia|]. apply HN. lia.
Qed.

(** * Without delays *)
Definition dends {R} junk i (t : dthread R) : Prop := forall f s, recurs f i -> nth_error (snd s) i = Some t ->
  exists n t', nth_error (snd (dinterleave junk (first n f) s)) i = Some t' /\ over t'.
Lemma dturn_other {R} junk i j (s : dpool R) : i <> j -> nth_error (snd (dturn junk j s)) i = nth_error (snd s) i.
Proof.
  intros N. unfold dturn. destruct (nth_error (snd s) j); [|reflexivity]. destruct (dtick junk d (fst s)). cbn [snd]. now apply nth_update_other; auto.
Qed.
Lemma dturn_same {R} junk i (s : dpool R) t : nth_error (snd s) i = Some t -> nth_error (snd (dturn junk i s)) i = Some (fst (dtick junk t (fst s))).
Proof. intros E. unfold dturn. rewrite E. destruct (dtick junk t (fst s)). exact (nth_update_same _ _ _ _ E). Qed.
Lemma dends_step {R} junk i (t : dthread R) : (forall m, dends junk i (fst (dtick junk t m))) -> dends junk i t.
Proof.
  intros H f s F. destruct (F O) as (k & _ & Ek). revert f s F Ek. induction k as [|k IH]; intros f s F Ek E.
  - destruct (H (fst s) (fun k => f (S k)) (dturn junk i s) (recurs_step f i F) (dturn_same junk i s t E)) as (n & t' & E' & O').
    exists (S n), t'. rewrite first_step. cbn [dinterleave]. now rewrite Ek.
  - destruct (Nat.eq_dec (f O) i) as [E0|N].
    + destruct (H (fst s) (fun k => f (S k)) (dturn junk i s) (recurs_step f i F) (dturn_same junk i s t E)) as (n & t' & E' & O').
      exists (S n), t'. rewrite first_step. cbn [dinterleave]. now rewrite E0.
    + destruct (IH (fun k => f (S k)) (dturn junk (f O) s) (recurs_step f i F) Ek) as (n & t' & E' & O').
      { rewrite dturn_other by auto. exact E. }
      exists (S n), t'. rewrite first_step. now split.
Qed.
Lemma dends_over {R} junk i (t : dthread R) : over t -> dends junk i t.
Proof. intros H f s F E. exists O, t. auto. Qed.
Lemma dends_load {R} junk i p n (k : list Z -> HM R) : (forall ds, dends junk i (DAt (k ds))) ->
  forall c got, (n <= length got + c)%nat -> dends junk i (DLoad p n got k).
Proof.
  intros K c. induction c as [|c IH]; intros got H; apply dends_step; intros m; cbn [dtick]; unfold go_load;
    (destruct (digit_load p (length got) m) as [d|]; cbn [fst snd]; [|now apply dends_over]);
    (destruct (Nat.ltb_spec (length (got ++ [d])) n) as [Hl|Hl]; [|apply K]); rewrite app_length in Hl; cbn in Hl; [lia|].
  apply IH. rewrite app_length. cbn. lia.
Qed.
Lemma dends_store {R} junk i p new (k : HM R) : dends junk i (DAt k) -> forall c j, (length new <= j + c)%nat -> dends junk i (DStore p new j k).
Proof.
  intros K c. induction c as [|c IH]; intros j H; apply dends_step; intros m; cbn [dtick]; unfold go_store;
    (destruct (nth_error new j) as [d|] eqn:E; [|apply K]); (destruct (digit_store p j d m) as [m'|]; cbn [fst snd]; [|now apply dends_over]);
    (destruct (Nat.ltb_spec (S j) (length new)) as [Hl|Hl]; [|apply K]); [lia|].
  apply IH. lia.
Qed.
Lemma dends_at {R} junk i (h : HM R) : dends junk i (DAt h).
Proof.
  induction h as [a| | | |ds k IH|p n k IH|p n k IH|p new k IH|n k IH]; try (apply dends_over; exact I); apply dends_step; intros m; cbn [dtick].
  - cbn [mem_malloc]. destruct (Nat.ltb 0 (length ds)); cbn [fst snd]; [|apply IH].
    apply (dends_store junk i _ ds (k _) (IH _) (length ds)). lia.
  - cbn [tick]. destruct (mem_free p n m); cbn [fst snd]; [apply IH|now apply dends_over].
  - destruct (Nat.ltb 0 n); cbn [fst snd]; [|apply IH]. unfold go_load. destruct (digit_load p _ m) as [d|]; cbn [fst snd]; [|now apply dends_over].
    destruct (Nat.ltb _ n); cbn [fst snd]; [|apply IH]. apply (dends_load junk i p n k IH n). lia.
  - unfold go_store. destruct (nth_error new 0) as [d|]; cbn [fst snd]; [|apply IH]. destruct (digit_store p 0 d m) as [m'|]; cbn [fst snd]; [|now apply dends_over].
    destruct (Nat.ltb _ _); cbn [fst snd]; [|apply IH]. apply (dends_store junk i p new k IH (length new)). lia.
  - cbn [tick fst snd]. apply IH.
Qed.
Lemma dends_all {R} junk i (t : dthread R) : dends junk i t.
Proof.
  destruct t as [h|p n got k|p new j k]; [apply dends_at| |].
  - apply (dends_load junk i p n k (fun ds => dends_at junk i (k ds)) n). lia.
  - apply (dends_store junk i p new k (dends_at junk i k) (length new)). lia.
Qed.
Lemma dover_stays {R} junk sch : forall (s : dpool R) i t, nth_error (snd s) i = Some t -> over t -> nth_error (snd (dinterleave junk sch s)) i = Some t.
Proof.
  induction sch as [|j sch IH]; intros s i t E O; [exact E|]. cbn [dinterleave]. apply IH; [|exact O].
  destruct (Nat.eq_dec j i) as [->|N]; [|rewrite dturn_other by auto; exact E]. rewrite (dturn_same junk i s t E). f_equal.
  destruct t as [[]| |]; try contradiction; reflexivity.
Qed.
Lemma dfair_over {R} junk f (s : dpool R) : fair (length (snd s)) f ->
  exists N, forall n, (N <= n)%nat -> Forall over (snd (dinterleave junk (first n f) s)).
Proof.
  intros F. destruct (common_bound (fun i n => exists t, nth_error (snd (dinterleave junk (first n f) s)) i = Some t /\ over t) (length (snd s))) as (N & HN).
  - intros i n m L (t & E & O). exists t. split; [|exact O]. replace m with (n + (m - n))%nat by lia. rewrite first_app, dinterleave_app.
    now apply dover_stays.
  - intros i Hi. destruct (nth_error (snd s) i) as [t|] eqn:E; [|apply nth_error_None in E; lia].
    destruct (dends_all junk i t f s (F i Hi) E) as (n & t' & H). eauto.
  - exists N. intros n L. apply Forall_forall. intros t I. apply In_nth_error in I as (i & E).
    assert (Hi : (i < length (snd s))%nat) by (rewrite <- (dinterleave_length junk (first n f) s); apply nth_error_Some; congruence).
    destruct (HN i Hi) as (t' & E' & O). replace n with (N + (n - N))%nat in E by lia. rewrite first_app, dinterleave_app in E.
    rewrite (dover_stays junk _ _ i t' E' O) in E. now injection E as <-.
Qed.
Lemma over_returned {R} (ts : list (dthread R)) : Forall over ts -> ~ In (DAt HUndef) ts -> ~ In (DAt HPanic) ts -> ~ In (DAt HFuel) ts ->
  Forall (fun t => exists r, t = DAt (HRet r)) ts.
Proof.
  intros F U P Fu. apply Forall_forall. intros t I. rewrite Forall_forall in F. pose proof (F t I) as O.
  destruct t as [[]| |]; try contradiction. eauto.
Qed.

(** * With delays *)
Definition after {R} junk i (e : happening) (x : bthread R) (m : mem) : bthread R :=
  match e with
  | Turn j => if Nat.eqb j i then fst (btick junk x m) else x
  | Reach j n => if Nat.eqb j i then fst (bflush n x m) else x
  end.
Lemma happen_after {R} junk i e (s : bpool R) x : nth_error (snd s) i = Some x -> nth_error (snd (happen junk e s)) i = Some (after junk i e x (fst s)).
Proof.
  intros E. destruct e as [j|j n]; cbn [happen after]; (destruct (Nat.eqb_spec j i) as [->|N];
    [rewrite E; match goal with |- context [let (_, _) := ?b in _] => destruct b end; exact (nth_update_same _ _ _ _ E)|]);
    (destruct (nth_error (snd s) j); [|exact E]);
    (match goal with |- context [let (_, _) := ?b in _] => destruct b end; cbn [snd]; rewrite nth_update_other; [exact E|auto]).
Qed.
Definition finished {R} (x : bthread R) : Prop := over (fst x) /\ (snd x = [] \/ fst x = DAt HUndef).
Definition bends {R} junk i (x : bthread R) : Prop := forall f s, recurs f (Turn i) -> recurs f (Reach i 0) -> nth_error (snd s) i = Some x ->
  exists n x', nth_error (snd (unfolds junk (first n f) s)) i = Some x' /\ finished x'.
Lemma bends_wait {R} junk i e0 (x : bthread R) : e0 = Turn i \/ e0 = Reach i 0 ->
  (forall e m, (after junk i e x m = x /\ e <> e0) \/ bends junk i (after junk i e x m)) -> bends junk i x.
Proof.
  intros He H f s FT FR. assert (F : recurs f e0) by (destruct He; subst; assumption).
  destruct (F O) as (k & _ & Ek). clear F. revert f s FT FR Ek. induction k as [|k IH]; intros f s FT FR Ek E.
  - destruct (H (f O) (fst s)) as [[_ N]|B]; [contradiction|].
    destruct (B (fun k => f (S k)) (happen junk (f O) s) (recurs_step f _ FT) (recurs_step f _ FR) (happen_after junk i (f O) s x E)) as (n & x' & P).
    exists (S n), x'. rewrite first_step. exact P.
  - destruct (H (f O) (fst s)) as [[Sm _]|B].
    + destruct (IH (fun k => f (S k)) (happen junk (f O) s) (recurs_step f _ FT) (recurs_step f _ FR) Ek) as (n & x' & P).
      { rewrite (happen_after junk i (f O) s x E). now rewrite Sm. }
      exists (S n), x'. rewrite first_step. exact P.
    + destruct (B (fun k => f (S k)) (happen junk (f O) s) (recurs_step f _ FT) (recurs_step f _ FR) (happen_after junk i (f O) s x E)) as (n & x' & P).
      exists (S n), x'. rewrite first_step. exact P.
Qed.
Lemma bends_finished {R} junk i (x : bthread R) : finished x -> bends junk i x.
Proof. intros H f s _ _ E. exists O, x. auto. Qed.
Lemma bends_undef {R} junk i ws : bends junk i (@pair (dthread R) _ (DAt HUndef) ws).
Proof. apply bends_finished. split; [exact I|now right]. Qed.
Lemma bflush_cases {R} n (t : dthread R) ws m : fst (bflush n (t, ws) m) = (t, ws) \/ fst (bflush n (t, ws) m) = (DAt HUndef, ws) \/
  exists ws', fst (bflush n (t, ws) m) = (t, ws') /\ (length ws' < length ws)%nat.
Proof.
  cbn [bflush]. destruct (nth_error ws n) as [w|] eqn:E; [|now left]. destruct (existsb _ (firstn n ws)); [now left|].
  destruct (digit_store (wblock w) (windex w) (wdigit w) m); [|now right; left]. right; right.
  exists (firstn n ws ++ skipn (S n) ws). split; [reflexivity|]. rewrite (take_out n ws w E) at 3. rewrite !app_length. cbn [length]. lia.
Qed.
Lemma bflush_oldest {R} (t : dthread R) w ws m : fst (bflush 0 (t, w :: ws) m) = (t, ws) \/ fst (bflush 0 (t, w :: ws) m) = (DAt HUndef, w :: ws).
Proof. cbn. destruct (digit_store _ _ _ m); auto. Qed.
Lemma bends_step {R} junk i (t : dthread R) :
  (forall ws m, (fst (btick junk (t, ws) m) = (t, ws) /\ (ws <> [] \/ over t)) \/ bends junk i (fst (btick junk (t, ws) m))) ->
  forall c ws, (length ws <= c)%nat -> bends junk i (t, ws).
Proof.
  intros H c. induction c as [|c IH]; intros ws L.
  - destruct ws; [|cbn in L; lia]. destruct (H [] (mk_mem (fun n => n) [])) as [[_ [N|O]]|_]; [contradiction|apply bends_finished; split; auto|].
    apply (bends_wait junk i (Turn i)); [now left|]. intros e m. destruct e as [j|j n]; cbn [after].
    + destruct (Nat.eqb_spec j i) as [->|Ne]; [|left; split; [reflexivity|congruence]].
      destruct (H [] m) as [[_ [N|O]]|B]; [contradiction| |now right]. right. destruct t as [[]| |]; try contradiction; apply bends_finished; split; cbn; auto.
    + destruct (Nat.eqb j i); [|left; split; [reflexivity|discriminate]]. left. split; [|discriminate]. cbn. now destruct n.
  - destruct ws as [|w ws]; [apply IH; cbn; lia|]. cbn [length] in L.
    apply (bends_wait junk i (Reach i 0)); [now right|]. intros e m. destruct e as [j|j n]; cbn [after].
    + destruct (Nat.eqb_spec j i) as [->|Ne]; [|left; split; [reflexivity|discriminate]].
      destruct (H (w :: ws) m) as [[Sm _]|B]; [|now right]. left. split; [exact Sm|discriminate].
    + destruct (Nat.eqb_spec j i) as [->|Ne]; [|left; split; [reflexivity|congruence]]. destruct n as [|n].
      * right. destruct (bflush_oldest t w ws m) as [->| ->]; [apply IH; lia|apply bends_undef].
      * destruct (bflush_cases (S n) t (w :: ws) m) as [->|[->|(ws' & -> & L')]]; [left; split; [reflexivity|discriminate]|right; apply bends_undef|right; apply IH; cbn in L'; lia].
Qed.
Lemma bends_ticks {R} junk i (t : dthread R) : (forall ws m, bends junk i (fst (btick junk (t, ws) m))) -> forall ws, bends junk i (t, ws).
Proof. intros H ws. apply (bends_step junk i t) with (c := length ws); auto. Qed.
Lemma bends_over {R} junk i (t : dthread R) : over t -> forall ws, bends junk i (t, ws).
Proof.
  intros O ws. apply (bends_step junk i t) with (c := length ws); [|auto]. intros ws' m. left. split; [|now right].
  destruct t as [[]| |]; try contradiction; reflexivity.
Qed.
Lemma bends_load {R} junk i p n (k : list Z -> HM R) : (forall ds ws, bends junk i (DAt (k ds), ws)) ->
  forall c got, (n <= length got + c)%nat -> forall ws, bends junk i (DLoad p n got k, ws).
Proof.
  intros K c. induction c as [|c IH]; intros got H; apply bends_ticks; intros ws m; cbn [btick]; unfold b_load;
    (destruct (seen ws p (length got) m) as [d|]; cbn [fst snd]; [|apply bends_undef]);
    (destruct (Nat.ltb_spec (length (got ++ [d])) n) as [Hl|Hl]; [|apply K]); rewrite app_length in Hl; cbn in Hl; [lia|].
  apply IH. rewrite app_length. cbn. lia.
Qed.
Lemma bends_store {R} junk i p new (k : HM R) : (forall ws, bends junk i (DAt k, ws)) ->
  forall c j, (length new <= j + c)%nat -> forall ws, bends junk i (DStore p new j k, ws).
Proof.
  intros K c. induction c as [|c IH]; intros j H; apply bends_ticks; intros ws m; cbn [btick]; unfold b_store;
    (destruct (nth_error new j) as [d|] eqn:E; [|apply K]); (destruct (digit_load p j m); cbn [fst snd]; [|apply bends_undef]);
    (destruct (Nat.ltb_spec (S j) (length new)) as [Hl|Hl]; [|apply K]); [lia|].
  apply IH. lia.
Qed.
Lemma bends_at {R} junk i (h : HM R) : forall ws, bends junk i (DAt h, ws).
Proof.
  induction h as [a| | | |ds k IH|p n k IH|p n k IH|p new k IH|n k IH]; try (apply bends_over; exact I).
  - apply bends_ticks. intros ws m. cbn [btick mem_malloc]. destruct (Nat.ltb 0 (length ds)); cbn [fst snd]; [|apply IH].
    apply (bends_store junk i _ ds (k _) (IH _) (length ds)). lia.
  - intros ws. apply (bends_step junk i (DAt (HFree p n k))) with (c := length ws); [|auto]. clear ws. intros ws m. cbn [btick].
    destruct (existsb (fun w => Nat.eqb (wblock w) p) ws) eqn:E; [left; split; [reflexivity|left; intros ->; discriminate E]|]. right.
    cbn [tick]. destruct (mem_free p n m); cbn [fst snd]; [apply IH|apply bends_undef].
  - apply bends_ticks. intros ws m. cbn [btick]. destruct (Nat.ltb 0 n); cbn [fst snd]; [|apply IH].
    unfold b_load. destruct (seen ws p _ m) as [d|]; cbn [fst snd]; [|apply bends_undef].
    destruct (Nat.ltb _ n); cbn [fst snd]; [|apply IH]. apply (bends_load junk i p n k IH n). lia.
  - apply bends_ticks. intros ws m. cbn [btick]. unfold b_store. destruct (nth_error new 0) as [d|]; cbn [fst snd]; [|apply IH].
    destruct (digit_load p 0 m); cbn [fst snd]; [|apply bends_undef].
    destruct (Nat.ltb _ _); cbn [fst snd]; [|apply IH]. apply (bends_store junk i p new k IH (length new)). lia.
  - apply bends_ticks. intros ws m. cbn [btick tick fst snd]. apply IH.
Qed.
Lemma bends_all {R} junk i (x : bthread R) : bends junk i x.
Proof.
  destruct x as [[h|p n got k|p new j k] ws]; [apply bends_at| |].
  - apply (bends_load junk i p n k (fun ds => bends_at junk i (k ds)) n). lia.
  - apply (bends_store junk i p new k (bends_at junk i k) (length new)). lia.
Qed.
Lemma after_finished {R} junk i e (x : bthread R) m : finished x -> finished (after junk i e x m).
Proof.
  destruct x as [t ws]. intros [O D]. destruct e as [j|j n]; cbn [after]; (destruct (Nat.eqb j i); [|split; assumption]).
  - replace (fst (btick junk (t, ws) m)) with (t, ws); [split; assumption|]. destruct t as [[]| |]; try contradiction; reflexivity.
  - destruct (bflush_cases n t ws m) as [->|[->|(ws' & -> & L)]]; [split; assumption|split; [exact I|now right]|]. split; [exact O|].
    destruct D as [D|D]; [cbn in D; subst ws; cbn in L; lia|now right].
Qed.
Lemma finished_stays {R} junk hs : forall (s : bpool R) i x, nth_error (snd s) i = Some x -> finished x ->
  exists x', nth_error (snd (unfolds junk hs s)) i = Some x' /\ finished x'.
Proof.
  induction hs as [|e hs IH]; intros s i x E F; [exists x; auto|]. cbn [unfolds]. apply (IH _ i (after junk i e x (fst s))); [now apply happen_after|].
  now apply after_finished.
Qed.
Lemma happen_length {R} junk e (s : bpool R) : length (snd (happen junk e s)) = length (snd s).
Proof.
  destruct e as [j|j n]; cbn [happen]; (destruct (nth_error (snd s) j); [|reflexivity]);
    (match goal with |- context [let (_, _) := ?b in _] => destruct b end; cbn [snd]; apply update_length).
Qed.
Lemma unfolds_length {R} junk hs : forall s : bpool R, length (snd (unfolds junk hs s)) = length (snd s).
Proof. induction hs as [|e hs IH]; intros s; [reflexivity|]. cbn [unfolds]. now rewrite IH, happen_length. Qed.
Lemma bfair_finished {R} junk f (s : bpool R) : fair_delays (length (snd s)) f ->
  exists N, forall n, (N <= n)%nat -> Forall finished (snd (unfolds junk (first n f) s)).
Proof.
  intros F. destruct (common_bound (fun i n => exists x, nth_error (snd (unfolds junk (first n f) s)) i = Some x /\ finished x) (length (snd s))) as (N & HN).
  - intros i n m L (x & E & O). replace m with (n + (m - n))%nat by lia. rewrite first_app, unfolds_app. now apply (finished_stays junk _ _ i x).
  - intros i Hi. destruct (nth_error (snd s) i) as [x|] eqn:E; [|apply nth_error_None in E; lia].
    destruct (F i Hi) as [FT FR]. destruct (bends_all junk i x f s FT FR E) as (n & x' & H). eauto.
  - exists N. intros n L. apply Forall_forall. intros x I. apply In_nth_error in I as (i & E).
    assert (Hi : (i < length (snd s))%nat) by (rewrite <- (unfolds_length junk (first n f) s); apply nth_error_Some; congruence).
    destruct (HN i Hi) as (x' & E' & O). replace n with (N + (n - N))%nat in E by lia. rewrite first_app, unfolds_app in E.
    destruct (finished_stays junk (map f (seq N (n - N))) _ i x' E' O) as (x2 & E2 & O2). rewrite E2 in E. now injection E as <-.
Qed.
Lemma finished_returned {R} (ts : list (bthread R)) : Forall finished ts -> ~ In (DAt HUndef) (map fst ts) -> ~ In (DAt HPanic) (map fst ts) -> ~ In (DAt HFuel) (map fst ts) ->
  Forall (fun t => exists r, t = (DAt (HRet r), [])) ts.
Proof.
  intros F U P Fu. apply Forall_forall. intros [t ws] I. rewrite Forall_forall in F. destruct (F _ I) as [O D]. apply (in_map fst) in I. cbn in *.
  destruct D as [->| ->]; [|contradiction]. destruct t as [[]| |]; try contradiction. eauto.
Qed.

(** * The theorems *)
Lemma digits_fair_fact junk setup slack give programs vs m f : forked_catching setup slack give programs vs m -> fair (length programs) f ->
  exists N, forall n, (N <= n)%nat ->
  let '(m', ts) := dinterleave junk (first n f) (m, map DAt (spawn_catching 0 give vs programs)) in
  length ts = length programs /\ forall i p, nth_error programs i = Some p ->
  let (s', r') := athread (keeper give) (hand i give (fst (acatches [] setup))) p in
  exists vs' cs', nth_error ts i = Some (DAt (HRet (vs', r'))) /\ Forall2 holds cs' s' /\ Forall2 (stored m') vs' cs'.
Proof.
  intros K F. destruct (dfair_over junk f (m, map DAt (spawn_catching 0 give vs programs))) as (N & HN).
  { cbn [snd]. rewrite map_length, spawn_catching_length. exact F. }
  exists N. intros n L. specialize (HN n L). pose proof (digits_race_free_fact junk setup slack give programs vs m (first n f) K) as RF.
  pose proof (digits_isolated_fact junk setup slack give programs vs m (first n f)) as Is.
  pose proof (dinterleave_length junk (first n f) (m, map DAt (spawn_catching 0 give vs programs))) as Len.
  destruct (dinterleave junk (first n f) (m, map DAt (spawn_catching 0 give vs programs))) as [m' ts]. cbn [snd] in *.
  rewrite map_length, spawn_catching_length in Len. split; [exact Len|]. destruct RF as (_ & U & P & Fu).
  pose proof (over_returned ts HN U P Fu) as Rt. intros i p Ep. destruct (nth_error ts i) as [t|] eqn:Et.
  2: { apply nth_error_None in Et. assert (i < length programs)%nat by (apply nth_error_Some; congruence). lia. }
  rewrite Forall_forall in Rt. destruct (Rt t (nth_error_In _ _ Et)) as ([vs' r] & ->).
  specialize (Is m' ts i p vs' r K eq_refl Ep Et). destruct (athread _ _ p) as [s' r']. destruct Is as (-> & cs' & H). exists vs', cs'. tauto.
Qed.
Lemma tdigits_fair_fact junk setup slack give programs vs m f : tforked setup slack give programs vs m -> fair (length programs) f ->
  exists N, forall n, (N <= n)%nat ->
  let '(m', ts) := dinterleave junk (first n f) (m, map DAt (tspawn 0 give vs programs)) in
  length ts = length programs /\ forall i p, nth_error programs i = Some p ->
  let (s', r') := tathread (keeper give) (hand i give (fst (tacatches [] setup))) p in
  exists vs', nth_error ts i = Some (DAt (HRet (vs', r'))) /\ Forall2 (in_memory m') vs' s'.
Proof.
  intros K F. destruct (dfair_over junk f (m, map DAt (tspawn 0 give vs programs))) as (N & HN).
  { cbn [snd]. rewrite map_length, tspawn_length. exact F. }
  exists N. intros n L. specialize (HN n L). pose proof (tdigits_race_free_fact junk setup slack give programs vs m (first n f) K) as RF.
  pose proof (tdigits_isolated_fact junk setup slack give programs vs m (first n f)) as Is.
  pose proof (dinterleave_length junk (first n f) (m, map DAt (tspawn 0 give vs programs))) as Len.
  destruct (dinterleave junk (first n f) (m, map DAt (tspawn 0 give vs programs))) as [m' ts]. cbn [snd] in *.
  rewrite map_length, tspawn_length in Len. split; [exact Len|]. destruct RF as (_ & U & P & Fu).
  pose proof (over_returned ts HN U P Fu) as Rt. intros i p Ep. destruct (nth_error ts i) as [t|] eqn:Et.
  2: { apply nth_error_None in Et. assert (i < length programs)%nat by (apply nth_error_Some; congruence). lia. }
  rewrite Forall_forall in Rt. destruct (Rt t (nth_error_In _ _ Et)) as ([vs' r] & ->).
  specialize (Is m' ts i p vs' r K eq_refl Ep Et). destruct (tathread _ _ p) as [s' r']. destruct Is as (-> & H). exists vs'. tauto.
Qed.
Lemma buffers_fair_fact junk setup slack give programs vs m f : forked_catching setup slack give programs vs m -> fair_delays (length programs) f ->
  exists N, forall n, (N <= n)%nat ->
  let '(m', ts) := unfolds junk (first n f) (m, started (spawn_catching 0 give vs programs)) in
  length ts = length programs /\ forall i p, nth_error programs i = Some p ->
  let (s', r') := athread (keeper give) (hand i give (fst (acatches [] setup))) p in
  exists vs' cs', nth_error ts i = Some (DAt (HRet (vs', r')), []) /\ Forall2 holds cs' s' /\ Forall2 (stored m') vs' cs'.
Proof.
  intros K F. assert (L0 : length (started (spawn_catching 0 give vs programs)) = length programs) by (unfold started; rewrite map_length; apply spawn_catching_length).
  destruct (bfair_finished junk f (m, started (spawn_catching 0 give vs programs))) as (N & HN).
  { cbn [snd]. rewrite L0. exact F. }
  exists N. intros n L. specialize (HN n L). pose proof (buffers_race_free_fact junk setup slack give programs vs m (first n f) K) as RF.
  pose proof (buffers_isolated_fact junk setup slack give programs vs m (first n f)) as Is.
  pose proof (unfolds_length junk (first n f) (m, started (spawn_catching 0 give vs programs))) as Len.
  destruct (unfolds junk (first n f) (m, started (spawn_catching 0 give vs programs))) as [m' ts]. cbn [snd] in *.
  rewrite L0 in Len. split; [exact Len|]. destruct RF as (_ & _ & U & P & Fu).
  pose proof (finished_returned ts HN U P Fu) as Rt. intros i p Ep. destruct (nth_error ts i) as [t|] eqn:Et.
  2: { apply nth_error_None in Et. assert (i < length programs)%nat by (apply nth_error_Some; congruence). lia. }
  rewrite Forall_forall in Rt. destruct (Rt t (nth_error_In _ _ Et)) as ([vs' r] & ->).
  specialize (Is m' ts i p vs' r [] K eq_refl Ep Et). destruct (athread _ _ p) as [s' r']. destruct Is as (-> & H).
  destruct (H eq_refl) as (cs' & H'). exists vs', cs'. tauto.
Qed.
Lemma tbuffers_fair_fact junk setup slack give programs vs m f : tforked setup slack give programs vs m -> fair_delays (length programs) f ->
  exists N, forall n, (N <= n)%nat ->
  let '(m', ts) := unfolds junk (first n f) (m, started (tspawn 0 give vs programs)) in
  length ts = length programs /\ forall i p, nth_error programs i = Some p ->
  let (s', r') := tathread (keeper give) (hand i give (fst (tacatches [] setup))) p in
  exists vs', nth_error ts i = Some (DAt (HRet (vs', r')), []) /\ Forall2 (in_memory m') vs' s'.
Proof.
  intros K F. assert (L0 : length (started (tspawn 0 give vs programs)) = length programs) by (unfold started; rewrite map_length; apply tspawn_length).
  destruct (bfair_finished junk f (m, started (tspawn 0 give vs programs))) as (N & HN).
  { cbn [snd]. rewrite L0. exact F. }
  exists N. intros n L. specialize (HN n L). pose proof (tbuffers_race_free_fact junk setup slack give programs vs m (first n f) K) as RF.
  pose proof (tbuffers_isolated_fact junk setup slack give programs vs m (first n f)) as Is.
  pose proof (unfolds_length junk (first n f) (m, started (tspawn 0 give vs programs))) as Len.
  destruct (unfolds junk (first n f) (m, started (tspawn 0 give vs programs))) as [m' ts]. cbn [snd] in *.
  rewrite L0 in Len. split; [exact Len|]. destruct RF as (_ & _ & U & P & Fu).
  pose proof (finished_returned ts HN U P Fu) as Rt. intros i p Ep. destruct (nth_error ts i) as [t|] eqn:Et.
  2: { apply nth_error_None in Et. assert (i < length programs)%nat by (apply nth_error_Some; congruence). lia. }
  rewrite Forall_forall in Rt. destruct (Rt t (nth_error_In _ _ Et)) as ([vs' r] & ->).
  specialize (Is m' ts i p vs' r [] K eq_refl Ep Et). destruct (tathread _ _ p) as [s' r']. destruct Is as (-> & H). exists vs'.
  specialize (H eq_refl). tauto.
Qed.
