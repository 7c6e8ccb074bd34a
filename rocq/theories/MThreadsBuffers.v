(** Model of threads on a machine that delays writes: what a thread writes goes into a
    store buffer of its processor, where only that thread sees it, and reaches the memory
    later.  Writes to different digits may reach it in any order, those to the same digit
    in the order in which they were made.  No proofs in this file.

    [std::thread::spawn] and [join] and the locks of the allocator synchronize: the buffers
    are empty when the threads start, and a buffer is only given back to the allocator when
    the writes to it have reached the memory.  Reads are not delayed. *)
From Verif Require Export MThreadsDigits.

(** A write of one digit that has not reached the memory.  src/apint/utils.rs 292-305. *)
Record write := mk_write { wblock : nat; windex : nat; wdigit : Z }.
(** A thread and its writes under way, the oldest first.  src/apint/mod.rs 40-46. *)
Definition bthread (A : Type) : Type := dthread A * list write.

(** [w] is a write to digit [i] of buffer [p].  src/apint/utils.rs 292-305. *)
Definition writes_to (p i : nat) (w : write) : bool := Nat.eqb (wblock w) p && Nat.eqb (windex w) i.
(** What the thread itself sees there, if it is under way.  src/apint/utils.rs 279-287. *)
Fixpoint newest (p i : nat) (ws : list write) : option Z :=
  match ws with
  | [] => None
  | w :: ws =>
      match newest p i ws with
      | Some d => Some d
      | None => if writes_to p i w then Some (wdigit w) else None
      end
  end.
(** src/apint/utils.rs 279-287: one digit, as [digit_load]. *)
Definition seen (ws : list write) (p i : nat) (m : mem) : option Z :=
  match digit_load p i m with
  | Some d => Some (match newest p i ws with Some d => d | None => d end)
  | None => None
  end.

(** src/apint/utils.rs 279-287, as [go_load]. *)
Definition b_load {A : Type} (p n : nat) (got : list Z) (k : list Z -> HM A) (ws : list write) (m : mem) : bthread A * mem :=
  match seen ws p (length got) m with
  | Some d =>
      let got := got ++ [d] in
      ((if Nat.ltb (length got) n then DLoad p n got k else DAt (k got), ws), m)
  | None => ((DAt HUndef, ws), m)
  end.
(** src/apint/utils.rs 292-305, as [go_store]. *)
Definition b_store {A : Type} (p : nat) (new : list Z) (j : nat) (k : HM A) (ws : list write) (m : mem) : bthread A * mem :=
  match nth_error new j with
  | Some d =>
      match digit_load p j m with
      | Some _ => ((if Nat.ltb (S j) (length new) then DStore p new (S j) k else DAt k, ws ++ [mk_write p j d]), m)
      | None => ((DAt HUndef, ws), m)
      end
  | None => ((DAt k, ws), m)
  end.
(** What a thread does next (src/apint/mod.rs 40-46), as [dtick]. *)
Definition btick {A : Type} (junk : nat -> nat -> Z) (t : bthread A) (m : mem) : bthread A * mem :=
  let '(t, ws) := t in
  match t with
  | DAt (HMalloc ds k) =>
      let (p, m) := mem_malloc (uninit junk (length (blocks m)) (length ds)) m in
      ((if Nat.ltb 0 (length ds) then DStore p ds 0 (k p) else DAt (k p), ws), m)
  | DAt (HFree p n k) =>
      if existsb (fun w => Nat.eqb (wblock w) p) ws then ((t, ws), m)
      else let (h, m) := tick (HFree p n k) m in ((DAt h, ws), m)
  | DAt (HLoad p n k) => if Nat.ltb 0 n then b_load p n [] k ws m else ((DAt (k []), ws), m)
  | DAt (HStore p new k) => b_store p new 0 k ws m
  | DAt h => let (h, m) := tick h m in ((DAt h, ws), m)
  | DLoad p n got k => b_load p n got k ws m
  | DStore p new j k => b_store p new j k ws m
  end.
(** The [n]th write under way reaches the memory, unless an older one to the same digit is
    under way.  src/apint/utils.rs 292-305. *)
Definition bflush {A : Type} (n : nat) (t : bthread A) (m : mem) : bthread A * mem :=
  let '(t, ws) := t in
  match nth_error ws n with
  | Some w =>
      if existsb (writes_to (wblock w) (windex w)) (firstn n ws) then ((t, ws), m)
      else match digit_store (wblock w) (windex w) (wdigit w) m with
           | Some m => ((t, firstn n ws ++ skipn (S n) ws), m)
           | None => ((DAt HUndef, ws), m)
           end
  | None => ((t, ws), m)
  end.

(** What happens next: thread [i] gets a turn, or its [n]th write reaches the memory.
    src/apint/mod.rs 40-46. *)
Inductive happening := Turn (i : nat) | Reach (i n : nat).
(** src/apint/mod.rs 40-46. *)
Definition bpool (R : Type) : Type := mem * list (bthread R).
(** src/apint/mod.rs 40-46. *)
Definition happen {R : Type} (junk : nat -> nat -> Z) (e : happening) (s : bpool R) : bpool R :=
  match e with
  | Turn i =>
      match nth_error (snd s) i with
      | Some t => let (t, m) := btick junk t (fst s) in (m, update i t (snd s))
      | None => s
      end
  | Reach i n =>
      match nth_error (snd s) i with
      | Some t => let (t, m) := bflush n t (fst s) in (m, update i t (snd s))
      | None => s
      end
  end.
(** src/apint/mod.rs 40-46. *)
Fixpoint unfolds {R : Type} (junk : nat -> nat -> Z) (history : list happening) (s : bpool R) : bpool R :=
  match history with
  | [] => s
  | e :: history => unfolds junk history (happen junk e s)
  end.
