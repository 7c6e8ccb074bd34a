(** Model of threads on a machine whose reads may return old values: the memory keeps all that
    was ever written to a digit, with time stamps, and each thread has a view, the time of the
    newest value of each digit that it has seen.  A read may return any value that is not older
    than the view; a write may get any time that is later than the view, even if others have
    written with later times.  So different threads may see the writes of others in different
    orders, long after they were made or not at all.  No proofs in this file.

    [std::thread::spawn] synchronizes: the threads start with the view of the main thread.  The
    allocator synchronizes: nobody but the thread that gets a new buffer knows it.  A read never
    returns what has not been written yet. *)
From Verif Require Export MThreadsDigits.

(** A value that was written to a digit, and when.  src/apint/utils.rs 292-305. *)
Record message := mk_message { stamp : nat; value : Z }.
(** The memory: what was written to each digit of each buffer.  src/apint/mod.rs 40-46. *)
Record vmem := mk_vmem { vslack : nat -> nat; vblocks : list (option (list (list message))) }.
(** The time of the newest value seen of a digit of a buffer.  src/apint/mod.rs 40-46. *)
Definition horizon : Type := nat -> nat -> nat.
(** A thread and its view.  src/apint/mod.rs 40-46. *)
Definition vthread (A : Type) : Type := dthread A * horizon.

(** What was written to digit [k] of buffer [p]; [None] if it is not allocated.
    src/apint/utils.rs 279-287. *)
Definition written (p k : nat) (m : vmem) : option (list message) :=
  match nth_error (vblocks m) p with
  | Some (Some ds) => nth_error ds k
  | _ => None
  end.
(** src/apint/utils.rs 292-305: one more message, where there is a digit. *)
Definition add_message (p k : nat) (x : message) (m : vmem) : vmem :=
  match nth_error (vblocks m) p with
  | Some (Some ds) =>
      match nth_error ds k with
      | Some xs => mk_vmem (vslack m) (update p (Some (update k (xs ++ [x]) ds)) (vblocks m))
      | None => m
      end
  | _ => m
  end.
(** Having seen the value of time [c].  src/apint/utils.rs 279-305. *)
Definition sees_at (p k c : nat) (v : horizon) : horizon :=
  fun q j => if Nat.eqb q p && Nat.eqb j k then c else v q j.

(** Reading a digit, src/apint/utils.rs 279-287: the value number [c] of those written, if it is
    not older than the view; else the turn passes. *)
Definition v_load {A : Type} (c : nat) (t : dthread A) (p n : nat) (got : list Z) (k : list Z -> HM A) (v : horizon) (m : vmem) : vthread A * vmem :=
  match written p (length got) m with
  | Some xs =>
      match nth_error xs c with
      | Some x =>
          if Nat.leb (v p (length got)) (stamp x) then
            let v := sees_at p (length got) (stamp x) v in
            let got := got ++ [value x] in
            ((if Nat.ltb (length got) n then DLoad p n got k else DAt (k got), v), m)
          else ((t, v), m)
      | None => ((t, v), m)
      end
  | None => ((DAt HUndef, v), m)
  end.
(** Writing a digit, src/apint/utils.rs 292-305: with the time [c], if it is later than the view
    and nothing has been written there with that time; else the turn passes. *)
Definition v_store {A : Type} (c : nat) (t : dthread A) (p : nat) (new : list Z) (j : nat) (k : HM A) (v : horizon) (m : vmem) : vthread A * vmem :=
  match nth_error new j with
  | Some d =>
      match written p j m with
      | Some xs =>
          if Nat.ltb (v p j) c && negb (existsb (fun x => Nat.eqb (stamp x) c) xs) then
            ((if Nat.ltb (S j) (length new) then DStore p new (S j) k else DAt k, sees_at p j c v), add_message p j (mk_message c d) m)
          else ((t, v), m)
      | None => ((DAt HUndef, v), m)
      end
  | None => ((DAt k, v), m)
  end.
(** [dealloc], as [mem_free].  src/apint/constructors.rs 28-33. *)
Definition v_free (p n : nat) (m : vmem) : option vmem :=
  match nth_error (vblocks m) p with
  | Some (Some ds) => if Nat.eqb (length ds) n then Some (mk_vmem (vslack m) (update p None (vblocks m))) else None
  | _ => None
  end.
(** What a thread does next (src/apint/mod.rs 40-46), as [dtick]; [c] is the machine's choice. *)
Definition vtick {A : Type} (junk : nat -> nat -> Z) (c : nat) (x : vthread A) (m : vmem) : vthread A * vmem :=
  let '(t, v) := x in
  match t with
  | DAt (HMalloc ds k) =>
      let p := length (vblocks m) in
      let new := map (fun d => [mk_message 0 d]) (uninit junk p (length ds)) in
      ((if Nat.ltb 0 (length ds) then DStore p ds 0 (k p) else DAt (k p), v), mk_vmem (vslack m) (vblocks m ++ [Some new]))
  | DAt (HFree p n k) => match v_free p n m with Some m => ((DAt k, v), m) | None => ((DAt HUndef, v), m) end
  | DAt (HLoad p n k) => if Nat.ltb 0 n then v_load c t p n [] k v m else ((DAt (k []), v), m)
  | DAt (HStore p new k) => v_store c t p new 0 k v m
  | DAt (HSlack n k) => ((DAt (k (vslack m n)), v), m)
  | DAt _ => ((t, v), m)
  | DLoad p n got k => v_load c t p n got k v m
  | DStore p new j k => v_store c t p new j k v m
  end.

(** src/apint/mod.rs 40-46. *)
Definition vpool (R : Type) : Type := vmem * list (vthread R).
(** One turn of thread [i], with the choice [c] (src/apint/mod.rs 40-46). *)
Definition vturn {R : Type} (junk : nat -> nat -> Z) (e : nat * nat) (s : vpool R) : vpool R :=
  let '(i, c) := e in
  match nth_error (snd s) i with
  | Some x => let (x, m) := vtick junk c x (fst s) in (m, update i x (snd s))
  | None => s
  end.
(** A history says whose turn it is and what the machine chooses.  src/apint/mod.rs 40-46. *)
Fixpoint evolves {R : Type} (junk : nat -> nat -> Z) (history : list (nat * nat)) (s : vpool R) : vpool R :=
  match history with
  | [] => s
  | e :: history => evolves junk history (vturn junk e s)
  end.
