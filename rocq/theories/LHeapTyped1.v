(** Programs on [UInt] and [Int] over the heap: the calls. *)
From Coq Require Import Permutation.
From Verif Require Export MHeapTyped LHeap5 LTyped3.

(** * The calls on plain lists of digits, in terms of [ApInt] *)
Definition wrap (k : kind) (x : apint) : tvar := match k with KU => VU (mk_uint x) | KI => VI (mk_int x) end.
Definition kind_of (v : tvar) : kind := match v with VU _ => KU | VI _ => KI end.
Definition inner (v : tvar) : apint := match v with VU x => uapint x | VI x => iapint x end.
Lemma wrap_inner v : wrap (kind_of v) (inner v) = v.
Proof. destruct v as [[x]|[x]]; reflexivity. Qed.

Definition v_new (k : kind) (n : tnew) : outcome (result (option apint)) :=
  match k, n with
  | KI, TOne 1 => Val (Ok None)
  | _, _ => let! r := cnew (ap_new k n) in Val (map_result Some r)
  end.
Definition v_abs (x : apint) : mut_result := let! m := msb x in if m : bool then cmut MNeg x else Val (x, Ok tt).
Definition v_tmut (k : kind) (m : tmut) (x : apint) : mut_result :=
  match ap_mut k m with Some o => cmut o x | None => v_abs x end.
Definition v_unwrap_assign (f : mut_result) : mut_result := let! (a, r) := f in let! _ := unwrap r in Val (a, Ok tt).
Definition v_unwrap_into (f : outcome (result apint)) : outcome (result apint) := let! r := f in let! a := unwrap r in Val (Ok a).
Definition v_mut (k : kind) (f : form) (m : tmut) (x : apint) : option mut_result :=
  match f, k, m with
  | Method, KU, TAbs => None
  | Method, _, _ => Some (v_tmut k m x)
  | Operator, _, (TShl _ | TShr _) => Some (v_unwrap_assign (v_tmut k m x))
  | Operator, _, _ => None
  end.
Definition v_into (k : kind) (f : form) (m : tmut) (x : apint) : option (outcome (result apint)) :=
  match f, k, m with
  | Method, KU, TAbs => None
  | Method, _, _ => Some (forward (v_tmut k m x))
  | Operator, _, (TNot | TNeg | TShl _ | TShr _) => Some (v_unwrap_into (forward (v_tmut k m x)))
  | Operator, _, _ => None
  end.
Definition v_put (k : kind) (m : tset) (x : apint) : option mut_result :=
  match k, m with
  | KU, (TSetSign | TUnsetSign | TFlipSign) => None
  | _, _ => Some (cput (ap_set m) x)
  end.
Definition v_bin (k : kind) (f : form) (o : tbin) (x y : apint) : mut_result :=
  match f with Method => cbin (ap_bin k o) x y | Operator => v_unwrap_assign (cbin (ap_bin k o) x y) end.
Definition v_bin_into (k : kind) (f : form) (o : tbin) (x y : apint) : outcome (result apint) :=
  match f with Method => forward (cbin (ap_bin k o) x y) | Operator => v_unwrap_into (forward (cbin (ap_bin k o) x y)) end.

Definition v_create (k : kind) (s : tvars) (m : outcome (result apint)) : tstep_result :=
  let! r := m in Val (match r with Ok x => (s ++ [Some (wrap k x)], Shows ODone) | Err e => (s, Shows (OFail (observe e))) end).
Definition v_create_opt (k : kind) (s : tvars) (m : outcome (result (option apint))) : tstep_result :=
  let! r := m in Val (match r with
    | Ok (Some x) => (s ++ [Some (wrap k x)], Shows ODone) | Ok None => (s, Nothing) | Err e => (s, Shows (OFail (observe e)))
    end).
Definition v_change (k : kind) (s : tvars) (x : nat) (m : mut_result) : tstep_result :=
  let! (a, r) := m in Val (update x (Some (wrap k a)) s, Shows (done r)).
Definition v_show {R : Type} (show : R -> tobs) (s : tvars) (m : outcome R) : tstep_result := let! r := m in Val (s, show r).

(** One call, with the type of the variable as a parameter. *)
Definition v_get1 (s : tvars) (x : nat) (f : kind -> apint -> tstep_result) : tstep_result :=
  match nth_error s x with Some (Some v) => f (kind_of v) (inner v) | _ => reject s end.
Definition v_get2 (s : tvars) (x y : nat) (f : kind -> apint -> apint -> tstep_result) : tstep_result :=
  v_get1 s x (fun k a => v_get1 s y (fun k' b => if_same_kind k k' (f k a b) (reject s))).
Definition v_get2' (s : tvars) (x y : nat) (f : kind -> apint -> apint -> tstep_result) : tstep_result :=
  if Nat.eqb x y then reject s else v_get2 s x y f.
Definition vu_ask (q : tquery) (x : apint) : option (outcome obs) :=
  match q with
  | TIsPositive | TIsNegative | TSignum | TSign => None
  | _ => Some (match uask q (mk_uint x) with Some o => o | None => Panic end)
  end.
Definition v_step (s : tvars) (c : tcmd) : tstep_result :=
  match c with
  | TNew k n => v_create_opt k s (v_new k n)
  | TClone x => v_get1 s x (fun k a => v_create k s (total (clone a)))
  | TDrop x => v_get1 s x (fun _ a => Val (update x None s, Shows ODone))
  | TMut f m x => v_get1 s x (fun k a => if_any s (v_mut k f m a) (v_change k s x))
  | TInto f m x => v_get1 s x (fun k a => if_any s (v_into k f m a) (v_create k (update x None s)))
  | TPut m x => v_get1 s x (fun k a => if_any s (v_put k m a) (v_change k s x))
  | TBin f o x y => v_get2' s x y (fun k a b => v_change k s x (v_bin k f o a b))
  | TIntoBin f o x y => v_get2' s x y (fun k a b => v_create k (update x None s) (v_bin_into k f o a b))
  | TAssign x y => v_get2' s x y (fun k a b => v_change k s x (total_mut (assign a b)))
  | TStrictAssign x y => v_get2' s x y (fun k a b => v_change k s x (strict_assign a b))
  | TCheck o x y => v_get2 s x y (fun k a b => v_show Shows s
      (obs_rbool (match k with KU => ucheck o (mk_uint a) (mk_uint b) | KI => icheck o (mk_int a) (mk_int b) end)))
  | TTest o x y => v_get2 s x y (fun k a b => v_show Shows s
      (obs_bool (match k with KU => utest o (mk_uint a) (mk_uint b) | KI => itest o (mk_int a) (mk_int b) end)))
  | TCompare x y => v_get2 s x y (fun k a b => v_show Ordering s
      (match k with KU => uint_partial_cmp (mk_uint a) (mk_uint b) | KI => int_partial_cmp (mk_int a) (mk_int b) end))
  | TEqual x y => v_get2 s x y (fun k a b => v_show Shows s
      (Val (OBool (match k with KU => uint_eqb (mk_uint a) (mk_uint b) | KI => int_eqb (mk_int a) (mk_int b) end))))
  | TSwitch x => v_get1 s x (fun k a => v_create (match k with KU => KI | KI => KU end) (update x None s) (Val (Ok a)))
  | TThrough k x => v_get1 s x (fun _ a => v_create k (update x None s) (Val (Ok a)))
  | TAsk q x => v_get1 s x (fun k a =>
      match k with KU => if_any s (vu_ask q a) (v_show Shows s) | KI => v_show Shows s (iask q (mk_int a)) end)
  end.

(** This is what the model of the two types does. *)
Lemma new_wrap k s n : tstep s (TNew k n) = v_step s (TNew k n).
Proof.
  destruct k, n as [b|[| | | |] v|vs|w|w|w|w|w|w]; cbn [tstep v_step unew inew ap_new];
    unfold mcreate_opt, v_create_opt, v_new, ap_new; cbn [cnew]; unfold total, sized, bitwidth_new;
    try (destruct (Z.eqb_spec w 0) as [->|W]; [reflexivity|]); cbn [map_result bind];
    unfold uint_from_bool, uint_from_u8, uint_from_u16, uint_from_u32, uint_from_u64, uint_from_u128, uint_from_array,
      uint_zero, uint_one, uint_all_unset, uint_all_set, uint_min_value, uint_max_value,
      int_from_bool, int_from_i8, int_from_i16, int_from_i32, int_from_i64, int_from_i128, int_from_array,
      int_zero, int_one, int_all_unset, int_all_set, int_min_value, int_max_value, uint_zero, int_zero, uint_new, int_new;
    try (match goal with |- bind (bind (bind ?o _) _) _ = _ => destruct o; reflexivity end).
  destruct w as [|[p|p|]|p]; try reflexivity; cbn [Z.eqb Pos.eqb]; destruct (one _); reflexivity.
Qed.

Ltac by_outcome :=
  cbn [bind]; try reflexivity;
  match goal with
  | |- context [bind ?o _] =>
      lazymatch o with
      | bind _ _ => fail
      | context [match _ with _ => _ end] => fail
      | _ => destruct o as [[? [?|?]]| |] || destruct o as [[?|?]| |] || destruct o
      end; cbn [bind map_result unwrap]; try reflexivity
  end.

Lemma upd_u s x m : mchange VU s x (uint_upd m) = v_change KU s x m.
Proof. unfold mchange, uint_upd, v_change. destruct m as [[a r]| |]; reflexivity. Qed.
Lemma upd_i s x m : mchange VI s x (int_upd m) = v_change KI s x m.
Proof. unfold mchange, int_upd, v_change. destruct m as [[a r]| |]; reflexivity. Qed.

Lemma umut_wrap f m x : umut f m (mk_uint x) = option_map uint_upd (v_mut KU f m x).
Proof.
  destruct f, m; cbn [umut v_mut option_map]; try reflexivity; f_equal; unfold v_tmut; cbn [ap_mut cmut];
    unfold unit_mut, total_mut, sized_in, sized_mut, v_unwrap_assign, uint_upd,
      uint_bitnot, uint_wrapping_neg, uint_truncate, uint_extend, uint_resize, uint_new, uint_op_shl_assign, uint_op_shr_assign, assign_unwrap,
      uint_wrapping_shl_assign, uint_wrapping_shr_assign, uint_upd; cbn [uapint];
    try destruct (bitwidth_new t); by_outcome.
Qed.
Lemma imut_wrap f m x : imut f m (mk_int x) = option_map int_upd (v_mut KI f m x).
Proof.
  destruct f, m; cbn [imut v_mut option_map]; try reflexivity; f_equal; unfold v_tmut; cbn [ap_mut cmut];
    unfold v_abs, unit_mut, total_mut, sized_in, sized_mut, v_unwrap_assign, int_upd, int_wrapping_abs, int_msb,
      int_bitnot, int_wrapping_neg, int_truncate, int_extend, int_resize, int_new, int_op_shl_assign, int_op_shr_assign, assign_unwrap,
      int_wrapping_shl_assign, int_wrapping_shr_assign, int_upd; cbn [iapint];
    try destruct (bitwidth_new t); by_outcome.
  match goal with |- context [if ?b then _ else _] => destruct b end; [cbn [cmut]; unfold total_mut; destruct (wrapping_neg x)|]; reflexivity.
Qed.
Lemma map_u s m : mcreate VU s (uint_map m) = v_create KU s m.
Proof. unfold mcreate, uint_map, v_create. destruct m as [[a|e]| |]; reflexivity. Qed.
Lemma map_i s m : mcreate VI s (int_map m) = v_create KI s m.
Proof. unfold mcreate, int_map, v_create. destruct m as [[a|e]| |]; reflexivity. Qed.

Lemma uinto_wrap f m x : uinto f m (mk_uint x) = option_map uint_map (v_into KU f m x).
Proof.
  destruct f, m; cbn [uinto v_into option_map]; try reflexivity; f_equal; unfold v_tmut; cbn [ap_mut cmut];
    unfold plain_val, unit_mut, total_mut, sized, sized_mut, v_unwrap_into, uint_map, forward,
      uint_op_not, uint_op_neg, uint_op_shl, uint_op_shr, op_unwrap,
      uint_into_bitnot, uint_into_wrapping_neg, uint_into_truncate, uint_into_extend, uint_into_resize, uint_into_wrapping_shl, uint_into_wrapping_shr,
      into_wrapping_shl, into_wrapping_lshr, try_forward_bin_mut_impl, forward_bin_mut_impl, forward_mut_impl,
      uint_bitnot, uint_wrapping_neg, uint_truncate, uint_extend, uint_resize, uint_new, uint_upd, uint_map; cbn [uapint];
    try destruct (bitwidth_new t); by_outcome.
Qed.
Lemma iinto_wrap f m x : iinto f m (mk_int x) = option_map int_map (v_into KI f m x).
Proof.
  destruct f, m; cbn [iinto v_into option_map]; try reflexivity; f_equal; unfold v_tmut; cbn [ap_mut cmut];
    unfold plain_val, unit_mut, total_mut, sized, sized_mut, v_unwrap_into, int_map, forward, v_abs, int_into_abs,
      int_op_not, int_op_neg, int_op_shl, int_op_shr, op_unwrap,
      int_into_bitnot, int_into_wrapping_neg, int_into_truncate, int_into_extend, int_into_resize, int_into_wrapping_shl, int_into_wrapping_shr,
      into_wrapping_shl, into_wrapping_ashr, try_forward_bin_mut_impl, forward_bin_mut_impl, forward_mut_impl, int_wrapping_abs, int_msb,
      int_bitnot, int_wrapping_neg, int_truncate, int_extend, int_resize, int_new, int_upd, int_map; cbn [iapint];
    try destruct (bitwidth_new t); by_outcome.
  match goal with |- context [if ?b then _ else _] => destruct b end; [cbn [cmut]; unfold total_mut; destruct (wrapping_neg x)|]; reflexivity.
Qed.
Lemma uput_wrap m x : uput m (mk_uint x) = option_map uint_upd (v_put KU m x).
Proof.
  destruct m; cbn [uput v_put ap_set option_map cput]; try reflexivity; f_equal;
    unfold unit_mut, uint_set_all, uint_unset_all, uint_flip_all, uint_new, uint_upd, total_mut; cbn [uapint]; by_outcome.
Qed.
Lemma iput_wrap m x : Some (iput m (mk_int x)) = option_map int_upd (v_put KI m x).
Proof.
  destruct m; cbn [iput v_put ap_set option_map cput]; try reflexivity; f_equal;
    unfold unit_mut, int_set_all, int_unset_all, int_flip_all, int_set_msb, int_unset_msb, int_flip_msb, int_new, int_upd, total_mut; cbn [iapint]; by_outcome.
Qed.
Lemma ubin_wrap f o x y : ubin f o (mk_uint x) (mk_uint y) = uint_upd (v_bin KU f o x y).
Proof.
  destruct f, o; cbn [ubin v_bin ap_bin cbin]; try reflexivity; unfold v_unwrap_assign, uint_upd, unit_mut,
    uint_op_add_assign, uint_op_sub_assign, uint_op_mul_assign, uint_op_div_assign, uint_op_rem_assign, uint_op_bitand_assign,
    uint_op_bitor_assign, uint_op_bitxor_assign, assign_unwrap, uint_wrapping_add_assign, uint_wrapping_sub_assign, uint_wrapping_mul_assign,
    uint_wrapping_div_assign, uint_wrapping_rem_assign, uint_bitand_assign, uint_bitor_assign, uint_bitxor_assign, uint_upd;
    cbn [uapint]; by_outcome.
Qed.
Lemma ibin_wrap f o x y : ibin f o (mk_int x) (mk_int y) = int_upd (v_bin KI f o x y).
Proof.
  destruct f, o; cbn [ibin v_bin ap_bin cbin]; try reflexivity; unfold v_unwrap_assign, int_upd, unit_mut,
    int_op_add_assign, int_op_sub_assign, int_op_mul_assign, int_op_div_assign, int_op_rem_assign, int_op_bitand_assign,
    int_op_bitor_assign, int_op_bitxor_assign, assign_unwrap, int_wrapping_add_assign, int_wrapping_sub_assign, int_wrapping_mul_assign,
    int_wrapping_div_assign, int_wrapping_rem_assign, int_bitand_assign, int_bitor_assign, int_bitxor_assign, int_upd;
    cbn [iapint]; by_outcome.
Qed.
Lemma ubin_into_wrap f o x y : ubin_into f o (mk_uint x) (mk_uint y) = uint_map (v_bin_into KU f o x y).
Proof.
  destruct f, o; cbn [ubin_into v_bin_into ap_bin cbin]; unfold v_unwrap_into, forward, uint_map, plain_val,
    uint_op_add, uint_op_sub, uint_op_mul, uint_op_div, uint_op_rem, uint_op_bitand,
    uint_op_bitor, uint_op_bitxor, op_unwrap,
    uint_into_wrapping_add, uint_into_wrapping_sub, uint_into_wrapping_mul,
    uint_into_wrapping_div, uint_into_wrapping_rem, uint_into_bitand, uint_into_bitor, uint_into_bitxor, try_forward_bin_mut_impl,
    uint_wrapping_add_assign, uint_wrapping_sub_assign, uint_wrapping_mul_assign,
    uint_wrapping_div_assign, uint_wrapping_rem_assign, uint_bitand_assign, uint_bitor_assign, uint_bitxor_assign, uint_upd;
    cbn [uapint]; by_outcome.
Qed.
Lemma ibin_into_wrap f o x y : ibin_into f o (mk_int x) (mk_int y) = int_map (v_bin_into KI f o x y).
Proof.
  destruct f, o; cbn [ibin_into v_bin_into ap_bin cbin]; unfold v_unwrap_into, forward, int_map, plain_val,
    int_op_add, int_op_sub, int_op_mul, int_op_div, int_op_rem, int_op_bitand,
    int_op_bitor, int_op_bitxor, op_unwrap,
    int_into_wrapping_add, int_into_wrapping_sub, int_into_wrapping_mul,
    int_into_wrapping_div, int_into_wrapping_rem, int_into_bitand, int_into_bitor, int_into_bitxor, try_forward_bin_mut_impl,
    int_wrapping_add_assign, int_wrapping_sub_assign, int_wrapping_mul_assign,
    int_wrapping_div_assign, int_wrapping_rem_assign, int_bitand_assign, int_bitor_assign, int_bitxor_assign, int_upd;
    cbn [iapint]; by_outcome.
Qed.

Lemma get1_wrap s x f g : (forall v, f v = g (kind_of v) (inner v)) -> mget1 s x f = v_get1 s x g.
Proof. intros H. unfold mget1, v_get1. destruct (nth_error s x) as [[v|]|]; [apply H| |]; reflexivity. Qed.
Lemma get2_wrap s x y fu fi g : (forall a b, fu (mk_uint a) (mk_uint b) = g KU a b) -> (forall a b, fi (mk_int a) (mk_int b) = g KI a b) ->
  mget2 s x y fu fi = v_get2 s x y g.
Proof.
  intros HU HI. unfold mget2, v_get2. apply get1_wrap. intros v. apply get1_wrap. intros v'.
  destruct v as [[a]|[a]], v' as [[b]|[b]]; cbn; auto.
Qed.
Lemma get2_wrap' s x y fu fi g : (forall a b, fu (mk_uint a) (mk_uint b) = g KU a b) -> (forall a b, fi (mk_int a) (mk_int b) = g KI a b) ->
  mget2' s x y fu fi = v_get2' s x y g.
Proof. intros HU HI. unfold mget2', v_get2'. destruct (Nat.eqb x y); [reflexivity|now apply get2_wrap]. Qed.

(** This is what the model of the two types does. *)
Lemma step_wrap s c : tstep s c = v_step s c.
Proof.
  destruct c as [k n|x|x|f m x|f m x|m x|f o x y|f o x y|x y|x y|o x y|o x y|x y|x y|x|k x|q x]; [apply new_wrap|..]; cbn [tstep v_step].
  - apply get1_wrap. intros [[a]|[a]]; cbn [kind_of inner uapint iapint];
      unfold plain_val, uint_clone, int_clone, uint_new, int_new, mcreate, v_create, total; cbn [uapint iapint]; destruct (clone a); reflexivity.
  - now apply get1_wrap.
  - apply get1_wrap. intros [[a]|[a]]; cbn [kind_of inner uapint iapint].
    + rewrite umut_wrap. destruct (v_mut KU f m a); cbn [option_map if_any]; [apply upd_u|reflexivity].
    + rewrite imut_wrap. destruct (v_mut KI f m a); cbn [option_map if_any]; [apply upd_i|reflexivity].
  - apply get1_wrap. intros [[a]|[a]]; cbn [kind_of inner uapint iapint].
    + rewrite uinto_wrap. destruct (v_into KU f m a); cbn [option_map if_any]; [apply map_u|reflexivity].
    + rewrite iinto_wrap. destruct (v_into KI f m a); cbn [option_map if_any]; [apply map_i|reflexivity].
  - apply get1_wrap. intros [[a]|[a]]; cbn [kind_of inner uapint iapint].
    + rewrite uput_wrap. destruct (v_put KU m a); cbn [option_map if_any]; [apply upd_u|reflexivity].
    + pose proof (iput_wrap m a) as E. destruct (v_put KI m a); cbn [option_map if_any] in *; [|discriminate].
      injection E as ->. apply upd_i.
  - apply get2_wrap'; intros a b; [rewrite ubin_wrap; apply upd_u|rewrite ibin_wrap; apply upd_i].
  - apply get2_wrap'; intros a b; [rewrite ubin_into_wrap; apply map_u|rewrite ibin_into_wrap; apply map_i].
  - apply get2_wrap'; intros a b;
      unfold unit_mut, uint_assign, int_assign, uint_new, int_new, mchange, v_change, total_mut; cbn [uapint iapint];
      destruct (assign a b); reflexivity.
  - apply get2_wrap'; intros a b; [apply upd_u|apply upd_i].
  - apply get2_wrap; reflexivity.
  - apply get2_wrap; reflexivity.
  - apply get2_wrap; reflexivity.
  - apply get2_wrap; reflexivity.
  - apply get1_wrap. intros [[a]|[a]]; reflexivity.
  - apply get1_wrap. destruct k; intros [[a]|[a]]; reflexivity.
  - apply get1_wrap. intros [[a]|[a]]; cbn [kind_of inner uapint iapint]; [|reflexivity].
    destruct q; try reflexivity; match goal with z : size |- _ => destruct z; reflexivity end.
Qed.
