(** Calls that look the same whatever the values. *)
From Verif Require Export LWatch SpecWatch.
From Coq Require Import Lia ZArith.

(** What may differ between two executions that look the same: the digits, but not how many there are. *)
Class Alike (A : Type) := alike : A -> A -> Prop.
#[export] Instance alike_digit : Alike Z := fun _ _ => True.
#[export] Instance alike_bool : Alike bool := fun _ _ => True.
#[export] Instance alike_unit : Alike unit := fun _ _ => True.
#[export] Instance alike_digits {A} : Alike (list A) := fun l l' => List.length l = List.length l'.
#[export] Instance alike_apint : Alike apint := fun a a' => len a = len a' /\ List.length (digits a) = List.length (digits a').
#[export] Instance alike_pair {A C} `{Alike A} `{Alike C} : Alike (A * C) := fun p p' => alike (fst p) (fst p') /\ alike (snd p) (snd p').
#[export] Instance alike_result {A} `{Alike A} : Alike (result A) :=
  fun r r' => match r, r' with Ok a, Ok a' => alike a a' | Err e, Err e' => e = e' | _, _ => False end.
#[export] Instance alike_access : Alike data_access :=
  fun x x' => match x, x' with DInl _, DInl _ => True | DExt l, DExt l' => alike l l' | _, _ => False end.
#[export] Instance alike_zip : Alike zip_data_access :=
  fun x x' => match x, x' with ZInl _ _, ZInl _ _ => True | ZExt l r, ZExt l' r' => alike l l' /\ alike r r' | _, _ => False end.
Definition ends {A} `{Alike A} (o o' : outcome A) : Prop :=
  match o, o' with Val a, Val a' => alike a a' | Stop b, Stop b' => b = b' | OutOfFuel, OutOfFuel => True | _, _ => False end.
Definition same {A} `{Alike A} (m m' : watched A) : Prop := fst m = fst m' /\ ends (snd m) (snd m').

Lemma ends_bind {A C} `{Alike A} `{Alike C} (o o' : outcome A) (k k' : A -> outcome C) :
  ends o o' -> (forall a a', alike a a' -> ends (k a) (k' a')) -> ends (bind o k) (bind o' k').
Proof. intros H1 H2. destruct o, o'; cbn in *; try contradiction; auto. Qed.
Lemma ends_bind_eq {A C} `{Alike C} (o : outcome A) (k k' : A -> outcome C) :
  (forall a, ends (k a) (k' a)) -> ends (bind o k) (bind o k').
Proof. intros H1. destruct o; cbn in *; try contradiction; auto. Qed.
Lemma same_bind {A C} `{Alike A} `{Alike C} (m m' : watched A) (k k' : A -> watched C) :
  same m m' -> (forall a a', alike a a' -> same (k a) (k' a')) -> same (wbind m k) (wbind m' k').
Proof.
  intros [E O] H1. unfold same, wbind. destruct (snd m) as [a| |], (snd m') as [a'| |]; cbn in *; try contradiction; auto.
  destruct (H1 a a' O) as [E1 O1]. split; [now f_equal|exact O1].
Qed.
Lemma same_see {C} `{Alike C} es es' (k k' : unit -> watched C) : es = es' -> same (k tt) (k' tt) -> same (wbind (see es) k) (wbind (see es') k').
Proof. intros -> [E O]. split; cbn; [now f_equal|exact O]. Qed.
Lemma same_branch {C} `{Alike C} b b' (k k' : bool -> watched C) : b = b' -> same (k b) (k' b) -> same (wbind (branch b) k) (wbind (branch b') k').
Proof. intros <- [E O]. split; cbn; [now f_equal|exact O]. Qed.
Lemma same_lift {A} `{Alike A} (o o' : outcome A) : ends o o' -> same (wlift o) (wlift o').
Proof. now split. Qed.
Lemma same_val {A} `{Alike A} (a a' : A) : alike a a' -> same (wval a) (wval a').
Proof. now split. Qed.
Lemma same_lift_eq {A C} `{Alike C} (o : outcome A) (k k' : A -> watched C) : (forall a, same (k a) (k' a)) -> same (wbind (wlift o) k) (wbind (wlift o) k').
Proof. intros H1. unfold same, wbind. destruct o as [a|s|]; cbn; auto. destruct (H1 a) as [E O]. split; auto. Qed.
Lemma same_for_range {S} `{Alike S} n : forall lo (f f' : nat -> S -> watched S) s s', alike s s' -> (forall i s s', alike s s' -> same (f i s) (f' i s')) ->
  same (w_for_range n lo f s) (w_for_range n lo f' s').
Proof.
  induction n as [|n IH]; intros lo f f' s s' Hs Hf; cbn [w_for_range]; [now apply same_val|]. apply same_bind; [now apply Hf|]. intros t t' Ht. now apply IH.
Qed.

Lemma ends_idx (l l' : list Z) i : alike l l' -> ends (idx l i) (idx l' i).
Proof.
  intros H. unfold alike, alike_digits in H. unfold idx. destruct (nth_error l i) eqn:E, (nth_error l' i) eqn:E'; [exact I| | |reflexivity].
  - apply nth_error_None in E'. assert (i < List.length l)%nat by (apply nth_error_Some; congruence). lia.
  - apply nth_error_None in E. assert (i < List.length l')%nat by (apply nth_error_Some; congruence). lia.
Qed.
Lemma ends_upd (l l' : list Z) i v v' : alike l l' -> ends (upd l i v) (upd l' i v').
Proof.
  intros H. unfold alike, alike_digits in H. unfold upd. rewrite H. destruct (Nat.ltb i (List.length l')); [|reflexivity]. unfold ends, alike, alike_digits.
  rewrite !app_length, !firstn_length. cbn [List.length]. rewrite !skipn_length. lia.
Qed.
Lemma same_idx p l l' i : alike l l' -> same (w_idx p l i) (w_idx p l' i).
Proof. intros H. split; [reflexivity|]. now apply ends_idx. Qed.
Lemma same_upd p l l' i v v' : alike l l' -> same (w_upd p l i v) (w_upd p l' i v').
Proof. intros H. split; [reflexivity|]. now apply ends_upd. Qed.
Lemma ends_last (l l' : list Z) : alike l l' -> ends (last_digit l) (last_digit l').
Proof.
  revert l'. induction l as [|x l IH]; intros [|x' l'] H; unfold alike, alike_digits in H; cbn in H; try discriminate; [reflexivity|]. injection H as H.
  destruct l as [|y l], l' as [|y' l']; try discriminate; [exact I|]. apply (IH (y' :: l')). exact H.
Qed.
Lemma ends_modify_last f f' (l l' : list Z) : (forall d d', ends (f d) (f' d')) -> alike l l' -> ends (modify_last f l) (modify_last f' l').
Proof.
  intros Hf. revert l'. induction l as [|x l IH]; intros [|x' l'] H; unfold alike, alike_digits in H; cbn in H; try discriminate; [reflexivity|]. injection H as H.
  destruct l as [|y l], l' as [|y' l']; try discriminate.
  - cbn [modify_last]. apply ends_bind; [apply Hf|]. intros d d' _. reflexivity.
  - change (ends (let! r' := modify_last f (y :: l) in Val (x :: r')) (let! r' := modify_last f' (y' :: l') in Val (x' :: r'))).
    apply ends_bind; [now apply IH|]. intros r r' Hr. unfold alike, alike_digits in *. cbn. unfold alike, alike_digits. cbn. lia.
Qed.
Lemma ends_read_inl a a' : alike a a' -> ends (read_inl a) (read_inl a').
Proof.
  intros [_ H]. unfold read_inl. destruct (digits a) as [|d [|e r]], (digits a') as [|d' [|e' r']]; try discriminate; reflexivity || exact I.
Qed.
Create HintDb same.
#[export] Hint Resolve ends_idx ends_upd same_idx same_upd ends_last ends_read_inl : same.
Lemma ends_u64_shl x x' s : ends (u64_shl x s) (u64_shl x' s).
Proof. unfold u64_shl. destruct (s <? 64); reflexivity || exact I. Qed.
Lemma ends_u64_shr x x' s : ends (u64_shr x s) (u64_shr x' s).
Proof. unfold u64_shr. destruct (s <? 64); reflexivity || exact I. Qed.
#[export] Hint Resolve ends_u64_shl ends_u64_shr : same.
Ltac digit_op := repeat (match goal with |- ends (match ?x with _ => _ end) _ => destruct x | |- ends (bind ?o _) (bind ?o _) => apply ends_bind_eq; intros | |- ends (bind _ _) _ => apply ends_bind; [now auto with same|intros] end); try reflexivity; try exact I.
Lemma ends_d_get x x' p : ends (d_get x p) (d_get x' p).
Proof. unfold d_get. digit_op. Qed.
Lemma ends_d_set x x' p : ends (d_set x p) (d_set x' p).
Proof. unfold d_set. digit_op. Qed.
Lemma ends_d_unset x x' p : ends (d_unset x p) (d_unset x' p).
Proof. unfold d_unset. digit_op. Qed.
Lemma ends_d_flip x x' p : ends (d_flip x p) (d_flip x' p).
Proof. unfold d_flip. digit_op. Qed.
Lemma ends_retain x x' p : ends (d_retain_last_n x p) (d_retain_last_n x' p).
Proof. unfold d_retain_last_n. digit_op. Qed.
Lemma ends_truncate_to x x' p : ends (d_truncate_to x p) (d_truncate_to x' p).
Proof. unfold d_truncate_to. digit_op. Qed.
Lemma ends_sign_extend_from x x' p : ends (d_sign_extend_from x p) (d_sign_extend_from x' p).
Proof. unfold d_sign_extend_from. digit_op. Qed.
Lemma ends_unwrap {A} `{Alike A} (r r' : result A) : alike r r' -> ends (unwrap r) (unwrap r').
Proof. intros H1. destruct r, r'; cbn in *; try contradiction; auto. Qed.
#[export] Hint Resolve ends_d_get ends_d_set ends_d_unset ends_d_flip ends_retain ends_truncate_to ends_sign_extend_from ends_unwrap : same.

(** * src/apint/utils.rs *)
Lemma same_access p a a' : alike a a' -> same (w_access_data p a) (w_access_data p a').
Proof.
  intros H. pose proof H as [E L]. unfold w_access_data, access_data. rewrite E. destruct (storage (len a')); (apply same_see; [reflexivity|]; apply same_lift).
  - apply ends_bind; [now apply ends_read_inl|]. intros; exact I.
  - exact L.
Qed.
Lemma same_zip a a' b b' : alike a a' -> alike b b' -> same (w_zip_access_data a b) (w_zip_access_data a' b').
Proof.
  intros H K. pose proof H as [E L]. pose proof K as [E' L']. unfold w_zip_access_data, zip_access_data, width. rewrite E, E'. apply same_branch; [reflexivity|].
  destruct (len a' =? len b'); cbn [negb].
  - destruct (storage (len a')); (apply same_see; [reflexivity|]; apply same_lift).
    + apply ends_bind; [now apply ends_read_inl|]. intros l l' _. apply ends_bind; [now apply ends_read_inl|]. intros; exact I.
    + split; assumption.
  - apply same_lift. reflexivity.
Qed.
#[export] Hint Resolve same_access same_zip : same.
Lemma same_map f ds : forall ds' i, alike ds ds' -> same (w_map f i ds) (w_map f i ds').
Proof.
  induction ds as [|d ds IH]; intros [|d' ds'] i H; try discriminate H; [now apply same_val|]. cbn [w_map]. apply same_see; [reflexivity|].
  apply same_bind; [apply IH; now injection H|]. intros r r' Hr. apply same_val. unfold alike, alike_digits in *. cbn [List.length] in *. lia.
Qed.
Lemma same_zip_update f l : forall l' r r' i, alike l l' -> alike r r' -> same (w_zip_update f i l r) (w_zip_update f i l' r').
Proof.
  induction l as [|x l IH]; intros [|x' l'] [|y r] [|y' r'] i H K; try discriminate H; try discriminate K; cbn [w_zip_update]; try (now apply same_val).
  apply same_see; [reflexivity|]. apply same_bind; [apply IH; [now injection H|now injection K]|]. intros t t' Ht. apply same_val. unfold alike, alike_digits in *. cbn [List.length] in *. lia.
Qed.
#[export] Hint Resolve same_map same_zip_update : same.
Lemma same_write_ext a a' l l' : alike a a' -> alike l l' -> alike (write_ext a l) (write_ext a' l').
Proof. intros [E L] H. split; assumption. Qed.
Lemma same_write_inl a a' d d' : alike a a' -> alike (write_inl a d) (write_inl a' d').
Proof. intros [E L]. split; [assumption|reflexivity]. Qed.
#[export] Hint Resolve same_write_ext same_write_inl : same.
Lemma same_modify_digits f a a' : alike a a' -> same (w_modify_digits f a) (w_modify_digits f a').
Proof.
  intros H. unfold w_modify_digits. apply same_bind; [now apply same_access|]. intros [d|l] [d'|l'] K; try contradiction.
  - apply same_see; [reflexivity|]. apply same_val. auto with same.
  - apply same_bind; [now apply same_map|]. intros. apply same_val. auto with same.
Qed.
Lemma same_modify_zipped f a a' b b' : alike a a' -> alike b b' -> same (w_modify_zipped_digits f a b) (w_modify_zipped_digits f a' b').
Proof.
  intros H K. unfold w_modify_zipped_digits. apply same_bind; [now apply same_zip|]. intros [[l r|l r]|e] [[l' r'|l' r']|e'] R; try contradiction.
  - apply same_see; [reflexivity|]. apply same_val. split; [|exact I]. cbn [fst]. auto with same.
  - destruct R as [R1 R2]. apply same_bind; [now apply same_zip_update|]. intros. apply same_val. split; [|exact I]. cbn [fst]. auto with same.
  - apply same_val. split; [exact H|exact R].
Qed.
Lemma same_msd a a' : alike a a' -> same (w_most_significant_digit a) (w_most_significant_digit a').
Proof.
  intros H. unfold w_most_significant_digit. apply same_bind; [now apply same_access|]. intros [d|l] [d'|l'] K; try contradiction.
  - apply same_val. exact I.
  - apply same_see; [now rewrite K|]. apply same_lift. now apply ends_last.
Qed.
Lemma same_modify_msd p f f' a a' : alike a a' -> (forall d d', ends (f d) (f' d')) -> same (w_modify_most_significant_digit p f a) (w_modify_most_significant_digit p f' a').
Proof.
  intros H F. unfold w_modify_most_significant_digit. apply same_bind; [now apply same_access|]. intros [d|l] [d'|l'] K; try contradiction.
  - apply same_bind; [apply same_lift, F|]. intros. apply same_see; [reflexivity|]. apply same_val. auto with same.
  - apply same_see; [now rewrite K|]. apply same_bind; [apply same_lift; now apply ends_modify_last|]. intros. apply same_see; [now rewrite K|]. apply same_val. auto with same.
Qed.
Lemma same_lsd a a' : alike a a' -> same (w_least_significant_digit a) (w_least_significant_digit a').
Proof.
  intros H. unfold w_least_significant_digit. apply same_bind; [now apply same_access|]. intros [d|l] [d'|l'] K; try contradiction.
  - apply same_val. exact I.
  - now apply same_idx.
Qed.
#[export] Hint Resolve same_modify_digits same_modify_zipped same_msd same_lsd : same.
Lemma same_msb a a' : alike a a' -> same (w_msb a) (w_msb a').
Proof.
  intros H. unfold w_msb, width. apply same_bind; [now apply same_msd|]. intros d d' _. destruct H as [-> _]. apply same_bind; [apply same_lift; auto with same|].
  intros. apply same_lift. now apply ends_unwrap.
Qed.
Lemma same_lsb a a' : alike a a' -> same (w_lsb a) (w_lsb a').
Proof. intros H. unfold w_lsb. apply same_bind; [now apply same_lsd|]. intros. apply same_val. exact I. Qed.
Lemma same_clear p a a' : alike a a' -> same (w_clear_unused_bits p a) (w_clear_unused_bits p a').
Proof.
  intros H. unfold w_clear_unused_bits, width. pose proof H as [-> _]. destruct (excess_bits (len a')); (apply same_see; [reflexivity|]).
  - apply same_modify_msd; [exact H|]. intros. apply ends_bind; [auto with same|]. intros. now apply ends_unwrap.
  - now apply same_val.
Qed.
#[export] Hint Resolve same_msb same_lsb same_clear : same.
Lemma same_is_even a a' : alike a a' -> same (w_is_even a) (w_is_even a').
Proof. intros H. unfold w_is_even. apply same_bind; [now apply same_lsb|]. intros. apply same_val. exact I. Qed.
Lemma same_hash_feed a a' : alike a a' -> same (w_hash_feed a) (w_hash_feed a').
Proof.
  intros [E L]. unfold w_hash_feed, as_digit_slice. apply same_see; [now rewrite L|]. apply same_val. unfold hash_feed, as_digit_slice. unfold alike, alike_digits. cbn [List.length]. now rewrite !map_length, L.
Qed.

(** * src/apint/arithmetic.rs, bitwise.rs *)
Lemma same_bitnot a a' : alike a a' -> same (w_bitnot a) (w_bitnot a').
Proof. intros H. unfold w_bitnot. apply same_bind; auto with same. Qed.
Lemma same_set_all a a' : alike a a' -> same (w_set_all a) (w_set_all a').
Proof. intros H. unfold w_set_all. apply same_bind; auto with same. Qed.
Lemma same_unset_all a a' : alike a a' -> same (w_unset_all a) (w_unset_all a').
Proof. intros H. unfold w_unset_all. auto with same. Qed.
Lemma same_flip_all a a' : alike a a' -> same (w_flip_all a) (w_flip_all a').
Proof. intros H. unfold w_flip_all. apply same_bind; auto with same. Qed.
Lemma same_add_step r r' i s s' : alike r r' -> alike s s' -> same (w_add_step r i s) (w_add_step r' i s').
Proof.
  intros H K. destruct s as [l c], s' as [l' c'], K as [K _]. cbn [fst] in K. unfold w_add_step.
  apply same_bind; [now apply same_idx|]. intros x x' _. apply same_bind; [now apply same_idx|]. intros y y' _. apply same_bind; [now apply same_upd|]. intros. apply same_val. split; [assumption|exact I].
Qed.
Lemma same_sub_step r r' i s s' : alike r r' -> alike s s' -> same (w_sub_step r i s) (w_sub_step r' i s').
Proof.
  intros H K. destruct s as [l c], s' as [l' c'], K as [K _]. cbn [fst] in K. unfold w_sub_step.
  apply same_bind; [now apply same_idx|]. intros x x' _. apply same_bind; [now apply same_idx|]. intros y y' _. apply same_bind; [now apply same_upd|]. intros. apply same_val. split; [assumption|exact I].
Qed.
Lemma same_add_digits l l' r r' : alike l l' -> alike r r' -> same (w_add_digits l r) (w_add_digits l' r').
Proof.
  intros H K. unfold w_add_digits. apply same_bind; [now apply same_idx|]. intros x x' _. apply same_bind; [now apply same_idx|]. intros y y' _.
  destruct (d_carrying_add x y), (d_carrying_add x' y'). apply same_bind; [now apply same_upd|]. intros t t' Ht. unfold alike, alike_digits in Ht. rewrite Ht. apply same_for_range; [split; [assumption|exact I]|].
  intros. now apply same_add_step.
Qed.
Lemma same_sub_digits l l' r r' : alike l l' -> alike r r' -> same (w_sub_digits l r) (w_sub_digits l' r').
Proof.
  intros H K. unfold w_sub_digits. apply same_bind; [now apply same_idx|]. intros x x' _. apply same_bind; [now apply same_idx|]. intros y y' _.
  apply same_bind; [now apply same_upd|]. intros t t' Ht. unfold alike, alike_digits in Ht. rewrite Ht. apply same_for_range; [split; [assumption|exact I]|].
  intros. now apply same_sub_step.
Qed.
Lemma same_add a a' b b' : alike a a' -> alike b b' -> same (w_wrapping_add_assign a b) (w_wrapping_add_assign a' b').
Proof.
  intros H K. unfold w_wrapping_add_assign. apply same_bind; [now apply same_zip|]. intros [z|e] [z'|e'] R; try contradiction.
  - apply same_bind; [|intros a1 a1' H1; apply same_bind; [now apply same_clear|]; intros; apply same_val; now split].
    destruct z as [l r|l r], z' as [l' r'|l' r']; try contradiction.
    + apply same_see; [reflexivity|]. apply same_val. auto with same.
    + destruct R as [R1 R2]. apply same_bind; [now apply same_add_digits|]. intros [ds c] [ds' c'] [D _]. apply same_val. auto with same.
  - apply same_val. split; [exact H|exact R].
Qed.
Lemma same_sub a a' b b' : alike a a' -> alike b b' -> same (w_wrapping_sub_assign a b) (w_wrapping_sub_assign a' b').
Proof.
  intros H K. unfold w_wrapping_sub_assign. apply same_bind; [now apply same_zip|]. intros [z|e] [z'|e'] R; try contradiction.
  - apply same_bind; [|intros a1 a1' H1; apply same_bind; [now apply same_clear|]; intros; apply same_val; now split].
    destruct z as [l r|l r], z' as [l' r'|l' r']; try contradiction.
    + apply same_see; [reflexivity|]. apply same_val. auto with same.
    + destruct R as [R1 R2]. apply same_bind; [now apply same_sub_digits|]. intros [ds c] [ds' c'] [D _]. apply same_val. auto with same.
  - apply same_val. split; [exact H|exact R].
Qed.
Lemma same_get_bit_at a a' p : alike a a' -> same (w_get_bit_at a p) (w_get_bit_at a' p).
Proof.
  intros H. unfold w_get_bit_at, width. pose proof H as [-> _]. destruct (verify_bit_access (len a') p); (apply same_see; [reflexivity|]).
  - apply same_bind; [now apply same_access|]. intros [d|l] [d'|l'] K; try contradiction.
    + apply same_lift. auto with same.
    + destruct (to_digit_and_bit_pos p). apply same_bind; [now apply same_idx|]. intros. apply same_lift. auto with same.
  - now apply same_val.
Qed.
Lemma same_modify_bit_at f a a' p : (forall x x' p, ends (f x p) (f x' p)) -> alike a a' -> same (w_modify_bit_at f a p) (w_modify_bit_at f a' p).
Proof.
  intros F H. unfold w_modify_bit_at, width. pose proof H as [-> _]. destruct (verify_bit_access (len a') p); (apply same_see; [reflexivity|]).
  - apply same_bind; [now apply same_access|]. intros [d|l] [d'|l'] K; try contradiction.
    + apply same_bind; [apply same_lift, F|]. intros [x|e] [x'|e'] R; try contradiction.
      * apply same_see; [reflexivity|]. apply same_val. split; [|exact I]. cbn [fst]. auto with same.
      * apply same_val. split; [exact H|exact R].
    + destruct (to_digit_and_bit_pos p). apply same_bind; [now apply same_idx|]. intros. apply same_bind; [apply same_lift, F|]. intros [x|e] [x'|e'] R; try contradiction.
      * apply same_bind; [now apply same_upd|]. intros. apply same_val. split; [|exact I]. cbn [fst]. auto with same.
      * apply same_val. split; [exact H|exact R].
  - apply same_val. now split.
Qed.
#[export] Hint Resolve same_bitnot same_set_all same_unset_all same_flip_all same_get_bit_at same_add same_sub same_is_even same_hash_feed : same.
Lemma same_count_ones a a' : alike a a' -> same (w_count_ones a) (w_count_ones a').
Proof. intros [E L]. unfold w_count_ones, as_digit_slice. apply same_see; [now rewrite L|]. apply same_lift. exact I. Qed.

(** * src/apint/shift.rs *)
Lemma same_shl_digits s l l' : alike l l' -> same (w_shl_digits s l) (w_shl_digits s l').
Proof.
  intros H. pose proof H as L. unfold alike, alike_digits in L. assert (ends (shl_digits s l) (shl_digits s l')) as E.
  { unfold shl_digits. destruct (Nat.eqb s 0); [exact H|]. rewrite L. destruct (Nat.leb s (List.length l')); [|reflexivity]. red. unfold alike, alike_digits. rewrite !app_length, !firstn_length. lia. }
  unfold w_shl_digits. apply same_branch; [reflexivity|]. destruct (Nat.eqb s 0); [now apply same_lift|]. apply same_bind; [now apply same_lift|]. intros.
  rewrite L. apply same_see; [reflexivity|]. apply same_see; [reflexivity|]. now apply same_val.
Qed.
Lemma same_lshr_digits s l l' : alike l l' -> same (w_lshr_digits s l) (w_lshr_digits s l').
Proof.
  intros H. pose proof H as L. unfold alike, alike_digits in L. assert (ends (lshr_digits s l) (lshr_digits s l')) as E.
  { unfold lshr_digits. destruct (Nat.eqb s 0); [exact H|]. rewrite L. destruct (Nat.leb s (List.length l')); [|reflexivity]. red. unfold alike, alike_digits. rewrite ?app_length, ?firstn_length, ?app_length, ?firstn_length, ?skipn_length, ?L. lia. }
  unfold w_lshr_digits. apply same_branch; [reflexivity|]. destruct (Nat.eqb s 0); [now apply same_lift|]. apply same_bind; [now apply same_lift|]. intros.
  rewrite L. apply same_see; [reflexivity|]. apply same_see; [reflexivity|]. now apply same_val.
Qed.
Lemma same_shl_loop b l : forall l' i c c', alike l l' -> same (w_shl_loop b i c l) (w_shl_loop b i c' l').
Proof.
  induction l as [|x l IH]; intros [|x' l'] i c c' H; try discriminate H; cbn [w_shl_loop]; [now apply same_val|]. apply same_see; [reflexivity|]. apply same_lift_eq. intros n.
  apply same_bind; [apply same_lift; auto with same|]. intros. apply same_bind; [apply same_lift; auto with same|]. intros. apply same_bind; [apply IH; now injection H|].
  intros r r' R. apply same_val. unfold alike, alike_digits in *. cbn [List.length] in *. lia.
Qed.
Lemma same_lshr_loop b l : forall l' i c c', alike l l' -> same (w_lshr_loop b i c l) (w_lshr_loop b i c' l').
Proof.
  induction l as [|x l IH]; intros [|x' l'] i c c' H; try discriminate H; cbn [w_lshr_loop]; [now apply same_val|]. apply same_see; [reflexivity|]. apply same_lift_eq. intros n.
  apply same_bind; [apply same_lift; auto with same|]. intros. apply same_bind; [apply same_lift; auto with same|]. intros. apply same_bind; [apply IH; now injection H|].
  intros r r' R. apply same_val. unfold alike, alike_digits in *. cbn [List.length] in *. lia.
Qed.
Lemma same_modify_from s f f' l l' : (forall x x', alike x x' -> same (f x) (f' x')) -> alike l l' -> same (w_modify_from s f l) (w_modify_from s f' l').
Proof.
  intros F H. pose proof H as L. unfold alike, alike_digits in L. unfold w_modify_from. rewrite L. destruct (Nat.leb s (List.length l')); [|apply same_lift; reflexivity].
  apply same_bind; [apply F; unfold alike, alike_digits; rewrite !skipn_length; lia|]. intros t t' T. apply same_val. unfold alike, alike_digits in *. cbn [List.length] in *. rewrite !app_length, !firstn_length. lia.
Qed.
Lemma same_shl a a' s : alike a a' -> same (w_wrapping_shl_assign a s) (w_wrapping_shl_assign a' s).
Proof.
  intros H. unfold w_wrapping_shl_assign, width. pose proof H as [-> _]. destruct (verify_shift_amount (len a') s); (apply same_see; [reflexivity|]).
  - apply same_bind; [now apply same_access|]. intros acc acc' K. apply same_bind; [|intros a1 a1' H1; apply same_bind; [now apply same_clear|]; intros; apply same_val; now split].
    destruct acc as [d|l], acc' as [d'|l']; try contradiction.
    + apply same_bind; [apply same_lift; auto with same|]. intros. apply same_see; [reflexivity|]. apply same_val. auto with same.
    + apply same_bind; [now apply same_shl_digits|]. intros l1 l1' L1. apply same_branch; [reflexivity|]. apply same_bind.
      * destruct (negb (bit_steps s =? 0)); [|now apply same_val]. apply same_modify_from; [|exact L1]. intros. now apply same_shl_loop.
      * intros. apply same_val. auto with same.
  - apply same_val. now split.
Qed.
Lemma same_lshr a a' s : alike a a' -> same (w_wrapping_lshr_assign a s) (w_wrapping_lshr_assign a' s).
Proof.
  intros H. unfold w_wrapping_lshr_assign, width. pose proof H as [-> _]. destruct (verify_shift_amount (len a') s); (apply same_see; [reflexivity|]).
  - apply same_bind; [now apply same_access|]. intros acc acc' K. destruct acc as [d|l], acc' as [d'|l']; try contradiction.
    + apply same_bind; [apply same_lift; auto with same|]. intros. apply same_see; [reflexivity|]. apply same_val. split; [|exact I]. cbn [fst]. auto with same.
    + apply same_bind; [now apply same_lshr_digits|]. intros l1 l1' L1. apply same_branch; [reflexivity|]. apply same_bind.
      * destruct (0 <? bit_steps s); [|now apply same_val]. pose proof L1 as L2. unfold alike, alike_digits in L2. rewrite L2. apply same_bind.
        -- apply same_lshr_loop. unfold alike, alike_digits. cbn [List.length]. now rewrite !rev_length.
        -- intros r r' R. apply same_val. unfold alike, alike_digits in *. cbn [List.length] in *. now rewrite !rev_length.
      * intros. apply same_val. split; [|exact I]. cbn [fst]. auto with same.
  - apply same_val. now split.
Qed.
#[export] Hint Resolve same_shl same_lshr : same.

(** * src/apint/casting.rs *)
Lemma ends_new_ext w l l' : alike l l' -> ends (new_ext w l) (new_ext w l').
Proof. intros H. pose proof H as L. unfold alike, alike_digits in L. unfold new_ext. rewrite ?L. repeat (match goal with |- context [if ?x then _ else _] => destruct x end); try reflexivity; try (split; [reflexivity|exact L]). Qed.
Lemma ends_new_inl w d d' : ends (new_inl w d) (new_inl w d').
Proof. unfold new_inl. repeat (match goal with |- context [if ?x then _ else _] => destruct x end); try reflexivity; try (split; reflexivity). Qed.
Lemma ends_clone a a' : alike a a' -> ends (clone a) (clone a').
Proof.
  intros H. pose proof H as [E L]. unfold clone, len_digits, as_digit_slice. rewrite E, L. destruct (storage (len a')).
  - apply ends_bind; [now apply ends_read_inl|]. intros. apply ends_new_inl.
  - destruct (Nat.eqb _ _); [|reflexivity]. now apply ends_new_ext.
Qed.
Lemma same_clone p a a' : alike a a' -> same (w_clone p a) (w_clone p a').
Proof.
  intros H. pose proof H as [E L]. unfold w_clone, as_digit_slice. rewrite E, L. destruct (storage (len a')); (apply same_see; [reflexivity|]; apply same_lift; now apply ends_clone).
Qed.
Lemma ends_copy l l' r r' : alike l l' -> alike r r' -> ends (copy_from_slice l r) (copy_from_slice l' r').
Proof. intros H K. unfold copy_from_slice. unfold alike, alike_digits in H, K. rewrite H, K. destruct (Nat.eqb _ _); [exact K|reflexivity]. Qed.
Lemma same_assign a a' b b' : alike a a' -> alike b b' -> same (w_assign a b) (w_assign a' b').
Proof.
  intros H K. pose proof H as [E L]. pose proof K as [E' L']. unfold w_assign, len_digits, as_digit_slice. rewrite E, E', L'. apply same_branch; [reflexivity|].
  destruct (Nat.eqb _ _).
  - apply same_bind; [apply same_lift; now apply ends_copy|]. intros. apply same_see; [reflexivity|]. apply same_val. now split.
  - destruct (storage (len b')).
    + apply same_bind; [apply same_lift; now apply ends_read_inl|]. intros. apply same_see; [reflexivity|]. apply same_val. now split.
    + apply same_see; [reflexivity|]. apply same_bind; [now apply same_clone|]. intros c c' [_ C]. apply same_val. now split.
Qed.
Lemma same_strict_assign a a' b b' : alike a a' -> alike b b' -> same (w_strict_assign a b) (w_strict_assign a' b').
Proof.
  intros H K. pose proof H as [E L]. pose proof K as [E' L']. unfold w_strict_assign, width, as_digit_slice. rewrite E, E', L'. apply same_branch; [reflexivity|].
  destruct (negb _).
  - apply same_val. split; [exact H|reflexivity].
  - apply same_bind; [apply same_lift; now apply ends_copy|]. intros. apply same_see; [reflexivity|]. apply same_val. split; [now split|exact I].
Qed.
Lemma ends_from_iter l l' : alike l l' -> ends (from_iter l) (from_iter l').
Proof.
  intros H. pose proof H as L. unfold alike, alike_digits in L. unfold from_iter. rewrite L. destruct (List.length l') as [|[|n]]; [reflexivity| |].
  - apply ends_bind; [now apply ends_idx|]. intros. apply ends_bind; [apply ends_new_inl|]. intros. assumption.
  - apply ends_bind_eq. intros w. destruct (Nat.eqb _ _); [|reflexivity]. apply ends_bind; [now apply ends_new_ext|]. intros. assumption.
Qed.
Lemma same_from_iter p n l l' : alike l l' -> same (w_from_iter p n l) (w_from_iter p n l').
Proof. intros H. pose proof H as L. unfold alike, alike_digits in L. unfold w_from_iter. rewrite L. apply same_see; [reflexivity|]. apply same_lift. now apply ends_from_iter. Qed.
Lemma same_truncate_fuel n : forall p a a' t, alike a a' -> same (w_truncate_fuel n p a t) (w_truncate_fuel n p a' t).
Proof.
  induction n as [|n IH]; intros p a a' t H; cbn [w_truncate_fuel]; [now apply same_lift|]. pose proof H as [E L]. unfold width, as_digit_slice. rewrite E. apply same_branch; [reflexivity|].
  destruct (t =? len a'); [apply same_val; now split|]. apply same_branch; [reflexivity|]. destruct (len a' <? t); [apply same_val; split; [exact H|reflexivity]|].
  apply same_branch; [reflexivity|]. destruct (Nat.eqb _ _).
  - apply same_lift_eq. intros ew. apply same_bind; [apply same_modify_msd; [exact H|]; intros; apply ends_bind; [auto with same|]; intros; now apply ends_unwrap|].
    intros c c' [_ C]. apply same_val. split; [now split|exact I].
  - rewrite !firstn_length, L. apply same_bind; [apply same_from_iter; unfold alike, alike_digits; now rewrite !firstn_length, L|]. intros r r' R. apply same_bind; [apply same_lift; now apply ends_unwrap|].
    intros c c' C. pose proof C as [-> _]. apply same_branch; [reflexivity|]. destruct (negb _).
    + apply same_bind; [now apply IH|]. intros [d [u|e]] [d' [u'|e']] [D1 D2]; try contradiction; apply same_val; [now split|split; [exact H|exact D2]].
    + apply same_val. now split.
Qed.
Lemma same_truncate p a a' t : alike a a' -> same (w_truncate p a t) (w_truncate p a' t).
Proof. apply same_truncate_fuel. Qed.
Lemma same_from_iter_truncated n l l' t : alike l l' -> same (w_from_iter_truncated n l t) (w_from_iter_truncated n l' t).
Proof.
  intros H. unfold w_from_iter_truncated. apply same_bind; [now apply same_from_iter|]. intros [a|e] [a'|e'] R; try contradiction; [|now apply same_val].
  apply same_bind; [now apply same_truncate|]. intros [d [u|e]] [d' [u'|e']] [D1 D2]; try contradiction; now apply same_val.
Qed.
Lemma same_zero_extend a a' t : alike a a' -> same (w_zero_extend a t) (w_zero_extend a' t).
Proof.
  intros H. pose proof H as [E L]. unfold w_zero_extend, width, as_digit_slice. rewrite E. apply same_branch; [reflexivity|]. destruct (t =? len a'); [apply same_val; now split|].
  apply same_branch; [reflexivity|]. destruct (t <? len a'); [apply same_val; split; [exact H|reflexivity]|]. apply same_branch; [reflexivity|]. destruct (Nat.eqb _ _); [apply same_val; split; [now split|exact I]|].
  destruct (negb _); [now apply same_lift|]. rewrite L. apply same_bind; [apply same_from_iter_truncated; unfold alike, alike_digits; now rewrite !app_length, L|].
  intros [c|e] [c'|e'] R; try contradiction; apply same_val; (split; [assumption|exact I || exact R]).
Qed.
Lemma same_expect_mut m m' : same m m' -> same (w_expect_mut m) (w_expect_mut m').
Proof.
  intros H. unfold w_expect_mut. apply same_bind; [exact H|]. intros [d r] [d' r'] [D1 D2]. apply same_bind; [apply same_lift; now apply ends_unwrap|]. intros. now apply same_val.
Qed.
Lemma same_zero_resize a a' t : alike a a' -> same (w_zero_resize a t) (w_zero_resize a' t).
Proof.
  intros H. pose proof H as [E L]. unfold w_zero_resize, width. rewrite E. apply same_branch; [reflexivity|]. destruct (t <=? len a'); apply same_expect_mut; [now apply same_truncate|now apply same_zero_extend].
Qed.
#[export] Hint Resolve same_clone same_assign same_strict_assign same_truncate same_zero_extend same_zero_resize same_count_ones : same.
Lemma same_resize_to_primitive_ty a a' ty : alike a a' -> same (w_resize_to_primitive_ty a ty) (w_resize_to_primitive_ty a' ty).
Proof.
  intros H. unfold w_resize_to_primitive_ty, width. destruct (is_128 ty); [now apply same_lift|]. apply same_bind; [now apply same_lsd|]. intros d d' _. destruct H as [-> _].
  apply same_branch; [reflexivity|]. apply same_bind.
  - destruct (_ && _); [|apply same_val; exact I]. apply same_bind; [apply same_lift; auto with same|]. intros. apply same_lift. now apply ends_unwrap.
  - intros. destruct (_ <? _); [|apply same_val; exact I]. apply same_bind; [apply same_lift; auto with same|]. intros. apply same_lift. now apply ends_unwrap.
Qed.
