(** Sinks that refuse. *)
From Verif Require Export LFacts LSerial3 LText SpecSink.
Open Scope list_scope.
Open Scope Z_scope.

Lemma hand_app {A S : Type} (w : S -> A -> S * bool) l m s :
  hand w (l ++ m) s = and_then (hand w l s) (hand w m).
Proof.
  revert s. induction l as [|x r IH]; intros s; [reflexivity|]. cbn [app hand].
  destruct (w s x) as [s' [|]]; cbn [fst snd]; [apply IH|reflexivity].
Qed.
Lemma and_then_ext {S : Type} (m : S * bool) f g : (forall s, f s = g s) -> and_then m f = and_then m g.
Proof. intros H. destruct m as [s [|]]; cbn; auto. Qed.
Lemma hand_cons {A S : Type} (w : S -> A -> S * bool) x r s : hand w (x :: r) s = and_then (w s x) (hand w r).
Proof. cbn [hand]. destruct (w s x) as [s' [|]]; reflexivity. Qed.
Lemma hand_one {A S : Type} (w : S -> A -> S * bool) x s : hand w [x] s = w s x.
Proof. rewrite hand_cons. destruct (w s x) as [s' [|]]; reflexivity. Qed.
Lemma and_then_assoc {S : Type} (m : S * bool) f g :
  and_then (and_then m f) g = and_then m (fun s => and_then (f s) g).
Proof. destruct m as [s [|]]; reflexivity. Qed.

Lemma write_pieces_hand {S : Type} (w : S -> list Z -> S * bool) ps s : write_pieces w ps s = hand w ps s.
Proof. revert s. induction ps as [|p r IH]; intros s; [reflexivity|]. rewrite hand_cons. cbn [write_pieces]. now apply and_then_ext. Qed.
Lemma write_padded_hand pieces width base alpha ds {S : Type} (w : S -> list Z -> S * bool) s :
  write_padded pieces w width base alpha ds s =
  hand w (concat (map (fun d => pieces (u64_fmt_padded width base alpha d)) ds)) s.
Proof.
  revert s. induction ds as [|d r IH]; intros s; [reflexivity|]. cbn [write_padded map concat].
  rewrite hand_app, write_pieces_hand. now apply and_then_ext.
Qed.
(** The pieces of the text of the digits. *)
Fixpoint digit_pieces (pieces : list Z -> list (list Z)) (width : nat) (base alpha : Z) (ds : list Z) : list (list Z) :=
  match ds with
  | [] => []
  | d :: r =>
      if d_is_zero d then digit_pieces pieces width base alpha r
      else pieces (u64_fmt base alpha d) ++ concat (map (fun d => pieces (u64_fmt_padded width base alpha d)) r)
  end.
Lemma write_digits_hand pieces width base alpha ds {S : Type} (w : S -> list Z -> S * bool) s :
  write_digits pieces w width base alpha ds s = hand w (digit_pieces pieces width base alpha ds) s.
Proof.
  induction ds as [|d r IH]; [reflexivity|]. cbn [write_digits digit_pieces]. destruct (d_is_zero d); [apply IH|].
  rewrite hand_app, write_pieces_hand. apply and_then_ext. intros t. apply write_padded_hand.
Qed.
Lemma concat_concat_map {A B : Type} (f : A -> list (list B)) l : concat (concat (map f l)) = concat (map (fun x => concat (f x)) l).
Proof. induction l as [|x r IH]; [reflexivity|]. cbn [map concat]. now rewrite concat_app, IH. Qed.
Lemma digit_pieces_text pieces width base alpha ds : (forall t, concat (pieces t) = t) ->
  concat (digit_pieces pieces width base alpha ds) = fmt_digits width base alpha ds.
Proof.
  intros P. induction ds as [|d r IH]; [reflexivity|]. cbn [digit_pieces fmt_digits]. destruct (d_is_zero d); [exact IH|].
  rewrite concat_app, concat_concat_map, P. f_equal. f_equal. apply map_ext. intros x. apply P.
Qed.

Lemma write_radix_hand pieces width base alpha a : wf a -> (forall t, concat (pieces t) = t) ->
  exists ps, (exists t, fmt_radix width base alpha a = Val t /\ concat ps = t) /\
  forall (S : Type) (w : S -> list Z -> S * bool) s, write_radix pieces w width base alpha a s = Val (hand w ps s).
Proof.
  intros H P. unfold fmt_radix, write_radix. rewrite is_zero_spec by (apply wf_sh; auto). cbn [bind].
  destruct (unsigned a =? 0).
  - exists [[48]]. split; [exists [48]; split; reflexivity|]. intros S w s. now rewrite write_pieces_hand.
  - exists (digit_pieces pieces width base alpha (rev (as_digit_slice a))). split.
    + eexists. split; [reflexivity|]. now apply digit_pieces_text.
    + intros S w s. now rewrite write_digits_hand.
Qed.

Lemma write_text width base alpha pieces a : good_alpha alpha -> 2 <= base <= 36 -> (1 <= width <= 64)%nat ->
  base ^ Z.of_nat width = 2 ^ 64 -> wf a -> (forall t, concat (pieces t) = t) ->
  exists ps, canonical_numeral base alpha (concat ps) /\ string_value base (concat ps) = unsigned a /\
    fmt_radix width base alpha a = Val (concat ps) /\
  forall (S : Type) (w : S -> list Z -> S * bool) s, write_radix pieces w width base alpha a s = Val (hand w ps s).
Proof.
  intros Ha Hb Hw Hp H P. destruct (write_radix_hand pieces width base alpha a H P) as (ps & (t & Et & Ec) & Hh).
  destruct (fmt_radix_spec width base alpha a Ha Hb Hw Hp H) as (t' & Et' & C & V). rewrite Et in Et'. injection Et' as <-.
  exists ps. rewrite Ec. auto.
Qed.

Lemma sink_text_fact pieces a :
  wf a -> (forall t, concat (pieces t) = t) ->
  (exists ps, canonical_numeral 2 97 (concat ps) /\ string_value 2 (concat ps) = unsigned a /\
    fmt_binary a = Val (concat ps) /\
    forall (S : Type) (w : S -> list Z -> S * bool) s, write_binary pieces w a s = Val (hand w ps s) /\
      uint_write_binary pieces w (mk_uint a) s = Val (hand w ps s) /\ int_write_binary pieces w (mk_int a) s = Val (hand w ps s)) /\
  (exists ps, canonical_numeral 16 97 (concat ps) /\ string_value 16 (concat ps) = unsigned a /\
    fmt_lower_hex a = Val (concat ps) /\
    forall (S : Type) (w : S -> list Z -> S * bool) s, write_lower_hex pieces w a s = Val (hand w ps s) /\
      uint_write_lower_hex pieces w (mk_uint a) s = Val (hand w ps s) /\ int_write_lower_hex pieces w (mk_int a) s = Val (hand w ps s)) /\
  (exists ps, canonical_numeral 16 65 (concat ps) /\ string_value 16 (concat ps) = unsigned a /\
    fmt_upper_hex a = Val (concat ps) /\
    forall (S : Type) (w : S -> list Z -> S * bool) s, write_upper_hex pieces w a s = Val (hand w ps s) /\
      uint_write_upper_hex pieces w (mk_uint a) s = Val (hand w ps s) /\ int_write_upper_hex pieces w (mk_int a) s = Val (hand w ps s)) /\
  (forall (S : Type) (w : S -> list Z -> S * bool) s,
    write_octal w a s = (if unsigned a =? 0 then Val (hand w [[48]] s) else Panic) /\
    uint_write_octal w (mk_uint a) s = write_octal w a s /\ int_write_octal w (mk_int a) s = write_octal w a s).
Proof.
  intros H P.
  assert (G : forall width base alpha, good_alpha alpha -> 2 <= base <= 36 -> (1 <= width <= 64)%nat ->
    base ^ Z.of_nat width = 2 ^ 64 ->
    exists ps, canonical_numeral base alpha (concat ps) /\ string_value base (concat ps) = unsigned a /\
    fmt_radix width base alpha a = Val (concat ps) /\
    forall (S : Type) (w : S -> list Z -> S * bool) s, write_radix pieces w width base alpha a s = Val (hand w ps s) /\
      write_radix pieces w width base alpha a s = Val (hand w ps s) /\
      write_radix pieces w width base alpha a s = Val (hand w ps s)).
  { intros width base alpha Ha Hb Hw Hp. destruct (write_text width base alpha pieces a) as (ps & C & V & F & W); auto.
    exists ps. repeat split; auto; apply C. }
  split; [apply (G 64%nat 2 97); [left; reflexivity|lia|lia|reflexivity]|].
  split; [apply (G 16%nat 16 97); [left; reflexivity|lia|lia|reflexivity]|].
  split; [apply (G 16%nat 16 65); [right; reflexivity|lia|lia|reflexivity]|].
  intros S w s. split; [|split; reflexivity]. unfold write_octal. rewrite is_zero_spec by (apply wf_sh; auto). cbn [bind].
  destruct (unsigned a =? 0); [now rewrite write_pieces_hand|reflexivity].
Qed.

(** * Sinks that keep what they accept *)
Lemma keeps_hand room ps held : exists n,
  fst (hand (keeps room) ps held) = held ++ firstn n (concat ps) /\
  (snd (hand (keeps room) ps held) = true -> firstn n (concat ps) = concat ps) /\
  ((forall h p, room h p = None) -> snd (hand (keeps room) ps held) = true).
Proof.
  revert held. induction ps as [|p r IH]; intros held.
  - exists 0%nat. cbn. rewrite app_nil_r. auto.
  - rewrite hand_cons. unfold keeps at 1 3 5. destruct (room held p) as [k|] eqn:E; cbn [and_then].
    + exists (Nat.min k (length p)). cbn [fst snd concat]. rewrite firstn_app.
      replace (Nat.min k (length p) - length p)%nat with 0%nat by (clear; lia). cbn [firstn]. rewrite app_nil_r. split.
      * f_equal. destruct (Nat.le_gt_cases k (length p)); [now rewrite Nat.min_l by lia|].
        rewrite Nat.min_r by lia. rewrite firstn_all. now apply firstn_all2; lia.
      * split; [discriminate|]. intros C. rewrite C in E. discriminate.
    + destruct (IH (held ++ p)) as (n & F & T & N). exists (length p + n)%nat. cbn [concat].
      rewrite firstn_app_2. rewrite F, <- app_assoc. split; [reflexivity|]. split; [|exact N].
      intros C. now rewrite (T C).
Qed.
Lemma holds_hand c ps held : (length held <= c)%nat ->
  hand (holds c) ps held = (firstn c (held ++ concat ps), (length held + length (concat ps) <=? c)%nat).
Proof.
  revert held. induction ps as [|p r IH]; intros held Hc.
  - cbn [hand concat length]. rewrite app_nil_r, firstn_all2 by lia. f_equal. symmetry. apply Nat.leb_le. lia.
  - rewrite hand_cons. unfold holds at 1. unfold keeps. cbn [concat]. rewrite app_length.
    destruct (Nat.leb_spec (length held + length p) c) as [L|L]; cbn [and_then].
    + rewrite IH by (rewrite app_length; lia). rewrite app_length, <- app_assoc, <- Nat.add_assoc. reflexivity.
    + f_equal.
      * rewrite firstn_app, (firstn_all2 held) by lia. f_equal. rewrite firstn_app.
        replace (c - length held - length p)%nat with 0%nat by lia. cbn [firstn]. now rewrite app_nil_r.
      * symmetry. apply Nat.leb_gt. lia.
Qed.

Lemma sink_prefix_fact pieces a room held :
  wf a -> (forall t, concat (pieces t) = t) ->
  forall write format,
    In (write, format) [(write_binary pieces (keeps room), fmt_binary); (write_lower_hex pieces (keeps room), fmt_lower_hex);
                        (write_upper_hex pieces (keeps room), fmt_upper_hex)] ->
  exists text n ok, format a = Val text /\ write a held = Val (held ++ firstn n text, ok) /\
    (ok = true -> firstn n text = text) /\ ((forall h p, room h p = None) -> ok = true).
Proof.
  intros H P write format HIn.
  assert (G : exists ps, format a = Val (concat ps) /\ write a held = Val (hand (keeps room) ps held)).
  { destruct (sink_text_fact pieces a H P) as (B1 & B2 & B3 & _).
    cbn [In] in HIn. destruct HIn as [E|[E|[E|[]]]]; injection E as <- <-;
      [destruct B1 as (ps & _ & _ & F & W)|destruct B2 as (ps & _ & _ & F & W)|destruct B3 as (ps & _ & _ & F & W)];
      exists ps; (split; [exact F|apply W]). }
  destruct G as (ps & F & W). destruct (keeps_hand room ps held) as (n & F1 & F2 & F3).
  exists (concat ps), n, (snd (hand (keeps room) ps held)). split; [exact F|]. split; [|auto].
  rewrite W. f_equal. rewrite <- F1. now destruct (hand (keeps room) ps held).
Qed.
Lemma sink_buffer_fact pieces a capacity held :
  wf a -> (forall t, concat (pieces t) = t) -> (length held <= capacity)%nat ->
  forall write format,
    In (write, format) [(write_binary pieces (holds capacity), fmt_binary); (write_lower_hex pieces (holds capacity), fmt_lower_hex);
                        (write_upper_hex pieces (holds capacity), fmt_upper_hex)] ->
  exists text, format a = Val text /\
    write a held = Val (firstn capacity (held ++ text), (length held + length text <=? capacity)%nat).
Proof.
  intros H P Hc write format HIn.
  assert (G : exists ps, format a = Val (concat ps) /\ write a held = Val (hand (holds capacity) ps held)).
  { destruct (sink_text_fact pieces a H P) as (B1 & B2 & B3 & _).
    cbn [In] in HIn. destruct HIn as [E|[E|[E|[]]]]; injection E as <- <-;
      [destruct B1 as (ps & _ & _ & F & W)|destruct B2 as (ps & _ & _ & F & W)|destruct B3 as (ps & _ & _ & F & W)];
      exists ps; (split; [exact F|apply W]). }
  destruct G as (ps & F & W). exists (concat ps). split; [exact F|]. rewrite W. f_equal. now apply holds_hand.
Qed.

(** * Serializers that refuse *)
Lemma put_elements_hand ds {S : Type} (w : S -> call -> S * bool) s : put_elements w ds s = hand w (map CU64 ds) s.
Proof.
  revert s. induction ds as [|d r IH]; intros s; [reflexivity|]. cbn [map put_elements]. rewrite hand_cons. now apply and_then_ext.
Qed.
Lemma put_slice_hand ds {S : Type} (w : S -> call -> S * bool) s :
  put_slice w ds s = hand w (CSeq (Z.of_nat (length ds)) :: map CU64 ds ++ [CSeqEnd]) s.
Proof.
  unfold put_slice. rewrite hand_cons. apply and_then_ext. intros t. rewrite hand_app, put_elements_hand.
  apply and_then_ext. intros u. now rewrite hand_one.
Qed.
Lemma serialize_fact human a : wf a -> len a < 2 ^ 64 ->
  calls (ser_apint human a) = calls_of human (len a) (unsigned a) /\
  forall (S : Type) (w : S -> call -> S * bool) s,
    put_apint w human a s = hand w (calls_of human (len a) (unsigned a)) s.
Proof.
  intros H Hl. assert (Hp : 0 <= len a) by (destruct H; lia).
  assert (E : len a mod B = len a) by (apply Z.mod_small; rewrite B_pow; lia).
  pose proof (words_digits a H) as Ed. split.
  - unfold ser_apint, calls_of, as_digit_slice. rewrite <- Ed.
    assert (Ec : concat (map calls (map ser_digit (digits a))) = map CU64 (digits a)).
    { clear. induction (digits a) as [|d r IH]; [reflexivity|]. cbn [map concat]. rewrite IH. reflexivity. }
    destruct human; unfold ser_bitwidth; rewrite E; cbn [calls map concat fst snd length app];
      rewrite Ec, !map_length, ?app_nil_r; cbn [app]; rewrite <- ?app_assoc; reflexivity.
  - intros S w s. unfold put_apint, calls_of, as_digit_slice. rewrite <- Ed. destruct human.
    + cbn [app]. rewrite hand_cons. apply and_then_ext. intros s1. rewrite hand_cons. apply and_then_ext. intros s2.
      unfold put_bitwidth. rewrite E, and_then_assoc, hand_cons. apply and_then_ext. intros s3.
      rewrite and_then_assoc, hand_cons. apply and_then_ext. intros s4. rewrite hand_cons. apply and_then_ext. intros s5.
      rewrite hand_cons. apply and_then_ext. intros s6. rewrite put_slice_hand.
      rewrite <- (and_then_ext _ _ _ (fun s => hand_one w CStructEnd s)), <- hand_app. reflexivity.
    + cbn [app]. rewrite hand_cons. apply and_then_ext. intros s1. unfold put_bitwidth. rewrite E, hand_cons.
      apply and_then_ext. intros s2. rewrite put_slice_hand.
      rewrite <- (and_then_ext _ _ _ (fun s => hand_one w CTupleEnd s)), <- hand_app. reflexivity.
Qed.
