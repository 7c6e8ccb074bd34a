(** Proofs about how often each value comes out of a random generator. *)
From Verif Require Export LRand MRandSystem SpecUniform.

(** * Counting *)
Lemma exactly_iff {A} k (P Q : A -> Prop) : (forall x, P x <-> Q x) -> exactly k P -> exactly k Q.
Proof.
  intros H (l & N & L & I). exists l. split; [assumption|]. split; [assumption|]. intros x. rewrite I. apply H.
Qed.

Lemma seq_map_length (n : nat) : length (map Z.of_nat (seq 0 n)) = n.
Proof. now rewrite map_length, seq_length. Qed.
Lemma seq_map_in n x : In x (map Z.of_nat (seq 0 n)) <-> 0 <= x < Z.of_nat n.
Proof.
  rewrite in_map_iff. split.
  - intros (i & <- & Hi). apply in_seq in Hi. lia.
  - intros H. exists (Z.to_nat x). split; [lia|]. apply in_seq. lia.
Qed.
Lemma nodup_map {A C} (f : A -> C) l : (forall x y, In x l -> In y l -> f x = f y -> x = y) -> NoDup l -> NoDup (map f l).
Proof.
  intros H N. induction N as [|x l Hx N IH]; cbn [map]; constructor.
  - rewrite in_map_iff. intros (y & E & Hy). apply Hx. rewrite (H x y); cbn; auto.
  - apply IH. intros a b Ha Hb. apply H; cbn; auto.
Qed.
Lemma seq_map_nodup n : NoDup (map Z.of_nat (seq 0 n)).
Proof. apply nodup_map; [intros; lia|apply seq_NoDup]. Qed.

(** A bijection from the numbers below [k]. *)
Lemma exactly_of {A} k (P : A -> Prop) (f : Z -> A) (g : A -> Z) : 0 <= k ->
  (forall i, 0 <= i < k -> P (f i) /\ g (f i) = i) ->
  (forall x, P x -> 0 <= g x < k /\ f (g x) = x) -> exactly k P.
Proof.
  intros Hk Hf Hg. exists (map f (map Z.of_nat (seq 0 (Z.to_nat k)))). split; [|split].
  - apply nodup_map; [|apply seq_map_nodup]. intros x y Hx Hy E. apply seq_map_in in Hx, Hy.
    destruct (Hf x) as [_ <-]; [lia|]. destruct (Hf y) as [_ <-]; [lia|]. now rewrite E.
  - rewrite map_length, seq_map_length. lia.
  - intros x. rewrite in_map_iff. split.
    + intros (i & <- & Hi). apply seq_map_in in Hi. apply Hf. lia.
    + intros H. destruct (Hg x H) as (H1 & H2). exists (g x). split; [assumption|]. apply seq_map_in. lia.
Qed.

Lemma exactly_pairs {A} k1 k2 n (P Q : list A -> Prop) : (forall x, P x -> length x = n) ->
  exactly k1 P -> exactly k2 Q -> exactly (k1 * k2) (fun x => exists a b, x = a ++ b /\ P a /\ Q b).
Proof.
  intros Hn (la & Na & La & Ia) (lb & Nb & Lb & Ib).
  exists (flat_map (fun a => map (app a) lb) la). split; [|split].
  - assert (Hla : forall a, In a la -> length a = n) by (intros a H; apply Hn, Ia; auto). clear Ia La.
    induction Na as [|a la Ha Na IH]; cbn [flat_map]; [constructor|].
    assert (D : forall x, In x (map (app a) lb) -> ~ In x (flat_map (fun a => map (app a) lb) la)).
    { intros x Hx Hy. apply in_map_iff in Hx as (b & <- & _). apply in_flat_map in Hy as (a' & Ha' & Hy).
      apply in_map_iff in Hy as (b' & E & _). apply Ha.
      assert (a = a') as ->; [|assumption].
      apply (f_equal (firstn n)) in E. rewrite !firstn_app in E.
      rewrite (Hla a) in E by (now left). rewrite (Hla a') in E by (now right).
      rewrite Nat.sub_diag in E. cbn [firstn] in E. rewrite !app_nil_r in E.
      rewrite !firstn_all2 in E by (rewrite Hla; [lia|cbn; auto]). auto. }
    assert (N1 : NoDup (map (app a) lb)) by (apply nodup_map; [intros; now apply app_inv_head in H1|assumption]).
    assert (N2 : NoDup (flat_map (fun a => map (app a) lb) la)) by (apply IH; intros; apply Hla; cbn; auto).
    revert N1 D. generalize (map (app a) lb) as m. intros m N1 D. induction N1 as [|x m Hx N1 IHm]; [assumption|].
    cbn. constructor.
    + rewrite in_app_iff. intros [H|H]; [auto|]. apply (D x); cbn; auto.
    + apply IHm. intros y Hy. apply D. cbn. auto.
  - rewrite <- La, <- Lb. clear. induction la as [|a la IH]; [reflexivity|].
    cbn [flat_map]. rewrite app_length, map_length, !Nat2Z.inj_add, IH. cbn [length]. lia.
  - intros x. rewrite in_flat_map. split.
    + intros (a & Ha & Hx). apply in_map_iff in Hx as (b & <- & Hb). exists a, b. rewrite <- Ia, <- Ib. auto.
    + intros (a & b & -> & Ha & Hb). exists a. rewrite Ia. split; [assumption|]. apply in_map_iff. exists b.
      rewrite Ib. auto.
Qed.

(** * Words *)
Fixpoint split_words (n : nat) (v : Z) : list Z :=
  match n with O => [] | S n => v mod 2 ^ 64 :: split_words n (v / 2 ^ 64) end.
Lemma split_length n : forall v, length (split_words n v) = n.
Proof. induction n as [|n IH]; intros v; cbn [split_words length]; auto. Qed.
Lemma split_digs n : forall v, digs (split_words n v).
Proof.
  induction n as [|n IH]; intros v; cbn [split_words]; constructor; [|apply IH].
  unfold dok. rewrite B_pow. apply Z.mod_pos_bound. lia.
Qed.
Lemma split_uval n : forall v, 0 <= v < 2 ^ (64 * Z.of_nat n) -> uval (split_words n v) = v.
Proof.
  induction n as [|n IH]; intros v H.
  - cbn in *. rewrite uval_nil. lia.
  - cbn [split_words]. rewrite uval_cons, B_pow.
    replace (64 * Z.of_nat (S n)) with (64 + 64 * Z.of_nat n) in H by lia. rewrite Z.pow_add_r in H by lia.
    rewrite IH.
    + pose proof (Z.div_mod v (2 ^ 64) ltac:(lia)). lia.
    + split; [apply Z.div_pos; lia|]. apply Z.div_lt_upper_bound; lia.
Qed.
Lemma word_list_digs n ws : word_list n ws <-> Z.of_nat (length ws) = n /\ digs ws.
Proof.
  unfold word_list, digs, dok. rewrite B_pow. reflexivity.
Qed.

Lemma words_for_pos w : 0 < w -> 0 < words_for w /\ w <= 64 * words_for w < w + 64.
Proof.
  intros H. unfold words_for. pose proof (Z.div_mod (w + 63) 64 ltac:(lia)).
  pose proof (Z.mod_pos_bound (w + 63) 64 ltac:(lia)). lia.
Qed.

Lemma congruent_words w u : 0 < w -> 0 <= u < 2 ^ w ->
  exactly (2 ^ (64 * words_for w - w)) (fun ws => word_list (words_for w) ws /\ uval ws mod 2 ^ w = u).
Proof.
  intros Hw Hu. destruct (words_for_pos w Hw) as (Hn & Hb). set (n := words_for w) in *.
  assert (Hp : 0 < 2 ^ w) by lia.
  assert (Hk : 0 < 2 ^ (64 * n - w)) by (apply Z.pow_pos_nonneg; lia).
  assert (E : 2 ^ (64 * n) = 2 ^ w * 2 ^ (64 * n - w)).
  { rewrite <- Z.pow_add_r by lia. f_equal. lia. }
  apply (exactly_of _ _ (fun i => split_words (Z.to_nat n) (u + i * 2 ^ w)) (fun ws => uval ws / 2 ^ w)).
  - lia.
  - intros i Hi.
    assert (Hv : uval (split_words (Z.to_nat n) (u + i * 2 ^ w)) = u + i * 2 ^ w).
    { apply split_uval. rewrite Z2Nat.id by lia. nia. }
    rewrite Hv, Z_mod_plus_full, Z.div_add, Z.mod_small, Z.div_small by lia.
    split; [|lia]. split; [|reflexivity]. apply word_list_digs. rewrite split_length. split; [lia|apply split_digs].
  - intros ws (Hws & Hm). apply word_list_digs in Hws as (Hl & Hd).
    pose proof (uval_bound ws Hd) as Ub. rewrite P_pow, Hl in Ub.
    pose proof (Z.div_mod (uval ws) (2 ^ w) ltac:(lia)) as Dm. rewrite Hm in Dm.
    split.
    + split; [apply Z.div_pos; lia|]. apply Z.div_lt_upper_bound; lia.
    + replace (u + uval ws / 2 ^ w * 2 ^ w) with (uval ws) by lia. apply uval_inj; auto.
      * apply split_digs.
      * rewrite split_length. lia.
      * apply split_uval. rewrite Z2Nat.id by lia. lia.
Qed.

(** * What comes out for given words *)
Lemma draw_give n : forall ws rest, length ws = n -> draw give n (ws ++ rest) = (ws, rest).
Proof.
  induction n as [|n IH]; intros [|x ws] rest H; try discriminate H; [reflexivity|].
  cbn [draw give app]. rewrite IH by (cbn in H; lia). reflexivity.
Qed.

Lemma random_give w ws rest : 0 < w -> word_list (words_for w) ws ->
  exists c, random_with_width_using give w (ws ++ rest) = Val (c, rest) /\ is_apint c w (uval ws mod 2 ^ w).
Proof.
  intros Hw H. apply word_list_digs in H as (Hl & Hd). destruct (required_pos w Hw) as (Hr & H1).
  unfold random_with_width_using. destruct (Nat.leb_spec 1 (required_digits w)); [|lia].
  rewrite draw_give by (unfold words_for in Hl; lia).
  assert (Hne : ws <> []) by (intros ->; cbn in Hl; unfold words_for in Hl; lia).
  destruct (from_iter_is ws Hne Hd) as (a & Ea & Wa & La & Ua).
  destruct (from_iter ws) as [r| |]; [|discriminate Ea|discriminate Ea]. cbn [bind] in Ea |- *. rewrite Ea. cbn [bind].
  destruct (words_for_pos w Hw) as (_ & Hb).
  destruct (truncate_fact a w) as (c & _ & Ec & Hc); [assumption|lia|].
  rewrite Ec. cbn [bind unwrap]. exists c. split; [reflexivity|]. now rewrite <- Ua.
Qed.

(** A list that leaves nothing has as many words as are drawn. *)
Lemma random_uniform w u : 0 < w -> 0 <= u < 2 ^ w ->
  exactly (2 ^ (64 * words_for w - w)) (fun ws => word_list (words_for w) ws /\
    exists c, random_with_width_using give w ws = Val (c, []) /\ wf c /\ len c = w /\ unsigned c = u).
Proof.
  intros Hw Hu. eapply exactly_iff; [|apply (congruent_words w u Hw Hu)]. intros ws. cbn beta.
  split; intros (H & H2); (split; [assumption|]).
  - destruct (random_give w ws [] Hw H) as (c & E & Hc). rewrite app_nil_r in E. exists c.
    rewrite H2 in Hc. destruct Hc as (? & ? & ?). auto.
  - destruct (random_give w ws [] Hw H) as (c & E & Hc). rewrite app_nil_r in E. destruct H2 as (c' & E' & _ & _ & U).
    rewrite E in E'. injection E' as <-. destruct Hc as (_ & _ & Uc). lia.
Qed.

Lemma randomize_uniform a u : wf a -> 0 <= u < 2 ^ len a ->
  exactly (2 ^ (64 * words_for (len a) - len a)) (fun ws => word_list (words_for (len a)) ws /\
    exists c, randomize_using give a ws = Val (c, []) /\ wf c /\ len c = len a /\ unsigned c = u).
Proof.
  intros H Hu. pose proof H as (Hp & Hl & _).
  eapply exactly_iff; [|apply (random_uniform (len a) u Hp Hu)]. intros ws. cbn beta.
  assert (E : word_list (words_for (len a)) ws -> randomize_using give a ws = random_with_width_using give (len a) ws).
  { intros Hws. destruct (random_give (len a) ws [] Hp Hws) as (c & E & Hc). rewrite app_nil_r in E. rewrite E.
    apply word_list_digs in Hws as (Hlw & Hd).
    unfold randomize_using, as_digit_slice. rewrite overwrite_draw.
    assert (El : length ws = length (digits a)) by (unfold words_for in Hlw; lia).
    pose proof (draw_give (length (digits a)) ws [] El) as D. rewrite app_nil_r in D. rewrite D.
    destruct (clear_unused_bits_spec (mk_apint (len a) ws)) as (c' & Ec' & Hc').
    { apply shape_mk; auto. rewrite El. apply (wf_sh a H). }
    rewrite Ec'. cbn [bind]. cbn [len digits] in Hc'. now rewrite (is_apint_unique _ _ _ _ Hc' Hc). }
  split; intros (H1 & H2); (split; [assumption|]); rewrite (E H1) in *; assumption.
Qed.

Lemma in_turn_app ws : Forall (fun w => 0 < w) ws -> forall us, Forall2 (fun w u => 0 <= u < 2 ^ w) ws us ->
  exactly (2 ^ total (map (fun w => 64 * words_for w - w) ws))
    (fun s => word_list (total (map words_for ws)) s /\
       exists cs, in_turn (random_with_width_using give) ws s = Val (cs, []) /\
         Forall wf cs /\ map len cs = ws /\ map unsigned cs = us).
Proof.
  induction ws as [|w ws IH]; intros Hw us Hu.
  - inversion Hu. subst us. cbn [map total]. exists [[]]. split; [constructor; [intros []|constructor]|]. split; [reflexivity|].
    intros x. cbn [In]. split.
    + intros [<-|[]]. split; [split; [reflexivity|constructor]|]. exists []. repeat split; constructor.
    + intros ((Hl & _) & _). destruct x; [auto|]. cbn in Hl. lia.
  - inversion Hu as [|? u ? us' Hu1 Hu2]. subst. inversion Hw as [|? ? Hw1 Hw2]. subst.
    cbn [map total].
    assert (Ht : 0 <= total (map (fun w => 64 * words_for w - w) ws)).
    { clear -Hw2. induction Hw2 as [|w ws Hw _ IH]; cbn [map total]; [lia|]. pose proof (words_for_pos w Hw). lia. }
    assert (Ht2 : 0 <= total (map words_for ws)).
    { clear -Hw2. induction Hw2 as [|w ws Hw _ IH]; cbn [map total]; [lia|]. pose proof (words_for_pos w Hw). lia. }
    destruct (words_for_pos w Hw1) as (Hn & Hb).
    rewrite Z.pow_add_r by lia.
    pose proof (congruent_words w u Hw1 Hu1) as C1. pose proof (IH Hw2 us' Hu2) as C2.
    assert (C0 : forall x, word_list (words_for w) x /\ uval x mod 2 ^ w = u -> length x = Z.to_nat (words_for w)).
    { intros x ((Hx & _) & _). lia. }
    eapply exactly_iff; [|exact (exactly_pairs _ _ _ _ _ C0 C1 C2)].
    intros s. cbn beta. split.
    + intros (a & b & -> & (Ha & Ma) & ((Hlb & Hb1) & cs & Ecs & Wcs & Lcs & Ucs)).
      destruct (random_give w a b Hw1 Ha) as (c & E & (Wc & Lc & Uc)). destruct Ha as (Hla & Ha). split.
      * split; [rewrite app_length; lia|]. apply Forall_app. auto.
      * exists (c :: cs). cbn [in_turn]. rewrite E. cbn [bind]. rewrite Ecs. cbn [bind]. split; [reflexivity|].
        split; [constructor; auto|]. cbn [map]. rewrite Lc, Lcs, Uc, Ucs, Ma. auto.
    + intros ((Hl & Hd) & cs & Ecs & Wcs & Lcs & Ucs).
      exists (firstn (Z.to_nat (words_for w)) s), (skipn (Z.to_nat (words_for w)) s).
      split; [now rewrite firstn_skipn|].
      assert (Ha : word_list (words_for w) (firstn (Z.to_nat (words_for w)) s)).
      { split; [rewrite firstn_length; lia|]. rewrite <- (firstn_skipn (Z.to_nat (words_for w)) s) in Hd.
        apply Forall_app in Hd. apply Hd. }
      assert (Hb1 : word_list (total (map words_for ws)) (skipn (Z.to_nat (words_for w)) s)).
      { split; [rewrite skipn_length; lia|]. rewrite <- (firstn_skipn (Z.to_nat (words_for w)) s) in Hd.
        apply Forall_app in Hd. apply Hd. }
      destruct (random_give w _ (skipn (Z.to_nat (words_for w)) s) Hw1 Ha) as (c & E & (Wc & Lc & Uc)).
      rewrite firstn_skipn in E. cbn [in_turn] in Ecs. rewrite E in Ecs. cbn [bind] in Ecs.
      destruct (in_turn (random_with_width_using give) ws (skipn (Z.to_nat (words_for w)) s)) as [[l s']| |] eqn:Er;
        cbn [bind] in Ecs; [|discriminate Ecs|discriminate Ecs].
      injection Ecs as <- ->. cbn [map] in Lcs, Ucs. injection Ucs as Ucs1 Ucs2. injection Lcs as _ Lcs2.
      inversion Wcs. subst. split; [split; [assumption|lia]|]. split; [assumption|]. exists l. auto.
Qed.

(** * UInt and Int *)
Lemma uint_random_uniform w u : 0 < w -> 0 <= u < 2 ^ w ->
  exactly (2 ^ (64 * words_for w - w)) (fun ws => word_list (words_for w) ws /\
    exists x, uint_random_with_width_using give w ws = Val (x, []) /\ len (uapint x) = w /\ unsigned (uapint x) = u).
Proof.
  intros Hw Hu. eapply exactly_iff; [|apply (random_uniform w u Hw Hu)]. intros ws. cbn beta.
  unfold uint_random_with_width_using.
  split; intros (H & H2); (split; [assumption|]).
  - destruct H2 as (c & -> & W & L & U). exists (mk_uint c). auto.
  - destruct (random_give w ws [] Hw H) as (c & E & (W & L & U)). rewrite app_nil_r in E. rewrite E in *. cbn [bind] in H2.
    destruct H2 as (x & Ex & Lx & Ux). injection Ex as <-. cbn in *. exists c. auto.
Qed.
Lemma int_random_uniform w v : 0 < w -> - 2 ^ (w - 1) <= v < 2 ^ (w - 1) ->
  exactly (2 ^ (64 * words_for w - w)) (fun ws => word_list (words_for w) ws /\
    exists x, int_random_with_width_using give w ws = Val (x, []) /\ len (iapint x) = w /\ signed (iapint x) = v).
Proof.
  intros Hw Hv. assert (Hp : 2 ^ w = 2 * 2 ^ (w - 1)).
  { replace w with (Z.succ (w - 1)) at 1 by lia. rewrite Z.pow_succ_r by lia. lia. }
  assert (S : forall c, wf c -> len c = w -> (signed c = v <-> unsigned c = v mod 2 ^ w)).
  { intros c Wc Lc. pose proof (unsigned_bound c Wc) as Ub. unfold signed, to_signed. rewrite Lc in *.
    destruct (Z.ltb_spec (unsigned c) (2 ^ (w - 1))).
    - destruct (Z.le_gt_cases 0 v).
      + rewrite Z.mod_small by lia. reflexivity.
      + rewrite <- (Z_mod_plus_full v 1), Z.mod_small by lia. lia.
    - destruct (Z.le_gt_cases 0 v).
      + rewrite Z.mod_small by lia. lia.
      + rewrite <- (Z_mod_plus_full v 1), Z.mod_small by lia. lia. }
  eapply exactly_iff; [|apply (random_uniform w (v mod 2 ^ w) Hw)]; [|apply Z.mod_pos_bound; lia].
  intros ws. cbn beta. unfold int_random_with_width_using.
  split; intros (H & H2); (split; [assumption|]).
  - destruct H2 as (c & -> & W & L & U). exists (mk_int c). cbn. split; [reflexivity|]. split; [assumption|].
    apply S; auto.
  - destruct (random_give w ws [] Hw H) as (c & E & (W & L & U)). rewrite app_nil_r in E. rewrite E in *. cbn [bind] in H2.
    destruct H2 as (x & Ex & Lx & Ux). injection Ex as <-. cbn in *. exists c. split; [reflexivity|].
    split; [assumption|]. split; [assumption|]. apply S; auto.
Qed.

(** * System entropy *)
Lemma system_fact : forall (E S : Type) (seeded : E -> S) (next : S -> Z * S) w a x y e,
  (forall s, digit_ok (fst (next s))) -> 0 < w -> wf a -> wf (uapint x) -> wf (iapint y) ->
  (exists c, random_with_width seeded next w e = Val c /\ wf c /\ len c = w) /\
  (exists c, uint_random_with_width seeded next w e = Val c /\ wf (uapint c) /\ len (uapint c) = w) /\
  (exists c, int_random_with_width seeded next w e = Val c /\ wf (iapint c) /\ len (iapint c) = w) /\
  (exists c, randomize seeded next a e = Val c /\ random_with_width seeded next (len a) e = Val c) /\
  (exists c, uint_randomize seeded next x e = Val c /\ uint_random_with_width seeded next (len (uapint x)) e = Val c) /\
  (exists c, int_randomize seeded next y e = Val c /\ int_random_with_width seeded next (len (iapint y)) e = Val c).
Proof.
  intros E S seeded next w a x y e Hn Hw Ha Hx Hy.
  assert (R : exists c, random_with_width seeded next w e = Val c /\ wf c /\ len c = w).
  { unfold random_with_width. destruct (random_fact S next w (seeded e) Hn Hw) as (c & -> & Hc & Lc & _). exists c. auto. }
  assert (Z : forall a, wf a -> exists c, randomize seeded next a e = Val c /\ random_with_width seeded next (len a) e = Val c).
  { intros b Hb. unfold random_with_width, randomize.
    destruct (randomize_fact S next b (seeded e) Hn Hb) as (c & -> & -> & _). exists c. auto. }
  unfold uint_random_with_width, int_random_with_width, uint_randomize, int_randomize.
  split; [exact R|]. destruct R as (c & -> & Hc & Lc). cbn [bind].
  split; [exists (mk_uint c); auto|]. split; [exists (mk_int c); auto|]. split; [auto|].
  destruct (Z _ Hx) as (cx & -> & ->). destruct (Z _ Hy) as (cy & -> & ->). cbn [bind].
  split; [exists (mk_uint cx)|exists (mk_int cy)]; auto.
Qed.
