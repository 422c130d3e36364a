(** * SubgraphFacts: playaround/number_of_subgraphs.py draws every typed graph once (C61) *)

From Coq Require Import ZArith String Ascii.
From Verif Require Import SpecSubgraphs BaseFacts TextFacts OdoFacts DrawFacts DrawSample.

Local Notation txt := (list N).

(** ** The pairs *)
Lemma inner_pairs (a : Z) (l : list Z) (acc : list (Z * Z)) :
  fold_left (fun acc n2 => if bool_decide (a ≠ n2) && bool_decide ((n2, a) ∉ acc) then acc ++ [(a, n2)] else acc) l acc
  = acc ++ ((fun b => (a, b)) <$> filter (fun b => a ≠ b /\ (b, a) ∉ acc) l).
Proof.
  assert (forall more, Forall (fun p => p.1 = a) more ->
    fold_left (fun acc n2 => if bool_decide (a ≠ n2) && bool_decide ((n2, a) ∉ acc) then acc ++ [(a, n2)] else acc) l (acc ++ more)
    = acc ++ more ++ ((fun b => (a, b)) <$> filter (fun b => a ≠ b /\ (b, a) ∉ acc) l)) as H.
  { induction l as [|b l IH]; intros more Hm; cbn [fold_left]; [by rewrite app_nil_r|].
    rewrite filter_cons. destruct (decide (a ≠ b /\ (b, a) ∉ acc)) as [[H1 H2]|Hn].
    - rewrite (bool_decide_eq_true_2 (a ≠ b)) by done. cbn [andb].
      rewrite bool_decide_eq_true_2.
      2:{ rewrite elem_of_app. intros [?|Hin]; [done|]. rewrite Forall_forall in Hm. by apply Hm in Hin. }
      rewrite <- app_assoc. rewrite IH; [|apply Forall_app; split; [done|by repeat constructor]].
      rewrite <- !app_assoc. done.
    - destruct (bool_decide (a ≠ b)) eqn:E1; cbn [andb]; [|by apply IH].
      apply bool_decide_eq_true in E1. rewrite bool_decide_eq_false_2; [by apply IH|].
      intros Hc. apply Hn. split; [done|]. intros Hin. apply Hc, elem_of_app. by left. }
  specialize (H [] ltac:(constructor)). by rewrite app_nil_r in H.
Qed.

(** The pairs in the order of the loops. *)
Definition pairs_from (n : nat) (k : nat) : list (Z * Z) :=
  seq 1 k ≫= fun a => (fun b => (Z.of_nat a, Z.of_nat b)) <$> seq (S a) (n - a).

Lemma elem_of_pairs_from n k a b : (a, b) ∈ pairs_from n k <->
  exists x y, a = Z.of_nat x /\ b = Z.of_nat y /\ 1 <= x <= k /\ x < y <= n.
Proof.
  unfold pairs_from. rewrite elem_of_list_bind. setoid_rewrite elem_of_list_fmap. setoid_rewrite elem_of_seq. split.
  - intros (x & (y & [= -> ->] & H1) & H2). exists x, y. lia.
  - intros (x & y & -> & -> & H1 & H2). exists x. split; [|lia]. exists y. split; [done|lia].
Qed.

Lemma filter_seq_gt a m : forall s, filter (fun b => a < b) (seq s m) = seq (Nat.max s (S a)) (s + m - Nat.max s (S a)).
Proof.
  induction m as [|m IH]; intros s; cbn [seq].
  - replace (s + 0 - Nat.max s (S a)) with 0 by lia. done.
  - rewrite filter_cons. rewrite IH. destruct (decide (a < s)).
    + replace (Nat.max s (S a)) with s by lia. replace (s + S m - s) with (S m) by lia. cbn [seq]. f_equal. f_equal; lia.
    + f_equal; lia.
Qed.

Lemma outer_pairs n k : k <= n ->
  fold_left (fun acc n1 => fold_left (fun acc n2 =>
    if bool_decide (n1 ≠ n2) && bool_decide ((n2, n1) ∉ acc) then acc ++ [(n1, n2)] else acc) (Z.of_nat <$> seq 1 n) acc)
    (Z.of_nat <$> seq 1 k) [] = pairs_from n k.
Proof.
  induction k as [|k IH]; intros Hk; [done|].
  rewrite seq_S, fmap_app, fold_left_app, IH by lia. cbn [fmap list_fmap fold_left Nat.add].
  rewrite inner_pairs. assert (pairs_from n (S k) = pairs_from n k ++ ((fun b => (Z.of_nat (S k), Z.of_nat b)) <$> seq (S (S k)) (n - S k))) as ->.
  { unfold pairs_from. rewrite seq_S, bind_app. cbn [mbind list_bind]. by rewrite app_nil_r. }
  f_equal.
  transitivity ((fun b => (Z.of_nat (S k), b)) <$> (Z.of_nat <$> filter (fun b => S k < b) (seq 1 n))).
  - f_equal. assert (forall l : list nat, (forall x, x ∈ l -> x <= n) -> filter (fun b : Z => Z.of_nat (S k) ≠ b /\ (b, Z.of_nat (S k)) ∉ pairs_from n k) (Z.of_nat <$> l)
      = Z.of_nat <$> filter (fun b : nat => 0 < b -> S k < b) l) as H.
    { induction l as [|x l IHl]; intros Hx; [done|]. rewrite fmap_cons, !filter_cons, IHl by (intros; apply Hx; by right).
      assert (Z.of_nat (S k) ≠ Z.of_nat x ∧ (Z.of_nat x, Z.of_nat (S k)) ∉ pairs_from n k <-> (0 < x -> S k < x)) as Hi.
      { rewrite elem_of_pairs_from. split.
        - intros [H1 H2] H0. destruct (decide (S k < x)); [done|]. exfalso. apply H2. exists x, (S k). lia.
        - intros H0. split; [|intros (x' & y' & ? & ? & ? & ?); lia].
          destruct (decide (x = 0)); lia. }
      destruct (decide (Z.of_nat (S k) ≠ Z.of_nat x ∧ _)), (decide (0 < x -> S k < x)); cbn; naive_solver. }
    rewrite H by (intros x; rewrite elem_of_seq; lia). f_equal.
    assert (forall l : list nat, (forall x, x ∈ l -> 0 < x) -> filter (fun b : nat => 0 < b -> S k < b) l = filter (fun b => S k < b) l) as H'.
    { induction l as [|x l IHl]; intros Hx; [done|]. rewrite !filter_cons, IHl by (intros; apply Hx; by right).
      specialize (Hx x (elem_of_list_here _ _)). destruct (decide (0 < x -> S k < x)), (decide (S k < x)); naive_solver. }
    apply H'. intros x Hx. apply elem_of_seq in Hx. lia.
  - rewrite filter_seq_gt, <- list_fmap_compose. replace (Nat.max 1 (S (S k))) with (S (S k)) by lia.
    replace (1 + n - S (S k)) with (n - S k) by lia. done.
Qed.

Lemma pair_edges_eq n : pair_edges (node_ids n) = pairs_from (Z.to_nat n) (Z.to_nat n).
Proof. unfold pair_edges, node_ids. by apply outer_pairs. Qed.

Lemma elem_of_pair_edges n a b : (a, b) ∈ pair_edges (node_ids n) <-> (1 <= a /\ a < b /\ b <= n)%Z.
Proof.
  rewrite pair_edges_eq, elem_of_pairs_from. split.
  - intros (x & y & -> & -> & ? & ?). lia.
  - intros (? & ? & ?). exists (Z.to_nat a), (Z.to_nat b). lia.
Qed.

Lemma pairs_from_nodup n k : NoDup (pairs_from n k).
Proof.
  induction k as [|k IH]; [constructor|].
  assert (pairs_from n (S k) = pairs_from n k ++ ((fun b => (Z.of_nat (S k), Z.of_nat b)) <$> seq (S (S k)) (n - S k))) as ->.
  { unfold pairs_from. rewrite seq_S, bind_app. cbn [mbind list_bind]. by rewrite app_nil_r. }
  apply NoDup_app. split; [done|]. split.
  - intros [a b] (x & y & -> & -> & ? & ?)%elem_of_pairs_from. rewrite elem_of_list_fmap. intros (b & [= ? ?] & _). lia.
  - apply NoDup_fmap_2_strong; [|apply NoDup_seq]. intros x y _ _ [= ?]. lia.
Qed.

Lemma pairs_from_length n k : k <= n -> 2 * length (pairs_from n k) + k * (k + 1) = k * (2 * n).
Proof.
  induction k as [|k IH]; intros Hk; [done|].
  assert (pairs_from n (S k) = pairs_from n k ++ ((fun b => (Z.of_nat (S k), Z.of_nat b)) <$> seq (S (S k)) (n - S k))) as ->.
  { unfold pairs_from. rewrite seq_S, bind_app. cbn [mbind list_bind]. by rewrite app_nil_r. }
  rewrite app_length, fmap_length, seq_length. specialize (IH ltac:(lia)). nia.
Qed.

Lemma pair_edges_length n : (0 <= n)%Z -> Z.of_nat (length (pair_edges (node_ids n))) = (n * (n - 1) / 2)%Z.
Proof.
  intros Hn. rewrite pair_edges_eq. pose proof (pairs_from_length (Z.to_nat n) (Z.to_nat n) ltac:(lia)) as H.
  set (m := length _) in *. assert (n * (n - 1) = Z.of_nat m * 2)%Z as -> by nia. by rewrite Z.div_mul.
Qed.

(** ** The loop *)
Lemma index_loop_odo fuel top idx : idx <> [] -> index_loop fuel top idx = odo_loop fuel top idx.
Proof.
  revert idx. induction fuel as [|k IH]; intros idx Hne; [done|]. cbn [index_loop odo_loop].
  rewrite bool_decide_eq_false_2 by done. cbn [orb]. destruct (existsb _ idx); [|done].
  destruct (odo_next top idx) as [idx'|] eqn:Hn; [|done]. cbn [mbind res_bind]. rewrite IH; [done|].
  destruct idx as [|d idx]; [done|]. cbn [odo_next] in Hn. case_bool_decide.
  - destruct (odo_next top idx); [|done]. by injection Hn as <-.
  - by injection Hn as <-.
Qed.

Lemma odo_loop_length fuel top n l r : (-1 <= top)%Z -> digits top n l -> odo_loop fuel top l = Ok r ->
  (Z.of_nat (length r) = (top + 2) ^ Z.of_nat n - 1 - odo_val top l)%Z.
Proof.
  intros Ht. revert l r. induction fuel as [|k IH]; intros l r Hl; [done|]. cbn [odo_loop].
  destruct (existsb _ l) eqn:He.
  - apply existsb_exists in He as (d & Hd & Hlt). apply elem_of_list_In in Hd. apply bool_decide_eq_true in Hlt.
    destruct (odo_next_spec top n l Ht Hl) as (l' & -> & Hl' & Hv); [by exists d|]. cbn [mbind res_bind].
    destruct (odo_loop k top l') as [r'|] eqn:Hr; [|done]. cbn [mbind res_bind]. intros [= <-].
    specialize (IH l' r' Hl' Hr). cbn [length]. lia.
  - intros [= <-]. rewrite (odo_full top n l Ht Hl); [simpl; lia|]. intros d Hd.
    destruct (decide (d < top)%Z) as [Hlt|]; [|lia]. exfalso.
    assert (existsb (fun i => bool_decide (i < top)%Z) l = true) as Hx; [|by rewrite Hx in He].
    apply existsb_exists. exists d. split; [by apply elem_of_list_In|]. by apply bool_decide_eq_true.
Qed.

(** ** Index lists and graphs *)
Lemma lookup_zip_with_Some_pair {A B} (l : list A) (k : list B) j a b : zip l k !! j = Some (a, b) <-> l !! j = Some a /\ k !! j = Some b.
Proof. rewrite lookup_zip_with_Some. split; [intros (x & y & [= -> ->] & ? & ?); done|intros [? ?]; by exists a, b]. Qed.

Section pieces.
Context (es : list (Z * Z)) (Hes : NoDup es).
Notation E := (length es).

Definition typ (i : Z) : txt := default [] (edge_types !! Z.to_nat i).
Definition graph_of (idx : list Z) : gset (Z * Z * txt) := list_to_set ((fun p => (p.1, typ p.2)) <$> chosen es idx).

Lemma typ_inj i j : (0 <= i <= 1)%Z -> (0 <= j <= 1)%Z -> typ i = typ j -> i = j.
Proof.
  intros Hi Hj. assert (i = 0 \/ i = 1)%Z as [-> | ->] by lia; assert (j = 0 \/ j = 1)%Z as [-> | ->] by lia; try done.
Qed.

Lemma elem_of_chosen idx e i : (e, i) ∈ chosen es idx <-> (0 <= i)%Z /\ exists j, es !! j = Some e /\ idx !! j = Some i.
Proof.
  unfold chosen. rewrite elem_of_list_filter, elem_of_list_lookup. cbn. split.
  - intros [H1 [j Hj]]. split; [done|]. exists j. by apply lookup_zip_with_Some_pair in Hj.
  - intros [H1 [j Hj]]. split; [done|]. exists j. by apply lookup_zip_with_Some_pair.
Qed.

Lemma elem_of_graph_of idx e t : (e, t) ∈ graph_of idx <-> exists i, t = typ i /\ (0 <= i)%Z /\ exists j, es !! j = Some e /\ idx !! j = Some i.
Proof.
  unfold graph_of. rewrite elem_of_list_to_set, elem_of_list_fmap. split.
  - intros ([e' i] & [= -> ->] & Hin). apply elem_of_chosen in Hin as [? ?]. eauto.
  - intros (i & -> & Hi & Hj). exists (e, i). split; [done|]. by apply elem_of_chosen.
Qed.

Lemma graph_of_inj idx idx' : digits 1 E idx -> digits 1 E idx' -> graph_of idx = graph_of idx' -> idx = idx'.
Proof.
  intros [Hl Hd] [Hl' Hd'] Hg.
  assert (forall x x' j a a', digits 1 E x -> digits 1 E x' -> graph_of x = graph_of x' -> x !! j = Some a -> x' !! j = Some a' -> (0 <= a)%Z -> a = a') as H.
  { intros x x' j a a' [Hx Hdx] [Hx' Hdx'] Hgx Ha Ha' Hpos. destruct (lookup_lt_is_Some_2 es j) as [e He].
    { rewrite <- Hx. by eapply lookup_lt_Some. }
    assert ((e, typ a) ∈ graph_of x') as Hin. { rewrite <- Hgx. apply elem_of_graph_of. eauto 6. }
    apply elem_of_graph_of in Hin as (i & Ht & Hi & j' & He' & Hij).
    assert (j' = j) as -> by (eapply NoDup_lookup; eassumption). rewrite Ha' in Hij. injection Hij as ->.
    apply typ_inj; [|split; [done|]|done].
    - split; [done|]. apply Hdx. by eapply elem_of_list_lookup_2.
    - apply Hdx'. by eapply elem_of_list_lookup_2. }
  apply list_eq_same_length with E; [done|done|]. intros j a a' Hj Ha Ha'.
  destruct (decide (0 <= a)%Z) as [Hp|Hn]; [by eapply (H idx idx')|].
  destruct (decide (0 <= a')%Z) as [Hp|Hn']; [symmetry; by eapply (H idx' idx)|].
  assert (-1 <= a)%Z by (apply Hd; by eapply elem_of_list_lookup_2).
  assert (-1 <= a')%Z by (apply Hd'; by eapply elem_of_list_lookup_2). lia.
Qed.

Definition index_of (S : gset (Z * Z * txt)) : list Z :=
  (fun e => if decide ((e, lit "AB") ∈ S) then 0%Z else if decide ((e, lit "BA") ∈ S) then 1%Z else (-1)%Z) <$> es.

Lemma index_of_digits S : digits 1 E (index_of S).
Proof.
  split; [apply fmap_length|]. intros d (e & -> & _)%elem_of_list_fmap. repeat case_decide; lia.
Qed.
Lemma graph_of_index (S : gset (Z * Z * txt)) :
  (forall e t, (e, t) ∈ S -> e ∈ es /\ (t = lit "AB" \/ t = lit "BA")) ->
  (forall e t t', (e, t) ∈ S -> (e, t') ∈ S -> t = t') -> graph_of (index_of S) = S.
Proof.
  intros H1 H2. apply set_eq. intros [e t]. rewrite elem_of_graph_of. unfold index_of. setoid_rewrite list_lookup_fmap. split.
  - intros (i & -> & Hi & j & He & Hj). rewrite He in Hj. cbn in Hj. injection Hj as Hj. repeat case_decide; subst i; done.
  - intros Hin. destruct (H1 _ _ Hin) as [[j He]%elem_of_list_lookup Ht]. destruct Ht as [-> | ->].
    + exists 0%Z. split_and!; [done|done|]. exists j. split; [done|]. rewrite He. cbn. by rewrite decide_True.
    + exists 1%Z. split_and!; [done|done|]. exists j. split; [done|]. rewrite He. cbn. rewrite decide_False, decide_True; [done|done|].
      intros Hc. by assert (lit "AB" = lit "BA") by (by eapply H2).
Qed.

Lemma graph_of_empty idx : digits 1 E idx -> (graph_of idx = ∅ <-> idx = replicate E (-1)%Z).
Proof.
  intros Hd. split.
  - intros He. apply graph_of_inj; [done|by apply digits_start|]. rewrite He. symmetry. apply set_eq. intros [e t].
    rewrite elem_of_graph_of. split; [|by intros ?%elem_of_empty]. intros (i & _ & Hi & j & _ & Hj).
    apply lookup_replicate in Hj as [-> _]. lia.
  - intros ->. apply set_eq. intros [e t].
    rewrite elem_of_graph_of. split; [|by intros ?%elem_of_empty]. intros (i & _ & Hi & j & _ & Hj).
    apply lookup_replicate in Hj as [-> _]. lia.
Qed.

Lemma graph_of_typed idx e t : digits 1 E idx -> (e, t) ∈ graph_of idx -> e ∈ es /\ (t = lit "AB" \/ t = lit "BA").
Proof.
  intros [_ Hd] (i & -> & Hi & j & He & Hj)%elem_of_graph_of. split; [by eapply elem_of_list_lookup_2|].
  assert (-1 <= i <= 1)%Z by (apply Hd; by eapply elem_of_list_lookup_2).
  assert (i = 0 \/ i = 1)%Z as [-> | ->] by lia; [by left|by right].
Qed.
Lemma graph_of_one idx e t t' : (e, t) ∈ graph_of idx -> (e, t') ∈ graph_of idx -> t = t'.
Proof.
  intros (i & -> & Hi & j & He & Hj)%elem_of_graph_of (i' & -> & Hi' & j' & He' & Hj')%elem_of_graph_of.
  assert (j' = j) as -> by (eapply NoDup_lookup; eassumption). congruence.
Qed.

Local Opaque graph_of.

(** ** The calls of one piece *)
Lemma sub_node_inj a i b j : sub_node a i = sub_node b j -> a = b /\ i = j.
Proof.
  unfold sub_node. intros H. apply app_inv_head in H. apply read_lit in H as [H1%int_text_inj H2%int_text_inj]; [done|..];
    apply int_free; change (N_of_ascii "_") with 95%N; intros [?|[? ?]]; lia.
Qed.

Lemma piece_node o i idx x t k : DNode x t k ∈ piece_calls o es i idx <->
  t = x /\ k = None /\ exists a b ty, ((a, b, ty) ∈ graph_of idx \/ (b, a, ty) ∈ graph_of idx) /\ x = sub_node a i.
Proof.
  unfold piece_calls. rewrite elem_of_app, !elem_of_list_fmap. setoid_rewrite elem_of_iter_set.
  setoid_rewrite elem_of_list_to_set. setoid_rewrite elem_of_list_bind. split.
  - intros [(a & [= -> -> ->] & ([[c d] i'] & Ha & Hin))|(? & ? & _)]; [|done]. split_and!; [done..|].
    apply elem_of_chosen in Hin as [Hi' Hj]. cbn in Ha.
    assert ((c, d, typ i') ∈ graph_of idx) as Hg by (apply elem_of_graph_of; eauto).
    apply elem_of_cons in Ha as [-> | ->%elem_of_list_singleton]; [exists c, d, (typ i')|exists d, c, (typ i')];
      (split; [|done]); [left; exact Hg|right; exact Hg].
  - intros (-> & -> & a & b & ty & Hg & ->). left. exists a. split; [done|].
    destruct Hg as [(i' & -> & Hi' & Hj)%elem_of_graph_of|(i' & -> & Hi' & Hj)%elem_of_graph_of].
    + exists (a, b, i'). split; [cbn; left|]. by apply elem_of_chosen.
    + exists (b, a, i'). split; [cbn; right; left|]. by apply elem_of_chosen.
Qed.
Lemma piece_edge o i idx x y t k : DEdge x y t k ∈ piece_calls o es i idx <->
  k = None /\ exists a b, (a, b, t) ∈ graph_of idx /\ x = sub_node a i /\ y = sub_node b i.
Proof.
  unfold piece_calls. rewrite elem_of_app, !elem_of_list_fmap. split.
  - intros [(? & ? & _)|([[a b] i'] & [= -> -> -> ->] & Hin)]; [done|]. split; [done|]. exists a, b. split; [|done].
    apply elem_of_graph_of. exists i'. split; [done|]. by apply elem_of_chosen.
  - intros (-> & a & b & Hg & -> & ->). right. apply elem_of_graph_of in Hg as (i' & -> & Hi' & Hj).
    exists (a, b, i'). split; [done|]. by apply elem_of_chosen.
Qed.

Lemma piece_drawn o o' net cs i idx : shows net cs ->
  exists net', do_calls (fun _ => true) o net (piece_calls o' es i idx) = Ok net' /\ shows net' (cs ++ piece_calls o' es i idx).
Proof.
  intros Hs. unfold piece_calls at 1.
  match goal with |- context [do_calls _ _ _ (?l ++ ?l')] => destruct (calls_two (fun _ => true) o net cs l l' Hs) as [net' H] end.
  - intros c (a & -> & _)%elem_of_list_fmap. done.
  - intros c ([[a b] i'] & -> & Hin)%elem_of_list_fmap. cbn. rewrite !named_app. split; right; eexists _, _;
      apply elem_of_list_fmap; eexists; (split; [reflexivity|]); apply elem_of_iter_set, elem_of_list_to_set, elem_of_list_bind;
      eexists; (split; [|exact Hin]); cbn; set_solver.
  - exists net'. split; [exact H|]. eapply calls_shows; [done|exact H].
Qed.

Lemma pieces_drawn l : forall o net cs, shows net cs ->
  exists net' cs', for_res (fun o' net '(i, idx) =>
      do_calls (fun _ => true) (sub o' 0) net (piece_calls (sub o' 1) es (Z.of_nat (S i)) idx)) o net l = Ok net' /\
    shows net' (cs ++ cs') /\
    (forall x t k, DNode x t k ∈ cs' <-> t = x /\ k = None /\
       exists i idx a b ty, (i, idx) ∈ l /\ ((a, b, ty) ∈ graph_of idx \/ (b, a, ty) ∈ graph_of idx) /\ x = sub_node a (Z.of_nat (S i))) /\
    (forall x y t k, DEdge x y t k ∈ cs' <-> k = None /\
       exists i idx a b, (i, idx) ∈ l /\ (a, b, t) ∈ graph_of idx /\ x = sub_node a (Z.of_nat (S i)) /\ y = sub_node b (Z.of_nat (S i))).
Proof.
  induction l as [|[i idx] l IH]; intros o net cs Hs; cbn [for_res].
  - exists net, []. rewrite app_nil_r. split_and!; [done|done| |].
    + intros. split; [by intros ?%elem_of_nil|]. intros (_ & _ & ? & ? & ? & ? & ? & []%elem_of_nil & _).
    + intros. split; [by intros ?%elem_of_nil|]. intros (_ & ? & ? & ? & ? & []%elem_of_nil & _).
  - destruct (piece_drawn (sub (sub o 1) 0) (sub (sub o 1) 1) net cs (Z.of_nat (S i)) idx Hs) as (net1 & H1 & Hs1). rewrite H1.
    destruct (IH (sub o 0) net1 _ Hs1) as (net2 & cs2 & H2 & Hs2 & HN & HE). rewrite H2.
    exists net2, (piece_calls (sub (sub o 1) 1) es (Z.of_nat (S i)) idx ++ cs2). rewrite app_assoc. split_and!; [done|done| |].
    + intros x t k. rewrite elem_of_app, HN, piece_node. setoid_rewrite elem_of_cons. split.
      * intros [(-> & -> & a & b & ty & ? & ?)|(-> & -> & i' & idx' & a & b & ty & ? & ? & ?)]; split_and!; try done.
        -- exists i, idx, a, b, ty. split_and!; [by left|done|done].
        -- exists i', idx', a, b, ty. split_and!; [by right|done|done].
      * intros (-> & -> & i' & idx' & a & b & ty & [[= -> ->]|?] & ? & ?); [left|right]; split_and!; try done; [exists a, b, ty|exists i', idx', a, b, ty]; done.
    + intros x y t k. rewrite elem_of_app, HE, piece_edge. setoid_rewrite elem_of_cons. split.
      * intros [(-> & a & b & ? & ? & ?)|(-> & i' & idx' & a & b & ? & ? & ? & ?)]; split_and!; try done.
        -- exists i, idx, a, b. split_and!; [by left|done|done|done].
        -- exists i', idx', a, b. split_and!; [by right|done|done|done].
      * intros (-> & i' & idx' & a & b & [[= -> ->]|?] & ? & ? & ?); [left|right]; split_and!; try done; [exists a, b|exists i', idx', a, b]; done.
Qed.
End pieces.

Lemma node_ids_elem n a : a ∈ node_ids n <-> (1 <= a <= n)%Z.
Proof.
  unfold node_ids. rewrite elem_of_list_fmap. setoid_rewrite elem_of_seq. split.
  - intros (x & -> & ?). lia.
  - intros ?. exists (Z.to_nat a). lia.
Qed.

Lemma pair_edges_nil n : (n <= 1)%Z -> pair_edges (node_ids n) = [].
Proof.
  intros Hn. destruct (pair_edges (node_ids n)) as [|[a b] l] eqn:He; [done|].
  assert ((a, b) ∈ pair_edges (node_ids n)) as H%elem_of_pair_edges by (rewrite He; left). lia.
Qed.

Lemma small_lemma o n : (n <= 1)%Z -> make_all_sub_graphs o n = Err IndexError.
Proof. intros Hn. unfold make_all_sub_graphs. rewrite pair_edges_nil by done. reflexivity. Qed.

Lemma C61_lemma o n : (2 <= n)%Z ->
  match counted_size n with
  | Err e => make_all_sub_graphs o n = Err e
  | Ok f =>
      if int_eq_float (all_numbers n + n) f
      then exists net L, make_all_sub_graphs o n = Ok net /\ NoDup L /\ (forall S, S ∈ L <-> typed_graph n S) /\
             Z.of_nat (length L) = (all_numbers n - 1)%Z /\ draws_all n L net
      else make_all_sub_graphs o n = Err AssertionError
  end.
Proof.
  intros Hn. unfold make_all_sub_graphs.
  pose proof (pairs_from_nodup (Z.to_nat n) (Z.to_nat n)) as Hes. rewrite <- pair_edges_eq in Hes.
  pose proof (pair_edges_length n ltac:(lia)) as HE. pose proof (elem_of_pair_edges n) as Hel.
  set (es := pair_edges (node_ids n)) in *.
  assert (es <> []) as Hne.
  { intros He. assert ((1, 2) ∈ es)%Z as Hin by (apply Hel; lia). rewrite He in Hin. by apply elem_of_nil in Hin. }
  rewrite bool_decide_eq_true_2 by done. cbn [mbind res_bind passert]. cbv zeta.
  rewrite index_loop_odo.
  2:{ destruct es; [done|]. done. }
  destruct (odo_all 2 (length es)) as (L0 & HL0 & Hnd & Hin).
  change (Z.of_nat (length edge_types)) with 2%Z. change (length edge_types) with 2. change (Z.of_nat 2 - 1)%Z with 1%Z in HL0, Hin.
  change (2 - 1)%Z with 1%Z. rewrite HL0. cbn [mbind res_bind].
  assert (Z.of_nat (length L0) = all_numbers n - 1)%Z as Hlen.
  { rewrite (odo_loop_length _ 1 (length es) _ _ ltac:(lia) (digits_start 1 _ ltac:(lia)) HL0), odo_val_start.
    unfold all_numbers. rewrite HE. change (1 + 2)%Z with 3%Z. lia. }
  destruct (counted_size n) as [f|e]; cbn [mbind res_bind]; [|done].
  rewrite bool_decide_eq_true_2 by done. cbn [mbind res_bind].
  assert (Z.of_nat (length (node_ids n)) = n) as Hids. { unfold node_ids. rewrite fmap_length, seq_length. lia. }
  replace (Z.of_nat (length L0) + Z.of_nat (length (node_ids n)) + 1)%Z with (all_numbers n + n)%Z by lia.
  destruct (int_eq_float (all_numbers n + n) f); cbn [mbind res_bind passert]; [|done].
  destruct (calls_possible (fun _ => true) (sub o 0) blank [] ((fun a => DNode (sub_node a 0) (sub_node a 0) None) <$> node_ids n) shows_blank) as [net0 H0].
  { intros c (a & -> & _)%elem_of_list_fmap. done. }
  rewrite H0. cbn [mbind res_bind]. pose proof (calls_shows _ _ _ _ _ _ shows_blank H0) as Hs0.
  destruct (pieces_drawn es Hes (imap (fun i idx => (i, idx)) L0) (sub o 1) net0 _ Hs0) as (net & cs & Hr & Hs & HN & HG).
  rewrite app_nil_l in Hs.
  exists net, (graph_of es <$> L0). split; [exact Hr|].
  assert (forall idx, idx ∈ L0 -> digits 1 (length es) idx) as Hdig by (intros idx Hi; by apply Hin).
  assert (forall i S, (graph_of es <$> L0) !! i = Some S <-> exists idx, L0 !! i = Some idx /\ S = graph_of es idx) as Hlook.
  { intros i S. rewrite list_lookup_fmap. destruct (L0 !! i) as [idx|]; cbn; split.
    - intros <-%(inj Some). eauto.
    - intros (idx' & <-%(inj Some) & ->). done.
    - done.
    - intros (? & ? & _). done. }
  assert (forall i idx, (i, idx) ∈ imap (fun i idx => (i, idx)) L0 <-> L0 !! i = Some idx) as Him.
  { intros i idx. rewrite elem_of_lookup_imap. split; [intros (? & ? & [= -> ->] & ?); done|eauto]. }
  assert (forall S, S ∈ (graph_of es <$> L0) <-> typed_graph n S) as Htyped.
  { intros S. rewrite elem_of_list_fmap. split.
    - intros (idx & -> & Hi). apply Hin in Hi as [Hd Hne']. split.
      + intros He. by apply graph_of_empty in He.
      + intros a b t Hg. destruct (graph_of_typed es idx (a, b) t Hd Hg) as [H1 H2]. apply Hel in H1. tauto.
      + intros a b t t' Hg Hg'. by apply (graph_of_one es Hes idx (a, b)).
    - intros [H1 H2 H3]. exists (index_of es S).
      assert (graph_of es (index_of es S) = S) as Heq.
      { apply graph_of_index.
        - intros [a b] t Hg. destruct (H2 a b t Hg) as (? & ? & ? & ?). split; [by apply Hel|done].
        - intros [a b] t t'. apply H3. }
      split; [done|]. apply Hin. split; [apply index_of_digits|]. intros Hc.
      apply H1. rewrite <- Heq. apply graph_of_empty; [done|apply index_of_digits|done]. }
  split_and!.
  - apply NoDup_fmap_2_strong; [|done]. intros x y Hx Hy Hg. by apply (graph_of_inj es Hes); [apply Hdig|apply Hdig|].
  - exact Htyped.
  - by rewrite fmap_length.
  - destruct Hs as [S1 S2 S3 S4 S5 S6].
    assert (forall i t k, DNode i t k ∈ ((fun a => DNode (sub_node a 0) (sub_node a 0) None) <$> node_ids n) ++ cs <->
      t = i /\ k = None /\ ((exists a, (1 <= a <= n)%Z /\ i = named_in 0 a) \/
       exists j S a b ty, (graph_of es <$> L0) !! j = Some S /\ ((a, b, ty) ∈ S \/ (b, a, ty) ∈ S) /\ i = named_in (Z.of_nat (1 + j)) a)) as HP.
    { intros i t k. rewrite elem_of_app, elem_of_list_fmap, HN. setoid_rewrite node_ids_elem. setoid_rewrite Him. setoid_rewrite Hlook. split.
      - intros [(a & [= -> -> ->] & Ha)|(-> & -> & j & idx & a & b & ty & Hj & Hg & ->)].
        + split_and!; [done..|]. left. by exists a.
        + split_and!; [done..|]. right. exists j, (graph_of es idx), a, b, ty. eauto.
      - intros (-> & -> & [(a & Ha & ->)|(j & S & a & b & ty & (idx & Hj & ->) & Hg & ->)]).
        + left. by exists a.
        + right. split_and!; [done..|]. exists j, idx, a, b, ty. eauto. }
    assert (forall x y t k, DEdge x y t k ∈ ((fun a => DNode (sub_node a 0) (sub_node a 0) None) <$> node_ids n) ++ cs <->
      k = None /\ exists j S a b, (graph_of es <$> L0) !! j = Some S /\ (a, b, t) ∈ S /\
      x = named_in (Z.of_nat (1 + j)) a /\ y = named_in (Z.of_nat (1 + j)) b) as HR.
    { intros x y t k. rewrite elem_of_app, elem_of_list_fmap, HG. setoid_rewrite Him. setoid_rewrite Hlook. split.
      - intros [(a & ? & Ha)|(-> & j & idx & a & b & Hj & Hg & -> & ->)]; [done|].
        split; [done|]. exists j, (graph_of es idx), a, b. eauto 6.
      - intros (-> & j & S & a & b & (idx & Hj & ->) & Hg & -> & ->). right. split; [done|]. exists j, idx, a, b. eauto. }
    assert (forall j a b t, forall x y k, (x, y, (t, k)) ∈ nw_edges net -> x = named_in j a -> y = named_in j b -> (a < b)%Z) as Hord.
    { intros j a b t x y k (_ & i & S & a' & b' & HS & Hg & -> & ->)%S4%HR Hx Hy.
      apply sub_node_inj in Hx as [-> _], Hy as [-> _]. apply elem_of_list_lookup_2, Htyped in HS.
      by destruct (tg_edge _ _ HS _ _ _ Hg) as (_ & ? & _). }
    split.
    + done.
    + intros i t k. split; [intros H; by apply HP, S3|]. intros H. apply HP in H as H'. destruct H as (-> & -> & _).
      assert (i ∈ (nw_nodes net).*1) as Hi by (apply S2; by exists i, None).
      apply elem_of_list_fmap in Hi as ([i' [t' k']] & -> & Hi). cbn.
      destruct (proj1 (HP _ _ _) (S3 _ _ _ Hi)) as (-> & -> & _). done.
    + apply NoDup_alt. intros i j [[x y] q] Hi Hj. eapply S6; [exact Hi|exact Hj|by left].
    + intros x y t k. split; [intros H; by apply HR, S4|]. intros H. apply HR in H as H'.
      destruct (S5 _ _ _ _ H') as (c & d & t' & k' & Hcd & Hsame).
      destruct H as (-> & j & S & a & b & HS & Hg & -> & ->).
      pose proof (elem_of_list_lookup_2 _ _ _ HS) as HT%Htyped.
      destruct (tg_edge _ _ HT _ _ _ Hg) as (_ & Hab & _).
      destruct Hsame as [[-> ->]|[-> ->]].
      * destruct (proj1 (HR _ _ _ _) (S4 _ _ _ _ Hcd)) as (-> & j' & S' & a' & b' & HS' & Hg' & Hx & Hy).
        apply sub_node_inj in Hx as [<- Hj], Hy as [<- _]. assert (j' = j) as -> by lia. rewrite HS in HS'. apply (inj Some) in HS' as <-.
        by rewrite (tg_one _ _ HT _ _ _ _ Hg Hg').
      * pose proof (Hord (Z.of_nat (1 + j)) b a t' _ _ _ Hcd eq_refl eq_refl). lia.
Qed.

(** ** The formula *)
Lemma counted_lemma n : (2 <= n <= 8)%Z ->
  exists f, counted_size n = Ok f /\ int_eq_float (all_numbers n + n) f = true.
Proof.
  intros Hn.
  assert (match counted_size n with Ok f => int_eq_float (all_numbers n + n) f | Err _ => false end = true) as H.
  { assert (n = 2 \/ n = 3 \/ n = 4 \/ n = 5 \/ n = 6 \/ n = 7 \/ n = 8)%Z as H by lia.
    destruct H as [->|[->|[->|[->|[->|[->| ->]]]]]]; vm_compute; reflexivity. }
  destruct (counted_size n) as [f|]; [by exists f|done].
Qed.

Lemma nine_lemma o : make_all_sub_graphs o 9 = Err AssertionError.
Proof.
  pose proof (C61_lemma o 9 ltac:(lia)) as H. revert H. generalize (make_all_sub_graphs o 9). intros r H.
  assert (match counted_size 9 with Ok f => negb (int_eq_float (all_numbers 9 + 9) f) | Err _ => false end = true) as Hf by (vm_compute; reflexivity).
  revert H Hf. generalize (counted_size 9). intros [f|e]; [|discriminate].
  generalize (int_eq_float (all_numbers 9 + 9) f). intros [] H Hf; [discriminate|exact H].
Qed.

Lemma up_to_eight_lemma o n : (2 <= n <= 8)%Z ->
  exists net L, make_all_sub_graphs o n = Ok net /\ NoDup L /\ (forall S, S ∈ L <-> typed_graph n S) /\
    Z.of_nat (length L) = (all_numbers n - 1)%Z /\ draws_all n L net.
Proof.
  intros Hn. pose proof (C61_lemma o n ltac:(lia)) as H. destruct (counted_lemma n Hn) as (f & Ef & Eq). rewrite Ef, Eq in H. exact H.
Qed.
