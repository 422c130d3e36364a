(** * QueryFacts: transformation, comparison and queries of sample graphs (C11-C13, C15-C17) *)

From Verif Require Export HistoryFacts.

Section query_facts.
Context {U : Universe}.

(** ** C11 transform_with_replaced_values *)

Lemma repl_node_var (d : gmap Var Val) n : (repl_node d n).1 = n.1.
Proof. done. Qed.

Lemma repl_node_id (d : gmap Var Val) n : d !! n.1 = None -> repl_node d n = n.
Proof. intros H. unfold repl_node. rewrite H. by destruct n. Qed.

Lemma repl_node_set_id (d : gmap Var Val) (X : gset node) :
  (forall n, n ∈ X -> d !! n.1 = None) -> set_map (repl_node d) X = X.
Proof.
  intros H. apply set_eq. intros n. rewrite elem_of_map. split.
  - intros (m & -> & Hm). by rewrite repl_node_id by auto.
  - intros Hn. exists n. by rewrite repl_node_id by auto.
Qed.

Lemma transform_nodes_spec cp d X :
  match transform_nodes cp d X with
  | Ok Y => Y = set_map (repl_node d) X /\ repl_ok cp d X
  | Err x => x = AssertionError /\ ~ repl_ok cp d X
  end.
Proof.
  unfold transform_nodes.
  assert (forall o l, match map_res (fun _ n => transform_node cp d n) o l with
    | Ok l' => l' = repl_node d <$> l /\ (forall n, n ∈ l -> is_Some (d !! n.1) -> declared cp (repl_node d n))
    | Err x => x = AssertionError /\
        ~ (forall n, n ∈ l -> is_Some (d !! n.1) -> declared cp (repl_node d n)) end) as H.
  { intros o l. revert o. induction l as [|n l IH]; intros o; simpl.
    - split; [done|]. intros n Hn. by apply elem_of_nil in Hn.
    - assert (match transform_node cp d n with
        | Ok m => m = repl_node d n /\ (is_Some (d !! n.1) -> declared cp (repl_node d n))
        | Err x => x = AssertionError /\ ~ (is_Some (d !! n.1) -> declared cp (repl_node d n)) end) as Hn.
      { unfold transform_node, repl_node. destruct (d !! n.1) as [x|] eqn:Hd; simpl.
        - pose proof (get_node_spec cp n.1 x) as Hg. destruct (get_node cp n.1 x); [tauto|].
          destruct Hg as [-> Hg]. split; [done|]. intros H. by apply Hg, H.
        - split; [by destruct n|]. by intros [? ?]. }
      destruct (transform_node cp d n) as [m|x].
      + destruct Hn as [-> Hn]. specialize (IH (sub o 0)).
        destruct (map_res _ (sub o 0) l) as [l'|x].
        * destruct IH as [-> IH]. split; [done|]. intros k [->|Hk]%elem_of_cons; auto.
        * destruct IH as [-> IH]. split; [done|]. intros H. apply IH. intros k Hk. apply H. by right.
      + destruct Hn as [-> Hn]. split; [done|]. intros H. apply Hn, H. left. }
  specialize (H (fun _ => []) (elements X)).
  destruct (map_res _ _ (elements X)) as [l'|x]; simpl.
  - destruct H as [-> H]. split; [done|]. intros n Hn. apply H. by apply elem_of_elements.
  - destruct H as [-> H]. split; [done|]. intros Hr. apply H. intros n Hn. apply Hr. by apply elem_of_elements.
Qed.

Lemma has_var_repl (d : gmap Var Val) (X : gset node) v : has_var (set_map (repl_node d) X : gset node) v <-> has_var X v.
Proof.
  unfold has_var. split.
  - intros [x Hx]. apply elem_of_map in Hx as ([w y] & Heq & Hm).
    unfold repl_node in Heq. simpl in Heq. simplify_eq. by exists y.
  - intros [x Hx]. exists (repl_node d (v, x)).2. apply elem_of_map. exists (v, x). done.
Qed.

Lemma repl_two_nodes (d : gmap Var Val) (X : gset node) : two_nodes X -> two_nodes (set_map (repl_node d) X).
Proof.
  intros (x & y & -> & Hne). exists (repl_node d x), (repl_node d y). split; [|done].
  by rewrite set_map_union_L, !set_map_singleton_L.
Qed.

Lemma transform_edge_spec cp d e :
  edge_legal cp e -> repl_ok cp d e.1 -> transform_edge cp d e = Ok (repl_edge d e).
Proof.
  intros He Hr. unfold transform_edge, repl_edge, endpoints, rel_of. case_bool_decide as Hv.
  - rewrite repl_node_set_id; [by destruct e|]. intros n Hn.
    destruct (d !! n.1) as [x|] eqn:Hd; [|done]. exfalso.
    assert (n.1 ∈ vars_of e.1 ∩ dom d) as Hin; [|rewrite Hv in Hin; set_solver +Hin].
    apply elem_of_intersection. split.
    + apply elem_of_vars_of. exists n.2. by destruct n.
    + apply elem_of_dom. by exists x.
  - pose proof (transform_nodes_spec cp d e.1) as Ht.
    destruct (transform_nodes cp d e.1) as [Y|x]; [|tauto]. destruct Ht as [-> _].
    cbn [mbind res_bind].
    destruct He as (H2 & _ & Hrl). apply (repl_two_nodes d) in H2.
    pose proof (get_edge_spec cp (set_map (repl_node d) e.1) e.2) as Hg.
    rewrite two_nodes_size in Hg by done. specialize (Hg ltac:(lia)).
    destruct (get_edge _ _ _) as [e'|x]; [by destruct Hg as [-> _]|].
    destruct Hg as [_ Hg]. destruct Hg. destruct (e.2); [done|]. simpl in *.
    by rewrite !has_var_repl.
Qed.

Lemma set_map_list_to_set {A B} `{Countable A, Countable B} (f : A -> B) o (X : gset A) :
  list_to_set (f <$> iter_set o X) = (set_map f X : gset B).
Proof.
  apply set_eq. intros y. rewrite elem_of_list_to_set, elem_of_list_fmap, elem_of_map.
  split; intros (x & ? & Hx); exists x; (split; [done|]); by apply (elem_of_iter_set o).
Qed.

Lemma transform_edges_spec o cp d E :
  (forall e, e ∈ E -> edge_legal cp e /\ repl_ok cp d e.1) ->
  transform_edges o cp d E = Ok (set_map (repl_edge d) E).
Proof.
  intros H. unfold transform_edges.
  destruct (map_res_ok (fun _ e => transform_edge cp d e) (fun e e' => e' = repl_edge d e)
    (sub o 0) (iter_set o E)) as (l & -> & Hl).
  - intros _ e He. apply elem_of_iter_set in He. destruct (H e He).
    eexists. by rewrite transform_edge_spec.
  - simpl. f_equal. rewrite <- (set_map_list_to_set (repl_edge d) o E). f_equal.
    revert Hl. generalize (iter_set o E). induction 1; simpl; [done|]. by f_equal.
Qed.

Lemma graph_eta g : Graph (g_nodes g) (g_edges g) = g.
Proof. by destruct g. Qed.

(** Exact outcome of the call. *)
Lemma C11_lemma o cp d g :
  wf_graph cp g ->
  match transform_with_replaced_values o cp d g with
  | Ok (same, g') => repl_ok cp d (g_nodes g) /\ g' = repl_graph d g /\ (same = true <-> repl_graph d g = g)
  | Err x => x = AssertionError /\ ~ repl_ok cp d (g_nodes g)
  end.
Proof.
  intros Hg. unfold transform_with_replaced_values.
  pose proof (transform_nodes_spec cp d (g_nodes g)) as Ht.
  destruct (transform_nodes cp d (g_nodes g)) as [Y|x]; [|done]. destruct Ht as [-> Ht].
  cbn [mbind res_bind]. rewrite transform_edges_spec.
  2:{ intros e He. split; [by apply Hg|]. intros n Hn. apply Ht. by apply (wf_inside _ _ Hg e). }
  cbn [mbind res_bind]. unfold repl_graph. destruct (_ && _) eqn:Hb.
  - apply andb_true_iff in Hb as [H1 H2]. apply bool_decide_eq_true in H1, H2.
    rewrite H1, H2, graph_eta. done.
  - split_and!; [done|done|]. split; [done|]. intros Heq.
    pose proof (f_equal g_nodes Heq) as H1. pose proof (f_equal g_edges Heq) as H2. simpl in H1, H2.
    by rewrite !bool_decide_true in Hb by done.
Qed.

Lemma repl_link (d : gmap Var Val) E x y :
  link E x y -> link (set_map (repl_edge d) E) (repl_node d x) (repl_node d y).
Proof.
  intros (e & He & Hx & Hy). exists (repl_edge d e). split_and!.
  - by apply elem_of_map_2.
  - by apply elem_of_map_2.
  - by apply elem_of_map_2.
Qed.

(** The structure is kept. *)
Lemma C11_wf_lemma cp d g :
  wf_graph cp g -> repl_ok cp d (g_nodes g) -> wf_graph cp (repl_graph d g).
Proof.
  intros [H1 H2 H3 H4] Hr.
  assert (forall n, n ∈ g_nodes g -> declared cp (repl_node d n)) as Hd.
  { intros n Hn. destruct (d !! n.1) eqn:Hd; [apply Hr; [done|by rewrite Hd]|].
    rewrite repl_node_id by done. auto. }
  split; simpl.
  - intros n (m & -> & Hm)%elem_of_map. auto.
  - intros e' (e & -> & He)%elem_of_map. destruct (H2 e He) as (A & B & C). split_and!; simpl.
    + by apply repl_two_nodes.
    + intros n (m & -> & Hm)%elem_of_map. apply Hd. by apply (H3 e).
    + destruct (e.2); simpl in *; [done|]. by rewrite !has_var_repl.
  - intros e' (e & -> & He)%elem_of_map. simpl. specialize (H3 e He). set_solver +H3.
  - intros x y (x' & -> & Hx)%elem_of_map (y' & -> & Hy)%elem_of_map.
    specialize (H4 x' y' Hx Hy). clear Hx Hy. induction H4 as [|a b c Hab _ IH]; [done|].
    eapply rtc_l; [|exact IH]. by apply repl_link.
Qed.

Lemma repl_single (d : gmap Var Val) X : single_valued X -> single_valued (set_map (repl_node d) X).
Proof.
  intros Hs v x y ([v1 x1] & Heq1 & H1)%elem_of_map ([v2 x2] & Heq2 & H2)%elem_of_map.
  unfold repl_node in *. simpl in *. simplify_eq. by rewrite (Hs _ _ _ H1 H2).
Qed.

Lemma C11_simple_lemma (d : gmap Var Val) cp g :
  wf_graph cp g -> single_valued (g_nodes g) -> simple (g_edges g) ->
  single_valued (g_nodes (repl_graph d g)) /\ simple (g_edges (repl_graph d g)).
Proof.
  intros Hg Hsv Hs. split; [by apply repl_single|]. simpl.
  intros a b (a' & -> & Ha)%elem_of_map (b' & -> & Hb)%elem_of_map. simpl. intros Heq.
  assert (forall X Y : gset node, X ⊆ g_nodes g -> Y ⊆ g_nodes g ->
    set_map (repl_node d) X =@{gset node} set_map (repl_node d) Y -> X ⊆ Y) as Hinj.
  { intros X Y HX HY HXY n Hn. assert (repl_node d n ∈ (set_map (repl_node d) Y : gset node)) as Hin.
    { rewrite <- HXY. by apply elem_of_map_2. }
    apply elem_of_map in Hin as (m & Hnm & Hm). assert (n.1 = m.1) as Hv by (by inversion Hnm).
    destruct n as [v x], m as [w y]. simpl in Hv. subst w.
    by rewrite (Hsv v x y (HX _ Hn) (HY _ Hm)). }
  assert (a' = b') as ->; [|done]. apply Hs; [done|done|]. apply set_eq_subseteq.
  pose proof (wf_inside _ _ Hg a' Ha). pose proof (wf_inside _ _ Hg b' Hb).
  split; apply Hinj; done.
Qed.

(** Replacing back. *)
Lemma C11_back_lemma (d d' : gmap Var Val) cp g :
  wf_graph cp g ->
  (forall v x, (v, x) ∈ g_nodes g -> is_Some (d !! v) -> d' !! v = Some x) ->
  (forall v, is_Some (d' !! v) -> is_Some (d !! v)) ->
  repl_graph d' (repl_graph d g) = g.
Proof.
  intros Hg H1 H2.
  assert (forall n, n ∈ g_nodes g -> repl_node d' (repl_node d n) = n) as Hn.
  { intros [v x] Hn. unfold repl_node. simpl. destruct (d !! v) eqn:Hd; simpl.
    - by rewrite (H1 v x Hn) by (by rewrite Hd).
    - destruct (d' !! v) eqn:Hd'; [|done]. destruct (H2 v); [by rewrite Hd'|congruence]. }
  assert (forall X : gset node, X ⊆ g_nodes g ->
    set_map (repl_node d') (set_map (repl_node d) X : gset node) = X) as HX.
  { intros X HX. apply set_eq. intros n. split.
    - intros (m & -> & (k & -> & Hk)%elem_of_map)%elem_of_map. rewrite Hn; [done|by apply HX].
    - intros Hk. apply elem_of_map. exists (repl_node d n). rewrite Hn by (by apply HX).
      split; [done|]. by apply elem_of_map_2. }
  destruct g as [N E]. unfold repl_graph. simpl in *. f_equal; [by apply HX|].
  assert (forall e, e ∈ E -> repl_edge d' (repl_edge d e) = e) as He.
  { intros e He. unfold repl_edge. simpl. rewrite HX; [by destruct e|].
    by apply (wf_inside _ _ Hg e). }
  apply set_eq. intros e. split.
  - intros (m & -> & (k & -> & Hk)%elem_of_map)%elem_of_map. by rewrite He.
  - intros Hk. apply elem_of_map. exists (repl_edge d e). rewrite He by done.
    split; [done|]. by apply elem_of_map_2.
Qed.

(** ** C12, C13 *)

Lemma content_node g n : inl n ∈ content g <-> n ∈ g_nodes g.
Proof. unfold content. set_solver +. Qed.
Lemma content_edge g e : inr e ∈ content g <-> e ∈ g_edges g.
Proof. unfold content. set_solver +. Qed.

Lemma content_sub a b : content a ⊆ content b <-> g_nodes a ⊆ g_nodes b /\ g_edges a ⊆ g_edges b.
Proof.
  split.
  - intros H. split; intros x Hx.
    + by apply content_node, H, content_node.
    + by apply content_edge, H, content_edge.
  - intros [H1 H2] [n|e] Hx.
    + apply content_node, H1, content_node, Hx.
    + apply content_edge, H2, content_edge, Hx.
Qed.

Lemma content_inj a b : content a = content b <-> a = b.
Proof.
  split; [|by intros ->]. intros H.
  assert (g_nodes a = g_nodes b).
  { apply set_eq. intros n. rewrite <- content_node, H. apply content_node. }
  assert (g_edges a = g_edges b).
  { apply set_eq. intros n. rewrite <- content_edge, H. apply content_edge. }
  destruct a, b; simpl in *; congruence.
Qed.

Lemma graph_eqb_spec a b : graph_eqb a b = true <-> g_nodes a = g_nodes b /\ g_edges a = g_edges b.
Proof.
  unfold graph_eqb. rewrite bool_decide_eq_true, content_inj. split; [by intros ->|].
  intros [? ?]. destruct a, b; simpl in *; congruence.
Qed.

Lemma C12_lemma a b :
  is_subgraph a b = true <-> g_nodes a ⊆ g_nodes b /\ g_edges a ⊆ g_edges b.
Proof. unfold is_subgraph. by rewrite bool_decide_eq_true, content_sub. Qed.

Lemma size_content_like (A : gset node) (B : gset edge) :
  size (set_map inl A ∪ set_map inr B : gset (node + edge)) = (size A + size B)%nat.
Proof.
  rewrite size_union by set_solver +. f_equal.
  - induction A as [|x A Hx IH] using set_ind_L; [by rewrite set_map_empty, !size_empty|].
    rewrite set_map_union_L, set_map_singleton_L, !size_union, !size_singleton by set_solver. lia.
  - induction B as [|x B Hx IH] using set_ind_L; [by rewrite set_map_empty, !size_empty|].
    rewrite set_map_union_L, set_map_singleton_L, !size_union, !size_singleton by set_solver. lia.
Qed.

Lemma similarity_unfold a b : similarity a b = py_div (shared a b) (total a b).
Proof.
  unfold similarity.
  assert (content a ∩ content b = set_map inl (g_nodes a ∩ g_nodes b) ∪ set_map inr (g_edges a ∩ g_edges b)) as Hi.
  { apply set_eq. intros [n|e].
    - rewrite elem_of_intersection, !content_node. set_solver +.
    - rewrite elem_of_intersection, !content_edge. set_solver +. }
  assert (content a ∩ content b ∪ ((content a ∖ content b) ∪ (content b ∖ content a)) =
    set_map inl (g_nodes a ∪ g_nodes b) ∪ set_map inr (g_edges a ∪ g_edges b)) as Hu.
  { apply set_eq. intros x.
    assert (x ∈ content a ∩ content b ∪ ((content a ∖ content b) ∪ (content b ∖ content a)) <->
      x ∈ content a \/ x ∈ content b) as ->.
    { rewrite !elem_of_union, elem_of_intersection, !elem_of_difference.
      destruct (decide (x ∈ content a)), (decide (x ∈ content b)); naive_solver. }
    destruct x as [n|e]; rewrite ?content_node, ?content_edge; set_solver +. }
  assert (size (content a ∩ content b) + size ((content a ∖ content b) ∪ (content b ∖ content a)) =
    size (content a ∩ content b ∪ ((content a ∖ content b) ∪ (content b ∖ content a)))) as Hs.
  { symmetry. apply size_union. set_solver +. }
  rewrite Hu, Hi, !size_content_like in Hs. rewrite Hi, !size_content_like.
  unfold shared, total. f_equal; lia.
Qed.

Lemma shared_total a b : (0 <= shared a b <= total a b)%Z.
Proof.
  unfold shared, total.
  assert (size (g_nodes a ∩ g_nodes b) <= size (g_nodes a ∪ g_nodes b)) by (apply subseteq_size; set_solver +).
  assert (size (g_edges a ∩ g_edges b) <= size (g_edges a ∪ g_edges b)) by (apply subseteq_size; set_solver +).
  lia.
Qed.

Lemma total_zero a b : total a b = 0%Z <-> a = Graph ∅ ∅ /\ b = Graph ∅ ∅.
Proof.
  unfold total. split.
  - intros H.
    assert (size (g_nodes a ∪ g_nodes b) = 0) as H1%size_empty_inv by lia.
    assert (size (g_edges a ∪ g_edges b) = 0) as H2%size_empty_inv by lia.
    destruct a as [Na Ea], b as [Nb Eb]. simpl in *.
    split; f_equal; clear H; set_solver.
  - intros [-> ->]. cbn [g_nodes g_edges]. by rewrite !union_idemp_L, !size_empty.
Qed.

Lemma shared_zero a b : shared a b = 0%Z <->
  (forall n, n ∈ g_nodes a -> n ∈ g_nodes b -> False) /\ (forall e, e ∈ g_edges a -> e ∈ g_edges b -> False).
Proof.
  unfold shared. split.
  - intros H.
    assert (size (g_nodes a ∩ g_nodes b) = 0) as H1%size_empty_inv by lia.
    assert (size (g_edges a ∩ g_edges b) = 0) as H2%size_empty_inv by lia.
    split; clear H; set_solver.
  - intros [H1 H2].
    assert (g_nodes a ∩ g_nodes b = ∅) as -> by (clear H2; set_solver).
    assert (g_edges a ∩ g_edges b = ∅) as -> by (clear H1; set_solver). by rewrite !size_empty.
Qed.

Lemma cap_cup_eq {A} `{Countable A} (X Y : gset A) : size (X ∩ Y) = size (X ∪ Y) -> X = Y.
Proof.
  intros Hs. assert (X ∩ Y = X ∪ Y) as He by (apply subset_size_eq; [set_solver +|lia]).
  clear Hs. set_solver +He.
Qed.

Lemma shared_eq_total a b : shared a b = total a b <-> a = b.
Proof.
  split.
  - unfold shared, total. intros H.
    assert (size (g_nodes a ∩ g_nodes b) <= size (g_nodes a ∪ g_nodes b)) by (apply subseteq_size; set_solver +).
    assert (size (g_edges a ∩ g_edges b) <= size (g_edges a ∪ g_edges b)) by (apply subseteq_size; set_solver +).
    assert (g_nodes a = g_nodes b) as HN by (apply cap_cup_eq; lia).
    assert (g_edges a = g_edges b) as HE by (apply cap_cup_eq; lia).
    destruct a, b; simpl in *; congruence.
  - intros ->. unfold shared, total. by rewrite !intersection_idemp_L, !union_idemp_L.
Qed.

Lemma shared_comm a b : shared a b = shared b a.
Proof. unfold shared. by rewrite (intersection_comm_L (g_nodes a)), (intersection_comm_L (g_edges a)). Qed.
Lemma total_comm a b : total a b = total b a.
Proof. unfold total. by rewrite (union_comm_L (g_nodes a)), (union_comm_L (g_edges a)). Qed.

(** ** C15 *)

Lemma opposite_pair o (x y : node) r :
  x <> y -> opposite_endpoint o ({[x; y]}, r) x = Ok y /\ opposite_endpoint o ({[x; y]}, r) y = Ok x /\
  (forall z, z <> x -> z <> y -> opposite_endpoint o ({[x; y]}, r) z = Err AssertionError).
Proof.
  intros Hne. unfold opposite_endpoint, edge_ab, endpoints. simpl.
  assert (iter_set o ({[x; y]} : gset node) ≡ₚ [x; y]) as Hp.
  { rewrite iter_set_perm, elements_disj_union by set_solver. by rewrite !elements_singleton. }
  symmetry in Hp. apply Permutation_length_2_inv in Hp.
  destruct Hp as [-> | ->]; split_and!;
    intros; repeat case_bool_decide; congruence.
Qed.

Lemma rel_allowed_spec f e : rel_allowed f e = true <-> allowed f e.
Proof.
  unfold rel_allowed, allowed. destruct f; [|done].
  by rewrite orb_true_iff, !bool_decide_eq_true.
Qed.

Lemma two_nodes_opposite o e c :
  two_nodes e.1 -> c ∈ e.1 -> exists n, n <> c /\ e.1 = {[c; n]} /\ opposite_endpoint o e c = Ok n.
Proof.
  intros (x & y & Hxy & Hne) Hc. destruct e as [E r]. simpl in *. subst E.
  assert (x <> y) as Hn by congruence.
  destruct (opposite_pair o x y r Hn) as (H1 & H2 & _).
  apply elem_of_union in Hc as [->%elem_of_singleton| ->%elem_of_singleton].
  - by exists y.
  - exists x. split_and!; [done|set_solver +|done].
Qed.

(** Every listed entry is a neighbour with its edge, every neighbour is listed. *)
Lemma neighboring_values_spec o g c f :
  (forall e, e ∈ g_edges g -> two_nodes e.1) ->
  exists m, neighboring_values o g c f = Ok m /\
    (forall n e, m !! n = Some e -> neighbour g f c n e) /\
    (forall n e, neighbour g f c n e -> is_Some (m !! n)).
Proof.
  intros H2. unfold neighboring_values.
  pose proof (for_res_set_ind (fun Y (m : gmap node edge) =>
    (forall n e, m !! n = Some e -> neighbour g f c n e) /\
    (forall n e, neighbour g f c n e -> e ∈ Y -> is_Some (m !! n))) (fun _ => False)
    (fun o' m e => if is_endpoint e c && rel_allowed f e
      then n ← opposite_endpoint o' e c; Ok (<[n := e]> m) else Ok m) (sub o 0) o ∅ (g_edges g)) as Hi.
  cbv beta in Hi.
  destruct (for_res _ _ _ _) as [m|x].
  - exists m. split; [done|]. destruct Hi as [Ha Hb].
    + split; [intros n e; by rewrite lookup_empty|]. intros n e _ He. set_solver +He.
    + intros Y e m' o' He HeY HYE [Ha Hb].
      destruct (is_endpoint e c && rel_allowed f e) eqn:Hb0.
      * apply andb_true_iff in Hb0 as [Hc Hal]. apply bool_decide_eq_true in Hc.
        apply rel_allowed_spec in Hal.
        destruct (two_nodes_opposite o' e c (H2 e He) Hc) as (n & Hnc & Heq & ->). simpl. split.
        -- intros k e'. destruct (decide (k = n)) as [->|Hk].
           ++ rewrite lookup_insert. intros [= <-]. done.
           ++ rewrite lookup_insert_ne by done. apply Ha.
        -- intros k e' Hnb. destruct (decide (k = n)) as [->|Hk]; [rewrite lookup_insert; by eexists|].
           rewrite lookup_insert_ne by done. intros [->%elem_of_singleton|]%elem_of_union; [|by eapply Hb].
           destruct Hnb as (_ & _ & Hkc & Heq'). rewrite Heq in Heq'.
           apply pair_eq_inv in Heq' as [[_ ?]|[? ?]]; congruence.
      * split; [done|]. intros k e' Hnb [->%elem_of_singleton|]%elem_of_union; [|by eapply Hb].
        destruct Hnb as (_ & Hal & _ & Heq). apply andb_false_iff in Hb0 as [Hb0|Hb0].
        -- apply bool_decide_eq_false in Hb0. destruct Hb0. unfold endpoints. rewrite Heq. set_solver +.
        -- apply rel_allowed_spec in Hal. congruence.
    + split; [done|]. intros n e Hn. eapply Hb; [done|]. apply Hn.
  - destruct Hi.
    + split; [intros n e; by rewrite lookup_empty|]. intros n e _ He. set_solver +He.
    + intros Y e m' o' He HeY HYE [Ha Hb].
      destruct (is_endpoint e c && rel_allowed f e) eqn:Hb0.
      * apply andb_true_iff in Hb0 as [Hc Hal]. apply bool_decide_eq_true in Hc.
        apply rel_allowed_spec in Hal.
        destruct (two_nodes_opposite o' e c (H2 e He) Hc) as (n & Hnc & Heq & ->). simpl. split.
        -- intros k e'. destruct (decide (k = n)) as [->|Hk].
           ++ rewrite lookup_insert. intros [= <-]. done.
           ++ rewrite lookup_insert_ne by done. apply Ha.
        -- intros k e' Hnb. destruct (decide (k = n)) as [->|Hk]; [rewrite lookup_insert; by eexists|].
           rewrite lookup_insert_ne by done. intros [->%elem_of_singleton|]%elem_of_union; [|by eapply Hb].
           destruct Hnb as (_ & _ & Hkc & Heq'). rewrite Heq in Heq'.
           apply pair_eq_inv in Heq' as [[_ ?]|[? ?]]; congruence.
      * split; [done|]. intros k e' Hnb [->%elem_of_singleton|]%elem_of_union; [|by eapply Hb].
        destruct Hnb as (_ & Hal & _ & Heq). apply andb_false_iff in Hb0 as [Hb0|Hb0].
        -- apply bool_decide_eq_false in Hb0. destruct Hb0. unfold endpoints. rewrite Heq. set_solver +.
        -- apply rel_allowed_spec in Hal. congruence.
Qed.

Lemma C15_lemma o g c f :
  (forall e, e ∈ g_edges g -> two_nodes e.1) -> simple (g_edges g) ->
  exists m, neighboring_values o g c f = Ok m /\ forall n e, m !! n = Some e <-> neighbour g f c n e.
Proof.
  intros H2 Hs. destruct (neighboring_values_spec o g c f H2) as (m & Hm & Ha & Hb).
  exists m. split; [done|]. intros n e. split; [apply Ha|]. intros Hn.
  destruct (Hb n e Hn) as [e' He']. rewrite He'. f_equal. destruct (Ha _ _ He') as (A & _ & _ & B).
  apply Hs; [done|apply Hn|]. destruct Hn as (_ & _ & _ & ->). done.
Qed.

(** ** C16 *)

Lemma have_variable_spec g v : have_variable g v = true <-> has_var (g_nodes g) v.
Proof.
  unfold have_variable. rewrite existsb_exists. split.
  - intros ([w x] & Hin & Heq). apply bool_decide_eq_true in Heq. simpl in Heq. subst w.
    exists x. by apply elem_of_elements, elem_of_list_In.
  - intros [x Hx]. exists (v, x). split; [by apply elem_of_list_In, elem_of_elements|].
    by apply bool_decide_eq_true.
Qed.

Lemma included_variables_spec g v : v ∈ included_variables g <-> has_var (g_nodes g) v.
Proof. apply elem_of_vars_of. Qed.

Lemma value_for_variable_spec o g v :
  match value_for_variable o g v with
  | Some x => (v, x) ∈ g_nodes g
  | None => ~ has_var (g_nodes g) v
  end.
Proof.
  unfold value_for_variable. destruct (List.find _ _) as [[w x]|] eqn:Hf.
  - apply List.find_some in Hf as [Hin Heq]. apply bool_decide_eq_true in Heq. simpl in *. subst w.
    by apply (elem_of_iter_set o), elem_of_list_In.
  - intros [x Hx]. pose proof (List.find_none _ _ Hf (v, x)) as Hn. simpl in Hn.
    rewrite bool_decide_true in Hn by done.
    discriminate Hn. apply elem_of_list_In. by apply elem_of_iter_set.
Qed.

(** Every value of the variable is returned for some iteration order. *)
Lemma value_for_variable_any g v x : (v, x) ∈ g_nodes g -> exists o, value_for_variable o g v = Some x.
Proof.
  intros Hx. apply elem_of_elements, elem_of_list_split in Hx as (l1 & l2 & Heq).
  destruct (iter_list_complete (elements (g_nodes g)) ((v, x) :: l1 ++ l2)) as [o Ho].
  { rewrite Heq. by rewrite Permutation_middle. }
  exists o. unfold value_for_variable.
  assert (iter_set o (g_nodes g) = (v, x) :: l1 ++ l2) as -> by exact Ho.
  simpl. by rewrite bool_decide_true by done.
Qed.

Lemma C16_order_lemma g v :
  (forall o o', value_for_variable o g v = value_for_variable o' g v) <->
  (forall x y, (v, x) ∈ g_nodes g -> (v, y) ∈ g_nodes g -> x = y).
Proof.
  split.
  - intros H x y Hx Hy. destruct (value_for_variable_any g v x Hx) as [o Ho].
    destruct (value_for_variable_any g v y Hy) as [o' Ho']. specialize (H o o'). congruence.
  - intros H o o'. pose proof (value_for_variable_spec o g v) as H1.
    pose proof (value_for_variable_spec o' g v) as H2.
    destruct (value_for_variable o g v) as [x|], (value_for_variable o' g v) as [y|].
    + f_equal. by apply H.
    + destruct H2. by exists x.
    + destruct H1. by exists y.
    + done.
Qed.

(** ** C17 *)

Lemma vsh_node (g : graph) (vs : gset Var) (n : node) : inl n ∈ variables_subgraph_hash g vs <-> n ∈ g_nodes g /\ n.1 ∈ vs.
Proof. unfold variables_subgraph_hash. set_solver +. Qed.

Lemma vsh_edge (g : graph) (vs : gset Var) (e : edge) :
  inr e ∈ variables_subgraph_hash g vs <-> e ∈ g_edges g /\ (forall v, has_var e.1 v -> v ∈ vs).
Proof.
  unfold variables_subgraph_hash.
  assert (inr e ∈ (set_map inl (filter (fun n : node => n.1 ∈ vs) (g_nodes g)) ∪
     set_map inr (filter (fun e : edge => vars_of (endpoints e) ⊆ vs) (g_edges g)) : gset (node + edge)) <->
     e ∈ filter (fun e : edge => vars_of (endpoints e) ⊆ vs) (g_edges g)) as -> by set_solver +.
  rewrite elem_of_filter. unfold endpoints. split.
  - intros [H1 H2]. split; [done|]. intros v Hv. by apply H1, elem_of_vars_of.
  - intros [H1 H2]. split; [|done]. intros v Hv. by apply H2, elem_of_vars_of.
Qed.

End query_facts.
