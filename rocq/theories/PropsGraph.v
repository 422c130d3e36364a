(** * PropsGraph: properties C03-C17 (sample graphs and their builder)

    Statements use the vocabulary of Spec.v only.  "refuted" theorems exhibit a concrete run in which
    the property, as a user would expect it, fails. *)

From Verif Require Export Examples.

Section props.
Context {U : Universe}.

(** ** C03 *)
Theorem C03_is_edges_connected (o : oracle) (es : gset edge) :
  match is_edges_connected o es with
  | Ok b => es <> ∅ /\ (forall e, e ∈ es -> size e.1 = 2) /\ (b = true <-> edges_linked es)
  | Err x => (x = StopIteration /\ es = ∅) \/ (x = AssertionError /\ exists e, e ∈ es /\ size e.1 <> 2)
  end.
Proof. exact (is_edges_connected_spec o es). Qed.

(** ** C04 *)
Theorem C04_add_relation (b : builder) (eps : gset node) (r : relation) :
  builder_state b ->
  match add_relation b eps r with
  | (b', Ok _) => add_legal b eps r /\ b_cp b' = b_cp b /\
                  b_nodes b' = b_nodes b ∪ eps /\ b_edges b' = b_edges b ∪ {[(eps, r)]}
  | (b', Err x) => x = AssertionError /\ ~ add_legal b eps r /\ b' = b
  end.
Proof. exact (C04_lemma b eps r). Qed.

Theorem C04_add_directed_relation (b : builder) (source target : node) (r : Rel) :
  builder_state b ->
  let e : edge := ({[source; target]}, Directed source.1 target.1 r) in
  match add_directed_relation b source target r with
  | (b', Ok _) => add_legal b e.1 e.2 /\ b_cp b' = b_cp b /\
                  b_nodes b' = b_nodes b ∪ {[source; target]} /\ b_edges b' = b_edges b ∪ {[e]}
  | (b', Err x) => x = AssertionError /\ ~ add_legal b e.1 e.2 /\ b' = b
  end.
Proof. exact (C04_lemma b {[source; target]} (Directed source.1 target.1 r)). Qed.

(** ** C05 *)
Theorem C05_built_graphs (cp : provider) (ops : list build_op) :
  Forall (op_ok cp) ops ->
  match build (run_ops (new_builder cp) ops) with
  | Ok s => ~ Forall (op_refused cp) ops /\ s_cp s = cp_id cp /\ g_nodes (s_g s) <> ∅ /\
            wf_graph cp (s_g s) /\ simple (g_edges (s_g s))
  | Err x => x = AssertionError /\ Forall (op_refused cp) ops
  end.
Proof. exact (C05_lemma cp ops). Qed.

(** ** C06, the half that holds: joining brings in no second value, even when it raises half way. *)
Theorem C06_join_brings_no_second_value (o : oracle) (b : builder) (s : sample) (n n' : node) :
  (forall e, e ∈ g_edges (s_g s) -> two_nodes e.1) ->
  n ∈ b_nodes (join_sample o b s).1 -> n ∉ b_nodes b -> n' ∈ b_nodes (join_sample o b s).1 ->
  n.1 = n'.1 -> n = n'.
Proof. exact (C06_join_lemma o b s n n'). Qed.

Theorem C06_join_keeps_single_valued (o : oracle) (b : builder) (s : sample) :
  (forall e, e ∈ g_edges (s_g s) -> two_nodes e.1) ->
  single_valued (b_nodes b) -> single_valued (b_nodes (join_sample o b s).1).
Proof. exact (C06_keep_lemma o b s). Qed.

(** ** C07 *)
Theorem C07_join_sample (o : oracle) (b : builder) (s : sample) :
  builder_state b -> simple (b_edges b) -> (forall e, e ∈ g_edges (s_g s) -> two_nodes e.1) ->
  match join_sample o b s with
  | (b', Ok _) => join_legal b s /\ b_cp b' = b_cp b /\ b_edges b' = b_edges b ∪ g_edges (s_g s) /\
      (forall n, n ∈ b_nodes b' <-> n ∈ b_nodes b \/
         (if decide (g_edges (s_g s) = ∅) then n ∈ g_nodes (s_g s) else touches (g_edges (s_g s)) n))
  | (b', Err x) => x = AssertionError /\ ~ join_legal b s
  end.
Proof. exact (C07_lemma o b s). Qed.

(** For a well-formed sample the result is the union of nodes and of edges. *)
Theorem C07_join_is_union (o : oracle) (b : builder) (s : sample) :
  builder_state b -> simple (b_edges b) -> wf_graph (b_cp b) (s_g s) ->
  (join_sample o b s).2 = Ok tt ->
  b_nodes (join_sample o b s).1 = b_nodes b ∪ g_nodes (s_g s) /\
  b_edges (join_sample o b s).1 = b_edges b ∪ g_edges (s_g s).
Proof. exact (C07_union_lemma o b s). Qed.

Theorem C07_order_independent (o o' : oracle) (b : builder) (s : sample) :
  builder_state b -> simple (b_edges b) -> (forall e, e ∈ g_edges (s_g s) -> two_nodes e.1) ->
  (join_sample o b s).2 = (join_sample o' b s).2 /\
  ((join_sample o b s).2 = Ok tt ->
     b_nodes (join_sample o b s).1 = b_nodes (join_sample o' b s).1 /\
     b_edges (join_sample o b s).1 = b_edges (join_sample o' b s).1).
Proof. exact (C07_order_lemma o o' b s). Qed.

(** ** C09 *)
Theorem C09_build_from_edges (o : oracle) (cp : provider) (es : gset edge) :
  match (build_from_edges o (new_builder cp) es true).2 with
  | Ok s => es <> ∅ /\ edges_linked es /\ (forall e, e ∈ es -> edge_legal cp e) /\
            s_cp s = cp_id cp /\ g_edges (s_g s) = es /\
            (forall n, n ∈ g_nodes (s_g s) <-> touches es n)
  | Err x => (es = ∅ /\ x = StopIteration) \/
             (es <> ∅ /\ x = AssertionError /\ ~ (edges_linked es /\ forall e, e ∈ es -> edge_legal cp e))
  end.
Proof. exact (C09_fresh_lemma o cp es). Qed.

(** Without validation only the legality of the edges is checked. *)
Theorem C09_build_from_edges_unvalidated (o : oracle) (cp : provider) (es : gset edge) :
  match (build_from_edges o (new_builder cp) es false).2 with
  | Ok s => es <> ∅ /\ (forall e, e ∈ es -> edge_legal cp e) /\
            s_cp s = cp_id cp /\ g_edges (s_g s) = es /\
            (forall n, n ∈ g_nodes (s_g s) <-> touches es n)
  | Err x => x = AssertionError /\ (es = ∅ \/ ~ forall e, e ∈ es -> edge_legal cp e)
  end.
Proof. exact (C09_unvalidated_lemma o cp es). Qed.

(** ** C10 *)
Theorem C10_rebuild (o o' : oracle) (cp : provider) (g : graph) :
  wf_graph cp g -> rebuild o' cp (edges_set_view o g) = Ok (Sample (cp_id cp) g).
Proof. exact (C10_lemma o o' cp g). Qed.

Theorem C10_view_injective (o o' : oracle) (cp : provider) (g g' : graph) :
  wf_graph cp g -> wf_graph cp g' -> edges_set_view o g = edges_set_view o' g' -> g = g'.
Proof. exact (C10_inj_lemma o o' cp g g'). Qed.

(** ** C11 *)
Theorem C11_transform (o : oracle) (cp : provider) (d : gmap Var Val) (g : graph) :
  wf_graph cp g ->
  match transform_with_replaced_values o cp d g with
  | Ok (same, g') => repl_ok cp d (g_nodes g) /\ g' = repl_graph d g /\ (same = true <-> repl_graph d g = g)
  | Err x => x = AssertionError /\ ~ repl_ok cp d (g_nodes g)
  end.
Proof. exact (C11_lemma o cp d g). Qed.

Theorem C11_keeps_well_formed (cp : provider) (d : gmap Var Val) (g : graph) :
  wf_graph cp g -> repl_ok cp d (g_nodes g) -> wf_graph cp (repl_graph d g).
Proof. exact (C11_wf_lemma cp d g). Qed.

Theorem C11_keeps_simple (cp : provider) (d : gmap Var Val) (g : graph) :
  wf_graph cp g -> single_valued (g_nodes g) -> simple (g_edges g) ->
  single_valued (g_nodes (repl_graph d g)) /\ simple (g_edges (repl_graph d g)).
Proof. exact (C11_simple_lemma d cp g). Qed.

Theorem C11_replacing_back (o : oracle) (cp : provider) (d d' : gmap Var Val) (g : graph) :
  wf_graph cp g -> repl_ok cp d (g_nodes g) ->
  (forall v x, (v, x) ∈ g_nodes g -> is_Some (d !! v) -> d' !! v = Some x) ->
  (forall v, is_Some (d' !! v) -> is_Some (d !! v)) ->
  exists same, transform_with_replaced_values o cp d' (repl_graph d g) = Ok (same, g).
Proof. exact (C11_back_full_lemma o cp d d' g). Qed.

(** ** C12 *)
Theorem C12_is_subgraph (a b : graph) :
  is_subgraph a b = true <-> g_nodes a ⊆ g_nodes b /\ g_edges a ⊆ g_edges b.
Proof. exact (C12_lemma a b). Qed.

Theorem C12_order :
  (forall a, is_subgraph a a = true) /\
  (forall a b c, is_subgraph a b = true -> is_subgraph b c = true -> is_subgraph a c = true) /\
  (forall a b, is_subgraph a b = true -> is_subgraph b a = true -> graph_eqb a b = true) /\
  (forall a cp, is_subgraph (s_g (build_empty (new_builder cp))) a = true).
Proof. exact C12_order_lemma. Qed.

(** ** C13 *)
Theorem C13_similarity (a b : graph) :
  match similarity a b with
  | Ok q => total a b <> 0%Z /\ q = qdiv (shared a b) (total a b) /\
            similarity b a = Ok q /\ (0 <= q)%Qc /\ (q <= 1)%Qc /\
            (q = 1%Qc <-> graph_eqb a b = true) /\
            (q = 0%Qc <-> (forall n, ~ (n ∈ g_nodes a /\ n ∈ g_nodes b)) /\
                          (forall e, ~ (e ∈ g_edges a /\ e ∈ g_edges b)))
  | Err x => x = ZeroDivisionError /\ a = Graph ∅ ∅ /\ b = Graph ∅ ∅
  end.
Proof. exact (C13_lemma a b). Qed.

(** ** C14 *)
Theorem C14_belt_nodes (o : oracle) (g : graph) (C : gset node) (f : option (gset relation)) :
  (forall e, e ∈ g_edges g -> two_nodes e.1) -> C <> ∅ ->
  exists m, belt_nodes o g C f = Ok m /\
    forall n, match m !! n with
              | Some X => X <> ∅ /\ forall e, e ∈ X <-> belt_edge g f C n e
              | None => forall e, ~ belt_edge g f C n e
              end.
Proof. exact (belt_nodes_spec o g C f). Qed.

Theorem C14_external_nodes (o : oracle) (g : graph) (C : gset node) (f : option (gset relation)) :
  (forall e, e ∈ g_edges g -> two_nodes e.1) -> C <> ∅ ->
  exists m, external_nodes o g C f = Ok m /\ external_ok g f C m /\
    forall n, is_Some (m !! n) <-> n ∉ C /\ exists c, c ∈ C /\ rtc (alink g f) c n.
Proof. exact (C14_external_lemma o g C f). Qed.

Theorem C14_no_start_nodes (o : oracle) (g : graph) (f : option (gset relation)) :
  belt_nodes o g ∅ f = Err AssertionError /\ external_nodes o g ∅ f = Err AssertionError.
Proof. exact (conj eq_refl eq_refl). Qed.

(** ** C15 *)
Theorem C15_neighboring_values (o : oracle) (g : graph) (c : node) (f : option (gset relation)) :
  (forall e, e ∈ g_edges g -> two_nodes e.1) -> simple (g_edges g) ->
  exists m, neighboring_values o g c f = Ok m /\ forall n e, m !! n = Some e <-> neighbour g f c n e.
Proof. exact (C15_lemma o g c f). Qed.

(** With parallel edges: the keys are still exact, the edge is one of the candidates. *)
Theorem C15_neighboring_values_parallel (o : oracle) (g : graph) (c : node) (f : option (gset relation)) :
  (forall e, e ∈ g_edges g -> two_nodes e.1) ->
  exists m, neighboring_values o g c f = Ok m /\
    (forall n e, m !! n = Some e -> neighbour g f c n e) /\
    (forall n e, neighbour g f c n e -> is_Some (m !! n)).
Proof. exact (neighboring_values_spec o g c f). Qed.

Theorem C15_opposite_endpoint (o : oracle) (x y : node) (r : relation) :
  x <> y -> opposite_endpoint o ({[x; y]}, r) x = Ok y /\ opposite_endpoint o ({[x; y]}, r) y = Ok x /\
  (forall z, z <> x -> z <> y -> opposite_endpoint o ({[x; y]}, r) z = Err AssertionError).
Proof. exact (opposite_pair o x y r). Qed.

(** ** C16 *)
Theorem C16_point_queries (o : oracle) (g : graph) (v : Var) (x : Val) :
  (have_value g v x = true <-> (v, x) ∈ values g) /\
  (have_variable g v = true <-> v ∈ included_variables g) /\
  (have_variable g v = true <-> exists y, (v, y) ∈ values g) /\
  (value_for_variable o g v = None <-> have_variable g v = false) /\
  (forall y, value_for_variable o g v = Some y -> (v, y) ∈ values g).
Proof. exact (C16_lemma o g v x). Qed.

Theorem C16_order_independence (g : graph) (v : Var) :
  (forall o o', value_for_variable o g v = value_for_variable o' g v) <->
  (forall x y, (v, x) ∈ g_nodes g -> (v, y) ∈ g_nodes g -> x = y).
Proof. exact (C16_order_lemma g v). Qed.

(** ** C17 *)
Theorem C17_restriction (g : graph) (vs : gset Var) :
  (forall n, inl n ∈ variables_subgraph_hash g vs <-> n ∈ g_nodes g /\ n.1 ∈ vs) /\
  (forall e, inr e ∈ variables_subgraph_hash g vs <-> e ∈ g_edges g /\ forall v, has_var e.1 v -> v ∈ vs).
Proof. exact (conj (vsh_node g vs) (vsh_edge g vs)). Qed.

Theorem C17_laws (cp : provider) (g : graph) (vs ws : gset Var) :
  wf_graph cp g ->
  (forall x, x ∈ variables_subgraph_hash g (included_variables g) <->
     match x with inl n => n ∈ g_nodes g | inr e => e ∈ g_edges g end) /\
  (vs ⊆ ws -> variables_subgraph_hash g vs ⊆ variables_subgraph_hash g ws) /\
  variables_subgraph_hash g vs ∩ variables_subgraph_hash g ws = variables_subgraph_hash g (vs ∩ ws).
Proof. exact (C17_laws_lemma cp g vs ws). Qed.

End props.

(** ** Refutations (names are strings) *)

(** C06: [add_relation] accepts a second value of a variable. *)
Theorem C06_two_values_refuted :
  exists (cp : provider) (ops : list build_op) (s : sample),
    Forall (op_ok cp) ops /\ build (run_ops (new_builder cp) ops) = Ok s /\
    ~ single_valued (g_nodes (s_g s)).
Proof.
  set (ops := [OpAdd ab.1 ab.2; OpAdd {[nd "b" "1"; nd "a" "2"]} (rl "r")]).
  exists cpx, ops, (Sample 7 (Graph {[nd "a" "1"; nd "b" "1"; nd "a" "2"]} {[ab; ed "b" "1" "a" "2" "r"]})).
  split_and!.
  - repeat constructor.
  - apply (bool_decide_eq_true_1 _). vm_compute. reflexivity.
  - intros Hs. specialize (Hs "a" "1" "2"). discriminate Hs; apply (bool_decide_eq_true_1 _); vm_compute; reflexivity.
Qed.

(** The same through [build_from_edges]. *)
Theorem C06_build_from_edges_refuted :
  exists (cp : provider) (es : gset edge) (s : sample),
    (build_from_edges o0 (new_builder cp) es true).2 = Ok s /\ ~ single_valued (g_nodes (s_g s)).
Proof.
  exists cpx, {[ab; ed "b" "1" "a" "2" "r"]},
    (Sample 7 (Graph {[nd "a" "1"; nd "b" "1"; nd "a" "2"]} {[ab; ed "b" "1" "a" "2" "r"]})).
  split.
  - apply (bool_decide_eq_true_1 _). vm_compute. reflexivity.
  - intros Hs. specialize (Hs "a" "1" "2"). discriminate Hs; apply (bool_decide_eq_true_1 _); vm_compute; reflexivity.
Qed.

(** C08: a failed [join_sample] leaves part of the sample behind (all orders: PropsBuilder.v): builder a-b,
    sample b-c, c-a with value 2 for a. *)
Theorem C08_join_not_atomic_refuted :
  exists (b : builder) (s : sample), builder_state b /\ simple (b_edges b) /\
    wf_graph (b_cp b) (s_g s) /\ simple (g_edges (s_g s)) /\
    (join_sample o0 b s).2 = Err AssertionError /\ b_nodes (join_sample o0 b s).1 <> b_nodes b.
Proof.
  exists (run_ops (new_builder cpx) [OpAdd ab.1 ab.2]), (smp (graph_of [bc; ed "c" "1" "a" "2" "q"])).
  split_and!.
  - apply bs_add, builder_state_new.
  - apply simpleb_spec. vm_compute. reflexivity.
  - apply wf_graphb_spec. vm_compute. reflexivity.
  - apply simpleb_spec. vm_compute. reflexivity.
  - vm_compute. reflexivity.
  - apply (bool_decide_eq_true_1 _). vm_compute. reflexivity.
Qed.

(** C09: parallel edges are accepted. *)
Theorem C09_parallel_edges_refuted :
  exists (cp : provider) (es : gset edge) (s : sample),
    (build_from_edges o0 (new_builder cp) es true).2 = Ok s /\ ~ simple (g_edges (s_g s)).
Proof.
  exists cpx, {[ab; ed "a" "1" "b" "1" "q"]}, (smp (graph_of [ab; ed "a" "1" "b" "1" "q"])). split.
  - apply (bool_decide_eq_true_1 _). vm_compute. reflexivity.
  - intros Hs. specialize (Hs ab (ed "a" "1" "b" "1" "q")).
    assert (ab = ed "a" "1" "b" "1" "q") as He; [|discriminate He].
    apply Hs; [| |done]; apply (bool_decide_eq_true_1 _); vm_compute; reflexivity.
Qed.

(** C45: a builder that has built a graph builds a disconnected one the next time. *)
Theorem C45_reused_builder_refuted :
  exists (b : builder) (s : sample), builder_state b /\
    (build_from_edges o0 b {[cd]} true).2 = Ok s /\ ~ connected (s_g s).
Proof.
  exists (build_from_edges o0 (new_builder cpx) {[ab]} true).1, (smp (graph_of [ab; cd])). split_and!.
  - apply bs_from_edges, builder_state_new.
  - apply (bool_decide_eq_true_1 _). vm_compute. reflexivity.
  - intros Hc. apply connected_linked in Hc.
    + pose proof (is_edges_connected_spec o0 (g_edges (s_g (smp (graph_of [ab; cd]))))) as H.
      assert (is_edges_connected o0 (g_edges (s_g (smp (graph_of [ab; cd])))) = Ok false) as Hf
        by (vm_compute; reflexivity).
      rewrite Hf in H. destruct H as (_ & _ & [_ H]). discriminate (H Hc).
    + intros e He. assert (set_Forall (fun e => e.1 ⊆ g_nodes (graph_of [ab; cd])) (g_edges (graph_of [ab; cd]))) as Hs.
      { apply (bool_decide_eq_true_1 _). vm_compute. reflexivity. }
      by apply (Hs e).
Qed.

(** C45: a builder on which [build_from_edges] raised still builds, and the graph is disconnected. *)
Theorem C45_failed_builder_refuted :
  exists (o : oracle) (es : gset edge) (s : sample),
    let b := (build_from_edges o (new_builder cpx) es false).1 in
    (build_from_edges o (new_builder cpx) es false).2 = Err AssertionError /\
    build b = Ok s /\ ~ connected (s_g s).
Proof.
  exists (fun _ => [0;1]%nat), {[ab; cd; ed "a" "1" "b" "3" "r"]}, (smp (graph_of [ab; cd])).
  cbv zeta. split_and!.
  - vm_compute. reflexivity.
  - apply (bool_decide_eq_true_1 _). vm_compute. reflexivity.
  - intros Hc. apply connected_linked in Hc.
    + pose proof (is_edges_connected_spec o0 (g_edges (s_g (smp (graph_of [ab; cd]))))) as H.
      assert (is_edges_connected o0 (g_edges (s_g (smp (graph_of [ab; cd])))) = Ok false) as Hf
        by (vm_compute; reflexivity).
      rewrite Hf in H. destruct H as (_ & _ & [_ H]). discriminate (H Hc).
    + intros e He. assert (set_Forall (fun e => e.1 ⊆ g_nodes (graph_of [ab; cd])) (g_edges (graph_of [ab; cd]))) as Hs.
      { apply (bool_decide_eq_true_1 _). vm_compute. reflexivity. }
      by apply (Hs e).
Qed.

(** C14: in a triangle the edge between the two nodes at distance 1 is reported for neither. *)
Theorem C14_equal_distance_edge_refuted :
  exists (g : graph) (C : gset node) (e : edge) (m : gmap node (gset edge)),
    wf_graph cpx g /\ external_nodes o0 g C None = Ok m /\ e ∈ g_edges g /\ ~ (e.1 ⊆ C) /\
    forall n X, m !! n = Some X -> e ∉ X.
Proof.
  exists g_triangle, {[nd "a" "1"]}, bc, {[nd "b" "1" := {[ab]}; nd "c" "1" := {[ca]}]}. split_and!.
  - apply wf_graphb_spec. vm_compute. reflexivity.
  - apply (bool_decide_eq_true_1 _). vm_compute. reflexivity.
  - apply (bool_decide_eq_true_1 _). vm_compute. reflexivity.
  - apply (bool_decide_eq_true_1 _). vm_compute. reflexivity.
  - intros n X. rewrite lookup_insert_Some, lookup_singleton_Some.
    intros [[_ <-]|[_ [_ <-]]]; apply (bool_decide_eq_true_1 _); vm_compute; reflexivity.
Qed.

(** C15: with parallel edges the reported edge depends on the iteration order. *)
Theorem C15_parallel_order_refuted :
  exists (g : graph) (c : node), wf_graph cpx g /\
    neighboring_values o0 g c None <> neighboring_values o1 g c None.
Proof.
  exists (graph_of [ab; ed "a" "1" "b" "1" "q"]), (nd "a" "1"). split.
  - apply wf_graphb_spec. vm_compute. reflexivity.
  - set (e2 := ed "a" "1" "b" "1" "q"). intros Heq.
    assert ((match neighboring_values o0 (graph_of [ab; e2]) (nd "a" "1") None with
             | Ok m => bool_decide (m !! nd "b" "1" = Some ab) | _ => false end) =
            (match neighboring_values o1 (graph_of [ab; e2]) (nd "a" "1") None with
             | Ok m => bool_decide (m !! nd "b" "1" = Some ab) | _ => false end)) as H by (by rewrite Heq).
    vm_compute in H. discriminate H.
Qed.

(** ** Non-vacuity: concrete cases meeting the hypotheses *)

Example C03_yes : is_edges_connected o1 {[ab; bc; cd]} = Ok true.
Proof. vm_compute. reflexivity. Qed.
Example C03_no : is_edges_connected o1 {[ab; cd]} = Ok false.
Proof. vm_compute. reflexivity. Qed.
Example C03_bad : is_edges_connected o0 {[ab; ({[nd "a" "1"]}, rl "r")]} = Err AssertionError.
Proof. vm_compute. reflexivity. Qed.
Example C03_empty : is_edges_connected o0 ∅ = Err StopIteration.
Proof. vm_compute. reflexivity. Qed.

Definition b_ab : builder := run_ops (new_builder cpx) [OpAdd ab.1 ab.2].
Example b_ab_state : builder_state b_ab.
Proof. apply bs_add, builder_state_new. Qed.
Example b_ab_simple : simple (b_edges b_ab).
Proof. apply simpleb_spec. vm_compute. reflexivity. Qed.

Example C04_accepts : (add_relation b_ab bc.1 bc.2).2 = Ok tt.
Proof. vm_compute. reflexivity. Qed.
Example C04_rejects_detached : (add_relation b_ab cd.1 cd.2).2 = Err AssertionError.
Proof. vm_compute. reflexivity. Qed.
Example C04_rejects_repeated : (add_relation b_ab ab.1 (rl "q")).2 = Err AssertionError.
Proof. vm_compute. reflexivity. Qed.
Example C04_directed : (add_directed_relation b_ab (nd "b" "1") (nd "c" "1") ("r" : @Rel StrU)).2 = Ok tt.
Proof. vm_compute. reflexivity. Qed.

Definition ops_mixed : list build_op :=
  [OpAdd ab.1 ab.2; OpAdd cd.1 cd.2; OpJoin o1 (smp (graph_of [bc; cd])); OpJoin o0 (Sample 9 g_path);
   OpDirected (nd "d" "1") (nd "a" "1") ("q" : @Rel StrU)].
Example C05_ops_ok : Forall (op_ok cpx) ops_mixed.
Proof.
  unfold ops_mixed. repeat apply List.Forall_cons; try exact I; [| |apply List.Forall_nil].
  2:{ intros Hd. discriminate Hd. }
  intros _. assert (wf_graph cpx (graph_of [bc; cd])) as Hw by (apply wf_graphb_spec; vm_compute; reflexivity).
  split; apply Hw.
Qed.
Example C05_result : bool_decide (build (run_ops (new_builder cpx) ops_mixed) =
  Ok (smp (graph_of [ab; bc; cd; ({[nd "d" "1"; nd "a" "1"]}, drl "d" "a" "q")]))) = true.
Proof. vm_compute. reflexivity. Qed.
Example C05_all_refused : build (run_ops (new_builder cpx) [OpAdd {[nd "a" "1"]} (rl "r")]) = Err AssertionError.
Proof. vm_compute. reflexivity. Qed.

Example C06_C07_join_accepts : (join_sample o1 b_ab (smp (graph_of [cd; bc]))).2 = Ok tt.
Proof. vm_compute. reflexivity. Qed.
Example C07_join_rejects_other_relation :
  (join_sample o1 b_ab (smp (graph_of [bc; ed "a" "1" "b" "1" "q"]))).2 = Err AssertionError.
Proof. vm_compute. reflexivity. Qed.
Example C07_join_rejects_detached : (join_sample o1 b_ab (smp (graph_of [cd]))).2 = Err AssertionError.
Proof. vm_compute. reflexivity. Qed.
Example C07_single_node : (join_sample o1 b_ab (smp (single "a" "1"))).2 = Ok tt /\
  (join_sample o1 b_ab (smp (single "c" "1"))).2 = Err AssertionError.
Proof. vm_compute. done. Qed.

Example C09_ok : is_ok (build_from_edges o1 (new_builder cpx) {[ab; bc; cd]} true).2 = true.
Proof. vm_compute. reflexivity. Qed.

Example g_path_wf : wf_graph cpx g_path.
Proof. apply wf_graphb_spec. vm_compute. reflexivity. Qed.
Example g_triangle_wf : wf_graph cpx g_triangle /\ simple (g_edges g_triangle) /\ single_valued (g_nodes g_triangle).
Proof.
  split_and!; [apply wf_graphb_spec|apply simpleb_spec|apply single_valuedb_spec]; vm_compute; reflexivity.
Qed.
Example single_wf : wf_graph cpx (single "a" "1").
Proof. apply wf_graphb_spec. vm_compute. reflexivity. Qed.

Example C11_changes : match transform_with_replaced_values o1 cpx (dict [("a", "2")]) g_triangle with
  | Ok (same, g) => negb same && bool_decide (nd "a" "2" ∈ g_nodes g) | Err _ => false end = true.
Proof. vm_compute. reflexivity. Qed.
Example C11_rejects : transform_with_replaced_values o1 cpx (dict [("a", "9")]) g_triangle = Err AssertionError.
Proof. vm_compute. reflexivity. Qed.
Example C11_same : match transform_with_replaced_values o1 cpx (dict [("a", "1"); ("d", "9")]) g_triangle with
  | Ok (same, g) => same | Err _ => false end = true.
Proof. vm_compute. reflexivity. Qed.

Example C13_value : similarity g_path g_triangle = Ok (qdiv 5 8).
Proof. apply (bool_decide_eq_true_1 _). vm_compute. reflexivity. Qed.

Example C14_path : match external_nodes o1 g_path {[nd "a" "1"]} None with
  | Ok m => bool_decide (dom m = {[nd "b" "1"; nd "c" "1"; nd "d" "1"]}) | Err _ => false end = true.
Proof. vm_compute. reflexivity. Qed.
Example C14_filter : match external_nodes o1 g_triangle {[nd "a" "1"]} (Some {[rl "q"]}) with
  | Ok m => bool_decide (dom m = {[nd "c" "1"]}) | Err _ => false end = true.
Proof. vm_compute. reflexivity. Qed.
Example C15_triangle : match neighboring_values o1 g_triangle (nd "a" "1") None with
  | Ok m => bool_decide (dom m = {[nd "b" "1"; nd "c" "1"]}) | Err _ => false end = true.
Proof. vm_compute. reflexivity. Qed.

Print Assumptions C03_is_edges_connected.
Print Assumptions C04_add_relation.
Print Assumptions C04_add_directed_relation.
Print Assumptions C05_built_graphs.
Print Assumptions C06_join_brings_no_second_value.
Print Assumptions C06_join_keeps_single_valued.
Print Assumptions C06_two_values_refuted.
Print Assumptions C06_build_from_edges_refuted.
Print Assumptions C07_join_sample.
Print Assumptions C07_join_is_union.
Print Assumptions C07_order_independent.
Print Assumptions C08_join_not_atomic_refuted.
Print Assumptions C09_build_from_edges.
Print Assumptions C09_build_from_edges_unvalidated.
Print Assumptions C09_parallel_edges_refuted.
Print Assumptions C10_rebuild.
Print Assumptions C10_view_injective.
Print Assumptions C11_transform.
Print Assumptions C11_keeps_well_formed.
Print Assumptions C11_keeps_simple.
Print Assumptions C11_replacing_back.
Print Assumptions C12_is_subgraph.
Print Assumptions C12_order.
Print Assumptions C13_similarity.
Print Assumptions C14_belt_nodes.
Print Assumptions C14_external_nodes.
Print Assumptions C14_no_start_nodes.
Print Assumptions C14_equal_distance_edge_refuted.
Print Assumptions C15_neighboring_values.
Print Assumptions C15_neighboring_values_parallel.
Print Assumptions C15_opposite_endpoint.
Print Assumptions C15_parallel_order_refuted.
Print Assumptions C16_point_queries.
Print Assumptions C16_order_independence.
Print Assumptions C17_restriction.
Print Assumptions C17_laws.
Print Assumptions C45_reused_builder_refuted.
Print Assumptions C45_failed_builder_refuted.
