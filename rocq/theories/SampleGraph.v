(** * SampleGraph: model of sample_graph.py *)

From Verif Require Export Components.

Section sample_graph.
Context {U : Universe}.

(** ** SampleGraph (data)

    sample_graph.py:266-282 [SampleGraph.__init__]: immutable node and edge sets.  [name] is display
    only and modelled in Text.v. *)
Record graph := Graph { g_nodes : gset node; g_edges : gset edge }.

Global Instance graph_eq_dec : EqDecision graph.
Proof. solve_decision. Defined.
Global Instance graph_countable : Countable graph.
Proof.
  refine (inj_countable' (fun g => (g_nodes g, g_edges g)) (fun p => Graph p.1 p.2) _).
  by intros [].
Defined.

(** A sample graph object: its content and the identity of its provider (sample_graph.py:282). *)
Record sample := Sample { s_cp : nat; s_g : graph }.

(** sample_graph.py:275 [self.hash = nodes.union(edges)]: the set [__eq__] (:295-298),
    [is_subgraph] (:369) and [similarity] (:432-434) work on.  Nodes and edges never compare equal. *)
Definition content (g : graph) : gset (node + edge) :=
  set_map inl (g_nodes g) ∪ set_map inr (g_edges g).

(** sample_graph.py:295-298 [__eq__] *)
Definition graph_eqb (a b : graph) : bool := bool_decide (content a = content b).

(** sample_graph.py:279-281 *)
Definition included_variables (g : graph) : gset Var := vars_of (g_nodes g).
Definition is_single_node (g : graph) : bool := bool_decide (g_edges g = ∅).
Definition is_k_0 (g : graph) : bool := bool_decide (g_nodes g = ∅) && bool_decide (g_edges g = ∅).

(** sample_graph.py:300-306 [is_compatible] *)
Definition is_compatible (s : sample) (cp : provider) : bool := bool_decide (s_cp s = cp_id cp).

(** ** SampleGraphBuilder *)

(** sample_graph.py:47-48: [tracing_map[x].add(y)] on a [defaultdict(set)]. *)
Definition tmap_add (m : gmap node (gset node)) (x y : node) : gmap node (gset node) :=
  <[x := {[y]} ∪ default ∅ (m !! x)]> m.

(** sample_graph.py:44-48: building [tracing_map] from the edges. *)
Definition tracing_map (o : oracle) (es : gset edge) : res (gmap node (gset node)) :=
  for_res (fun o' m e =>
      match iter_set o' (endpoints e) with
      | [x; y] => Ok (tmap_add (tmap_add m x y) y x)
      | _ => Err AssertionError
      end) (sub o 0) ∅ (iter_set o es).

(** sample_graph.py:50-54 [trace].  [tracing_map[start_node]] on a missing key would create it; keys are
    never missing here because every neighbour is a key. *)
Fixpoint trace (fuel : nat) (o : oracle) (tm : gmap node (gset node)) (traced : gset node) (n : node)
  : res (gset node) :=
  match fuel with
  | O => Err OutOfFuel
  | S k =>
      if bool_decide (n ∈ traced) then Ok traced
      else for_res (fun o' tr nx => trace k o' tm tr nx) (sub o 0) ({[n]} ∪ traced)
             (iter_set o (default ∅ (tm !! n)))
  end.

(** sample_graph.py:34-57 [is_edges_connected].  [next(iter({}))] raises StopIteration.  The start node
    is the first key inserted; the model lets it be any key. *)
Definition is_edges_connected (o : oracle) (es : gset edge) : res bool :=
  tm ← tracing_map (sub o 0) es;
  match iter_map (sub o 1) tm with
  | [] => Err StopIteration
  | (start, _) :: _ =>
      traced ← trace (S (size tm)) (sub o 2) tm ∅ start;
      Ok (bool_decide (size tm = size traced))
  end.

(** sample_graph.py:59-69 [validate_endpoints] *)
Definition validate_endpoints (eps : gset node) : res unit :=
  _ ← passert (bool_decide (size eps = 2));
  passert (bool_decide (size (vars_of eps) = 2)).

(** sample_graph.py:71-82 the mutable builder state. *)
Record builder := Builder {
  b_cp : provider;
  b_nodes : gset node;
  b_edges : gset edge;
  b_endpoints : gmap (gset node) edge
}.

(** sample_graph.py:71-82 [__init__]; line 82: [{e.endpoints: e for e in self._edges}]. *)
Definition builder_init (o : oracle) (cp : provider) (ns : gset node) (es : gset edge) : builder :=
  Builder cp ns es
    (for_each (fun _ m e => <[endpoints e := e]> m) (sub o 0) ∅ (iter_set o es)).

Definition new_builder (cp : provider) : builder := Builder cp ∅ ∅ ∅.

(** sample_graph.py:84-85 [__copy__] *)
Definition builder_copy (o : oracle) (b : builder) : builder :=
  builder_init o (b_cp b) (b_nodes b) (b_edges b).

(** sample_graph.py:100-109 [build_empty] *)
Definition build_empty (b : builder) : sample := Sample (cp_id (b_cp b)) (Graph ∅ ∅).

(** sample_graph.py:111-122 [build_single_node]: ignores nodes and edges already in the builder. *)
Definition build_single_node (b : builder) (v : Var) (x : Val) : res sample :=
  n ← get_node (b_cp b) v x;
  Ok (Sample (cp_id (b_cp b)) (Graph {[n]} ∅)).

(** sample_graph.py:250-258 [build] *)
Definition build (b : builder) : res sample :=
  _ ← passert (bool_decide (b_nodes b ≠ ∅));
  Ok (Sample (cp_id (b_cp b)) (Graph (b_nodes b) (b_edges b))).

(** The three updates of sample_graph.py:144-146, :167-169, :227-229. *)
Definition put_edge (b : builder) (e : edge) (ns : gset node) : builder :=
  Builder (b_cp b) (ns ∪ b_nodes b) ({[e]} ∪ b_edges b) (<[endpoints e := e]> (b_endpoints b)).

(** sample_graph.py:124-148 [build_from_edges].  The returned builder is the state left behind. *)
Definition build_from_edges (o : oracle) (b : builder) (es : gset edge) (validate : bool)
  : builder * res sample :=
  match (if validate
         then c ← is_edges_connected (sub o 0) es; passert c
         else Ok tt) with
  | Err e => (b, Err e)
  | Ok _ =>
      match for_mut (fun _ b '(eps, r) =>
              match (_ ← validate_endpoints eps;
                     ns ← get_nodes (b_cp b) eps;
                     e ← get_edge (b_cp b) ns r;
                     Ok (ns, e)) with
              | Ok (ns, e) => (put_edge b e ns, Ok tt)
              | Err e => (b, Err e)
              end) (sub o 1) b (iter_set (sub o 2) es) with
      | (b', Ok _) => (b', build b')
      | (b', Err e) => (b', Err e)
      end
  end.

(** sample_graph.py:150-170 [add_relation] *)
Definition add_relation (b : builder) (eps : gset node) (r : relation) : builder * res unit :=
  match (_ ← validate_endpoints eps;
         ns ← get_nodes (b_cp b) eps;
         e ← get_edge (b_cp b) ns r;
         _ ← passert (bool_decide (ns ∩ b_nodes b ≠ ∅) || bool_decide (b_nodes b = ∅));
         _ ← passert (bool_decide (b_endpoints b !! endpoints e = None));
         Ok (ns, e)) with
  | Ok (ns, e) => (put_edge b e ns, Ok tt)
  | Err e => (b, Err e)
  end.

(** sample_graph.py:172-185 [add_directed_relation] *)
Definition add_directed_relation (b : builder) (source target : node) (r : Rel) : builder * res unit :=
  add_relation b {[source; target]} (Directed source.1 target.1 r).

(** sample_graph.py:197 / :219-220: same endpoints already used with another relation. *)
Definition edge_conflict (b : builder) (e : edge) : bool :=
  match b_endpoints b !! endpoints e with
  | None => false
  | Some e' => bool_decide (rel_of e ≠ rel_of e')
  end.

(** sample_graph.py:187-199 [can_sample_be_joined] *)
Definition can_sample_be_joined (b : builder) (s : sample) : res bool :=
  _ ← passert (is_compatible s (b_cp b));
  Ok (bool_decide (set_Forall (fun e => edge_conflict b e = false) (g_edges (s_g s)))).

(** sample_graph.py:210-211 [is_connected] *)
Definition join_connected (b : builder) (e : edge) : bool :=
  bool_decide (endpoints e ∩ b_nodes b ≠ ∅) || bool_decide (b_nodes b = ∅).

(** sample_graph.py:222-226: no endpoint gives a second value to a variable of the builder. *)
Definition join_values_ok (b : builder) (e : edge) : bool :=
  bool_decide (set_Forall (fun n => n.1 ∉ vars_of (b_nodes b) \/ n ∈ b_nodes b) (endpoints e)).

(** sample_graph.py:216-231: one pass of [join_edges] over the edges in iteration order. *)
Fixpoint join_pass (b : builder) (nc : gset edge) (l : list edge) : builder * res (gset edge) :=
  match l with
  | [] => (b, Ok nc)
  | e :: l' =>
      if join_connected b e then
        if edge_conflict b e then (b, Err AssertionError)
        else if join_values_ok b e then join_pass (put_edge b e (endpoints e)) nc l'
        else (b, Err AssertionError)
      else join_pass b ({[e]} ∪ nc) l'
  end.

(** sample_graph.py:213-238 [join_edges] *)
Fixpoint join_edges (fuel : nat) (o : oracle) (b : builder) (es : gset edge) : builder * res unit :=
  match fuel with
  | O => (b, Err OutOfFuel)
  | S k =>
      match join_pass b ∅ (iter_set o es) with
      | (b', Err e) => (b', Err e)
      | (b', Ok nc) =>
          if bool_decide (es = nc) then (b', Err AssertionError)
          else if bool_decide (nc = ∅) then (b', Ok tt)
          else join_edges k (sub o 0) b' nc
      end
  end.

(** sample_graph.py:201-248 [join_sample] *)
Definition join_sample (o : oracle) (b : builder) (s : sample) : builder * res unit :=
  if is_compatible s (b_cp b) then
    if bool_decide (g_edges (s_g s) = ∅) then
      if bool_decide (size (g_nodes (s_g s)) = 1) &&
         (bool_decide (g_nodes (s_g s) ⊆ b_nodes b) || bool_decide (b_nodes b = ∅))
      then (if bool_decide (b_nodes b = ∅)
            then Builder (b_cp b) (g_nodes (s_g s) ∪ b_nodes b) (b_edges b) (b_endpoints b)
            else b, Ok tt)
      else (b, Err AssertionError)
    else join_edges (S (size (g_edges (s_g s)))) o b (g_edges (s_g s))
  else (b, Err AssertionError).

(** ** SampleGraph (methods) *)

(** sample_graph.py:320-333 [edges_set_view]: edges, single node, or None. *)
Inductive view := VEdges (es : gset edge) | VNode (n : node) | VNone.

Definition edges_set_view (o : oracle) (g : graph) : view :=
  if bool_decide (g_edges g ≠ ∅) then VEdges (g_edges g)
  else match iter_set o (g_nodes g) with
       | n :: _ => VNode n
       | [] => VNone
       end.

(** sample_graph.py:352-361 [builder] *)
Definition graph_builder (o : oracle) (cp : provider) (g : graph) : builder :=
  builder_init o cp (g_nodes g) (g_edges g).

(** sample_graph.py:363-369 [is_subgraph] *)
Definition is_subgraph (a b : graph) : bool := bool_decide (content a ⊆ content b).

(** sample_graph.py:371-380 [value_for_variable]: first matching node in iteration order. *)
Definition value_for_variable (o : oracle) (g : graph) (v : Var) : option Val :=
  match List.find (fun n : node => bool_decide (n.1 = v)) (iter_set o (g_nodes g)) with
  | Some n => Some n.2
  | None => None
  end.

(** sample_graph.py:393-396 [transform_nodes] for one node. *)
Definition transform_node (cp : provider) (d : gmap Var Val) (n : node) : res node :=
  match d !! n.1 with
  | Some x => get_node cp n.1 x
  | None => Ok n
  end.

(** sample_graph.py:393-396 [transform_nodes]; only AssertionError can be raised, so the order in which
    the set comprehension evaluates does not matter. *)
Definition transform_nodes (cp : provider) (d : gmap Var Val) (X : gset node) : res (gset node) :=
  l ← map_res (fun _ n => transform_node cp d n) (fun _ => []) (elements X);
  Ok (list_to_set l).

(** sample_graph.py:398-402 [transform_edges] *)
Definition transform_edge (cp : provider) (d : gmap Var Val) (e : edge) : res edge :=
  if bool_decide (vars_of (endpoints e) ∩ dom d = ∅) then Ok e
  else ns ← transform_nodes cp d (endpoints e); get_edge cp ns (rel_of e).

Definition transform_edges (o : oracle) (cp : provider) (d : gmap Var Val) (X : gset edge)
  : res (gset edge) :=
  l ← map_res (fun _ e => transform_edge cp d e) (sub o 0) (iter_set o X);
  Ok (list_to_set l).

(** sample_graph.py:382-407 [transform_with_replaced_values].  The boolean says whether the very same
    instance is returned. *)
Definition transform_with_replaced_values (o : oracle) (cp : provider) (d : gmap Var Val) (g : graph)
  : res (bool * graph) :=
  ns ← transform_nodes cp d (g_nodes g);
  es ← transform_edges o cp d (g_edges g);
  if bool_decide (ns = g_nodes g) && bool_decide (es = g_edges g)
  then Ok (true, g) else Ok (false, Graph ns es).

(** [not relation_filter or e.relation in relation_filter] (sample_graph.py:424, :452). *)
Definition rel_allowed (f : option (gset relation)) (e : edge) : bool :=
  match f with
  | None => true
  | Some F => bool_decide (F = ∅) || bool_decide (rel_of e ∈ F)
  end.

(** sample_graph.py:409-424 [neighboring_values]: dict comprehension in iteration order. *)
Definition neighboring_values (o : oracle) (g : graph) (c : node) (f : option (gset relation))
  : res (gmap node edge) :=
  for_res (fun o' m e =>
      if is_endpoint e c && rel_allowed f e
      then n ← opposite_endpoint o' e c; Ok (<[n := e]> m)
      else Ok m) (sub o 0) ∅ (iter_set o (g_edges g)).

(** sample_graph.py:426-434 [similarity] *)
Definition similarity (a b : graph) : res Qc :=
  let i := content a ∩ content b in
  let d := (content a ∖ content b) ∪ (content b ∖ content a) in
  py_div (Z.of_nat (size i)) (Z.of_nat (size i) + Z.of_nat (size d)).

(** sample_graph.py:436-462 [belt_nodes] *)
Definition belt_step (centers : gset node) (f : option (gset relation)) (o : oracle)
    (acc : gmap node (gset edge)) (e : edge) : res (gmap node (gset edge)) :=
  if rel_allowed f e then
    match iter_set o (endpoints e ∖ centers) with
    | [n] =>
        match acc !! n with
        | Some X => _ ← passert (bool_decide (e ∉ X)); Ok (<[n := {[e]} ∪ X]> acc)
        | None => Ok (<[n := {[e]}]> acc)
        end
    | _ => Ok acc
    end
  else Ok acc.

Definition belt_nodes (o : oracle) (g : graph) (centers : gset node) (f : option (gset relation))
  : res (gmap node (gset edge)) :=
  _ ← passert (bool_decide (centers ≠ ∅));
  for_res (belt_step centers f) (sub o 0) ∅ (iter_set o (g_edges g)).

(** sample_graph.py:464-488 [external_nodes] *)
Definition external_merge (o : oracle) (acc : gmap node (gset edge)) (m : gmap node (gset edge))
  : res (gmap node (gset edge)) :=
  for_res (fun _ acc '(n, es) =>
      match acc !! n with
      | Some X => _ ← passert (bool_decide (X ∩ es = ∅)); Ok (<[n := es ∪ X]> acc)
      | None => Ok (<[n := es]> acc)
      end) (sub o 0) acc (iter_map o m).

Fixpoint external_nodes_fuel (fuel : nat) (o : oracle) (g : graph) (internal : gset node)
    (f : option (gset relation)) : res (gmap node (gset edge)) :=
  match fuel with
  | O => Err OutOfFuel
  | S k =>
      acc ← belt_nodes (sub o 0) g internal f;
      if bool_decide (acc = ∅) then Ok ∅
      else
        rest ← external_nodes_fuel k (sub o 1) g (internal ∪ dom acc) f;
        external_merge (sub o 2) acc rest
  end.

(** Every recursive call adds at least one endpoint of an edge to [internal]. *)
Definition external_nodes (o : oracle) (g : graph) (internal : gset node)
    (f : option (gset relation)) : res (gmap node (gset edge)) :=
  external_nodes_fuel (S (size (⋃ (endpoints <$> elements (g_edges g))))) o g internal f.

(** sample_graph.py:490-499 [variables_subgraph_hash] *)
Definition variables_subgraph_hash (g : graph) (vs : gset Var) : gset (node + edge) :=
  set_map inl (filter (fun n : node => n.1 ∈ vs) (g_nodes g)) ∪
  set_map inr (filter (fun e : edge => vars_of (endpoints e) ⊆ vs) (g_edges g)).

(** sample_graph.py:501-507 [edges_endpoint_variables] *)
Definition edges_endpoint_variables (g : graph) : gset (gset Var) :=
  set_map (fun e : edge => vars_of (endpoints e)) (g_edges g).

(** sample_graph.py:509-517 [single_node_variable]: [list(self.nodes)[0]] raises IndexError on the
    empty sample. *)
Definition single_node_variable (o : oracle) (g : graph) : res Var :=
  _ ← passert (is_single_node g);
  match iter_set o (g_nodes g) with
  | n :: _ => Ok n.1
  | [] => Err IndexError
  end.

(** sample_graph.py:519-524 [values] *)
Definition values (g : graph) : gset (Var * Val) := g_nodes g.

(** sample_graph.py:526-536 [have_value] *)
Definition have_value (g : graph) (v : Var) (x : Val) : bool := bool_decide ((v, x) ∈ g_nodes g).

(** sample_graph.py:538-547 [have_variable] *)
Definition have_variable (g : graph) (v : Var) : bool :=
  existsb (fun n : node => bool_decide (n.1 = v)) (elements (g_nodes g)).

End sample_graph.
