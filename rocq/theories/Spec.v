(** * Spec: specification vocabulary, independent of the model's functions.

    Only the data types (node, edge, graph, provider, ...) are shared with the model. *)

From Verif Require Export SampleSpace.

Section spec.
Context {U : Universe}.

(** ** Graph notions *)

(** Two nodes on a common edge. *)
Definition link (es : gset edge) (x y : node) : Prop := exists e, e ∈ es /\ x ∈ e.1 /\ y ∈ e.1.

(** A node is an endpoint of some edge. *)
Definition touches (es : gset edge) (n : node) : Prop := exists e, e ∈ es /\ n ∈ e.1.

(** Any two endpoint nodes are joined by a path. *)
Definition edges_linked (es : gset edge) : Prop :=
  forall x y, touches es x -> touches es y -> rtc (link es) x y.

(** Any two nodes of the graph are joined by a path of its edges. *)
Definition connected (g : graph) : Prop :=
  forall x y, x ∈ g_nodes g -> y ∈ g_nodes g -> rtc (link (g_edges g)) x y.

(** Two nodes with different variables. *)
Definition two_nodes (eps : gset node) : Prop :=
  exists x y, eps = {[x; y]} /\ x.1 <> y.1.

(** What the provider declares. *)
Definition declared (cp : provider) (n : node) : Prop :=
  exists X, cp_vars cp !! n.1 = Some X /\ n.2 ∈ X.

Definition has_var (X : gset node) (v : Var) : Prop := exists x, (v, x) ∈ X.

Definition rel_legal (cp : provider) (eps : gset node) (r : relation) : Prop :=
  match r with
  | Plain r => r ∈ cp_rels cp
  | Directed s t r => r ∈ cp_rels cp /\ has_var eps s /\ has_var eps t
  end.

Definition edge_legal (cp : provider) (e : edge) : Prop :=
  two_nodes e.1 /\ (forall n, n ∈ e.1 -> declared cp n) /\ rel_legal cp e.1 e.2.

(** At most one edge per pair of nodes. *)
Definition simple (es : gset edge) : Prop :=
  forall e e', e ∈ es -> e' ∈ es -> e.1 = e'.1 -> e = e'.

(** At most one value per variable. *)
Definition single_valued (X : gset node) : Prop :=
  forall v x y, (v, x) ∈ X -> (v, y) ∈ X -> x = y.

(** Well-formed graphs: declared, edges inside the node set, connected. *)
Record wf_graph (cp : provider) (g : graph) : Prop := {
  wf_nodes : forall n, n ∈ g_nodes g -> declared cp n;
  wf_edges : forall e, e ∈ g_edges g -> edge_legal cp e;
  wf_inside : forall e, e ∈ g_edges g -> e.1 ⊆ g_nodes g;
  wf_conn : connected g
}.

(** ** Builder histories *)

(** Every state a sample graph builder can be in: created by the constructor from any sets, then any
    calls, including those that raised. *)
Inductive builder_state : builder -> Prop :=
  | bs_init o cp ns es : builder_state (builder_init o cp ns es)
  | bs_add b eps r : builder_state b -> builder_state (add_relation b eps r).1
  | bs_join o b s : builder_state b -> builder_state (join_sample o b s).1
  | bs_from_edges o b es v : builder_state b -> builder_state (build_from_edges o b es v).1.

(** When [add_relation] should accept. *)
Definition add_legal (b : builder) (eps : gset node) (r : relation) : Prop :=
  edge_legal (b_cp b) (eps, r) /\
  (b_nodes b = ∅ \/ exists n, n ∈ eps /\ n ∈ b_nodes b) /\
  (forall e, e ∈ b_edges b -> e.1 <> eps).

(** When [join_sample] should accept a sample with edges: *)
Definition join_reachable (N : gset node) (E : gset edge) : Prop :=
  (N = ∅ -> edges_linked E) /\
  (N <> ∅ -> forall e, e ∈ E -> exists n m, n ∈ N /\ m ∈ e.1 /\ rtc (link E) n m).

Definition join_no_conflict (B E : gset edge) : Prop :=
  forall e e', e ∈ E -> e' ∈ B ∪ E -> e.1 = e'.1 -> e = e'.

Definition join_values_match (N : gset node) (E : gset edge) : Prop :=
  forall n n', touches E n -> n ∉ N -> n' ∈ N \/ touches E n' -> n.1 = n'.1 -> n = n'.

Definition join_legal (b : builder) (s : sample) : Prop :=
  s_cp s = cp_id (b_cp b) /\
  if decide (g_edges (s_g s) = ∅)
  then exists n, g_nodes (s_g s) = {[n]} /\ (b_nodes b = ∅ \/ n ∈ b_nodes b)
  else join_reachable (b_nodes b) (g_edges (s_g s)) /\
       join_no_conflict (b_edges b) (g_edges (s_g s)) /\
       join_values_match (b_nodes b) (g_edges (s_g s)).

(** Calls of a client that builds a graph step by step. *)
Inductive build_op :=
  | OpAdd (eps : gset node) (r : relation)
  | OpDirected (source target : node) (r : Rel)
  | OpJoin (o : oracle) (s : sample).

Definition run_op (b : builder) (op : build_op) : builder :=
  match op with
  | OpAdd eps r => (add_relation b eps r).1
  | OpDirected s t r => (add_directed_relation b s t r).1
  | OpJoin o s => (join_sample o b s).1
  end.

Definition run_ops (b : builder) (ops : list build_op) : builder := foldl run_op b ops.

(** What the caller must guarantee for a call: a joined sample of the same provider has legal edges (or
    one declared node).  Every sample the library itself builds qualifies. *)
Definition op_ok (cp : provider) (op : build_op) : Prop :=
  match op with
  | OpJoin _ s => s_cp s = cp_id cp ->
      (forall e, e ∈ g_edges (s_g s) -> edge_legal cp e) /\
      (forall n, n ∈ g_nodes (s_g s) -> declared cp n)
  | _ => True
  end.

(** Calls that are refused on an empty builder. *)
Definition op_refused (cp : provider) (op : build_op) : Prop :=
  match op with
  | OpAdd eps r => ~ edge_legal cp (eps, r)
  | OpDirected s t r => ~ edge_legal cp ({[s; t]}, Directed s.1 t.1 r)
  | OpJoin _ s => s_cp s <> cp_id cp \/ (g_edges (s_g s) = ∅ /\ size (g_nodes (s_g s)) <> 1)
  end.

(** ** Views *)

(** What [edges_set_view] shows. *)
Definition view_of (g : graph) (w : view) : Prop :=
  match w with
  | VEdges es => es = g_edges g /\ es <> ∅
  | VNode n => g_edges g = ∅ /\ n ∈ g_nodes g
  | VNone => g_edges g = ∅ /\ g_nodes g = ∅
  end.

(** A client program: feed a view back to a fresh builder. *)
Definition rebuild (o : oracle) (cp : provider) (w : view) : res sample :=
  match w with
  | VEdges es => (build_from_edges o (new_builder cp) es true).2
  | VNode (v, x) => build_single_node (new_builder cp) v x
  | VNone => Ok (build_empty (new_builder cp))
  end.

(** ** Replacement of values *)

Definition repl_node (d : gmap Var Val) (n : node) : node := (n.1, default n.2 (d !! n.1)).
Definition repl_edge (d : gmap Var Val) (e : edge) : edge := (set_map (repl_node d) e.1, e.2).
Definition repl_graph (d : gmap Var Val) (g : graph) : graph :=
  Graph (set_map (repl_node d) (g_nodes g)) (set_map (repl_edge d) (g_edges g)).

(** Every replaced node of [X] is declared. *)
Definition repl_ok (cp : provider) (d : gmap Var Val) (X : gset node) : Prop :=
  forall n, n ∈ X -> is_Some (d !! n.1) -> declared cp (repl_node d n).

(** ** Comparison: numbers of shared and of all nodes and edges *)

Definition shared (a b : graph) : Z :=
  (Z.of_nat (size (g_nodes a ∩ g_nodes b)) + Z.of_nat (size (g_edges a ∩ g_edges b)))%Z.
Definition total (a b : graph) : Z :=
  (Z.of_nat (size (g_nodes a ∪ g_nodes b)) + Z.of_nat (size (g_edges a ∪ g_edges b)))%Z.

(** ** Distances *)

(** Edges passing the relation filter; an empty filter is no filter. *)
Definition allowed (f : option (gset relation)) (e : edge) : Prop :=
  match f with None => True | Some F => F = ∅ \/ e.2 ∈ F end.

(** Joined by an allowed edge. *)
Definition neighbour (g : graph) (f : option (gset relation)) (c n : node) (e : edge) : Prop :=
  e ∈ g_edges g /\ allowed f e /\ n <> c /\ e.1 = {[c; n]}.

Definition alink (g : graph) (f : option (gset relation)) (x y : node) : Prop :=
  exists e, e ∈ g_edges g /\ allowed f e /\ x ∈ e.1 /\ y ∈ e.1.

(** [n] is at most [k] allowed edges away from the set [C]. *)
Definition within (g : graph) (f : option (gset relation)) (C : gset node) (k : nat) (n : node) : Prop :=
  exists m, m ∈ C /\ bsteps (alink g f) k m n.

(** [n] is exactly [k] allowed edges away from [C]. *)
Definition dist (g : graph) (f : option (gset relation)) (C : gset node) (k : nat) (n : node) : Prop :=
  within g f C k n /\ forall j, j < k -> ~ within g f C j n.

(** [e] is an allowed edge from a node of [C] to the outside node [n]. *)
Definition belt_edge (g : graph) (f : option (gset relation)) (C : gset node) (n : node) (e : edge) : Prop :=
  e ∈ g_edges g /\ allowed f e /\ n ∈ e.1 /\ n ∉ C /\ exists m, m ∈ e.1 /\ m ∈ C.

(** [e] enters [n] from a node one step closer to [C]. *)
Definition closer_edge (g : graph) (f : option (gset relation)) (C : gset node) (n : node) (e : edge) : Prop :=
  e ∈ g_edges g /\ allowed f e /\ n ∈ e.1 /\
  exists k m, dist g f C (S k) n /\ dist g f C k m /\ m ∈ e.1.

(** The result expected from [external_nodes]. *)
Definition external_ok (g : graph) (f : option (gset relation)) (C : gset node)
    (m : gmap node (gset edge)) : Prop :=
  forall n, match m !! n with
            | Some X => X <> ∅ /\ forall e, e ∈ X <-> closer_edge g f C n e
            | None => forall e, ~ closer_edge g f C n e
            end.

End spec.
