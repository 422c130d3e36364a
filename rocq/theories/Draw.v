(** * Draw: what the [visualize] methods draw

    A drawing is a [pyvis.network.Network], an undirected multigraph with two methods, modelled after pyvis 0.1 to 0.3:
    [add_node(n_id, label, color)] asserts that the id is a [str] or an [int] and ignores an id it already has;
    [add_edge(source, to, label, color)] asserts that both ends are nodes and ignores a pair it already has.  The labels
    are texts as in Text.v; the names of the files are left out. *)

From Coq Require Import Ascii String ZArith.
From stdpp Require Import list pretty.
From Verif Require Export Text ActFloats.

Local Notation txt := (list N).



Section network.
Context {I : Type} `{EqDecision I}.

(** The nodes with label and colour, the edges with both ends, label and colour; [None] is the default colour. *)
Record network := Network { nw_nodes : list (I * (txt * option txt)); nw_edges : list (I * I * (txt * option txt)) }.

Inductive dcall := DNode (i : I) (label : txt) (color : option txt) | DEdge (a b : I) (label : txt) (color : option txt).

Definition same_pair (a b : I) (e : I * I * (txt * option txt)) : bool :=
  bool_decide ((a = e.1.2 /\ b = e.1.1) \/ (a = e.1.1 /\ b = e.1.2)).

Definition do_call (drawable : I -> bool) (net : network) (c : dcall) : res network :=
  match c with
  | DNode i l k =>
      _ ← passert (drawable i);
      Ok (if bool_decide (i ∈ (nw_nodes net).*1) then net else Network (nw_nodes net ++ [(i, (l, k))]) (nw_edges net))
  | DEdge a b l k =>
      _ ← passert (bool_decide (a ∈ (nw_nodes net).*1));
      _ ← passert (bool_decide (b ∈ (nw_nodes net).*1));
      Ok (if existsb (same_pair a b) (nw_edges net) then net else Network (nw_nodes net) (nw_edges net ++ [(a, b, (l, k))]))
  end.

Definition do_calls (drawable : I -> bool) (o : oracle) (net : network) (l : list dcall) : res network :=
  for_res (fun _ net c => do_call drawable net c) o net l.
Definition blank : network := Network [] [].
End network.
Arguments network : clear implicits.
Arguments dcall : clear implicits.

Section draw.
Context {U : Universe}.
Context (sv : Var -> txt) (sx : Val -> txt) (sr : Rel -> txt).

(** graph_components.py:33 *)
Definition string_id (n : node) : txt := sv n.1 ++ lit "_" ++ sx n.2.

(** [list(edge.endpoints)[0]] and [[1]]; IndexError cannot occur for edges, they have two ends (so the last case). *)
Definition edge_ends (o : oracle) (e : edge) : option (node * node) :=
  match iter_set o (endpoints e) with
  | a :: b :: _ => Some (a, b)
  | _ => None
  end.

(** The calls for the edges of a graph; [ident] makes the id of a node. *)
Definition edge_calls (ident : node -> txt) (color : option txt) (o : oracle) (es : list edge) : list (dcall txt) :=
  imap (fun i e => (i, e)) es ≫= fun '(i, e) =>
    match edge_ends (sub o i) e with
    | Some (a, b) => [DEdge (ident a) (ident b) (rel_text sv sr (rel_of e)) color]
    | None => []
    end.

(** sample_graph.py:335-350 [SampleGraph.visualize]; [edge.a], [edge.b] (graph_components.py:64-69) were chosen when the
    edge was made, in any order. *)
Definition sample_calls (o : oracle) (g : graph) : list (dcall txt) :=
  ((fun n => DNode (string_id n) (string_id n) None) <$> iter_set o (g_nodes g)) ++
  edge_calls string_id None (sub o 0) (iter_set (sub o 1) (g_edges g)).
Definition sample_visualize (o : oracle) (g : graph) : res (network txt) :=
  do_calls (fun _ => true) (sub o 2) blank (sample_calls o g).

(** sample_space.py:195-227 [visualize_outcomes]; [name] gives the names of the outcomes. *)
Definition outcome_id (i : nat) (n : node) : txt := string_id n ++ int_text (Z.of_nat i).
Definition query_id (n : node) : txt := string_id n ++ lit "_query".

Definition outcome_calls (name : graph -> txt) (o : oracle) (i : nat) (g : graph) (c : Z) : res (list (dcall txt)) :=
  match iter_set o (g_nodes g) with
  | [] => Err IndexError
  | h :: ns =>
      Ok (DNode (outcome_id i h) (string_id h ++ lit "@" ++ name g ++ lit "(" ++ int_text c ++ lit ")") None ::
          ((fun n => DNode (outcome_id i n) (string_id n) None) <$> ns) ++
          edge_calls (outcome_id i) None (sub o 0) (iter_set (sub o 1) (g_edges g)))
  end.
Definition evidence_calls (o : oracle) (ev : graph) : list (dcall txt) :=
  ((fun n => DNode (query_id n) (string_id n) (Some (lit "red"))) <$> iter_set o (g_nodes ev)) ++
  edge_calls query_id (Some (lit "red")) (sub o 0) (iter_set (sub o 1) (g_edges ev)).
Definition visualize_outcomes (name : graph -> txt) (o : oracle) (ss : samples) (ev : option graph) : res (network txt) :=
  '(net, _) ← for_res (fun o' '(net, i) '(g, c) =>
      calls ← outcome_calls name o' i g c;
      net' ← do_calls (fun _ => true) (sub o' 2) net calls;
      Ok (net', S i)) (sub o 0) (blank, 0) (ss_items (sub o 1) ss);
  match ev with
  | Some g => do_calls (fun _ => true) (sub o 2) net (evidence_calls (sub o 3) g)
  | None => Ok net
  end.

(** [",".join({f"..." for ...})]: a set of texts in any order *)
Definition join_set (o : oracle) (sep : txt) (l : list txt) : txt := Text.join sep (iter_set o (list_to_set l : gset txt)).

(** folded_graph.py:134-164 [FoldedGraph.visualize]; [drawable] says which variables are of type [str] or [int]. *)
Definition folded_label (o : oracle) (v : Var) (fn : fnode) : txt :=
  sv v ++ lit ":{" ++
  join_set o (lit ",") ((fun '(n, c) => sx (n : node).2 ++ lit "(" ++ int_text c ++ lit ")") <$> map_to_list (fn_counts fn)) ++
  lit ", u(" ++ int_text (unobserved_count fn) ++ lit ")}".
Definition folded_edge_label (o : oracle) (m : gmap edge Z) : txt :=
  lit "{" ++
  join_set o (lit ",") ((fun '(e, c) => rel_text sv sr (rel_of (e : edge)) ++ lit "(" ++ int_text c ++ lit ")") <$> map_to_list m) ++
  lit "}".
Definition absent_label (o : oracle) (v : Var) (X : gset Val) (total : Z) : txt :=
  sv v ++ lit ":{" ++ Text.join (lit ",") ((fun x => sx x ++ lit "(0)") <$> iter_set o X) ++ lit ", u(" ++ int_text total ++ lit ")}".
Definition var_ends (o : oracle) (ep : gset Var) : option (Var * Var) :=
  match iter_set o ep with
  | a :: b :: _ => Some (a, b)
  | _ => None
  end.

Definition folded_calls (o : oracle) (cp : provider) (fg : fgraph) : list (dcall Var) :=
  imap (fun i '(v, fn) => DNode v (folded_label (sub (sub o 0) i) v fn) None) (iter_map (sub o 1) (fg_nodes fg)) ++
  (imap (fun i e => (i, e)) (iter_map (sub o 2) (fg_edges fg)) ≫= fun '(i, (ep, m)) =>
     match var_ends (sub (sub o 3) i) ep with
     | Some (a, b) => [DEdge a b (folded_edge_label (sub (sub o 4) i) m) None]
     | None => []
     end) ++
  (imap (fun i e => (i, e)) (iter_map (sub o 5) (cp_vars cp)) ≫= fun '(i, (v, X)) =>
     match fg_nodes fg !! v with
     | None => [DNode v (absent_label (sub (sub o 6) i) v X (fg_total fg)) (Some (lit "gray"))]
     | Some _ => []
     end).
Definition folded_visualize (drawable : Var -> bool) (o : oracle) (cp : provider) (fg : fgraph) : res (network Var) :=
  do_calls drawable (sub o 7) blank (folded_calls o cp fg).

(** activation_graph.py:98-126 [ActivationGraph.visualize]; [sw] prints floats. *)
Context (sw : b64 -> txt).
Definition active_label (o : oracle) (v : Var) (a : fanode) : txt :=
  sv v ++ lit ":{" ++ Text.join (lit ", ") ((fun '(x, w) => sx x ++ lit "=" ++ sw w) <$> iter_map o (fa_values a)) ++ lit "}".
Definition inactive_label (o : oracle) (X : gset Val) : txt :=
  lit "{" ++ Text.join (lit ", ") ((fun x => sx x ++ lit "=0") <$> iter_set o X) ++ lit "}".
Definition active_edge_label (o : oracle) (e : aedge) : txt :=
  lit "{" ++
  join_set o (lit ", ") ((fun '(r, c) => rel_text sv sr r ++ lit "(" ++ int_text c ++ lit ")") <$> map_to_list (ae_relations e)) ++
  lit "}".
Definition active_node_call (o : oracle) (ag : fagraph) (v : Var) (X : gset Val) : res (dcall Var) :=
  match fa_nodes ag !! v with
  | None => Ok (DNode v (inactive_label o X) (Some (lit "black")))
  | Some a => k ← node_color (sub o 0) a; Ok (DNode v (active_label (sub o 1) v a) (Some (lit k)))
  end.
Definition active_edge_calls (o : oracle) (ag : fagraph) : list (dcall Var) :=
  imap (fun i e => (i, e)) (iter_map o (fa_edges ag)) ≫= fun '(i, (ep, e)) =>
    match var_ends (sub (sub o 0) i) ep with
    | Some (a, b) => [DEdge a b (active_edge_label (sub (sub o 1) i) e) (Some (lit (if ae_in_query e then "green" else "red")))]
    | None => []
    end.
Definition active_visualize (drawable : Var -> bool) (o : oracle) (cp : provider) (ag : fagraph) : res (network Var) :=
  net ← for_res (fun o' net '(v, X) => c ← active_node_call o' ag v X; do_call drawable net c) (sub o 0) blank
          (iter_map (sub o 1) (cp_vars cp));
  do_calls drawable (sub o 2) net (active_edge_calls (sub o 3) ag).
End draw.
