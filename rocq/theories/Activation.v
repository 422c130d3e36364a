(** * Activation: model of conditional_graph.py and activation_graph.py *)

From Verif Require Export RelationGraph.

Section activation.
Context {U : Universe}.

(** activation_graph.py:28-37 [ActiveNode] (variable: the key under which it is stored). *)
Record anode := ANode { an_values : gmap Val Qc; an_in_query : bool }.

(** activation_graph.py:53-62 [ActiveEdge] (endpoints: the key under which it is stored). *)
Record aedge := AEdge { ae_relations : gmap relation Z; ae_in_query : bool }.

(** activation_graph.py:81-96 [ActivationGraph] *)
Record agraph := AGraph {
  ag_total : Z;
  ag_nodes : gmap Var anode;
  ag_edges : gmap (gset Var) aedge
}.

Definition zq (z : Z) : Qc := Q2Qc (inject_Z z).

(** conditional_graph.py:88-93: weights of one outcome. *)
Definition act_node (acc : gmap Var anode) (n : node) (w : Qc) (in_q : bool) : res (gmap Var anode) :=
  match acc !! n.1 with
  | None => Err KeyError
  | Some a =>
      _ ← passert (eqb in_q (an_in_query a));
      match an_values a !! n.2 with
      | None => Err KeyError
      | Some w0 => Ok (<[n.1 := ANode (<[n.2 := (w0 + w)%Qc]> (an_values a)) (an_in_query a)]> acc)
      end
  end.

(** conditional_graph.py:95-104: edge counts of one outcome. *)
Definition act_edge (acc : gmap (gset Var) aedge) (e : edge) (c : Z) (in_q : bool)
  : res (gmap (gset Var) aedge) :=
  let ep := vars_of (endpoints e) in
  match acc !! ep with
  | Some a =>
      _ ← passert (eqb in_q (ae_in_query a));
      Ok (<[ep := AEdge (<[rel_of e := (default 0 (ae_relations a !! rel_of e) + c)%Z]> (ae_relations a))
                        (ae_in_query a)]> acc)
  | None => Ok (<[ep := AEdge {[rel_of e := c]} in_q]> acc)
  end.

(** conditional_graph.py:75-104: one outcome.  The assertion on lines 85-86 compares pairs that differ
    in their second component and cannot fail. *)
Definition act_outcome (o : oracle) (ev : graph) (f : option (gset relation))
    (acc : gmap Var anode * gmap (gset Var) aedge) (g : graph) (c : Z)
  : res (gmap Var anode * gmap (gset Var) aedge) :=
  sim ← similarity g ev;
  ext ← external_nodes (sub o 0) g (g_nodes ev) f;
  let out_nodes : gmap node (Qc * bool) := (fun _ => ((sim * zq c)%Qc, false)) <$> ext in
  let in_nodes : gmap node (Qc * bool) := gset_to_gmap (zq c, true) (g_nodes ev ∩ g_nodes g) in
  let out_edges : gset (edge * bool) :=
    set_map (fun e => (e, false)) (⋃ (map_to_list ext).*2) in
  let in_edges : gset (edge * bool) := set_map (fun e => (e, true)) (g_edges ev) in
  _ ← passert (bool_decide (dom out_nodes ∩ dom in_nodes = ∅));
  _ ← passert (bool_decide (out_edges ∩ in_edges = ∅));
  na ← for_res (fun _ na '(n, (w, q)) => act_node na n w q) (sub o 1) acc.1
         (iter_map (sub o 2) (in_nodes ∪ out_nodes));
  ea ← for_res (fun _ ea '(e, q) => act_edge ea e c q) (sub o 3) acc.2
         (iter_set (sub o 4) (out_edges ∪ in_edges));
  Ok (na, ea).

(** conditional_graph.py:59-113 [activation_graph]; ActiveEdge's constructor asserts two endpoints
    (variables_graph.py:56-58). *)
Definition activation_graph (o : oracle) (cg : cgraph) (f : option (gset relation)) : res agraph :=
  let ev := s_g (cg_evidence cg) in
  let sp := cg_space cg in
  let init := map_imap (fun v X => Some (ANode (gset_to_gmap (Q2Qc 0) X)
                                          (bool_decide (v ∈ included_variables ev))))
                (cp_vars (sp_cp sp)) in
  '(na, ea) ← for_res (fun o' acc '(g, c) => act_outcome o' ev f acc g c) (sub o 0) (init, ∅)
                (ss_items (sub o 1) (sp_out sp));
  let len := ss_length (sp_out sp) in
  nodes ← for_res (fun _ acc '(v, a) =>
            if bool_decide (an_values a ≠ ∅) && bool_decide (len = 0%Z) then Err ZeroDivisionError
            else Ok (<[v := ANode ((fun w => (w / zq len)%Qc) <$> an_values a) (an_in_query a)]> acc))
            (sub o 2) ∅ (iter_map (sub o 3) na);
  edges ← for_res (fun _ acc '(ep, a) =>
            _ ← passert (bool_decide (size (ep : gset Var) = 2)); Ok (<[ep := a]> acc))
            (sub o 4) ∅ (iter_map (sub o 5) (ea : gmap (gset Var) aedge));
  Ok (AGraph len nodes edges).

End activation.
