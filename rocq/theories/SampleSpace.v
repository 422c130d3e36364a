(** * SampleSpace: model of sample_space.py, folded_graph.py and variables_graph.py *)

From Verif Require Export SampleSet.

Section sample_space.
Context {U : Universe}.

(** sample_space.py:42-53 [SampleSpace.__init__] (name and evidence: see Text.v and Activation.v). *)
Record space := Space { sp_cp : provider; sp_out : samples }.

(** sample_space.py:75-84 [relation_graph] *)
Definition sp_relation_graph (sp : space) : space := Space (sp_cp sp) (sp_out sp).

(** sample_space.py:86-91 [sample_builder] *)
Definition sp_sample_builder (sp : space) : builder := new_builder (sp_cp sp).

(** sample_space.py:93-100 [outcomes_as_edges_sets].  Only samples with different content occur, and
    content determines the view, so the frozenset is given as the list of its pairs. *)
Definition outcomes_as_edges_sets (o : oracle) (sp : space) : list (view * Z) :=
  (fun kv => (edges_set_view (sub o 0) kv.1, kv.2)) <$> ss_items o (sp_out sp).

(** [{v: p / d for v, p in values.items()}] *)
Definition div_all `{Countable K} (m : gmap K Z) (d : Z) : res (gmap K Qc) :=
  if bool_decide (m ≠ ∅) && bool_decide (d = 0%Z) then Err ZeroDivisionError
  else Ok ((fun c => qdiv c d) <$> m).

(** sample_space.py:116-123: counting values.  [value_for_variable] cannot return None here because
    [in_var] is one of the included variables. *)
Definition marginal_groups (o : oracle) (sp : space) (vars : gset Var) : gmap Var (gmap Val Z) :=
  for_each (fun o' acc '(g, c) =>
      for_each (fun o'' acc v =>
          if bool_decide (v ∈ vars) then
            match value_for_variable o'' g v with
            | None => acc
            | Some x =>
                match acc !! v with
                | Some m => <[v := <[x := (default 0 (m !! x) + c)%Z]> m]> acc
                | None => <[v := {[x := c]}]> acc
                end
            end
          else acc) (sub o' 0) acc (iter_set o' (included_variables g)))
    (sub o 0) ∅ (ss_items o (sp_out sp)).

(** sample_space.py:102-143 [marginal_variables_probability]; [variables if variables else ...] treats
    the empty set like None (line 111). *)
Definition marginal_variables_probability (o : oracle) (sp : space) (variables : option (gset Var))
    (unobserved : bool) : res (gmap Var (gmap Val Qc)) :=
  let all := dom (cp_vars (sp_cp sp)) in
  let vars := match variables with
              | None => all
              | Some X => if bool_decide (X = ∅) then all else X
              end in
  let groups := marginal_groups (sub o 0) sp vars in
  let len := ss_length (sp_out sp) in
  norm ← for_res (fun _ acc '(v, m) =>
      let c_sum := zsum (map_to_list m).*2 in
      _ ← passert (bool_decide (0 <= c_sum)%Z && bool_decide (c_sum <= len)%Z);
      d ← (if unobserved : bool
           then div_all (<[val_u := (len - c_sum)%Z]> m) len
           else div_all m c_sum);
      Ok (<[v := d]> acc)) (sub o 1) ∅ (iter_map (sub o 2) groups);
  _ ← for_res (fun _ _ '(v, d) => passert (isclose_one (qsum (map_to_list d).*2)))
        (sub o 3) tt (iter_map (sub o 4) norm);
  Ok norm.

(** sample_space.py:145-156 [included_variables] as a map from variables to value sets (the Python
    frozenset of pairs has one pair per variable). *)
Definition sp_included_variables (o : oracle) (sp : space) : gmap Var (gset Val) :=
  for_each (fun o' acc g =>
      for_each (fun _ acc (n : node) => <[n.1 := default ∅ (acc !! n.1) ∪ {[n.2]}]> acc)
        (sub o' 0) acc (iter_set o' (g_nodes g)))
    (sub o 0) ∅ (iter_set o (ss_samples (sp_out sp))).

(** sample_space.py:158-163 [included_relations] *)
Definition sp_included_relations (sp : space) : gset relation :=
  list_to_set (g ← elements (ss_samples (sp_out sp)); e ← elements (g_edges g); [rel_of e]).

(** folded_graph.py:28-38 [FoldedNode]; the variable is the key under which it is stored. *)
Record fnode := FNode {
  fn_values : gset Val;
  fn_counts : gmap node Z;
  fn_total : Z
}.

(** folded_graph.py:108-124 [FoldedGraph], variables_graph.py:76-94: folded nodes by variable and folded
    edges (relation edge counts) by endpoint variables. *)
Record fgraph := FGraph {
  fg_total : Z;
  fg_nodes : gmap Var fnode;
  fg_edges : gmap (gset Var) (gmap edge Z)
}.

(** [acc[k][x] = acc[k].get(x, 0) + count] or a new inner dict (sample_space.py:176-186). *)
Definition count2 {K1 K2} `{Countable K1} `{Countable K2} (acc : gmap K1 (gmap K2 Z)) (k : K1) (x : K2)
    (c : Z) : gmap K1 (gmap K2 Z) :=
  match acc !! k with
  | Some m => <[k := <[x := (default 0 (m !! x) + c)%Z]> m]> acc
  | None => <[k := {[x := c]}]> acc
  end.

(** sample_space.py:165-193 [folded_graph]; [variables[variable]] raises KeyError for an undeclared
    variable, [VariableEdge.__init__] (variables_graph.py:56-58) asserts two endpoint variables. *)
Definition folded_graph (o : oracle) (sp : space) : res fgraph :=
  let '(node_acc, edge_acc) :=
    for_each (fun o' '(na, ea) '(g, c) =>
        (for_each (fun _ na (n : node) => count2 na n.1 n c) (sub o' 0) na
           (iter_set (sub o' 1) (g_nodes g)),
         for_each (fun _ ea (e : edge) => count2 ea (vars_of (endpoints e)) e c) (sub o' 2) ea
           (iter_set (sub o' 3) (g_edges g))))
      (sub o 0) (∅, ∅) (ss_items o (sp_out sp)) in
  fns ← for_res (fun _ acc '(v, m) =>
      match cp_vars (sp_cp sp) !! v with
      | None => Err KeyError
      | Some X => Ok (<[v := FNode X m (ss_length (sp_out sp))]> acc)
      end) (sub o 1) ∅ (iter_map (sub o 2) node_acc);
  fes ← for_res (fun _ acc '(ep, m) =>
      _ ← passert (bool_decide (size ep = 2));
      Ok (<[ep := m]> acc)) (sub o 3) ∅ (iter_map (sub o 4) edge_acc);
  Ok (FGraph (ss_length (sp_out sp)) fns fes).

(** folded_graph.py:126-132 [folded_node] *)
Definition folded_node (fg : fgraph) (v : Var) : option fnode := fg_nodes fg !! v.

(** folded_graph.py:52-57 [unobserved_count] *)
Definition unobserved_count (fn : fnode) : Z := (fn_total fn - zsum (map_to_list (fn_counts fn)).*2)%Z.

(** folded_graph.py:59-81 [marginal_distribution] *)
Definition marginal_distribution (o : oracle) (fn : fnode) : res (gmap Val Qc) :=
  '(acc, total) ← for_res (fun _ '(acc, total) '(n, c) =>
      match (acc : gmap Val Z) !! (n : node).2 with
      | None => Err AssertionError
      | Some z => Ok (<[n.2 := (z + c)%Z]> acc, (total + c)%Z)
      end) (sub o 0) (gset_to_gmap 0%Z (fn_values fn), 0%Z) (iter_map o (fn_counts fn));
  _ ← passert (bool_decide (total <= fn_total fn)%Z);
  div_all (<[val_unobserved := (fn_total fn - total)%Z]> acc) (fn_total fn).

(** sample_space.py:236-248 [find_for_values] *)
Definition find_for_values (o : oracle) (sp : space) (vals : gset (Var * Val)) : res samples :=
  match for_mut (fun _ b '(g, c) =>
          if bool_decide (vals ⊆ values g) then ssb_add b (sample_of (sp_out sp) g) c else (b, Ok tt))
          (sub o 0) (ssb_new (sp_cp sp)) (ss_items o (sp_out sp)) with
  | (b, Ok _) => Ok b
  | (_, Err e) => Err e
  end.

(** sample_space.py:250-269 [factorized].  The result is a frozenset of sample sets, which compare by
    their dicts (sample_set.py:93-96); all have provider [sp_cp sp]. *)
Definition factor_key (o : oracle) (g : graph) : res gkey :=
  if is_single_node g then v ← single_node_variable o g; Ok {[inl v]}
  else Ok (set_map inr (edges_endpoint_variables g)).

Definition factorized_acc (o : oracle) (sp : space) : res (gmap gkey samples) :=
  for_res (fun o' acc '(g, c) =>
      _ ← passert (negb (is_k_0 g));
      k ← factor_key (sub o' 0) g;
      match acc !! k with
      | None =>
          _ ← passert (bool_decide (set_Forall (fun k' : gkey => k' ∩ k = ∅) (dom acc)));
          Ok (<[k := Samples (sp_cp sp) {[g := c]}]> acc)
      | Some b =>
          match ssb_add b (sample_of (sp_out sp) g) c with
          | (b', Ok _) => Ok (<[k := b']> acc)
          | (_, Err e) => Err e
          end
      end) (sub o 0) ∅ (ss_items o (sp_out sp)).

Definition factorized (o : oracle) (sp : space) : res (gset (gmap graph Z)) :=
  acc ← factorized_acc o sp;
  Ok (list_to_set ((fun kv => ss_map kv.2) <$> map_to_list acc)).

End sample_space.
