(** * PropsSpace: properties of sample spaces (C10 outcomes view, C26-C31)

    Vocabulary: SpecSpace.v.  Every [Theorem] is closed by a lemma proved elsewhere; refutations carry
    their computed witness. *)

From Verif Require Import ExamplesSets FactorFacts RelationGraph.

Section theorems.
Context {U : Universe}.

(** ** C10: the view of all outcomes determines them. *)
Theorem C10_outcomes_view (o o' : oracle) (sp sp' : space) (cp : provider) :
  all_wf cp (sp_out sp) -> all_wf cp (sp_out sp') ->
  (forall x, x ∈ outcomes_as_edges_sets o sp <-> x ∈ outcomes_as_edges_sets o' sp') <->
  ss_map (sp_out sp) = ss_map (sp_out sp').
Proof. exact (outcomes_view_lemma o o' sp sp' cp). Qed.

(** ** C26: marginals.  With [unobserved=True] no requested variable may have a value called 'u'. *)
Theorem C26_marginals (o : oracle) (sp : space) (variables : option (gset Var)) (unobserved : bool) :
  one_valued (sp_out sp) -> pos_counts (sp_out sp) ->
  (unobserved = true -> forall v, requested sp variables v -> ~ occurs (sp_out sp) (v, val_u)) ->
  exists m, marginal_variables_probability o sp variables unobserved = Ok m /\
    forall v, match m !! v with
              | Some d => requested sp variables v /\ occurs_var (sp_out sp) v /\
                  if unobserved then full_marginal (sp_out sp) v d else observed_marginal (sp_out sp) v d
              | None => ~ (requested sp variables v /\ occurs_var (sp_out sp) v)
              end.
Proof. exact (C26_lemma o sp variables unobserved). Qed.

Theorem C26_order_independent (o o' : oracle) (sp : space) (variables : option (gset Var)) (unobserved : bool) :
  one_valued (sp_out sp) -> pos_counts (sp_out sp) ->
  marginal_variables_probability o sp variables unobserved = marginal_variables_probability o' sp variables unobserved.
Proof. exact (marginal_order o o' sp variables unobserved). Qed.

(** A value called 'u' is overwritten: unless its share is below the tolerance 1e-9, the call raises. *)
Theorem C26_value_u_raises (o : oracle) (sp : space) (variables : option (gset Var)) (v : Var) (a : Z) :
  one_valued (sp_out sp) -> pos_counts (sp_out sp) ->
  requested sp variables v -> occurs (sp_out sp) (v, val_u) -> weight (sp_out sp) (has v val_u) a ->
  (ss_length (sp_out sp) < a * 1000000000)%Z ->
  marginal_variables_probability o sp variables true = Err AssertionError.
Proof. exact (marginal_u_lemma o sp variables v a). Qed.

(** ** C27 *)
Theorem C27_included_variables (o : oracle) (sp : space) (v : Var) :
  match sp_included_variables o sp !! v with
  | Some X => X <> ∅ /\ forall x, x ∈ X <-> occurs (sp_out sp) (v, x)
  | None => ~ occurs_var (sp_out sp) v
  end.
Proof. exact (included_lemma o sp v). Qed.

Theorem C27_included_variables_order_independent (o o' : oracle) (sp : space) :
  sp_included_variables o sp = sp_included_variables o' sp.
Proof. exact (included_order o o' sp). Qed.

Theorem C27_included_relations (sp : space) (r : relation) :
  r ∈ sp_included_relations sp <-> exists e, occurs_edge (sp_out sp) e /\ e.2 = r.
Proof. exact (included_relations_lemma sp r). Qed.

(** ** C28 *)
Theorem C28_folded_graph (o : oracle) (sp : space) :
  all_wf (sp_cp sp) (sp_out sp) -> exists fg, folded_graph o sp = Ok fg /\ folded_ok sp fg.
Proof. exact (C28_lemma o sp). Qed.

Theorem C28_order_independent (o o' : oracle) (sp : space) :
  all_wf (sp_cp sp) (sp_out sp) -> folded_graph o sp = folded_graph o' sp.
Proof. exact (folded_order o o' sp). Qed.

(** The number of outcomes without the variable, and the distribution of a folded node. *)
Theorem C28_unobserved_count (o : oracle) (sp : space) (fg : fgraph) (v : Var) (fn : fnode) :
  all_wf (sp_cp sp) (sp_out sp) -> one_valued (sp_out sp) -> pos_counts (sp_out sp) ->
  folded_graph o sp = Ok fg -> folded_node fg v = Some fn ->
  weight (sp_out sp) (lacking v) (unobserved_count fn).
Proof. exact (fun H1 H2 H3 H4 H5 => proj1 (folded_node_lemma o o sp fg v fn H1 H2 H3 H4 H5)). Qed.

Theorem C28_marginal_distribution (o o' : oracle) (sp : space) (fg : fgraph) (v : Var) (fn : fnode) :
  all_wf (sp_cp sp) (sp_out sp) -> one_valued (sp_out sp) -> pos_counts (sp_out sp) ->
  folded_graph o sp = Ok fg -> folded_node fg v = Some fn -> ~ occurs (sp_out sp) (v, val_unobserved) ->
  exists d, marginal_distribution o' fn = Ok d /\ folded_marginal (sp_out sp) v (fn_values fn) d.
Proof. exact (folded_marginal_lemma o o' sp fg v fn). Qed.

Theorem C28_agrees_with_marginals (o o1 o2 : oracle) (sp : space) (fg : fgraph) (v : Var) (fn : fnode)
    (m : gmap Var (gmap Val Qc)) (d d' : gmap Val Qc) :
  all_wf (sp_cp sp) (sp_out sp) -> one_valued (sp_out sp) -> pos_counts (sp_out sp) ->
  (forall w, ~ occurs (sp_out sp) (w, val_u)) -> ~ occurs (sp_out sp) (v, val_unobserved) ->
  folded_graph o sp = Ok fg -> folded_node fg v = Some fn -> marginal_distribution o1 fn = Ok d ->
  marginal_variables_probability o2 sp None true = Ok m -> m !! v = Some d' ->
  d !! val_unobserved = d' !! val_u /\ forall x, occurs (sp_out sp) (v, x) -> d !! x = d' !! x.
Proof. exact (folded_agrees_lemma o o1 o2 sp fg v fn m d d'). Qed.

(** A value called 'unobserved' is overwritten: whenever one occurs, the result sums to less than 1. *)
Theorem C28_value_unobserved_lost (o o' : oracle) (sp : space) (fg : fgraph) (v : Var) (fn : fnode) :
  all_wf (sp_cp sp) (sp_out sp) -> one_valued (sp_out sp) -> pos_counts (sp_out sp) ->
  folded_graph o sp = Ok fg -> folded_node fg v = Some fn -> occurs (sp_out sp) (v, val_unobserved) ->
  exists d, marginal_distribution o' fn = Ok d /\ (qsum (map_to_list d).*2 < 1)%Qc.
Proof. exact (folded_overwritten_lemma o o' sp fg v fn). Qed.

(** ** C29 *)
Theorem C29_find (o : oracle) (sp : space) (vals : gset node) :
  cp_id (ss_cp (sp_out sp)) = cp_id (sp_cp sp) ->
  exists r, find_for_values o sp vals = Ok r /\ ss_cp r = sp_cp sp /\
    forall g c, count_of r g = Ok c <-> count_of (sp_out sp) g = Ok c /\ forall n, n ∈ vals -> n ∈ g_nodes g.
Proof. exact (C29_lemma o sp vals). Qed.

Theorem C29_empty_query (o : oracle) (sp : space) :
  ss_cp (sp_out sp) = sp_cp sp -> find_for_values o sp ∅ = Ok (sp_out sp).
Proof. exact (find_nothing o sp). Qed.

Theorem C29_composition (o o' o'' : oracle) (cp : provider) (ss : samples) (A B : gset node) (r : samples) :
  ss_cp ss = cp -> find_for_values o (Space cp ss) A = Ok r ->
  find_for_values o' (Space cp r) B = find_for_values o'' (Space cp ss) (A ∪ B).
Proof. exact (find_twice o o' o'' cp ss A B r). Qed.

Theorem C29_monotone (o o' : oracle) (sp : space) (A B : gset node) (r r' : samples) :
  cp_id (ss_cp (sp_out sp)) = cp_id (sp_cp sp) -> A ⊆ B ->
  find_for_values o sp A = Ok r -> find_for_values o' sp B = Ok r' -> ss_map r' ⊆ ss_map r.
Proof. exact (find_mono o o' sp A B r r'). Qed.

(** ** C30 *)
Theorem C30_factorized (o : oracle) (sp : space) :
  all_wf (sp_cp sp) (sp_out sp) -> cp_id (ss_cp (sp_out sp)) = cp_id (sp_cp sp) ->
  match factorized o sp with
  | Ok F => factorable (sp_out sp) /\
      (forall m, m ∈ F <-> exists g, contains (sp_out sp) g /\ factor_of (sp_out sp) g m)
  | Err x => x = AssertionError /\ ~ factorable (sp_out sp)
  end.
Proof. exact (C30_lemma o sp). Qed.

Theorem C30_partition (o : oracle) (sp : space) (F : gset (gmap graph Z)) :
  all_wf (sp_cp sp) (sp_out sp) -> cp_id (ss_cp (sp_out sp)) = cp_id (sp_cp sp) -> factorized o sp = Ok F ->
  (forall g c, count_of (sp_out sp) g = Ok c <-> exists m, m ∈ F /\ m !! g = Some c) /\
  (forall m, m ∈ F -> m <> ∅) /\
  (forall m m' g c c', m ∈ F -> m' ∈ F -> m !! g = Some c -> m' !! g = Some c' -> m = m') /\
  (forall m m' g h c c', m ∈ F -> m' ∈ F -> m !! g = Some c -> m' !! h = Some c' -> m <> m' -> ~ overlap g h).
Proof. exact (factors_partition o sp F). Qed.

Theorem C30_is_factorized (o : oracle) (sp : space) :
  all_wf (sp_cp sp) (sp_out sp) -> is_factorized o sp = true <-> factorable (sp_out sp).
Proof. exact (is_factorized_lemma o sp). Qed.

Theorem C30_agree (o o' : oracle) (sp : space) :
  all_wf (sp_cp sp) (sp_out sp) -> cp_id (ss_cp (sp_out sp)) = cp_id (sp_cp sp) ->
  is_factorized o sp = true <-> exists F, factorized o' sp = Ok F.
Proof. exact (is_factorized_agrees o o' sp). Qed.

(** ** C31 *)
Theorem C31_is_joined (o : oracle) (sp : space) :
  is_joined o sp = true <->
  forall g h v, contains (sp_out sp) g -> contains (sp_out sp) h ->
    has_var (g_nodes g) v -> has_var (g_nodes h) v.
Proof. exact (C31_lemma o sp). Qed.

End theorems.

(** ** Refutations *)

(** Below the tolerance the overwritten value 'u' goes unnoticed: an occurring value gets probability 0. *)
Definition cpu : provider := Provider 7 (list_to_map [("a", {["u"; "1"]})]) ∅.
Definition sp_u : space := Space cpu (Samples cpu (list_to_map [(single "a" "u", 1%Z); (single "a" "1", 10000000000%Z)])).

Theorem C26_value_u_silent_refuted : exists (o : oracle) (sp : space) (v : Var) d m,
  all_wf (sp_cp sp) (sp_out sp) /\ one_valued (sp_out sp) /\ pos_counts (sp_out sp) /\
  occurs (sp_out sp) (v, val_u) /\ (forall g, contains (sp_out sp) g -> having v g) /\
  marginal_variables_probability o sp None true = Ok m /\ m !! v = Some d /\
  d !! val_u = Some 0%Qc /\ qsum (map_to_list d).*2 <> 1%Qc.
Proof.
  pose (sp := sp_u). exists o0, sp, ("a" : @Var StrU).
  destruct (marginal_variables_probability o0 sp None true) as [m|] eqn:Hm.
  2:{ exfalso. assert (is_ok (marginal_variables_probability o0 sp None true) = true) as Hok by (vm_compute; reflexivity).
      by rewrite Hm in Hok. }
  destruct (m !! ("a" : @Var StrU)) as [d|] eqn:Hd.
  2:{ exfalso. assert (match marginal_variables_probability o0 sp None true with
                       | Ok m => bool_decide (is_Some (m !! ("a" : @Var StrU))) | _ => false end = true) as Hok by (vm_compute; reflexivity).
      rewrite Hm, Hd in Hok. by apply bool_decide_eq_true in Hok as [? ?]. }
  assert (match marginal_variables_probability o0 sp None true with
          | Ok m => match m !! ("a" : @Var StrU) with
                    | Some d => bool_decide (d !! (val_u : @Val StrU) = Some 0%Qc /\ qsum (map_to_list d).*2 <> 1%Qc)
                    | None => false
                    end
          | _ => false end = true) as Hok by (vm_compute; reflexivity).
  rewrite Hm, Hd in Hok. apply bool_decide_eq_true in Hok as [H1 H2].
  exists d, m. split_and!; [| | | | |done|done|done|done].
  - intros g Hg. apply (set_wfb_spec (sp_out sp)); [vm_compute; reflexivity|done].
  - refine (set_singleb_spec _ _). vm_compute; reflexivity.
  - refine (set_posb_spec _ _). vm_compute; reflexivity.
  - exists (single "a" "u"). split; [exists 1%Z|]; by_vm.
  - intros g [c Hc]. assert (bool_decide (map_Forall (fun g _ => included_variables g = {["a" : @Var StrU]}) (ss_map (sp_out sp))) = true)
      as Ha by (vm_compute; reflexivity).
    apply bool_decide_eq_true in Ha. apply included_variables_spec. rewrite (Ha g c Hc). by apply elem_of_singleton.
Qed.

(** ** The hypotheses are satisfiable *)

Definition a2b1 : edge := ed "a" "2" "b" "1" "q".
Definition cdd : edge := ({[nd "c" "1"; nd "d" "2"]}, drl "c" "d" "q").
Definition sp1 : space := Space cpx (set_of [(g_ab, 2%Z); (graph_of [a2b1], 3%Z); (g_cd, 1%Z); (graph_of [cdd], 4%Z)]).

Example sp1_wf : all_wf (sp_cp sp1) (sp_out sp1).
Proof. intros g Hg. apply (set_wfb_spec (sp_out sp1)); [vm_compute; reflexivity|done]. Qed.
Example sp1_one : one_valued (sp_out sp1).
Proof. refine (set_singleb_spec _ _). vm_compute; reflexivity. Qed.
Example sp1_pos : pos_counts (sp_out sp1).
Proof. refine (set_posb_spec _ _). vm_compute; reflexivity. Qed.

Example C26_example :
  match marginal_variables_probability o1 sp1 None true with
  | Ok m => match m !! ("a" : @Var StrU) with
            | Some d => bool_decide (d = list_to_map [("1", qdiv 2 10); ("2", qdiv 3 10); ("u", qdiv 5 10)])
            | None => false end
  | Err _ => false end = true.
Proof. vm_compute. reflexivity. Qed.

Example C26_no_u : forall v, ~ occurs (sp_out sp1) (v, val_u).
Proof.
  intros v (g & [c Hc] & Hin).
  assert (bool_decide (map_Forall (fun g _ => set_Forall (fun n : node => n.2 <> val_u) (g_nodes g)) (ss_map (sp_out sp1))) = true)
    as Ha by (vm_compute; reflexivity).
  apply bool_decide_eq_true in Ha. by apply (Ha g c Hc (v, val_u) Hin).
Qed.

Example C26_raises_example : marginal_variables_probability o0
  (Space cpu (Samples cpu (list_to_map [(single "a" "u", 1%Z); (single "a" "1", 1%Z)]))) None true = Err AssertionError.
Proof. by_vm. Qed.

Example C27_example : bool_decide (sp_included_variables o1 sp1 !! ("a" : @Var StrU) = Some vals12) = true /\
  sp_included_relations sp1 = {[rl "r"; rl "q"; drl "c" "d" "q"]}.
Proof. split; [vm_compute; reflexivity|by_vm]. Qed.

Example C28_example :
  match folded_graph o1 sp1 with
  | Ok fg => match folded_node fg ("a" : @Var StrU) with
             | Some fn => match marginal_distribution o0 fn with
                          | Ok d => bool_decide (d = list_to_map [("1", qdiv 2 10); ("2", qdiv 3 10); ("unobserved", qdiv 5 10)])
                          | Err _ => false end
             | None => false end
  | Err _ => false end = true.
Proof. vm_compute. reflexivity. Qed.

Definition cpun : provider := Provider 7 (list_to_map [("a", {["unobserved"; "1"]})]) ∅.
Example C28_lost_example :
  match folded_graph o0 (Space cpun (Samples cpun (list_to_map [(single "a" "unobserved", 1%Z); (single "a" "1", 1%Z)]))) with
  | Ok fg => match folded_node fg ("a" : @Var StrU) with
             | Some fn => match marginal_distribution o0 fn with
                          | Ok d => bool_decide (d = list_to_map [("1", qdiv 1 2); ("unobserved", qdiv 0 2)])
                          | Err _ => false end
             | None => false end
  | Err _ => false end = true.
Proof. vm_compute. reflexivity. Qed.

Example C29_example : match find_for_values o1 sp1 {[nd "c" "1"]} with
  | Ok r => bool_decide (r = set_of [(g_cd, 1%Z); (graph_of [cdd], 4%Z)]) | Err _ => false end = true.
Proof. vm_compute. reflexivity. Qed.

Example C30_example : is_factorized o1 sp1 = true /\
  match factorized o1 sp1 with
  | Ok F => bool_decide (F = {[ list_to_map [(g_ab, 2%Z); (graph_of [a2b1], 3%Z)];
                                list_to_map [(g_cd, 1%Z); (graph_of [cdd], 4%Z)] ]}) | Err _ => false end = true.
Proof. split; vm_compute; reflexivity. Qed.

Example C30_rejected : is_factorized o1 (Space cpx (set_of [(g_ab, 1%Z); (g_path, 1%Z)])) = false /\
  is_ok (factorized o1 (Space cpx (set_of [(g_ab, 1%Z); (g_path, 1%Z)]))) = false.
Proof. split; vm_compute; reflexivity. Qed.

Example C31_example : is_joined o1 sp1 = false /\ is_joined o1 (Space cpx (set_of [(g_ab, 1%Z); (graph_of [a2b1], 1%Z)])) = true.
Proof. split; vm_compute; reflexivity. Qed.

Print Assumptions C10_outcomes_view.
Print Assumptions C26_marginals.
Print Assumptions C26_order_independent.
Print Assumptions C26_value_u_raises.
Print Assumptions C27_included_variables.
Print Assumptions C27_included_variables_order_independent.
Print Assumptions C27_included_relations.
Print Assumptions C28_folded_graph.
Print Assumptions C28_order_independent.
Print Assumptions C28_unobserved_count.
Print Assumptions C28_marginal_distribution.
Print Assumptions C28_agrees_with_marginals.
Print Assumptions C28_value_unobserved_lost.
Print Assumptions C29_find.
Print Assumptions C29_empty_query.
Print Assumptions C29_composition.
Print Assumptions C29_monotone.
Print Assumptions C30_factorized.
Print Assumptions C30_partition.
Print Assumptions C30_is_factorized.
Print Assumptions C30_agree.
Print Assumptions C31_is_joined.
Print Assumptions C26_value_u_silent_refuted.
