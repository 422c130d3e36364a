(** * PropsBuilder: the check before a join, copies of builders, questions to sample sets (C07, C10, C18, C27) *)

From Verif Require Import BuilderMore.

Section props.
Context {U : Universe}.

(** [can_sample_be_joined]: no edge of the sample has the endpoints of an edge of the builder with another relation. *)
Theorem C07_can_sample_be_joined (b : builder) (s : sample) :
  builder_state b -> simple (b_edges b) ->
  match can_sample_be_joined b s with
  | Ok r => s_cp s = cp_id (b_cp b) /\
      (r = true <-> forall e e', e ∈ g_edges (s_g s) -> e' ∈ b_edges b -> e.1 = e'.1 -> e.2 = e'.2)
  | Err x => x = AssertionError /\ s_cp s <> cp_id (b_cp b)
  end.
Proof. exact (can_join_lemma b s). Qed.

(** What can be joined passes the check. *)
Theorem C07_check_needed (o : oracle) (b : builder) (s : sample) :
  builder_state b -> simple (b_edges b) -> (forall e, e ∈ g_edges (s_g s) -> two_nodes e.1) ->
  (join_sample o b s).2 = Ok tt -> can_sample_be_joined b s = Ok true.
Proof. exact (can_join_needed o b s). Qed.

(** C08: what a refused [join_sample] leaves behind: some edges of the sample with their ends, nothing else. *)
Theorem C08_join_leftovers (o : oracle) (b : builder) (s : sample) :
  (join_sample o b s).2 <> Ok tt ->
  b_cp (join_sample o b s).1 = b_cp b /\
  (s_cp s <> cp_id (b_cp b) -> (join_sample o b s).1 = b) /\
  exists D : gset edge, D ⊆ g_edges (s_g s) /\ b_edges (join_sample o b s).1 = b_edges b ∪ D /\
    forall n, n ∈ b_nodes (join_sample o b s).1 <-> n ∈ b_nodes b \/ exists e, e ∈ D /\ n ∈ e.1.
Proof. exact (join_leftovers o b s). Qed.

(** [SampleGraph.builder] and [build] are inverse, but for the empty graph. *)
Theorem C10_builder_of_graph (o : oracle) (cp : provider) (g : graph) :
  builder_state (graph_builder o cp g) /\
  build (graph_builder o cp g) = if decide (g_nodes g = ∅) then Err AssertionError else Ok (Sample (cp_id cp) g).
Proof. exact (graph_builder_lemma o cp g). Qed.

(** A copied builder has the state of the original. *)
Theorem C10_builder_copy (o : oracle) (b : builder) :
  builder_state b -> simple (b_edges b) -> builder_copy o b = b.
Proof. exact (builder_copy_lemma o b). Qed.

(** Sample sets are equal exactly when all counts are, whatever their providers. *)
Theorem C18_equal (a b : samples) :
  ss_eqb a b = true <-> forall g c, count_of a g = Ok c <-> count_of b g = Ok c.
Proof. exact (ss_eqb_lemma a b). Qed.

(** [have_value] and [have_variable] of a sample set. *)
Theorem C27_set_queries (ss : samples) (v : Var) :
  (forall x, ss_have_value ss v x = true <-> exists g, g ∈ ss_samples ss /\ (v, x) ∈ g_nodes g) /\
  (ss_have_variable ss v = true <-> exists g x, g ∈ ss_samples ss /\ (v, x) ∈ g_nodes g).
Proof. exact (ss_queries ss v). Qed.

End props.

(** ** Concrete cases and what does not hold *)
Example b_ab_meets : builder_state b_ab /\ simple (b_edges b_ab).
Proof. split; [apply bs_add, builder_state_new|apply simpleb_spec; vm_compute; reflexivity]. Qed.
Example check_both : bool_decide (can_sample_be_joined b_ab (smp (graph_of [ab; bc])) = Ok true /\
  can_sample_be_joined b_ab (smp (graph_of [ed "a" "1" "b" "1" "q"])) = Ok false /\
  can_sample_be_joined b_ab (Sample 9 g_path) = Err AssertionError) = true.
Proof. vm_compute. reflexivity. Qed.

(** The check is not enough: a sample with another value of a variable passes it and is refused. *)
Theorem C07_check_sufficient_refuted : exists b s, builder_state b /\ simple (b_edges b) /\ wf_graph (b_cp b) (s_g s) /\
  can_sample_be_joined b s = Ok true /\ (forall o, (join_sample o b s).2 = Err AssertionError).
Proof.
  exists b_ab, (smp (graph_of [bc; ed "c" "1" "a" "2" "r"])).
  assert (builder_state b_ab /\ simple (b_edges b_ab)) as [Hb Hs].
  { split; [apply bs_add, builder_state_new|apply simpleb_spec; vm_compute; reflexivity]. }
  assert (wf_graph (b_cp b_ab) (graph_of [bc; ed "c" "1" "a" "2" "r"])) as Hw by (apply wf_graphb_spec; vm_compute; reflexivity).
  split; [exact Hb|]. split; [exact Hs|]. split; [exact Hw|]. split; [vm_compute; reflexivity|].
  assert ((join_sample o0 b_ab (smp (graph_of [bc; ed "c" "1" "a" "2" "r"]))).2 = Err AssertionError) as H0 by (vm_compute; reflexivity).
  intros o. rewrite <- H0.
  exact (proj1 (C07_order_independent o o0 b_ab (smp (graph_of [bc; ed "c" "1" "a" "2" "r"])) Hb Hs
    (fun e He => proj1 (wf_edges _ _ Hw e He)))).
Qed.

(** C08: there are a builder and a sample that is refused, yet part of it stays, in every iteration order. *)
Theorem C08_not_atomic_any_order_refuted : exists (b : builder) (s : sample), builder_state b /\ simple (b_edges b) /\
  wf_graph (b_cp b) (s_g s) /\ simple (g_edges (s_g s)) /\
  forall o, (join_sample o b s).2 = Err AssertionError /\ b_edges (join_sample o b s).1 <> b_edges b.
Proof.
  set (ca := ed "c" "1" "a" "2" "r"). set (s := smp (graph_of [bc; ca])).
  exists b_ab, s.
  assert (builder_state b_ab /\ simple (b_edges b_ab)) as [Hb Hs].
  { split; [apply bs_add, builder_state_new|apply simpleb_spec; vm_compute; reflexivity]. }
  assert (wf_graph (b_cp b_ab) (s_g s)) as Hw by (apply wf_graphb_spec; vm_compute; reflexivity).
  assert ((join_sample o0 b_ab s).2 = Err AssertionError) as H0 by (vm_compute; reflexivity).
  assert (bool_decide (bc ∈ b_edges b_ab) = false) as Hn by (vm_compute; reflexivity).
  assert (bool_decide (g_edges (s_g s) = {[bc; ca]}) = true) as HE by (vm_compute; reflexivity).
  assert (is_compatible s (b_cp b_ab) = true) as Hc by (vm_compute; reflexivity).
  assert (bool_decide (bc = ca) = false) as Hne by (vm_compute; reflexivity).
  assert (join_connected b_ab bc && negb (edge_conflict b_ab bc) && join_values_ok b_ab bc &&
          negb (join_connected b_ab ca) = true) as Hj by (vm_compute; reflexivity).
  split; [exact Hb|]. split; [exact Hs|]. split; [exact Hw|]. split; [apply simpleb_spec; vm_compute; reflexivity|].
  clearbody s ca. generalize dependent b_ab. generalize dependent bc. intros x HE Hne b Hb Hs Hw H0 Hn Hc Hj o.
  apply bool_decide_eq_true in HE. apply bool_decide_eq_false in Hn, Hne.
  rewrite !andb_true_iff, !negb_true_iff in Hj. destruct Hj as [[[J1 J2] J3] J4]. split.
  - rewrite <- H0. exact (proj1 (C07_order_independent o o0 b s Hb Hs (fun e He => proj1 (wf_edges _ _ Hw e He)))).
  - intros Heq. apply Hn. rewrite <- Heq. unfold join_sample. rewrite Hc, HE.
    rewrite bool_decide_eq_false_2 by set_solver +. by apply join_two.
Qed.

(** With two edges between the same nodes a copy may answer as the original does not. *)
Theorem C10_copy_of_parallel_refuted : exists b s o o', builder_state b /\
  can_sample_be_joined (builder_copy o b) s <> can_sample_be_joined (builder_copy o' b) s.
Proof.
  exists (build_from_edges o0 (new_builder cpx) {[ab; ed "a" "1" "b" "1" "q"]} true).1, (smp (graph_of [ab])), o0, o1.
  split; [apply bs_from_edges, builder_state_new|]. vm_compute. discriminate.
Qed.

Print Assumptions C07_can_sample_be_joined.
Print Assumptions C07_check_needed.
Print Assumptions C07_check_sufficient_refuted.
Print Assumptions C10_builder_of_graph.
Print Assumptions C10_builder_copy.
Print Assumptions C10_copy_of_parallel_refuted.
Print Assumptions C18_equal.
Print Assumptions C27_set_queries.
Print Assumptions C08_join_leftovers.
Print Assumptions C08_not_atomic_any_order_refuted.
