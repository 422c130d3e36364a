(** * PropsDepth: nested calls (C66) *)

From Verif Require Import DepthFacts DepthChain DepthJoinMain DepthJoinLimit ExamplesSets PropsJoin.

Section props.
Context {U : Universe}.

(** ** Connectivity *)

(** A limit on nested calls changes nothing but that RecursionError may be raised. *)
Theorem C66_connected_limit (limit : nat) (o : oracle) (es : gset edge) :
  is_edges_connected_within limit o es = is_edges_connected o es \/
  is_edges_connected_within limit o es = Err OutOfFuel.
Proof. exact (within_cases limit o es). Qed.

(** It is not raised when there are fewer nodes than nested calls are allowed. *)
Theorem C66_connected_enough (limit : nat) (o : oracle) (es : gset edge) (X : gset node) :
  (forall n, touches es n -> n ∈ X) -> (size X < limit)%nat ->
  is_edges_connected_within limit o es = is_edges_connected o es.
Proof. exact (within_enough limit o es X). Qed.

(** If the answer comes in time, some node has a way of fewer than [limit] steps to every node. *)
Theorem C66_connected_near (limit : nat) (o : oracle) (es : gset edge) (r : bool) :
  is_edges_connected_within limit o es = Ok r -> edges_linked es ->
  exists start, touches es start /\ forall x, touches es x -> exists j, (j < limit)%nat /\ nsteps (link es) j start x.
Proof. exact (within_near limit o es r). Qed.

(** ** Joining *)
Theorem C66_join_limit (limit : nat) (o : oracle) (b : builder) (s : sample) :
  builder_state b -> simple (b_edges b) -> (forall e, e ∈ g_edges (s_g s) -> two_nodes e.1) ->
  join_sample_within limit o b s = join_sample o b s \/ (join_sample_within limit o b s).2 = Err OutOfFuel.
Proof. exact (join_within_cases limit o b s). Qed.

Theorem C66_join_enough (limit : nat) (o : oracle) (b : builder) (s : sample) :
  builder_state b -> simple (b_edges b) -> (forall e, e ∈ g_edges (s_g s) -> two_nodes e.1) ->
  (size (g_edges (s_g s)) < limit)%nat -> join_sample_within limit o b s = join_sample o b s.
Proof. exact (join_within_enough limit o b s). Qed.

(** ** External nodes *)

(** The search ends in time exactly when all it can reach is fewer than [limit] steps away, and then with the result of
    [external_nodes]. *)
Theorem C66_external (limit : nat) (o : oracle) (g : graph) (C : gset node) (f : option (gset relation)) :
  (forall e, e ∈ g_edges g -> two_nodes e.1) -> C <> ∅ ->
  match external_nodes_fuel limit o g C f with
  | Ok m => external_nodes o g C f = Ok m /\
      (forall n k, within g f C k n -> exists j, (j < limit)%nat /\ within g f C j n)
  | Err x => x = OutOfFuel /\
      ~ (forall n k, within g f C k n -> exists j, (j < limit)%nat /\ within g f C j n)
  end.
Proof. exact (external_limit_lemma limit o g C f). Qed.

(** ** Joining outcomes *)

(** [make_joined] and [joined_on_variables] with a limit have their results without limit or raise RecursionError. *)
Theorem C66_joined_limit (limit : nat) (o : oracle) (sp : space) :
  make_joined_within limit o sp = make_joined o sp \/ make_joined_within limit o sp = Err OutOfFuel.
Proof. exact (make_joined_cases limit o sp). Qed.

Theorem C66_joined_on_limit (limit : nat) (o : oracle) (sp : space) (X : option (gset Var)) :
  joined_on_variables_within limit o sp X = joined_on_variables o sp X \/
  joined_on_variables_within limit o sp X = Err OutOfFuel.
Proof. exact (joined_on_cases limit o sp X). Qed.

(** [join_sample_set] needs one call for each of the sets. *)
Theorem C66_sets_exact (limit : nat) (o : oracle) (l : list samples) : (0 < limit)%nat ->
  ((length l <= limit)%nat -> join_sample_set_within limit o l = join_sample_set o l) /\
  ((limit < length l)%nat -> forall r, join_sample_set_within limit o l <> Ok r).
Proof.
  exact (fun H0 => conj (fun Hl => jss_enough limit o l Hl H0)
    (fun Hl r Hr => Nat.lt_irrefl _ (Nat.lt_le_trans _ _ _ Hl (jss_needs limit o l r Hr)))).
Qed.

(** [join_factors] has its result when the factors, together with the outcomes of any of them, are not more than the
    limit.  It has none when there are as many factors, or as many outcomes in one of them, as nested calls. *)
Theorem C66_factors_enough (limit : nat) (o : oracle) (cp : provider) (l : list (gmap graph Z)) (acc : samples) :
  (length l < limit)%nat -> (forall m, m ∈ l -> length l + size m <= limit)%nat ->
  join_factors_within limit o cp l acc = join_factors o cp l acc.
Proof. exact (jf_enough limit o cp l acc). Qed.

Theorem C66_factors_needs (limit : nat) (o : oracle) (cp : provider) (l : list (gmap graph Z)) (acc r : samples) :
  (forall m, m ∈ l -> m <> ∅) -> join_factors_within limit o cp l acc = Ok r ->
  (length l < limit)%nat /\ (forall m, m ∈ l -> size m < limit)%nat.
Proof. exact (jf_needs limit o cp l acc r). Qed.

(** Every space has its own limit: from there on the limit changes nothing, below it RecursionError is raised. *)
Theorem C66_joined_threshold (o : oracle) (sp : space) : exists n : nat, forall limit : nat,
  make_joined_within limit o sp = if bool_decide (n <= limit)%nat then make_joined o sp else Err OutOfFuel.
Proof. exact (make_joined_threshold o sp). Qed.

Theorem C66_joined_on_threshold (o : oracle) (sp : space) (X : option (gset Var)) : exists n : nat, forall limit : nat,
  joined_on_variables_within limit o sp X = if bool_decide (n <= limit)%nat then joined_on_variables o sp X else Err OutOfFuel.
Proof. exact (joined_on_threshold o sp X). Qed.

(** If [make_joined] ends in time, then for the variable it visits first: any value occurs in fewer than [limit] outcomes
    of one kind, and in fewer than [limit] kinds of outcomes. *)
Theorem C66_joined_needs (limit : nat) (o : oracle) (sp r : space) (v : Var) (rest : list Var) (x : Val) (l : list graph) :
  all_wf (sp_cp sp) (sp_out sp) -> cp_id (ss_cp (sp_out sp)) = cp_id (sp_cp sp) ->
  make_joined_within limit o sp = Ok r -> visited o sp = v :: rest ->
  NoDup l -> (forall g, g ∈ l -> contains (sp_out sp) g /\ has v x g) ->
  (forall g h, g ∈ l -> h ∈ l -> same_pairs g h) \/ (forall g h, g ∈ l -> h ∈ l -> same_pairs g h -> g = h) ->
  (length l < limit)%nat.
Proof. exact (joined_needs limit o sp r v rest x l). Qed.

(** [cross_join] of non-empty groups has its result exactly when there are fewer groups than nested calls. *)
Theorem C66_cross_exact (limit : nat) (o : oracle) (cp : provider) (gs : list samples) (j : samples) :
  (forall g, g ∈ gs -> ss_map g <> ∅) ->
  ((length gs < limit)%nat -> cross_join_within limit o cp gs j = cross_join o cp gs j) /\
  ((limit <= length gs)%nat -> forall r, cross_join_within limit o cp gs j <> Ok r).
Proof.
  exact (fun Hne => conj (cross_enough limit o cp gs j)
    (fun Hl r Hr => Nat.lt_irrefl _ (Nat.lt_le_trans _ _ _ (cross_needs limit o cp gs j r Hne Hr) Hl))).
Qed.

(** [group_intersecting] merges kinds of samples into groups, one nested call for each merge: it ends in time exactly when
    the kinds are fewer than the groups and the limit together, whatever the iteration order. *)
Theorem C66_group_exact (limit : nat) (o : oracle) (ss : samples) (m : gmap (gset Var) samples) (reps : list graph) :
  no_collision ss -> one_of_each_kind ss reps -> group_intersecting o ss = Ok m ->
  group_intersecting_within limit o ss =
    if bool_decide (length reps < size m + limit)%nat then Ok m else Err OutOfFuel.
Proof. exact (group_exact limit o ss m reps). Qed.

(** If [joined_on_variables] ends in time, then for the variable it visits first the groups of its outcomes are fewer than
    the limit, and the kinds of outcomes fewer than groups and limit together. *)
Theorem C66_joined_on_needs (limit : nat) (o : oracle) (sp r : space) (X : gset Var) (v : Var) (rest : list Var)
    (sel : samples) (reps roots : list graph) :
  joined_on_variables_within limit o sp (Some X) = Ok r -> iter_set (sub o 2) X = v :: rest ->
  ss_cp sel = ss_cp (sp_out sp) ->
  (forall g c, ss_map sel !! g = Some c <-> ss_map (sp_out sp) !! g = Some c /\ having v g) ->
  (forall g, contains sel g -> wf_graph (ss_cp sel) g) -> no_collision sel -> self_named sel ->
  one_of_each_kind sel reps -> one_of_each_group sel roots ->
  (length roots < limit /\ length reps < length roots + limit)%nat.
Proof. exact (joined_on_needs limit o sp X r v rest sel reps roots). Qed.

Theorem C66_group_enough (limit : nat) (o : oracle) (ss : samples) (reps : list graph) :
  one_of_each_kind ss reps -> (length reps < limit)%nat ->
  group_intersecting_within limit o ss = group_intersecting o ss.
Proof.
  exact (fun Hr Hl => group_enough limit o ss (eq_ind_r (fun n => (n < limit)%nat) Hl (group_init_size (sub o 0) ss reps Hr))).
Qed.
End props.

(** ** What does not hold *)
#[local] Existing Instance TinyU.

(** Whatever the limit, there are connected legal edges for which the check fails with RecursionError in every order:
    so [build_from_edges] refuses long chains. *)
Theorem C66_long_chain_refuted (L : nat) : exists cp es,
  (forall e, e ∈ es -> edge_legal cp e) /\ simple es /\ edges_linked es /\ size es = (2 * L + 1)%nat /\
  forall o, is_edges_connected o es = Ok true /\ is_edges_connected_within L o es = Err OutOfFuel.
Proof. exact (chain_too_deep L). Qed.

(** Whatever the limit, there is a legal join of [S L] edges that needs one call in one order of the edges and fails with
    RecursionError in another. *)
Theorem C66_join_order_refuted (L : nat) : exists (cp : provider) (b : builder) (s : sample) (o o' : oracle),
  builder_state b /\ simple (b_edges b) /\ wf_graph cp (s_g s) /\ size (g_edges (s_g s)) = S L /\
  (forall o, (join_sample o b s).2 = Ok tt) /\
  (join_sample_within 1 o b s).2 = Ok tt /\ (join_sample_within L o' b s).2 = Err OutOfFuel.
Proof. exact (join_order_matters L). Qed.

(** Whatever the limit, there is a factorized graph of as many outcomes, one edge with different relations, that
    [make_joined] can join but refuses with RecursionError in every order. *)
Theorem C66_many_outcomes_refuted (L : nat) : exists sp : @space RelU, joinable sp /\ size (ss_map (sp_out sp)) = S L /\
  forall o, is_ok (make_joined o sp) = true /\ make_joined_within (S L) o sp = Err OutOfFuel.
Proof. exact (wide_too_deep L). Qed.

(** Hypotheses hold: three edges in a row with a limit of five, and of two. *)
Example chain_external : is_ok (external_nodes_fuel 4 o1 (graph_of [cedge 0; cedge 1; cedge 2]) {[cnode 0]} None) = true /\
  is_ok (external_nodes_fuel 3 o1 (graph_of [cedge 0; cedge 1; cedge 2]) {[cnode 0]} None) = false.
Proof. vm_compute. split; reflexivity. Qed.
Example chain_in_time : is_edges_connected_within 5 o1 (list_to_set (cedge <$> seq 0 3)) = Ok true /\
  is_edges_connected_within 2 o1 (list_to_set (cedge <$> seq 0 3)) = Err OutOfFuel.
Proof. vm_compute. split; reflexivity. Qed.

(** Hypotheses hold: two kinds of samples that share a pair of variables are merged by a second call of [group]; two
    outcomes of one kind are joined by a third call. *)
Definition two_kinds : @samples TinyU :=
  Samples (ccp 4) {[ graph_of [cedge 0; cedge 1] := 1%Z; graph_of [cedge 1; cedge 2] := 2%Z ]}.
Example group_in_time : is_ok (group_intersecting o1 two_kinds) = true /\
  is_ok (group_intersecting_within 2 o1 two_kinds) = true /\ is_ok (group_intersecting_within 1 o1 two_kinds) = false.
Proof. vm_compute. split_and!; reflexivity. Qed.
Example joined_in_time : is_ok (make_joined_within 3 o1 (wide 2)) = true /\ is_ok (make_joined_within 2 o1 (wide 2)) = false /\
  is_ok (joined_on_variables_within 2 o1 (wide 2) None) = true /\ is_ok (joined_on_variables_within 1 o1 (wide 2) None) = false.
Proof. vm_compute. split_and!; reflexivity. Qed.
Example two_kinds_each : one_of_each_kind two_kinds [graph_of [cedge 0; cedge 1]; graph_of [cedge 1; cedge 2]].
Proof.
  apply one_of_each_kind_keys; [by_vm| |by_vm]. intros g [->|[->|[]%elem_of_nil]%elem_of_cons]%elem_of_cons; by_vm.
Qed.
Example two_kinds_no_collision : no_collision two_kinds.
Proof. apply privateb_spec. vm_compute. reflexivity. Qed.

Print Assumptions C66_connected_limit.
Print Assumptions C66_connected_enough.
Print Assumptions C66_connected_near.
Print Assumptions C66_join_limit.
Print Assumptions C66_join_enough.
Print Assumptions C66_external.
Print Assumptions C66_long_chain_refuted.
Print Assumptions C66_join_order_refuted.
Print Assumptions C66_joined_limit.
Print Assumptions C66_joined_on_limit.
Print Assumptions C66_joined_threshold.
Print Assumptions C66_joined_on_threshold.
Print Assumptions C66_sets_exact.
Print Assumptions C66_factors_enough.
Print Assumptions C66_factors_needs.
Print Assumptions C66_joined_needs.
Print Assumptions C66_cross_exact.
Print Assumptions C66_joined_on_needs.
Print Assumptions C66_group_exact.
Print Assumptions C66_group_enough.
Print Assumptions C66_many_outcomes_refuted.
