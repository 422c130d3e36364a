(** * SpecRel: specification vocabulary for relation graphs and their builder *)

From Verif Require Export SpecSpace RelationGraph.

Section spec_rel.
Context {U : Universe}.

(** ** Calls on a RelationGraphBuilder.  The function passed to [build_sample] is arbitrary. *)
Inductive rg_op :=
  | RAdd (s : sample) (c : Z)
  | RAddMany (l : list sample) (c : Z)
  | RBuildSample (f : builder -> res sample).

Definition run_rg_op (b : rgbuilder) (op : rg_op) : rgbuilder * res unit :=
  match op with
  | RAdd s c => add_outcome b s c
  | RAddMany l c => add_outcomes b l c
  | RBuildSample f => build_sample b f
  end.

Fixpoint run_rg_ops (b : rgbuilder) (ops : list rg_op) : rgbuilder * list (res unit) :=
  match ops with
  | [] => (b, [])
  | op :: ops' => let '(b', r) := run_rg_op b op in
                  let '(b'', rs) := run_rg_ops b' ops' in (b'', r :: rs)
  end.

(** What the calls should do: answer and accepted (outcome, count) pairs. *)
Definition acceptable (cp : provider) (c : Z) (s : sample) : Prop := s_cp s = cp_id cp /\ (1 <= c)%Z.

Inductive rg_step (cp : provider) : rg_op -> res unit -> list (graph * Z) -> Prop :=
  | rg_add s c : acceptable cp c s -> rg_step cp (RAdd s c) (Ok tt) [(s_g s, c)]
  | rg_add_no s c : ~ acceptable cp c s -> rg_step cp (RAdd s c) (Err AssertionError) []
  | rg_many l c : (forall s, s ∈ l -> acceptable cp c s) ->
      rg_step cp (RAddMany l c) (Ok tt) ((fun s => (s_g s, c)) <$> l)
  | rg_many_no pre s post c : (forall s, s ∈ pre -> acceptable cp c s) -> ~ acceptable cp c s ->
      rg_step cp (RAddMany (pre ++ s :: post) c) (Err AssertionError) ((fun s => (s_g s, c)) <$> pre)
  | rg_build f s r h : f (new_builder cp) = Ok s -> rg_step cp (RAdd s 1) r h -> rg_step cp (RBuildSample f) r h
  | rg_build_no f e : f (new_builder cp) = Err e -> rg_step cp (RBuildSample f) (Err e) [].

Inductive rg_steps (cp : provider) : list rg_op -> list (res unit) -> list (graph * Z) -> Prop :=
  | rg_nil : rg_steps cp [] [] []
  | rg_cons op ops r rs h h' : rg_step cp op r h -> rg_steps cp ops rs h' -> rg_steps cp (op :: ops) (r :: rs) (h ++ h').

(** Sum of the accepted counts of [g]. *)
Definition accepted_count (h : list (graph * Z)) (g : graph) : Z :=
  zsum (omap (fun kv => if decide (kv.1 = g) then Some kv.2 else None) h).

(** Outcomes that survive conditioning. *)
Definition consistent_or_unrelated (ev g : graph) : Prop :=
  (g_nodes ev ⊆ g_nodes g /\ g_edges ev ⊆ g_edges g) \/
  (forall v, has_var (g_nodes ev) v -> ~ has_var (g_nodes g) v).

(** A possible outcome: non-empty, connected, declared nodes, one value per variable, at most one edge per
    pair of variables, plain (undirected) declared relations. *)
Record possible (cp : provider) (g : graph) : Prop := {
  po_wf : wf_graph cp g;
  po_nonempty : g_nodes g <> ∅;
  po_single : single_valued (g_nodes g);
  po_simple : simple (g_edges g);
  po_plain : forall e, e ∈ g_edges g -> exists r, e.2 = Plain r
}.

(** All possible outcomes, once each. *)
Definition complete (cp : provider) (ss : samples) : Prop :=
  forall g c, count_of ss g = Ok c <-> c = 1%Z /\ possible cp g.

(** Equal probabilities that add up to one. *)
Definition uniform_on (X : gset Val) (d : gmap Val Qc) : Prop :=
  forall x, d !! x = if decide (x ∈ X) then Some (qdiv 1 (Z.of_nat (size X))) else None.

End spec_rel.
