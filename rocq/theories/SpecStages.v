(** * SpecStages: chains of conditioning and joining

    What the experiments do with a relation graph ([comparing_with_bayes_network.py:217-224], [:267-298],
    [comparing_with_markov_network.py:234-255]): condition on one value after the other, joining in between. *)

From Verif Require Export SpecJoin RelationGraph.

Section spec_stages.
Context {U : Universe}.

(** [g.conditional_graph(g.sample_builder().build_single_node(v, x)).relation_graph()] or [g.make_joined()]. *)
Inductive stage := Given (v : Var) (x : Val) | Joined.

Definition run_stage (o : oracle) (sp : space) (st : stage) : res space :=
  match st with
  | Given v x =>
      ev ← build_single_node (sp_sample_builder sp) v x;
      cg ← conditional_graph sp ev;
      Ok (sp_relation_graph (cg_space cg))
  | Joined => make_joined o sp
  end.
Definition run_stages (o : oracle) (sp : space) (l : list stage) : res space := for_res run_stage o sp l.

(** The values given by a chain contradict neither the space nor each other. *)
Definition given_in (l : list stage) (n : node) : Prop := Given n.1 n.2 ∈ l.
Definition coherent (ss : samples) (l : list stage) : Prop :=
  (forall n, given_in l n -> occurs ss n) /\ forall v x y, given_in l (v, x) -> given_in l (v, y) -> x = y.

End spec_stages.
