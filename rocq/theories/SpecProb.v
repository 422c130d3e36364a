(** * SpecProb: vocabulary for the rules of probability on conditional graphs (C53) *)

From Verif Require Export SpecRel.

Section spec_prob.
Context {U : Universe}.

(** Every outcome observes [v]. *)
Definition everywhere (ss : samples) (v : Var) : Prop := forall g, contains ss g -> having v g.

(** Evidence that consists of one value. *)
Definition observes (ev : sample) (v : Var) (x : Val) : Prop := g_nodes (s_g ev) = {[(v, x)]} /\ g_edges (s_g ev) = ∅.

(** Reading a result of [marginal_variables_probability]: what is not listed has probability 0. *)
Definition prob (m : gmap Var (gmap Val Qc)) (v : Var) (x : Val) : Qc :=
  match m !! v with Some d => default 0%Qc (d !! x) | None => 0%Qc end.

(** The product of the probabilities of the values of [l], each given the values before it. *)
Inductive chained : space -> list node -> Qc -> Prop :=
| chained_nil sp : chained sp [] 1
| chained_cons sp v x l ev cg o m p :
    marginal_variables_probability o sp None false = Ok m ->
    observes ev v x -> conditional_graph sp ev = Ok cg -> chained (sp_relation_graph (cg_space cg)) l p ->
    chained sp ((v, x) :: l) (prob m v x * p)%Qc.

End spec_prob.
