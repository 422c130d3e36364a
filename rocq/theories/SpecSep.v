(** * SpecSep: specification vocabulary for separation of factors. *)

From Verif Require Export RelationGraph SpecJoin.

Section spec_sep.
Context {U : Universe}.

(** [A] consists of whole kinds of outcomes, and the variables they share with the other outcomes are in [S]. *)
Record separates (ss : samples) (A : graph -> Prop) (S : gset Var) : Prop := {
  sep_kind : forall g h, contains ss g -> contains ss h -> same_pairs g h -> A g -> A h;
  sep_shared : forall g h v, contains ss g -> contains ss h -> A g -> ~ A h -> having v g -> having v h -> v ∈ S
}.

(** The variables of the outcomes of [A]. *)
Definition var_of (ss : samples) (A : graph -> Prop) (v : Var) : Prop := exists g, contains ss g /\ A g /\ having v g.

Definition outside (A : graph -> Prop) (g : graph) : Prop := ~ A g.

(** Two outcomes take the same values for the variables that satisfy [P]. *)
Definition agree (P : Var -> Prop) (G H : graph) : Prop := forall v x, P v -> has v x G <-> has v x H.

(** An event that is decided by the values of these variables. *)
Definition about (P : Var -> Prop) (E : graph -> Prop) : Prop := forall G H, agree P G H -> E G -> E H.

(** Outcomes with the given values for the variables of [S]. *)
Definition at_values (S : gset Var) (a : Var -> Val) (G : graph) : Prop := forall v, v ∈ S -> has v (a v) G.

(** Only one value of the variable is left. *)
Definition settled (ss : samples) (v : Var) : Prop := forall x y, occurs ss (v, x) -> occurs ss (v, y) -> x = y.

(** The script conditions a relation graph on one value after the other. *)
Inductive conditioned : space -> list node -> space -> Prop :=
| conditioned_nil sp : conditioned sp [] sp
| conditioned_cons sp ev cg v x l sp' :
    g_nodes (s_g ev) = {[(v, x)]} -> g_edges (s_g ev) = ∅ -> occurs (sp_out sp) (v, x) ->
    conditional_graph sp ev = Ok cg -> conditioned (sp_relation_graph (cg_space cg)) l sp' ->
    conditioned sp ((v, x) :: l) sp'.

End spec_sep.
