(** * SpecSpace: specification vocabulary for sample spaces (sets of outcomes). *)

From Verif Require Export SpecSets.

Section spec_space.
Context {U : Universe}.

(** [n] is the total count of the samples that satisfy [P]: adding up along any list of them. *)
Definition weight (ss : samples) (P : graph -> Prop) (n : Z) : Prop :=
  forall l, NoDup l -> (forall g, g ∈ l <-> contains ss g /\ P g) -> n = zsum (times_in ss <$> l).

(** The variables a caller asks for: an empty set is like no set. *)
Definition requested (sp : space) (variables : option (gset Var)) (v : Var) : Prop :=
  match variables with
  | Some X => if decide (X = ∅) then is_Some (cp_vars (sp_cp sp) !! v) else v ∈ X
  | None => is_Some (cp_vars (sp_cp sp) !! v)
  end.

Definition occurs_var (ss : samples) (v : Var) : Prop := exists x, occurs ss (v, x).

(** Ratio of two total counts. *)
Definition ratio (ss : samples) (P Q : graph -> Prop) (p : Qc) : Prop :=
  exists a b, weight ss P a /\ weight ss Q b /\ p = qdiv a b.

Definition has (v : Var) (x : Val) (g : graph) : Prop := (v, x) ∈ g_nodes g.
Definition having (v : Var) (g : graph) : Prop := has_var (g_nodes g) v.
Definition lacking (v : Var) (g : graph) : Prop := ~ has_var (g_nodes g) v.
Definition anything (g : graph) : Prop := True.

Definition one_valued (ss : samples) : Prop := forall g, contains ss g -> single_valued (g_nodes g).
Definition all_wf (cp : provider) (ss : samples) : Prop := forall g, contains ss g -> wf_graph cp g.

(** Expected marginals without and with the entry for outcomes that lack the variable. *)
Definition observed_marginal (ss : samples) (v : Var) (d : gmap Val Qc) : Prop :=
  qsum (map_to_list d).*2 = 1%Qc /\
  forall x, match d !! x with
            | Some p => occurs ss (v, x) /\ ratio ss (has v x) (having v) p
            | None => ~ occurs ss (v, x)
            end.

Definition full_marginal (ss : samples) (v : Var) (d : gmap Val Qc) : Prop :=
  qsum (map_to_list d).*2 = 1%Qc /\
  forall x, if decide (x = val_u) then exists p, d !! x = Some p /\ ratio ss (lacking v) anything p
            else match d !! x with
                 | Some p => occurs ss (v, x) /\ ratio ss (has v x) anything p
                 | None => ~ occurs ss (v, x)
                 end.

(** Expected distribution of a folded node: all declared values [X] and the outcomes without [v]. *)
Definition folded_marginal (ss : samples) (v : Var) (X : gset Val) (d : gmap Val Qc) : Prop :=
  qsum (map_to_list d).*2 = 1%Qc /\
  forall x, if decide (x = val_unobserved) then exists p, d !! x = Some p /\ ratio ss (lacking v) anything p
            else match d !! x with
                 | Some p => x ∈ X /\ ratio ss (has v x) anything p
                 | None => x ∉ X
                 end.

(** The set of variables an edge joins. *)
Definition edge_vars (e : edge) (X : gset Var) : Prop := forall v, v ∈ X <-> has_var e.1 v.

(** Expected folded graph: a node per occurring variable with exact counts of its value nodes, an edge
    per occurring pair of variables with exact counts of its relation edges. *)
Record folded_ok (sp : space) (fg : fgraph) : Prop := {
  fo_total : weight (sp_out sp) anything (fg_total fg);
  fo_nodes : forall v,
    match fg_nodes fg !! v with
    | Some fn => occurs_var (sp_out sp) v /\ cp_vars (sp_cp sp) !! v = Some (fn_values fn) /\
        weight (sp_out sp) anything (fn_total fn) /\
        forall n, match fn_counts fn !! n with
                  | Some c => n.1 = v /\ occurs (sp_out sp) n /\ weight (sp_out sp) (fun g => n ∈ g_nodes g) c
                  | None => n.1 = v -> ~ occurs (sp_out sp) n
                  end
    | None => ~ occurs_var (sp_out sp) v
    end;
  fo_edges : forall X,
    match fg_edges fg !! X with
    | Some m => (exists e, occurs_edge (sp_out sp) e /\ edge_vars e X) /\
        forall e, match m !! e with
                  | Some c => edge_vars e X /\ occurs_edge (sp_out sp) e /\
                              weight (sp_out sp) (fun g => e ∈ g_edges g) c
                  | None => edge_vars e X -> ~ occurs_edge (sp_out sp) e
                  end
    | None => forall e, edge_vars e X -> ~ occurs_edge (sp_out sp) e
    end
}.

(** Factorisation: no empty outcome, and outcomes that overlap have the same variable pairs. *)
Definition factorable (ss : samples) : Prop :=
  (forall g, contains ss g -> g_nodes g <> ∅) /\
  (forall g h, contains ss g -> contains ss h -> overlap g h -> same_pairs g h).

(** [m] is the factor of [g]: all outcomes with the same variable pairs, with their counts. *)
Definition factor_of (ss : samples) (g : graph) (m : gmap graph Z) : Prop :=
  forall h c, m !! h = Some c <-> ss_map ss !! h = Some c /\ same_pairs g h.

End spec_space.
