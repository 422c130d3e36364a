(** * SpecAct: specification vocabulary for activation graphs *)

From Verif Require Export SpecRel Activation.

Section spec_act.
Context {U : Universe}.

(** [l] lists the outcomes that satisfy [P], each once. *)
Definition lists (ss : samples) (P : graph -> Prop) (l : list graph) : Prop :=
  NoDup l /\ forall g, g ∈ l <-> contains ss g /\ P g.

(** Total count of the outcomes that satisfy [P]. *)
Definition tally (ss : samples) (P : graph -> Prop) (n : Z) : Prop :=
  exists l, lists ss P l /\ n = zsum (times_in ss <$> l).

(** Share of common nodes and edges. *)
Definition likeness (g ev : graph) : Qc := qdiv (shared g ev) (Spec.total g ev).

(** Total count of the outcomes that satisfy [P], each weighted by its likeness to the evidence. *)
Definition similar_tally (ss : samples) (ev : graph) (P : graph -> Prop) (q : Qc) : Prop :=
  exists l, lists ss P l /\ q = qsum ((fun g => likeness g ev * qdiv (times_in ss g) 1)%Qc <$> l).

(** [n] is an outside node joined to the evidence by a path of allowed edges of the outcome. *)
Definition reached (ev : graph) (f : option (gset relation)) (n : node) (g : graph) : Prop :=
  n ∉ g_nodes ev /\ exists m, m ∈ g_nodes ev /\ rtc (alink g f) m n.

(** The outcome contributes a relation [r] between the variables [X]: an edge of the evidence, or an
    allowed edge of the outcome that leads away from the evidence. *)
Definition contributes (ev : graph) (f : option (gset relation)) (X : gset Var) (r : relation) (g : graph) : Prop :=
  exists e, edge_vars e X /\ e.2 = r /\ (e ∈ g_edges ev \/ exists n, closer_edge g f (g_nodes ev) n e).

(** The expected activation graph. *)
Record activation_ok (cg : cgraph) (f : option (gset relation)) (ag : agraph) : Prop := {
  ao_total : tally (sp_out (cg_space cg)) anything (ag_total ag);
  ao_nodes : forall v, let out := sp_out (cg_space cg) in let ev := s_g (cg_evidence cg) in
    match ag_nodes ag !! v, cp_vars (sp_cp (cg_space cg)) !! v with
    | Some a, Some X =>
        (an_in_query a = true <-> has_var (g_nodes ev) v) /\
        forall x, match an_values a !! x with
                  | Some w => x ∈ X /\ (0 <= w)%Qc /\ (w <= 1)%Qc /\
                      (if decide ((v, x) ∈ g_nodes ev)
                       then exists n, tally out (has v x) n /\ w = qdiv n (ag_total ag)
                       else exists q, similar_tally out ev (reached ev f (v, x)) q /\
                                      w = (q / qdiv (ag_total ag) 1)%Qc /\ (has_var (g_nodes ev) v -> w = 0%Qc))
                  | None => x ∉ X
                  end
    | None, None => True
    | _, _ => False
    end;
  ao_edges : forall X, let out := sp_out (cg_space cg) in let ev := s_g (cg_evidence cg) in
    match ag_edges ag !! X with
    | Some a =>
        (exists g r, contains out g /\ contributes ev f X r g) /\
        (ae_in_query a = true <-> exists e, e ∈ g_edges ev /\ edge_vars e X) /\
        forall r, match ae_relations a !! r with
                  | Some n => tally out (contributes ev f X r) n /\ (0 < n)%Z
                  | None => forall g, contains out g -> ~ contributes ev f X r g
                  end
    | None => forall g r, contains out g -> ~ contributes ev f X r g
    end
}.

End spec_act.
