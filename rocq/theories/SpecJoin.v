(** * SpecJoin: specification vocabulary for joining outcomes. *)

From Verif Require Export SpecSpace.

Section spec_join.
Context {U : Universe}.

(** Product of numbers. *)
Fixpoint product (l : list Z) : Z := match l with [] => 1 | x :: l => x * product l end%Z.

(** [G] is the union of the graphs of a list. *)
Definition merged (l : list graph) (G : graph) : Prop :=
  (forall n, n ∈ g_nodes G <-> exists g, g ∈ l /\ n ∈ g_nodes g) /\
  (forall e, e ∈ g_edges G <-> exists g, g ∈ l /\ e ∈ g_edges g).

(** [sel] takes, with its count, exactly one outcome from every class of [R] among the outcomes that
    satisfy [P]. *)
Definition selection (R : graph -> graph -> Prop) (P : graph -> Prop) (ss : samples)
    (sel : list (graph * Z)) : Prop :=
  NoDup sel.*1 /\
  (forall g c, (g, c) ∈ sel -> ss_map ss !! g = Some c /\ P g) /\
  (forall h, contains ss h -> P h -> exists g, g ∈ sel.*1 /\ R h g) /\
  (forall g g', g ∈ sel.*1 -> g' ∈ sel.*1 -> R g g' -> g = g').

(** [G] is the union of a consistent selection (no variable with two values), [c] the product of the
    selected counts. *)
Definition joint (R : graph -> graph -> Prop) (P : graph -> Prop) (ss : samples) (G : graph) (c : Z) : Prop :=
  exists sel, selection R P ss sel /\ merged sel.*1 G /\ single_valued (g_nodes G) /\ c = product sel.*2.

(** Outcomes with [v] linked by a chain of overlapping outcomes with [v]. *)
Definition linked_on (ss : samples) (v : Var) : graph -> graph -> Prop :=
  rtc (fun g g' => (contains ss g /\ having v g) /\ (contains ss g' /\ having v g') /\ overlap g g').

(** Two parts of the outcomes with [v] without a common kind never cover the same variable pairs. *)
Definition no_collision_on (ss : samples) (v : Var) : Prop :=
  forall A B : gset graph, A <> ∅ -> B <> ∅ -> (forall g, g ∈ A ∪ B -> contains ss g /\ having v g) ->
    (forall p, (exists g, g ∈ A /\ var_pairs g p) <-> (exists g, g ∈ B /\ var_pairs g p)) ->
    exists a b, a ∈ A /\ b ∈ B /\ same_pairs a b.

(** Variables of the outcomes linked to [g]. *)
Definition linked_vars (ss : samples) (v : Var) (g : graph) (w : Var) : Prop :=
  exists h, contains ss h /\ having v h /\ linked_on ss v g h /\ having w h.

(** No outcome has parallel edges. *)
Definition all_simple (ss : samples) : Prop := forall g, contains ss g -> simple (g_edges g).

(** Names of variables that make up an outcome on their own iterate to themselves (as one-character
    strings do). *)
Definition self_named (ss : samples) : Prop :=
  forall g v, contains ss g -> g_edges g = ∅ -> having v g -> var_iter v = Some [v].

(** Outcomes linked through the variables of [V]: same variable pairs, or a common variable of [V]. *)
Definition cluster (ss : samples) (V : gset Var) : graph -> graph -> Prop :=
  rtc (fun g g' => (contains ss g /\ contains ss g') /\
         (same_pairs g g' \/ exists v, v ∈ V /\ having v g /\ having v g')).

(** Two different sets of kinds of outcomes over the same variables (they make grouping fail). *)
Definition twin_parts (ss : samples) : Prop :=
  exists A B : gset graph, A <> ∅ /\ B <> ∅ /\ (forall g, g ∈ A ∪ B -> contains ss g) /\
    (forall a b, a ∈ A -> b ∈ B -> ~ same_pairs a b) /\
    (forall v, (exists a, a ∈ A /\ having v a) <-> (exists b, b ∈ B /\ having v b)).

(** Some choice of one outcome per kind is consistent. *)
Definition compatible_choice (ss : samples) : Prop :=
  exists G c, joint same_pairs anything ss G c.

(** Every kind of outcomes has one for every combination of occurring values of its variables. *)
Definition full_support (ss : samples) : Prop :=
  forall g (a : Var -> Val), contains ss g -> (forall v, having v g -> occurs ss (v, a v)) ->
    exists h, contains ss h /\ same_pairs g h /\ forall v, having v h -> has v (a v) h.

(** Outcomes without any link between them. *)
Definition disconnected (ss : samples) : Prop :=
  exists g h, contains ss g /\ contains ss h /\ forall V, ~ cluster ss V g h.

(** Two kinds of outcomes share a variable and are also linked without it. *)
Definition cyclic (ss : samples) : Prop :=
  exists v V g h, v ∉ V /\ contains ss g /\ contains ss h /\ having v g /\ having v h /\
    ~ same_pairs g h /\ cluster ss V g h.

(** Some variable occurs in three kinds of outcomes. *)
Definition crowded (ss : samples) : Prop :=
  exists v g1 g2 g3, (contains ss g1 /\ having v g1) /\ (contains ss g2 /\ having v g2) /\ (contains ss g3 /\ having v g3) /\
    ~ same_pairs g1 g2 /\ ~ same_pairs g1 g3 /\ ~ same_pairs g2 g3.

(** What [make_joined] needs of its input. *)
Record joinable (sp : space) : Prop := {
  jn_cp : ss_cp (sp_out sp) = sp_cp sp;
  jn_wf : all_wf (sp_cp sp) (sp_out sp);
  jn_ov : one_valued (sp_out sp);
  jn_simple : all_simple (sp_out sp);
  jn_factorable : factorable (sp_out sp);
  jn_full : full_support (sp_out sp)
}.

End spec_join.
