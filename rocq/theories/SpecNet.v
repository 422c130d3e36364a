(** * SpecNet: specification vocabulary for relation graphs that hold the factors of a network. *)

From Verif Require Export SpecSep.

Section spec_net.
Context {U : Universe}.

(** A factor: variables, links between them, and a number for every assignment of values. *)
Record factor := Factor {
  f_vars : gset Var;
  f_links : gset (Var * Var * relation);
  f_table : (Var -> Val) -> Z
}.

(** The outcome that stands for an assignment. *)
Definition f_graph (f : factor) (a : Var -> Val) : graph :=
  Graph (set_map (fun v => (v, a v)) (f_vars f))
        (set_map (fun l => ({[(l.1.1, a l.1.1); (l.1.2, a l.1.2)]}, l.2)) (f_links f)).

(** The assignment uses declared values for these variables. *)
Definition admissible (cp : provider) (V : gset Var) (a : Var -> Val) : Prop := forall v, v ∈ V -> declared cp (v, a v).

Definition linked_in (f : factor) (v w : Var) : Prop := exists r, (v, w, r) ∈ f_links f \/ (w, v, r) ∈ f_links f.

Record factor_ok (cp : provider) (f : factor) : Prop := {
  fk_vars : f_vars f <> ∅;
  fk_values : forall v, v ∈ f_vars f -> exists x, declared cp (v, x);
  fk_links : forall v w r, (v, w, r) ∈ f_links f -> v ∈ f_vars f /\ w ∈ f_vars f /\ v <> w /\
    match r with
    | Plain r => r ∈ cp_rels cp
    | Directed s t r => r ∈ cp_rels cp /\ s ∈ ({[v; w]} : gset Var) /\ t ∈ ({[v; w]} : gset Var)
    end;
  fk_linked : forall v w, v ∈ f_vars f -> w ∈ f_vars f -> rtc (linked_in f) v w;
  fk_simple : forall v w r v' w' r', (v, w, r) ∈ f_links f -> (v', w', r') ∈ f_links f ->
    ({[v; w]} : gset Var) = {[v'; w']} -> r = r';
  fk_table : forall a b, (forall v, v ∈ f_vars f -> a v = b v) -> f_table f a = f_table f b
}.

(** Two factors link the same two variables, or are about the same single variable. *)
Definition clash (f f' : factor) : Prop :=
  (exists v w r v' w' r', (v, w, r) ∈ f_links f /\ (v', w', r') ∈ f_links f' /\ ({[v; w]} : gset Var) = {[v'; w']}) \/
  (f_links f = ∅ /\ f_links f' = ∅ /\ exists v, v ∈ f_vars f /\ v ∈ f_vars f').

Record net_ok (cp : provider) (fs : list factor) : Prop := {
  nt_factors : forall f, f ∈ fs -> factor_ok cp f;
  nt_clash : forall i j f f', fs !! i = Some f -> fs !! j = Some f' -> clash f f' -> i = j
}.

(** The outcomes of the space are exactly the assignments of the factors, with their numbers. *)
Definition holds_net (sp : space) (fs : list factor) : Prop :=
  ss_cp (sp_out sp) = sp_cp sp /\
  forall g c, count_of (sp_out sp) g = Ok c <->
    exists f a, f ∈ fs /\ admissible (sp_cp sp) (f_vars f) a /\ g = f_graph f a /\ c = f_table f a.

Definition net_vars (fs : list factor) (v : Var) : Prop := exists f, f ∈ fs /\ v ∈ f_vars f.

(** The outcome over all variables that stands for an assignment. *)
Definition net_graph (fs : list factor) (a : Var -> Val) : graph :=
  Graph (⋃ ((fun f => g_nodes (f_graph f a)) <$> fs)) (⋃ ((fun f => g_edges (f_graph f a)) <$> fs)).

(** The product of the factors. *)
Definition net_product (fs : list factor) (a : Var -> Val) : Z := product ((fun f => f_table f a) <$> fs).

(** Factors (by position) linked by chains of factors with a common variable that satisfies [P]. *)
Definition net_chain (fs : list factor) (P : Var -> Prop) : nat -> nat -> Prop :=
  rtc (fun i j => exists f f' v, fs !! i = Some f /\ fs !! j = Some f' /\ P v /\ v ∈ f_vars f /\ v ∈ f_vars f').

Definition net_connected (fs : list factor) : Prop :=
  forall i j, i < length fs -> j < length fs -> net_chain fs (fun _ => True) i j.

(** Two factors share a variable and are also linked without it. *)
Definition net_cyclic (fs : list factor) : Prop :=
  exists i j f f' v, i <> j /\ fs !! i = Some f /\ fs !! j = Some f' /\ v ∈ f_vars f /\ v ∈ f_vars f' /\
    net_chain fs (fun w => w <> v) i j.

(** Some variable is in three factors. *)
Definition net_crowded (fs : list factor) : Prop :=
  exists v i j k f g h, i <> j /\ i <> k /\ j <> k /\ fs !! i = Some f /\ fs !! j = Some g /\ fs !! k = Some h /\
    v ∈ f_vars f /\ v ∈ f_vars g /\ v ∈ f_vars h.

End spec_net.
