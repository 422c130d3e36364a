(** * SpecSets: specification vocabulary for sample sets and sample spaces.

    Shares only the data types with the model ([run_set_op] is the driver of client programs). *)

From Verif Require Export Spec.

Section spec_sets.
Context {U : Universe}.

(** ** Histories of a sample set builder *)

(** What happened to a builder so far. *)
Inductive event := Added (g : graph) (c : Z) | Removed (g : graph).

(** The counts added for [g] since [g] was last removed. *)
Definition live (h : list event) (g : graph) : list Z :=
  foldl (fun acc ev =>
      match ev with
      | Added g' c => if decide (g' = g) then acc ++ [c] else acc
      | Removed g' => if decide (g' = g) then [] else acc
      end) [] h.

(** Calls of a client. *)
Inductive set_op :=
  | SAdd (s : sample) (c : Z)
  | SAddAll (o : oracle) (ss : samples)
  | SRemove (s : sample)
  | SRemoveAll (o : oracle) (ss : samples).

(** The call made on the model; the result is what the caller sees ([None] for the builder itself). *)
Definition run_set_op (b : samples) (op : set_op) : samples * res (option (graph * Z)) :=
  match op with
  | SAdd s c => let '(b', r) := ssb_add b s c in (b', (fun _ => None) <$> r)
  | SAddAll o ss => let '(b', r) := ssb_add_all o b ss in (b', (fun _ => None) <$> r)
  | SRemove s => let '(b', r) := ssb_remove b s in (b', Some <$> r)
  | SRemoveAll o ss => let '(b', r) := ssb_remove_all o b ss in (b', (fun _ => None) <$> r)
  end.

Fixpoint run_set_ops (b : samples) (ops : list set_op) : samples * list (res (option (graph * Z))) :=
  match ops with
  | [] => (b, [])
  | op :: ops =>
      let '(b', r) := run_set_op b op in
      let '(b'', rs) := run_set_ops b' ops in (b'', r :: rs)
  end.

(** What a call should do, in terms of histories: [id] is the identity of the builder's provider. *)
Inductive set_step (id : nat) (h : list event) : set_op -> res (option (graph * Z)) -> list event -> Prop :=
  | st_add s c : s_cp s = id ->
      set_step id h (SAdd s c) (Ok None) (h ++ [Added (s_g s) c])
  | st_add_err s c : s_cp s <> id ->
      set_step id h (SAdd s c) (Err AssertionError) h
  | st_add_all o ss evs : cp_id (ss_cp ss) = id \/ ss_map ss = ∅ ->
      evs ≡ₚ ((fun '(g, c) => Added g c) <$> map_to_list (ss_map ss)) ->
      set_step id h (SAddAll o ss) (Ok None) (h ++ evs)
  | st_add_all_err o ss : cp_id (ss_cp ss) <> id -> ss_map ss <> ∅ ->
      set_step id h (SAddAll o ss) (Err AssertionError) h
  | st_remove s : live h (s_g s) <> [] ->
      set_step id h (SRemove s) (Ok (Some (s_g s, zsum (live h (s_g s))))) (h ++ [Removed (s_g s)])
  | st_remove_err s : live h (s_g s) = [] ->
      set_step id h (SRemove s) (Err AssertionError) h
  | st_remove_all o ss evs : (forall g, is_Some (ss_map ss !! g) -> live h g <> []) ->
      evs ≡ₚ (Removed <$> (map_to_list (ss_map ss)).*1) ->
      set_step id h (SRemoveAll o ss) (Ok None) (h ++ evs)
  | st_remove_all_err o ss gs g : is_Some (ss_map ss !! g) -> live h g = [] ->
      NoDup gs -> (forall g', g' ∈ gs -> is_Some (ss_map ss !! g') /\ live h g' <> []) ->
      set_step id h (SRemoveAll o ss) (Err AssertionError) (h ++ (Removed <$> gs)).

Inductive set_steps (id : nat) : list event -> list set_op -> list (res (option (graph * Z))) ->
    list event -> Prop :=
  | sts_nil h : set_steps id h [] [] h
  | sts_cons h op r h' ops rs h'' : set_step id h op r h' -> set_steps id h' ops rs h'' ->
      set_steps id h (op :: ops) (r :: rs) h''.

(** [b] shows exactly the counts of history [h]. *)
Definition shows (b : samples) (h : list event) : Prop :=
  forall g, match live h g with
            | [] => ss_map b !! g = None
            | l => ss_map b !! g = Some (zsum l)
            end.

(** ** Multisets *)

(** Number of observations of [g]. *)
Definition times_in (ss : samples) (g : graph) : Z := default 0%Z (ss_map ss !! g).

(** Total number of observations, counted along any list of the distinct samples. *)
Definition total_count (ss : samples) (n : Z) : Prop :=
  forall l, NoDup l -> (forall g, g ∈ l <-> is_Some (ss_map ss !! g)) -> n = zsum (times_in ss <$> l).

(** All counts are positive (what adding positive counts produces). *)
Definition pos_counts (ss : samples) : Prop := forall g c, ss_map ss !! g = Some c -> (0 < c)%Z.

(** The set contains [g]. *)
Definition contains (ss : samples) (g : graph) : Prop := is_Some (ss_map ss !! g).

(** [n] is a node of some sample of the set. *)
Definition occurs (ss : samples) (n : node) : Prop := exists g, contains ss g /\ n ∈ g_nodes g.
Definition occurs_edge (ss : samples) (e : edge) : Prop := exists g, contains ss g /\ e ∈ g_edges g.

(** No two occurring nodes share the variable but not the value. *)
Definition values_match (ss : samples) : Prop :=
  forall v x y, occurs ss (v, x) -> occurs ss (v, y) -> x = y.

(** No two occurring edges join the same nodes differently. *)
Definition edges_match (ss : samples) : Prop :=
  forall e e', occurs_edge ss e -> occurs_edge ss e' -> e.1 = e'.1 -> e = e'.

(** Any two samples share a node. *)
Definition pairwise_meet (ss : samples) : Prop :=
  forall g g', contains ss g -> contains ss g' -> exists n, n ∈ g_nodes g /\ n ∈ g_nodes g'.

(** Every sample after the first one shares a node with an earlier one. *)
Definition linked_order (l : list graph) : Prop :=
  forall l1 g l2, l = l1 ++ g :: l2 -> l1 = [] \/ exists h n, h ∈ l1 /\ n ∈ g_nodes h /\ n ∈ g_nodes g.

(** The union of all samples. *)
Definition union_graph (ss : samples) (G : graph) : Prop :=
  (forall n, n ∈ g_nodes G <-> occurs ss n) /\ (forall e, e ∈ g_edges G <-> occurs_edge ss e).

(** Variables that all samples have. *)
Definition common_var (ss : samples) (v : Var) : Prop :=
  forall g, contains ss g -> has_var (g_nodes g) v.

(** ** Grouping *)

(** The pair of variables an edge joins; a graph without edges stands for its variables. *)
Definition var_pairs (g : graph) (p : Var + gset Var) : Prop :=
  match p with
  | inr X => exists e, e ∈ g_edges g /\ forall v, v ∈ X <-> has_var e.1 v
  | inl v => g_edges g = ∅ /\ has_var (g_nodes g) v
  end.

(** Two samples overlap: an edge over the same variables (or the same single variable). *)
Definition overlap (g g' : graph) : Prop := exists p, var_pairs g p /\ var_pairs g' p.

(** Samples with the same variable pairs. *)
Definition same_pairs (g g' : graph) : Prop := forall p, var_pairs g p <-> var_pairs g' p.

(** Two parts of the set without a common kind of samples never cover the same variable pairs. *)
Definition no_collision (ss : samples) : Prop :=
  forall A B : gset graph, A <> ∅ -> B <> ∅ -> (forall g, g ∈ A ∪ B -> contains ss g) ->
    (forall p, (exists g, g ∈ A /\ var_pairs g p) <-> (exists g, g ∈ B /\ var_pairs g p)) ->
    exists a b, a ∈ A /\ b ∈ B /\ same_pairs a b.

(** Linked by a chain of overlapping samples of the set. *)
Definition chain (ss : samples) : graph -> graph -> Prop :=
  rtc (fun g g' => contains ss g /\ contains ss g' /\ overlap g g').

(** [grp] holds exactly the samples linked to [g], with their counts; the variables of these samples. *)
Definition class_of (ss : samples) (g : graph) (grp : gmap graph Z) : Prop :=
  forall h c, grp !! h = Some c <-> ss_map ss !! h = Some c /\ chain ss g h.

Definition class_vars (ss : samples) (g : graph) (v : Var) : Prop :=
  exists h, contains ss h /\ chain ss g h /\ has_var (g_nodes h) v.

End spec_sets.
