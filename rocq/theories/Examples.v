(** * Examples: concrete objects (all names are strings) used by the non-vacuity examples and the
    refutations. *)

From Verif Require Export BfsFacts.
From Coq Require Export String.
Global Open Scope string_scope.
#[global] Existing Instance StrU.

Global Instance sample_eq_dec {U : Universe} : EqDecision sample.
Proof. solve_decision. Defined.
Global Instance res_eq_dec {A} `{EqDecision A} : EqDecision (res A).
Proof. solve_decision. Defined.

(** The identity iteration order, and the order reversing every list of at most ten elements. *)
Definition o0 : oracle := fun _ => [].
Definition o1 : oracle := fun _ => [9;8;7;6;5;4;3;2;1;0]%nat.

Definition vals12 : gset string := {["1"; "2"]}.

(** Four variables with two values, two relations. *)
Definition cpx : provider :=
  Provider 7 (list_to_map [("a", vals12); ("b", vals12); ("c", vals12); ("d", vals12)]) {["r"; "q"]}.
Definition other_cp : provider := Provider 8 (cp_vars cpx) (cp_rels cpx).

Definition nd (v x : string) : node := (v, x).
Definition rl (r : string) : relation := Plain (r : @Rel StrU).
Definition drl (s t r : string) : relation := Directed (s : @Var StrU) t r.
Definition ed (v x w y r : string) : edge := ({[nd v x; nd w y]}, rl r).

Definition ab : edge := ed "a" "1" "b" "1" "r".
Definition bc : edge := ed "b" "1" "c" "1" "r".
Definition ca : edge := ed "c" "1" "a" "1" "q".
Definition cd : edge := ed "c" "1" "d" "1" "r".

Definition dict (l : list (string * string)) : gmap Var Val := list_to_map l.

(** Graph with the given edges and exactly their endpoints. *)
Definition graph_of {U : Universe} (es : list edge) : graph := Graph (⋃ (fst <$> es)) (list_to_set es).
Definition single (v x : string) : graph := Graph {[nd v x]} ∅.
Definition smp (g : graph) : sample := Sample 7 g.

Definition g_path : graph := graph_of [ab; bc; cd].
Definition g_triangle : graph := graph_of [ab; bc; ca].

(** Checkers for the hypotheses. *)
Section checkers.
Context {U : Universe}.

Definition edge_legalb (cp : provider) (e : edge) : bool := is_ok (make_edge cp e.1 e.2).
Lemma edge_legalb_spec cp e : edge_legalb cp e = true -> edge_legal cp e.
Proof.
  unfold edge_legalb. pose proof (make_edge_spec cp e.1 e.2) as Hm. rewrite <- surjective_pairing in Hm.
  destruct (make_edge _ _ _) as [[? ?]|]; [tauto|done].
Qed.

Definition node_legalb (cp : provider) (n : node) : bool := is_ok (get_node cp n.1 n.2).
Lemma node_legalb_spec cp n : node_legalb cp n = true -> declared cp n.
Proof.
  unfold node_legalb. pose proof (get_node_spec cp n.1 n.2) as Hm. destruct n.
  destruct (get_node _ _ _); [tauto|done].
Qed.

Definition wf_graphb (cp : provider) (g : graph) : bool :=
  bool_decide (set_Forall (fun n => node_legalb cp n = true) (g_nodes g)) &&
  bool_decide (set_Forall (fun e => edge_legalb cp e = true /\ e.1 ⊆ g_nodes g) (g_edges g)) &&
  (bool_decide (size (g_nodes g) <= 1) ||
   (bool_decide (g_nodes g = ⋃ (fst <$> elements (g_edges g))) &&
    match is_edges_connected o0 (g_edges g) with Ok b => b | Err _ => false end)).

Lemma size_le_1_eq (X : gset node) (x y : node) : size X <= 1 -> x ∈ X -> y ∈ X -> x = y.
Proof.
  intros Hs Hx Hy. destruct (decide (x = y)) as [|Hne]; [done|].
  assert (size ({[x; y]} : gset node) <= size X) by (apply subseteq_size; set_solver).
  rewrite size_pair in * by done. lia.
Qed.

Lemma wf_graphb_spec cp g : wf_graphb cp g = true -> wf_graph cp g.
Proof.
  unfold wf_graphb. intros [[H1 H2]%andb_true_iff H3]%andb_true_iff.
  apply bool_decide_eq_true in H1, H2. split.
  - intros n Hn. by apply node_legalb_spec, H1.
  - intros e He. by apply edge_legalb_spec, H2.
  - intros e He. by apply H2.
  - intros x y Hx Hy. apply orb_true_iff in H3 as [H3|H3].
    + apply bool_decide_eq_true in H3. by rewrite (size_le_1_eq _ x y H3 Hx Hy).
    + apply andb_true_iff in H3 as [H3 H4]. apply bool_decide_eq_true in H3.
      pose proof (is_edges_connected_spec o0 (g_edges g)) as Hc.
      destruct (is_edges_connected o0 (g_edges g)) as [c|]; [|done]. subst c.
      destruct Hc as (_ & _ & Hc). pose proof (proj1 Hc eq_refl) as Hl.
      assert (forall z, z ∈ g_nodes g -> touches (g_edges g) z) as Ht.
      { intros z Hz. rewrite H3 in Hz. apply elem_of_union_list in Hz as (X & HX & Hz).
        apply elem_of_list_fmap in HX as (e & -> & He). exists e. by apply elem_of_elements in He. }
      apply Hl; by apply Ht.
Qed.

Definition simpleb (es : gset edge) : bool :=
  bool_decide (set_Forall (fun e => set_Forall (fun e' => e.1 = e'.1 -> e = e') es) es).
Lemma simpleb_spec es : simpleb es = true -> simple es.
Proof. intros H%bool_decide_eq_true e e' He He'. by apply (H e He e'). Qed.

Definition single_valuedb (X : gset node) : bool :=
  bool_decide (set_Forall (fun n : node => set_Forall (fun n' : node => n.1 = n'.1 -> n.2 = n'.2) X) X).
Lemma single_valuedb_spec X : single_valuedb X = true -> single_valued X.
Proof. intros H%bool_decide_eq_true v x y Hx Hy. by apply (H _ Hx _ Hy). Qed.

End checkers.
