(** * ExamplesSets: concrete sample sets and checkers for their hypotheses *)

From Verif Require Export Examples GroupFacts.

Global Instance provider_eq_dec {U : Universe} : EqDecision provider.
Proof. solve_decision. Defined.
Global Instance samples_eq_dec {U : Universe} : EqDecision samples.
Proof. solve_decision. Defined.

Definition set_of (l : list (graph * Z)) : samples := Samples cpx (list_to_map l).

Definition set_wfb {U : Universe} (ss : samples) : bool :=
  bool_decide (map_Forall (fun g _ => wf_graphb (ss_cp ss) g = true) (ss_map ss)).
Lemma set_wfb_spec {U : Universe} (ss : samples) : set_wfb ss = true -> forall g, contains ss g -> wf_graph (ss_cp ss) g.
Proof. intros H%bool_decide_eq_true g [c Hc]. apply wf_graphb_spec, (H g c Hc). Qed.

Definition set_posb {U : Universe} (ss : samples) : bool := bool_decide (map_Forall (fun _ c => 0 < c)%Z (ss_map ss)).
Lemma set_posb_spec {U : Universe} (ss : samples) : set_posb ss = true -> pos_counts ss.
Proof. intros H%bool_decide_eq_true g c Hc. apply (H g c Hc). Qed.

Definition set_singleb {U : Universe} (ss : samples) : bool :=
  bool_decide (map_Forall (fun g _ => single_valuedb (g_nodes g) = true) (ss_map ss)).
Lemma set_singleb_spec {U : Universe} (ss : samples) : set_singleb ss = true -> forall g, contains ss g -> single_valued (g_nodes g).
Proof. intros H%bool_decide_eq_true g [c Hc]. apply single_valuedb_spec, (H g c Hc). Qed.

Definition g_ab : graph := graph_of [ab].
Definition g_bc : graph := graph_of [bc].
Definition g_cd : graph := graph_of [cd].

(** A simple sufficient condition for [no_collision]: every sample has a variable pair that only samples
    of its own kind have. *)
Lemma private_no_collision {U : Universe} (ss : samples) :
  (forall g, contains ss g -> exists p, var_pairs g p /\
     forall h, contains ss h -> var_pairs h p -> same_pairs g h) -> no_collision ss.
Proof.
  intros Hp A B HA HB Hin Hpairs. apply set_choose_L in HA as [a Ha].
  destruct (Hp a) as (p & Hap & Hun); [apply Hin; set_solver +Ha|].
  destruct (proj1 (Hpairs p)) as (b & Hb & Hbp); [eauto|].
  exists a, b. split_and!; [done|done|]. apply Hun; [apply Hin; set_solver +Hb|done].
Qed.

Definition privateb {U : Universe} (ss : samples) : bool :=
  bool_decide (map_Forall (fun g _ => set_Exists (fun p =>
    map_Forall (fun h _ => p ∈ group_key h -> group_key h = group_key g) (ss_map ss)) (group_key g)) (ss_map ss)).
Lemma privateb_spec {U : Universe} (ss : samples) : privateb ss = true -> no_collision ss.
Proof.
  intros H%bool_decide_eq_true. apply private_no_collision. intros g [c Hc].
  destruct (H g c Hc) as (p & Hp & Hun). exists p. split; [by apply elem_of_group_key|].
  intros h [d Hd] Hh. apply same_pairs_key. symmetry. apply (Hun h d Hd). by apply elem_of_group_key.
Qed.

Definition iter_selfb {U : Universe} (ss : samples) : bool :=
  bool_decide (map_Forall (fun g _ => g_edges g = ∅ ->
    set_Forall (fun n : node => var_iter n.1 = Some [n.1]) (g_nodes g)) (ss_map ss)).
Lemma iter_selfb_spec {U : Universe} (ss : samples) : iter_selfb ss = true ->
  forall g v, contains ss g -> g_edges g = ∅ -> has_var (g_nodes g) v -> var_iter v = Some [v].
Proof. intros H%bool_decide_eq_true g v [c Hc] He [x Hx]. apply (H g c Hc He (v, x) Hx). Qed.

(** Concrete decidable facts. *)
Ltac by_vm := cbv zeta; apply (bool_decide_eq_true_1 _); vm_compute; reflexivity.
