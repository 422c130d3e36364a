(** * PropsDraw: drawings of samples, spaces, folded graphs and activation graphs (C60) *)

From Coq Require Import ZArith String Ascii.
From Verif Require Import TextFacts ExamplesSets PropsJoin PropsActFloat SpecDraw DrawSample DrawOutcomes DrawVars DrawMain.

Local Notation txt := (list N).

Section theorems.
Context {U : Universe}.
Context (sv : Var -> txt) (sx : Val -> txt) (sr : Rel -> txt) (sw : b64 -> txt) (name : graph -> txt).

(** ** C60: [SampleGraph.visualize] draws the nodes and edges of the sample, and nothing else. *)
Theorem C60_sample (o : oracle) (cp : provider) (g : graph) :
  wf_graph cp g ->
  exists net, sample_visualize sv sx sr o g = Ok net /\ pictures net (sample_node sv sx g) (sample_line sv sx sr g).
Proof. exact (sample_lemma sv sx sr cp o g). Qed.

(** With different names it draws each node once, and in a simple graph each edge once with its relation. *)
Theorem C60_sample_exact (o : oracle) (cp : provider) (g : graph) (net : network txt) :
  wf_graph cp g -> distinct_names sv sx cp -> sample_visualize sv sx sr o g = Ok net ->
  length (nw_nodes net) = size (g_nodes g) /\
  (simple (g_edges g) ->
   length (nw_edges net) = size (g_edges g) /\
   forall e, e ∈ g_edges g -> exists v x w y t, joins e (v, x) (w, y) /\ reads sv sr e.2 t /\
     (called sv sx v x, called sv sx w y, (t, None)) ∈ nw_edges net).
Proof. exact (sample_exact sv sx sr cp o g net). Qed.

Theorem C60_readable_names (cp : provider) : readable sv sx sr cp -> distinct_names sv sx cp.
Proof. exact (readable_names sv sx sr cp). Qed.

(** [visualize_outcomes] draws each outcome with its own nodes, one of them headed by the name and count of the outcome,
    and the evidence in red. *)
Theorem C60_outcomes (o : oracle) (ss : samples) (ev : option graph) :
  all_wf (ss_cp ss) ss -> (forall g, ev = Some g -> wf_graph (ss_cp ss) g) -> (forall g, contains ss g -> g_nodes g <> ∅) ->
  exists net l, visualize_outcomes sv sx sr name o ss ev = Ok net /\ l ≡ₚ map_to_list (ss_map ss) /\
    pictures net (space_node sv sx name l ev) (space_line sv sx sr l ev) /\
    (distinct_names sv sx (ss_cp ss) -> digit_free_ends sv sx (ss_cp ss) ->
     forall j g c, l !! j = Some (g, c) -> exists h, h ∈ g_nodes g /\ forall v x, (v, x) ∈ g_nodes g ->
       (copy_of sv sx j v x, (if decide ((v, x) = h) then heading sv sx name g c v x else called sv sx v x, None)) ∈ nw_nodes net).
Proof. exact (outcomes_lemma sv sx sr name o ss ev). Qed.

(** Its nodes are then all different. *)
Theorem C60_outcome_ids (cp : provider) (j j' : nat) (v w : Var) (x y : Val) :
  distinct_names sv sx cp -> digit_free_ends sv sx cp -> declared cp (v, x) -> declared cp (w, y) ->
  (copy_of sv sx j v x = copy_of sv sx j' w y -> j = j' /\ (v, x) = (w, y)) /\ copy_of sv sx j v x <> asked sv sx w y.
Proof. exact (fun H1 H2 H3 H4 => conj (copies_differ sv sx cp j j' v x w y H1 H2 H3 H4) (copy_not_asked sv sx j v x w y)). Qed.

(** An outcome without nodes cannot be drawn. *)
Theorem C60_empty_outcome (o : oracle) (ss : samples) (ev : option graph) (g : graph) :
  all_wf (ss_cp ss) ss -> (forall g, ev = Some g -> wf_graph (ss_cp ss) g) -> contains ss g -> g_nodes g = ∅ ->
  visualize_outcomes sv sx sr name o ss ev = Err IndexError.
Proof. exact (outcomes_empty sv sx sr name o ss ev g). Qed.

(** [FoldedGraph.visualize] draws every declared variable once: those that occur with the counts of their values, the
    others in gray; and one line for each pair of related variables. *)
Theorem C60_folded (o o' : oracle) (sp : space) (fg : fgraph) (drawable : Var -> bool) :
  all_wf (sp_cp sp) (sp_out sp) -> one_valued (sp_out sp) -> pos_counts (sp_out sp) -> folded_graph o sp = Ok fg ->
  (forall v, declared_var (sp_cp sp) v -> drawable v = true) ->
  exists net, folded_visualize sv sx sr drawable o' (sp_cp sp) fg = Ok net /\
    pictures net (folded_point sv sx (sp_cp sp) (sp_out sp) fg) (folded_line sv sr fg) /\
    (forall v, v ∈ (nw_nodes net).*1 <-> declared_var (sp_cp sp) v).
Proof. exact (fun H1 H2 H3 H4 => folded_pictures sv sx sr o sp fg H1 H2 H3 H4 drawable o'). Qed.

(** Variables that are neither strings nor integers cannot be drawn. *)
Theorem C60_folded_undrawable (o o' : oracle) (sp : space) (fg : fgraph) (drawable : Var -> bool) (v : Var) :
  all_wf (sp_cp sp) (sp_out sp) -> folded_graph o sp = Ok fg -> declared_var (sp_cp sp) v -> drawable v = false ->
  folded_visualize sv sx sr drawable o' (sp_cp sp) fg = Err AssertionError.
Proof. exact (fun H1 H2 => folded_undrawable sv sx sr o sp fg H1 H2 drawable o' v). Qed.

(** [ActivationGraph.visualize] draws every declared variable once with its weights, evidence in green and the others
    in a shade of red, and one line for each pair of related variables. *)
Theorem C60_active (o o' : oracle) (sp : space) (ev : sample) (cg : cgraph) (f : option (gset relation)) (fg : fagraph) (drawable : Var -> bool) :
  conditional_graph sp ev = Ok cg -> all_wf (sp_cp sp) (sp_out sp) -> one_valued (sp_out sp) -> pos_counts (sp_out sp) ->
  wf_graph (sp_cp sp) (s_g ev) -> single_valued (g_nodes (s_g ev)) -> g_nodes (s_g ev) <> ∅ ->
  ss_map (sp_out (cg_space cg)) <> ∅ -> (ss_length (sp_out (cg_space cg)) <= 2 ^ 53)%Z ->
  activation_graph_f o cg f = Ok fg ->
  (forall v, declared_var (sp_cp sp) v -> drawable v = true) -> (forall v X, cp_vars (sp_cp sp) !! v = Some X -> X <> ∅) ->
  exists net, active_visualize sv sx sr sw drawable o' (sp_cp sp) fg = Ok net /\
    pictures net (active_point sv sx sw fg) (active_line sv sr fg) /\
    (forall v, v ∈ (nw_nodes net).*1 <-> declared_var (sp_cp sp) v).
Proof. exact (fun H1 H2 H3 H4 H5 H6 H7 H8 H9 H10 => active_lemma sv sx sr sw o sp ev cg f fg H1 H2 H3 H4 H5 H6 H7 H8 H9 H10 drawable o'). Qed.

(** A declared variable without values makes [max] fail; one that is neither a string nor an integer, [add_node]. *)
Theorem C60_active_no_values (o o' : oracle) (sp : space) (ev : sample) (cg : cgraph) (f : option (gset relation)) (fg : fagraph) (drawable : Var -> bool) (v : Var) :
  conditional_graph sp ev = Ok cg -> all_wf (sp_cp sp) (sp_out sp) -> one_valued (sp_out sp) -> pos_counts (sp_out sp) ->
  wf_graph (sp_cp sp) (s_g ev) -> single_valued (g_nodes (s_g ev)) -> g_nodes (s_g ev) <> ∅ ->
  ss_map (sp_out (cg_space cg)) <> ∅ -> (ss_length (sp_out (cg_space cg)) <= 2 ^ 53)%Z ->
  activation_graph_f o cg f = Ok fg ->
  cp_vars (sp_cp sp) !! v = Some ∅ -> (forall v, declared_var (sp_cp sp) v -> drawable v = true) ->
  active_visualize sv sx sr sw drawable o' (sp_cp sp) fg = Err ValueError.
Proof. exact (fun H1 H2 H3 H4 H5 H6 H7 H8 H9 H10 => active_no_values sv sx sr sw o sp ev cg f fg H1 H2 H3 H4 H5 H6 H7 H8 H9 H10 drawable o' v). Qed.
Theorem C60_active_undrawable (o o' : oracle) (sp : space) (ev : sample) (cg : cgraph) (f : option (gset relation)) (fg : fagraph) (drawable : Var -> bool) (v : Var) :
  conditional_graph sp ev = Ok cg -> all_wf (sp_cp sp) (sp_out sp) -> one_valued (sp_out sp) -> pos_counts (sp_out sp) ->
  wf_graph (sp_cp sp) (s_g ev) -> single_valued (g_nodes (s_g ev)) -> g_nodes (s_g ev) <> ∅ ->
  ss_map (sp_out (cg_space cg)) <> ∅ -> (ss_length (sp_out (cg_space cg)) <= 2 ^ 53)%Z ->
  activation_graph_f o cg f = Ok fg ->
  declared_var (sp_cp sp) v -> drawable v = false -> (forall v X, cp_vars (sp_cp sp) !! v = Some X -> X <> ∅) ->
  active_visualize sv sx sr sw drawable o' (sp_cp sp) fg = Err AssertionError.
Proof. exact (fun H1 H2 H3 H4 H5 H6 H7 H8 H9 H10 => active_undrawable sv sx sr sw o sp ev cg f fg H1 H2 H3 H4 H5 H6 H7 H8 H9 H10 drawable o' v). Qed.

(** In an activation graph that was not made by [activation_graph] and lacks a declared variable, that variable is black
    with the weight 0 for each of its values. *)
Theorem C60_active_absent (o : oracle) (cp : provider) (fg : fagraph) (drawable : Var -> bool) (net : network Var) (v : Var) (X : gset Val) :
  active_visualize sv sx sr sw drawable o cp fg = Ok net -> cp_vars cp !! v = Some X -> fa_nodes fg !! v = None ->
  exists l, l ≡ₚ elements X /\
    (v, (lit "{" ++ Text.join (lit ", ") ((fun x => sx x ++ lit "=0") <$> l) ++ lit "}", Some (lit "black"))) ∈ nw_nodes net.
Proof. exact (inactive_lemma sv sx sr sw drawable cp fg o net v X). Qed.
End theorems.

(** ** Examples and refutations *)

Global Instance network_eq_dec {I} `{EqDecision I} : EqDecision (network I).
Proof. solve_decision. Defined.

#[local] Existing Instance TinyU.
Definition tsv (v : @Var TinyU) : txt := [96 + Npos v]%N.
Definition tsx (x : @Val TinyU) : txt := [119 + Npos x]%N.
Definition tsr (_ : @Rel TinyU) : txt := lit "r".
Notation tv x := (x : @Var TinyU) (only parsing).

(** a_x -r- b_x *)
Example C60_sample_example :
  sample_visualize tsv tsx tsr o0 t_ab =
    Ok (Network [(lit "b_x", (lit "b_x", None)); (lit "a_x", (lit "a_x", None))] [(lit "b_x", lit "a_x", (lit "r", None))]).
Proof. by_vm. Qed.
Lemma tiny_names : distinct_names tsv tsx tcp.
Proof.
  intros v x w y _ _ H. unfold called in H.
  assert (tsv v = tsv w) as H1 by exact (f_equal (fun l => take 1 l) H).
  assert (tsx x = tsx y) as H2 by exact (f_equal (fun l => drop 2 l) H).
  assert (forall (k : N) (p q : positive), [(k + N.pos p)%N] = [(k + N.pos q)%N] -> p = q) as Hi.
  { intros k p q Hk. apply (f_equal (fun l => default 0%N (head l))) in Hk. change (k + N.pos p = k + N.pos q)%N in Hk. lia. }
  apply Hi in H1, H2. by rewrite H1, H2.
Qed.
Example C60_sample_hypotheses : wf_graph tcp t_ab /\ distinct_names tsv tsx tcp /\ simple (g_edges t_ab).
Proof.
  split; [apply wf_graphb_spec; vm_compute; reflexivity|]. split; [exact tiny_names|].
  intros e e' He He' _. unfold t_ab, graph_of in He, He'. cbn [g_edges list_to_set list_to_set fmap] in He, He'.
  rewrite union_empty_r_L in He, He'. apply elem_of_singleton in He, He'. congruence.
Qed.

(** Two outcomes, the second (in this order) with the count 7, and evidence. *)
Example C60_outcomes_example :
  let ss := tset [(tsingle va x1, 5%Z); (t_ab, 7%Z)] in
  visualize_outcomes tsv tsx tsr (fun _ => lit "n") o0 ss (Some (tsingle va x1)) =
    Ok (Network [(lit "b_x0", (lit "b_x@n(7)", None)); (lit "a_x0", (lit "a_x", None)); (lit "a_x1", (lit "a_x@n(5)", None));
                 (lit "a_x_query", (lit "a_x", Some (lit "red")))]
                [(lit "b_x0", lit "a_x0", (lit "r", None))]).
Proof. by_vm. Qed.
Example C60_outcomes_hypotheses :
  let ss := tset [(tsingle va x1, 5%Z); (t_ab, 7%Z)] in
  all_wf (ss_cp ss) ss /\ wf_graph tcp (tsingle va x1) /\ (forall g, contains ss g -> g_nodes g <> ∅) /\
  distinct_names tsv tsx (ss_cp ss) /\ digit_free_ends tsv tsx tcp.
Proof.
  intros ss. split. { refine (set_wfb_spec ss _). vm_compute; reflexivity. }
  split. { apply wf_graphb_spec; vm_compute; reflexivity. }
  split.
  { assert (map_Forall (fun g _ => g_nodes g <> ∅) (ss_map ss)) as H by by_vm. intros g [c Hc]. exact (H g c Hc). }
  split; [exact tiny_names|].
  intros v x _ (t & d & H & Hd). unfold called, tsx in H. rewrite !app_assoc in H. apply app_inj_tail in H as [_ <-]. lia.
Qed.

(** A folded graph: a and b occur, c and d do not. *)
Definition sp_draw : space := Space tcp (tset [(t_ab, 2%Z); (tsingle va x1, 3%Z)]).
Definition fg_draw : fgraph := match folded_graph o0 sp_draw with Ok fg => fg | Err _ => FGraph 0 ∅ ∅ end.
Example C60_folded_example :
  is_ok (folded_graph o0 sp_draw) &&
  bool_decide (folded_visualize tsv tsx tsr (fun _ => true) o0 tcp fg_draw =
    Ok (Network [(va, (lit "a:{x(5), u(0)}", None)); (vb, (lit "b:{x(2), u(3)}", None));
                 (vd, (lit "d:{x(0),y(0), u(5)}", Some (lit "gray"))); (vc, (lit "c:{x(0),y(0), u(5)}", Some (lit "gray")))]
                [(va, vb, (lit "{r(2)}", None))])) = true.
Proof. vm_compute. reflexivity. Qed.
Example C60_folded_hypotheses : all_wf (sp_cp sp_draw) (sp_out sp_draw) /\ one_valued (sp_out sp_draw) /\ pos_counts (sp_out sp_draw).
Proof.
  split. { refine (set_wfb_spec _ _). vm_compute; reflexivity. }
  split. { refine (set_singleb_spec _ _). vm_compute; reflexivity. }
  refine (set_posb_spec _ _). vm_compute; reflexivity.
Qed.

(** The activation graph of PropsActFloat.v. *)
Definition colors_of (r : res (network positive)) : list (positive * option txt) :=
  match r with Ok net => (fun n => (n.1, n.2.2)) <$> nw_nodes net | Err _ => [] end.
Example C60_active_example :
  bool_decide (colors_of (match activation_graph_f o0 cg_digits None with
    | Ok fg => active_visualize tsv tsx tsr (fun _ => lit "w") (fun _ => true) o0 tcp fg
    | Err e => Err e end) =
  [(va, Some (lit "green")); (vb, Some (lit "#380000")); (vd, Some (lit "#000000")); (vc, Some (lit "#190000"))]) = true.
Proof. vm_compute. reflexivity. Qed.

(** Two nodes of the same name are drawn as one, with a line from it to itself. *)
Definition usv (v : @Var TinyU) : txt := if bool_decide (v = va) then lit "a" else lit "a_b".
Definition usx (x : @Val TinyU) : txt := if bool_decide (x = x1) then lit "b_c" else lit "c".
Theorem C60_same_names_refuted : exists (sv : Var -> txt) (sx : Val -> txt) (sr : Rel -> txt) (o : oracle) (cp : provider) (g : graph) (i : txt) (l : txt),
  wf_graph cp g /\ size (g_nodes g) = 2 /\ size (g_edges g) = 1 /\
  sample_visualize sv sx sr o g = Ok (Network [(i, (i, None))] [(i, i, (l, None))]).
Proof.
  exists usv, usx, tsr, o0, tcp, (graph_of [ted va x1 vb x2]), (lit "a_b_c"), (lit "r").
  split; [apply wf_graphb_spec; vm_compute; reflexivity|]. split; [by_vm|]. split; by_vm.
Qed.

(** Of parallel edges only one is drawn; which one depends on the order of iteration. *)
Definition t_parallel : graph :=
  graph_of [ted va x1 vb x1; ({[tnd va x1; tnd vb x1]}, Directed va vb (tt : @Rel TinyU))].
Theorem C60_parallel_refuted : exists (o o' : oracle) (cp : provider) (g : graph) (net net' : network txt) (a b c d l l' : txt),
  wf_graph cp g /\ distinct_names tsv tsx cp /\ size (g_edges g) = 2 /\
  sample_visualize tsv tsx tsr o g = Ok net /\ nw_edges net = [(a, b, (l, None))] /\
  sample_visualize tsv tsx tsr o' g = Ok net' /\ nw_edges net' = [(c, d, (l', None))] /\ l <> l'.
Proof.
  exists o0, o1, tcp, t_parallel.
  exists (Network [(lit "b_x", (lit "b_x", None)); (lit "a_x", (lit "a_x", None))] [(lit "b_x", lit "a_x", (lit "r", None))]).
  exists (Network [(lit "a_x", (lit "a_x", None)); (lit "b_x", (lit "b_x", None))] [(lit "a_x", lit "b_x", (lit "r[a->b]", None))]).
  exists (lit "b_x"), (lit "a_x"), (lit "a_x"), (lit "b_x"), (lit "r"), (lit "r[a->b]").
  split; [apply wf_graphb_spec; vm_compute; reflexivity|]. split; [exact tiny_names|].
  split; [by_vm|]. split; [by_vm|]. split; [by_vm|]. split; [by_vm|]. split; by_vm.
Qed.

(** Names that end in digits: with eleven outcomes, value 1 in outcome 10 and value 11 in outcome 0 share a node. *)
Definition values11 : list positive := [1; 2; 3; 4; 5; 6; 7; 8; 9; 10; 11]%positive.
Definition cp11 : provider := Provider 7 {[va := list_to_set values11 : gset (@Val TinyU)]} {[tt : @Rel TinyU]}.
Definition ss11 : samples := Samples cp11 (list_to_map ((fun x => (tsingle va x, 1%Z)) <$> values11)).
Definition dsx (x : @Val TinyU) : txt := int_text (Zpos x).
Theorem C60_digits_refuted : exists (sv : Var -> txt) (sx : Val -> txt) (o : oracle) (ss : samples) (net : network txt),
  all_wf (ss_cp ss) ss /\ distinct_names sv sx (ss_cp ss) /\ map_Forall (fun g _ => size (g_nodes g) = 1) (ss_map ss) /\
  size (ss_map ss) = 11 /\ visualize_outcomes sv sx tsr (fun _ => lit "n") o ss None = Ok net /\ length (nw_nodes net) = 10.
Proof.
  exists tsv, dsx, (oc [1; 1; 1; 1]), ss11.
  destruct (visualize_outcomes tsv dsx tsr (fun _ => lit "n") (oc [1; 1; 1; 1]) ss11 None) as [net|e] eqn:Hv.
  - exists net. split. { refine (set_wfb_spec _ _). vm_compute; reflexivity. }
    split.
    { intros v x w y Hv' Hw H. unfold called in H.
      assert (tsv v = tsv w) as H1 by exact (f_equal (fun l => take 1 l) H).
      assert (dsx x = dsx y) as H2 by exact (f_equal (fun l => drop 2 l) H).
      assert (forall (p q : positive), [(96 + N.pos p)%N] = [(96 + N.pos q)%N] -> p = q) as Hi.
      { intros p q Hk. apply (f_equal (fun l => default 0%N (head l))) in Hk. change (96 + N.pos p = 96 + N.pos q)%N in Hk. lia. }
      apply Hi in H1. unfold dsx in H2. apply int_text_inj in H2. injection H2 as H2. by rewrite H1, H2. }
    split; [by_vm|]. split; [by_vm|]. split; [reflexivity|].
    assert (match visualize_outcomes tsv dsx tsr (fun _ => lit "n") (oc [1; 1; 1; 1]) ss11 None with
      | Ok net => Nat.eqb (length (nw_nodes net)) 10 | Err _ => false end = true) as H by (vm_compute; reflexivity).
    rewrite Hv in H. by apply Nat.eqb_eq in H.
  - exfalso. assert (is_ok (visualize_outcomes tsv dsx tsr (fun _ => lit "n") (oc [1; 1; 1; 1]) ss11 None) = true) as H by (vm_compute; reflexivity).
    rewrite Hv in H. discriminate H.
Qed.

(** Edges with the same relation and count between the same variables are listed once: the label counts one of two. *)
Definition sp_label : space := Space tcp (tset [(t_ab, 1%Z); (graph_of [ted va x2 vb x2], 1%Z)]).
Theorem C60_label_refuted : exists (sp : space) (fg : fgraph) (X : gset Var) (m : gmap edge Z) (net : network Var) (a b : Var),
  all_wf (sp_cp sp) (sp_out sp) /\ folded_graph o0 sp = Ok fg /\ fg_edges fg !! X = Some m /\ zsum (map_to_list m).*2 = 2%Z /\
  folded_visualize tsv tsx tsr (fun _ => true) o0 (sp_cp sp) fg = Ok net /\ nw_edges net = [(a, b, (lit "{r(1)}", None))].
Proof.
  exists sp_label. destruct (folded_graph o0 sp_label) as [fg|e] eqn:Hf.
  - exists fg, {[va; vb]}.
    assert (match folded_graph o0 sp_label with
      | Ok fg => match fg_edges fg !! ({[va; vb]} : gset (@Var TinyU)), folded_visualize tsv tsx tsr (fun _ => true) o0 (sp_cp sp_label) fg with
                 | Some m, Ok net => bool_decide (zsum (map_to_list m).*2 = 2%Z) && bool_decide (nw_edges net = [(va, vb, (lit "{r(1)}", None))])
                 | _, _ => false end
      | Err _ => false end = true) as H by (vm_compute; reflexivity).
    rewrite Hf in H. destruct (fg_edges fg !! {[va; vb]}) as [m|] eqn:Hm; [|discriminate H].
    destruct (folded_visualize tsv tsx tsr (fun _ => true) o0 (sp_cp sp_label) fg) as [net|] eqn:Hn; [|discriminate H].
    apply andb_true_iff in H as [H1 H2]. apply bool_decide_eq_true in H1, H2.
    exists m, net, va, vb. split. { refine (set_wfb_spec _ _). vm_compute; reflexivity. }
    split; [reflexivity|]. split; [reflexivity|]. split; [exact H1|]. split; [first [exact Hn|reflexivity]|exact H2].
  - exfalso. assert (is_ok (folded_graph o0 sp_label) = true) as H by (vm_compute; reflexivity). rewrite Hf in H. discriminate H.
Qed.

(** A variable without values. *)
Definition cp_hole : provider := Provider 7 (<[vd := ∅]> (cp_vars tcp)) {[tt : @Rel TinyU]}.
Definition sp_hole : space := Space cp_hole (Samples cp_hole {[t_ab := 1%Z]}).
Example C60_no_values_example :
  match conditional_graph sp_hole (tsmp (tsingle va x1)) with
  | Ok cg => match activation_graph_f o0 cg None with
             | Ok fg => match active_visualize tsv tsx tsr (fun _ => lit "w") (fun _ => true) o0 cp_hole fg with
                        | Err ValueError => true | _ => false end
             | Err _ => false end
  | Err _ => false end = true.
Proof. vm_compute. reflexivity. Qed.

(** An activation graph made by hand, without nodes. *)
Example C60_active_absent_example :
  let cp := Provider 7 {[va := {[x1; x2]} : gset (@Val TinyU)]} {[tt : @Rel TinyU]} in
  match active_visualize tsv tsx tsr (fun _ => lit "w") (fun _ => true) o0 cp (FAGraph 1 ∅ ∅) with
  | Ok net => bool_decide (nw_nodes net = [(va, (lit "{y=0, x=0}", Some (lit "black")))]) ||
              bool_decide (nw_nodes net = [(va, (lit "{x=0, y=0}", Some (lit "black")))])
  | Err _ => false end = true.
Proof. vm_compute. reflexivity. Qed.

Print Assumptions C60_sample.
Print Assumptions C60_sample_exact.
Print Assumptions C60_readable_names.
Print Assumptions C60_outcomes.
Print Assumptions C60_outcome_ids.
Print Assumptions C60_empty_outcome.
Print Assumptions C60_folded.
Print Assumptions C60_folded_undrawable.
Print Assumptions C60_active.
Print Assumptions C60_active_no_values.
Print Assumptions C60_active_undrawable.
Print Assumptions C60_active_absent.
Print Assumptions C60_same_names_refuted.
Print Assumptions C60_parallel_refuted.
Print Assumptions C60_digits_refuted.
Print Assumptions C60_label_refuted.
