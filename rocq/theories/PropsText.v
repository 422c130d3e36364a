(** * Properties: text forms (C43) *)

From Coq Require Import Ascii String.
From Verif Require Import TextFacts ExamplesSets.

Section props.
Context {U : Universe}.
Notation txt := (list N).

(** How variables, values and relations print is arbitrary. *)
Context (sv : Var -> txt) (sx : Val -> txt) (sr : Rel -> txt).

(** The default name, the text view of a connected sample, the text of a sample set and the list of outcomes
    do not depend on iteration orders. *)
Theorem C43_name_any_order (o o' : oracle) (g : graph) :
  default_name sv sx sr o g = default_name sv sx sr o' g.
Proof. exact (default_name_det sv sx sr o o' g). Qed.

Theorem C43_text_view_any_order (o o' : oracle) (cp : provider) (g : graph) :
  wf_graph cp g -> text_view sv sx sr o g = text_view sv sx sr o' g.
Proof. exact (text_view_det sv sx sr cp o o' g). Qed.

Theorem C43_text_view_is_name (o o' : oracle) (cp : provider) (g : graph) :
  wf_graph cp g -> text_view sv sx sr o g = default_name sv sx sr o' g.
Proof. exact (text_view_name sv sx sr cp o o' g). Qed.

Theorem C43_set_any_order (o o' : oracle) (ss : samples) :
  set_repr sv sx sr o ss = set_repr sv sx sr o' ss.
Proof. exact (set_repr_det sv sx sr o o' ss). Qed.

Theorem C43_print_any_order (ls : txt) (o o' : oracle) (ss : samples) :
  print_samples sv sx sr ls o ss = print_samples sv sx sr ls o' ss.
Proof. exact (print_samples_det sv sx sr ls o o' ss). Qed.

(** When the declared names avoid the delimiters ([readable]), text identifies the sample, and the set with its
    counts. *)
Theorem C43_name_identifies (o o' : oracle) (cp : provider) (g g' : graph) :
  readable sv sx sr cp -> wf_graph cp g -> wf_graph cp g' ->
  default_name sv sx sr o g = default_name sv sx sr o' g' -> g = g'.
Proof. intros R. exact (name_inj sv sx sr cp R o o' g g'). Qed.

Theorem C43_text_view_identifies (o o' : oracle) (cp : provider) (g g' : graph) :
  readable sv sx sr cp -> wf_graph cp g -> wf_graph cp g' ->
  text_view sv sx sr o g = text_view sv sx sr o' g' -> g = g'.
Proof.
  intros R Hg Hg'.
  rewrite (text_view_name sv sx sr cp o o g Hg), (text_view_name sv sx sr cp o' o' g' Hg').
  exact (name_inj sv sx sr cp R o o' g g' Hg Hg').
Qed.

Theorem C43_set_identifies (o o' : oracle) (cp : provider) (ss ss' : samples) :
  readable sv sx sr cp ->
  (forall g c, ss_map ss !! g = Some c -> wf_graph cp g) ->
  (forall g c, ss_map ss' !! g = Some c -> wf_graph cp g) ->
  set_repr sv sx sr o ss = set_repr sv sx sr o' ss' -> ss_map ss = ss_map ss'.
Proof. intros R. exact (set_repr_inj sv sx sr cp R o o' ss ss'). Qed.

Theorem C43_print_identifies (ls : txt) (o o' : oracle) (cp : provider) (ss ss' : samples) :
  readable sv sx sr cp -> ls <> [] ->
  (forall g c, ss_map ss !! g = Some c -> wf_graph cp g) ->
  (forall g c, ss_map ss' !! g = Some c -> wf_graph cp g) ->
  print_samples sv sx sr ls o ss = print_samples sv sx sr ls o' ss' -> ss_map ss = ss_map ss'.
Proof. intros R. exact (print_samples_inj sv sx sr cp R ls o o' ss ss'). Qed.

End props.

(** ** Examples and the gaps *)

(** Names that are strings print themselves. *)
Notation lit_v := (lit : @Var StrU -> list N).
Notation lit_x := (lit : @Val StrU -> list N).
Notation lit_r := (lit : @Rel StrU -> list N).

Definition freeb (cs : list ascii) (s : string) : bool :=
  forallb (fun c => bool_decide (N_of_ascii c ∉ lit s)) cs.

Definition readableb (cp : @provider StrU) : bool :=
  forallb (fun vX : string * gset string => freeb ["_"; "-"; "]"]%char vX.1 &&
             forallb (freeb [")"]%char) (elements vX.2)) (map_to_list (cp_vars cp)) &&
  forallb (freeb ["["; "}"]%char) (elements (cp_rels cp)).

Lemma freeb_spec cs s c : freeb cs s = true -> c ∈ cs -> without c (lit s).
Proof.
  unfold freeb. rewrite forallb_forall. intros H Hc. apply elem_of_list_In in Hc.
  apply (bool_decide_eq_true_1 _). exact (H c Hc).
Qed.

Lemma readableb_spec cp : readableb cp = true -> readable lit_v lit_x lit_r cp.
Proof.
  unfold readableb. rewrite andb_true_iff, !forallb_forall. intros [HV HR].
  assert (forall v X, cp_vars cp !! v = Some X -> freeb ["_"; "-"; "]"]%char v = true /\
    forall x, x ∈ X -> freeb [")"]%char x = true) as HV'.
  { intros v X Hv. assert (In (v, X) (map_to_list (cp_vars cp))) as Hin.
    { apply elem_of_list_In. by apply elem_of_map_to_list. }
    specialize (HV _ Hin). apply andb_true_iff in HV. destruct HV as [H1 H2]. split; [done|].
    intros x Hx. rewrite forallb_forall in H2. apply H2. apply elem_of_list_In. by apply elem_of_elements. }
  split.
  - intros v w _ _ H. by apply lit_inj in H.
  - intros v w _ _ H. by apply lit_inj in H.
  - intros v w _ _ H. by apply lit_inj in H.
  - intros v (X & Hv). destruct (HV' v X Hv) as [H _].
    split; [|split]; (eapply freeb_spec; [exact H|]); rewrite !elem_of_cons; auto.
  - intros x (v & X & Hv & Hx). destruct (HV' v X Hv) as [_ H].
    eapply freeb_spec; [exact (H x Hx)|]. by apply elem_of_list_singleton.
  - intros r Hr. assert (freeb ["["; "}"]%char r = true) as H.
    { apply HR. apply elem_of_list_In. by apply elem_of_elements. }
    split; (eapply freeb_spec; [exact H|]); rewrite !elem_of_cons; auto.
Qed.

Example C43_readable_example : readable lit_v lit_x lit_r cpx.
Proof. apply readableb_spec. vm_compute. reflexivity. Qed.

Example C43_text_example :
  bool_decide (text_view lit_v lit_x lit_r o1 g_path
    = lit "{(a_1)--{r}--(b_1); (b_1)--{r}--(c_1); (c_1)--{r}--(d_1)}") = true.
Proof. vm_compute. reflexivity. Qed.

Example C43_print_example :
  bool_decide (print_samples lit_v lit_x lit_r newline o1
    (Samples cpx {[single "a" "1" := 12%Z; graph_of [ab] := 3%Z]})
    = lit "{(a_1)--{r}--(b_1)}(3)" ++ newline ++ lit "{(a_1)}(12)") = true.
Proof. vm_compute. reflexivity. Qed.

(** With names containing the delimiters two different samples of one provider have the same text. *)
Definition cp_under : @provider StrU :=
  Provider 7 (list_to_map [("a_b", {["c"]}); ("a", {["b_c"]})]) {["r"]}.

Theorem C43_ambiguous_refuted :
  exists (cp : @provider StrU) (g g' : graph),
    wf_graph cp g /\ wf_graph cp g' /\ g <> g' /\
    text_view lit_v lit_x lit_r o0 g = text_view lit_v lit_x lit_r o0 g' /\
    default_name lit_v lit_x lit_r o0 g = default_name lit_v lit_x lit_r o0 g'.
Proof.
  exists cp_under, (single "a_b" "c"), (single "a" "b_c").
  split; [apply wf_graphb_spec; vm_compute; reflexivity|].
  split; [apply wf_graphb_spec; vm_compute; reflexivity|].
  split; [by_vm|]. split; by_vm.
Qed.

(** A sample with several nodes and no edges (the builder's constructor accepts such node sets) shows one of its
    nodes in its text view, depending on the iteration order. *)
Theorem C43_text_view_disconnected_refuted :
  exists (o o' : oracle) (cp : @provider StrU) (ns : gset node) (g : graph),
    build (builder_init o0 cp ns ∅) = Ok (Sample (cp_id cp) g) /\
    text_view lit_v lit_x lit_r o g <> text_view lit_v lit_x lit_r o' g.
Proof.
  exists o0, o1, cpx, {[nd "a" "1"; nd "b" "1"]}, (Graph {[nd "a" "1"; nd "b" "1"]} ∅).
  split; by_vm.
Qed.

Print Assumptions C43_name_any_order.
Print Assumptions C43_text_view_any_order.
Print Assumptions C43_text_view_is_name.
Print Assumptions C43_set_any_order.
Print Assumptions C43_print_any_order.
Print Assumptions C43_name_identifies.
Print Assumptions C43_text_view_identifies.
Print Assumptions C43_set_identifies.
Print Assumptions C43_print_identifies.
Print Assumptions C43_ambiguous_refuted.
Print Assumptions C43_text_view_disconnected_refuted.
