(** * PropsAct: activation graphs (C37)

    Vocabulary: SpecAct.v. *)

From Verif Require Import ExamplesSets ActFacts.

Section theorems.
Context {U : Universe}.

(** ** C37: conditioning well-formed outcomes on a non-empty evidence and asking for the activation graph never
    raises, and all weights and counts are the stated ones. *)
Theorem C37_activation (o : oracle) (sp : space) (ev : sample) (cg : cgraph) (f : option (gset relation)) :
  conditional_graph sp ev = Ok cg -> all_wf (sp_cp sp) (sp_out sp) -> one_valued (sp_out sp) -> pos_counts (sp_out sp) ->
  wf_graph (sp_cp sp) (s_g ev) -> single_valued (g_nodes (s_g ev)) -> g_nodes (s_g ev) <> ∅ ->
  ss_map (sp_out (cg_space cg)) <> ∅ ->
  exists ag, activation_graph o cg f = Ok ag /\ activation_ok cg f ag.
Proof. exact (C37_lemma o sp ev cg f). Qed.

(** The expected activation graph is unique, so the result does not depend on the iteration order. *)
Theorem C37_determined (cg : cgraph) (f : option (gset relation)) (ag ag' : agraph) :
  activation_ok cg f ag -> activation_ok cg f ag' -> ag = ag'.
Proof. exact (activation_ok_unique cg f ag ag'). Qed.

(** No outcome left: division by zero. *)
Theorem C37_no_outcomes (o : oracle) (cg : cgraph) (f : option (gset relation)) (v : Var) (X : gset Val) :
  ss_map (sp_out (cg_space cg)) = ∅ -> cp_vars (sp_cp (cg_space cg)) !! v = Some X -> X <> ∅ ->
  activation_graph o cg f = Err ZeroDivisionError.
Proof. exact (C37_no_outcomes_lemma o cg f v X). Qed.

(** Empty evidence. *)
Theorem C37_empty_evidence (o : oracle) (cg : cgraph) (f : option (gset relation)) :
  ss_map (sp_out (cg_space cg)) <> ∅ -> g_nodes (s_g (cg_evidence cg)) = ∅ ->
  activation_graph o cg f = Err AssertionError \/
  (activation_graph o cg f = Err ZeroDivisionError /\ contains (sp_out (cg_space cg)) (Graph ∅ ∅)).
Proof. exact (C37_empty_evidence_lemma o cg f). Qed.

End theorems.

(** An outcome with two values of the evidence variable makes an internal assertion fail ([one_valued] is needed). *)
Definition sp_two : space := Space cpx (set_of [(graph_of [ab; ed "b" "1" "a" "2" "r"], 1%Z)]).
Theorem C37_two_values_refuted : exists (sp : space) (ev : sample) (cg : cgraph),
  conditional_graph sp ev = Ok cg /\ all_wf (sp_cp sp) (sp_out sp) /\ pos_counts (sp_out sp) /\
  wf_graph (sp_cp sp) (s_g ev) /\ single_valued (g_nodes (s_g ev)) /\ g_nodes (s_g ev) <> ∅ /\
  ss_map (sp_out (cg_space cg)) <> ∅ /\ activation_graph o0 cg None = Err AssertionError.
Proof.
  exists sp_two, (smp (single "a" "1")), (CGraph sp_two (smp (single "a" "1"))).
  split.
  { assert (match conditional_graph sp_two (smp (single "a" "1")) with
      | Ok cg => bool_decide (ss_map (sp_out (cg_space cg)) = ss_map (sp_out sp_two)) | Err _ => false end = true) as H
      by (vm_compute; reflexivity).
    pose proof (C36_lemma sp_two (smp (single "a" "1"))) as HC.
    destruct (conditional_graph sp_two (smp (single "a" "1"))) as [cg|] eqn:Hcg; [|done].
    apply bool_decide_eq_true in H. destruct HC as (_ & He & Hcp & Hss & _).
    destruct cg as [[cp [cp' m]] e]. cbn in *. subst. done. }
  split. { refine (set_wfb_spec _ _). vm_compute; reflexivity. }
  split. { refine (set_posb_spec _ _). vm_compute; reflexivity. }
  split. { apply wf_graphb_spec. vm_compute; reflexivity. }
  split. { apply single_valuedb_spec. vm_compute; reflexivity. }
  split. { by_vm. }
  split. { by_vm. }
  assert (match activation_graph o0 (CGraph sp_two (smp (single "a" "1"))) None with Err AssertionError => true | _ => false end = true) as H
    by (vm_compute; reflexivity).
  destruct (activation_graph _ _ _) as [|[]]; done.
Qed.

(** ** The hypotheses are satisfiable *)
Definition sp37 : space := Space cpx (set_of [(g_ab, 2%Z); (g_path, 3%Z); (graph_of [ed "a" "2" "b" "1" "q"], 3%Z); (g_cd, 1%Z)]).
Definition ev37 : sample := smp (single "a" "1").

Example C37_hypotheses : all_wf (sp_cp sp37) (sp_out sp37) /\ one_valued (sp_out sp37) /\ pos_counts (sp_out sp37) /\
  wf_graph (sp_cp sp37) (s_g ev37) /\ single_valued (g_nodes (s_g ev37)) /\ g_nodes (s_g ev37) <> ∅ /\
  match conditional_graph sp37 ev37 with Ok cg => bool_decide (ss_map (sp_out (cg_space cg)) <> ∅) | Err _ => false end = true.
Proof.
  split_and!.
  - refine (set_wfb_spec _ _). vm_compute; reflexivity.
  - refine (set_singleb_spec _ _). vm_compute; reflexivity.
  - refine (set_posb_spec _ _). vm_compute; reflexivity.
  - apply wf_graphb_spec. vm_compute; reflexivity.
  - apply single_valuedb_spec. vm_compute; reflexivity.
  - by_vm.
  - vm_compute. reflexivity.
Qed.

(** a=1 in 5 of 6 outcomes; b=1 reached in the path (likeness 1/7, count 3) and in the edge (1/3, count 2). *)
Definition weight_of (r : res agraph) (v x : string) : option Qc :=
  match r with Ok ag => a ← ag_nodes ag !! (v : @Var StrU); an_values a !! (x : @Val StrU) | Err _ => None end.
Example C37_value : match conditional_graph sp37 ev37 with
  | Ok cg => let r := activation_graph o1 cg None in
      bool_decide (weight_of r "a" "1" = Some (qdiv 5 6)) && bool_decide (weight_of r "a" "2" = Some (qdiv 0 6)) &&
      bool_decide (weight_of r "b" "1" = Some (qdiv 23 126)) && bool_decide (weight_of r "d" "1" = Some (qdiv 1 14))
  | Err _ => false end = true.
Proof. vm_compute. reflexivity. Qed.

(** The relation of an evidence edge is counted for every outcome, also for those that do not contain it. *)
Example C37_evidence_edge : match conditional_graph sp37 (smp g_ab) with
  | Ok cg => match activation_graph o1 cg None with
             | Ok ag => match ag_edges ag !! ({["a"; "b"]} : gset Var) with
                        | Some a => bool_decide (ae_relations a = {[rl "r" := 6%Z]}) && ae_in_query a
                        | None => false end
             | Err _ => false end
  | Err _ => false end = true.
Proof. vm_compute. reflexivity. Qed.

Example C37_filtered : match conditional_graph sp37 ev37 with
  | Ok cg => bool_decide (weight_of (activation_graph o1 cg (Some {[rl "q"]})) "b" "1" = Some (qdiv 0 1))
  | Err _ => false end = true.
Proof. vm_compute. reflexivity. Qed.

Print Assumptions C37_activation.
Print Assumptions C37_determined.
Print Assumptions C37_no_outcomes.
Print Assumptions C37_empty_evidence.
Print Assumptions C37_two_values_refuted.
