(** * RepoTestsJoin: the unit tests of the two joins, run on the model (see RepoTests.v)

    The names are small numbers instead of "a", "b", "c", "d", "T", "F" to keep the computation cheap for a checker that
    does not use the virtual machine; the tests use one relation only. *)

From Verif Require Import Base Components SampleGraph SampleSet SampleSpace RelationGraph Examples ExamplesSets PropsJoin.
Local Open Scope Z_scope.
#[local] Existing Instance TinyU.

(** test_relation_graph.py:307-382; [x1] is "T", [x2] is "F". *)
Local Notation T := x1.
Local Notation F := x2.
Definition sample_set (l : list (list edge * Z)) : list (graph * Z) := (fun p : list edge * Z => (graph_of p.1, p.2)) <$> l.
Definition e_ab (x y : Val) := ted va x vb y.
Definition e_bc (x y : Val) := ted vb x vc y.
Definition e_ca (x y : Val) := ted vc x va y.
Definition e_bd (x y : Val) := ted vb x vd y.
Definition l_ab := sample_set [([e_ab T T], 2); ([e_ab T F], 3); ([e_ab F T], 4); ([e_ab F F], 5)].
Definition l_bc := sample_set [([e_bc T T], 6); ([e_bc T F], 7); ([e_bc F T], 8); ([e_bc F F], 9)].
Definition l_ca := sample_set [([e_ca T T], 10); ([e_ca T F], 11); ([e_ca F T], 12); ([e_ca F F], 13)].
Definition l_bd := sample_set [([e_bd T T], 14); ([e_bd T F], 15); ([e_bd F T], 16); ([e_bd F F], 17)].
Definition expected_ab_bc := sample_set
  [([e_ab T T; e_bc T T], 2 * 6); ([e_ab T T; e_bc T F], 2 * 7); ([e_ab T F; e_bc F T], 3 * 8); ([e_ab T F; e_bc F F], 3 * 9);
   ([e_ab F T; e_bc T T], 4 * 6); ([e_ab F T; e_bc T F], 4 * 7); ([e_ab F F; e_bc F T], 5 * 8); ([e_ab F F; e_bc F F], 5 * 9)].
Definition expected_triangle := sample_set
  [([e_ab T T; e_bc T T; e_ca T T], 2 * 6 * 10); ([e_ab T T; e_bc T F; e_ca F T], 2 * 7 * 12);
   ([e_ab T F; e_bc F T; e_ca T T], 3 * 8 * 10); ([e_ab T F; e_bc F F; e_ca F T], 3 * 9 * 12);
   ([e_ab F T; e_bc T T; e_ca T F], 4 * 6 * 11); ([e_ab F T; e_bc T F; e_ca F F], 4 * 7 * 13);
   ([e_ab F F; e_bc F T; e_ca T F], 5 * 8 * 11); ([e_ab F F; e_bc F F; e_ca F F], 5 * 9 * 13)].
Definition star (x y z w : Val) (c : Z) : list edge * Z := ([e_ab x y; e_bc y z; e_bd y w], c).
Definition expected_star := sample_set
  [star T T T T (2 * 6 * 14); star T T T F (2 * 6 * 15); star T T F T (2 * 7 * 14); star T T F F (2 * 7 * 15);
   star T F T T (3 * 8 * 16); star T F T F (3 * 8 * 17); star T F F T (3 * 9 * 16); star T F F F (3 * 9 * 17);
   star F T T T (4 * 6 * 14); star F T T F (4 * 6 * 15); star F T F T (4 * 7 * 14); star F T F F (4 * 7 * 15);
   star F F T T (5 * 8 * 16); star F F T F (5 * 8 * 17); star F F F T (5 * 9 * 16); star F F F F (5 * 9 * 17)].
Definition sp7 (l : list (graph * Z)) : space := Space tcp (tset l).
Definition outs (r : res space) (l : list (graph * Z)) : bool :=
  match r with Ok sp => bool_decide (ss_map sp.(sp_out) = list_to_map l) | Err _ => false end.
Definition tvars (l : list Var) : option (gset Var) := Some (list_to_set l).

(** test_relation_graph.py:457-471 *)
Example test_joined_on_variables :
  let sp := sp7 (l_ab ++ l_bc) in
  (zsum expected_ab_bc.*2 =? 214) && outs (joined_on_variables o0 sp (tvars [vb])) expected_ab_bc &&
  outs (joined_on_variables o1 sp None) expected_ab_bc && outs (joined_on_variables o0 sp (Some ∅)) (l_ab ++ l_bc) = true.
Proof. vm_compute. reflexivity. Qed.

(** test_relation_graph.py:473-479 *)
Example test_joined_on_variables_triangle :
  outs (joined_on_variables o0 (sp7 (l_ab ++ l_bc ++ l_ca)) (tvars [vb])) (expected_ab_bc ++ l_ca) &&
  outs (joined_on_variables o1 (sp7 (l_ab ++ l_bc ++ l_ca)) (tvars [va; vb])) expected_triangle = true.
Proof. vm_compute. reflexivity. Qed.

(** test_relation_graph.py:481-485 *)
Example test_joined_on_variables_star :
  outs (joined_on_variables o0 (sp7 (l_ab ++ l_bc ++ l_bd)) (tvars [vb])) expected_star = true.
Proof. vm_compute. reflexivity. Qed.

(** test_relation_graph.py:521-535 *)
Example test_make_joined :
  outs (make_joined o0 (sp7 [])) [] && outs (make_joined o1 (sp7 (l_ab ++ l_bc))) expected_ab_bc = true.
Proof. vm_compute. reflexivity. Qed.
Example test_make_joined_triangle : outs (make_joined o0 (sp7 (l_ab ++ l_bc ++ l_ca))) expected_triangle = true.
Proof. vm_compute. reflexivity. Qed.
Example test_make_joined_star : outs (make_joined o1 (sp7 (l_ab ++ l_bc ++ l_bd))) expected_star = true.
Proof. vm_compute. reflexivity. Qed.
