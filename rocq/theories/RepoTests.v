(** * RepoTests: the unit tests of the library, run on the model

    Python/research/scripts/test/relnet/test_*.py check what the authors expect of the code.  Each example below is
    one of these test methods with its data, evaluated on the model for two iteration orders ([o0] keeps and [o1]
    reverses every order), so a model that does not do what the tests expect does not build.  These are tests of the
    model, not proofs about the code.  [copy] and names of objects are not part of the model and left out; identity of
    nodes and edges is in Provider.v.  TestDirectedRelation.test_repr (test_graph_components.py:112-113) expects
    "b[a->r]" where the code (graph_components.py:122-123) gives "r[a->b]": the model follows the code. *)

From Verif Require Import Base Components SampleGraph SampleSet SampleSpace RelationGraph Activation Text Floats ActFloats.
From Verif Require Import Examples ExamplesSets.
From Flocq Require Import IEEE754.BinarySingleNaN.
Local Open Scope string_scope.
Local Open Scope Z_scope.

Local Notation txt := (list N).
Local Notation "x == y" := (bool_decide (x = y)) (at level 70, only parsing).

(** assertRaises(AssertionError) *)
Definition asserts {A} (r : res A) : bool := match r with Err AssertionError => true | _ => false end.
Definition holds (r : res bool) : bool := match r with Ok b => b | Err _ => false end.
(** Both orders. *)
Definition both (f : oracle -> bool) : bool := f o0 && f o1.

Definition decl (i : nat) (vs : list (string * list string)) (rs : list string) : provider :=
  Provider i (list_to_map ((fun p : string * list string => (p.1 : Var, list_to_set p.2 : gset Val)) <$> vs)) (list_to_set rs).
(** A chain of add_relation calls on a new builder. *)
Fixpoint added (b : builder) (l : list edge) : builder * res unit :=
  match l with
  | [] => (b, Ok tt)
  | e :: l => match add_relation b e.1 e.2 with (b', Ok _) => added b' l | (b', Err x) => (b', Err x) end
  end.
Definition built (cp : provider) (l : list edge) : res sample :=
  match added (new_builder cp) l with (b, Ok _) => build b | (_, Err x) => Err x end.
(** The graph of a sample that was built; the wrong one if it was not. *)
Definition gr (r : res sample) : graph := match r with Ok s => s_g s | Err _ => Graph ∅ ∅ end.
Definition one (cp : provider) (v x : string) : graph := gr (build_single_node (new_builder cp) (v : Var) (x : Val)).
Definition edges (l : list edge) : gset edge := list_to_set l.
Definition nodes (l : list (string * string)) : gset node := list_to_set ((fun p : string * string => nd p.1 p.2) <$> l).
Definition rels (l : list string) : option (gset relation) := Some (list_to_set (rl <$> l)).
Definition vars (l : list string) : gset Var := list_to_set (l : list Var).
Definition sset (cp : provider) (l : list (graph * Z)) : samples := Samples cp (list_to_map l).

(** ** test_sample_graph.py *)

(** test_sample_graph.py:30-45 *)
Definition cp1 : provider := decl 1 [("a", ["1"; "2"]); ("b", ["1"]); ("c", ["1"]); ("d", ["1"]); ("f", ["1"])] ["r"; "s"].
Definition cp1' : provider := decl 2 [("a", ["1"; "2"]); ("b", ["1"]); ("c", ["1"]); ("d", ["1"]); ("f", ["1"])] ["r"; "s"].
Definition e1 := ed "a" "1" "b" "1" "r".
Definition e2 := ed "b" "1" "c" "1" "r".
Definition e3 := ed "a" "1" "b" "1" "s".
Definition e4 := ed "b" "1" "c" "1" "s".
Definition e5 := ed "c" "1" "d" "1" "s".
Definition e6 := ed "a" "2" "b" "1" "r".
Definition sg (cp : provider) (ns : list (string * string)) (es : list edge) : sample := Sample (cp_id cp) (Graph (nodes ns) (edges es)).
Definition sb (o : oracle) (cp : provider) (ns : list (string * string)) (es : list edge) : builder := builder_init o cp (nodes ns) (edges es).

(** test_sample_graph.py:47-59 *)
Example test_builder_init_copy : both (fun o =>
  let b := sb o cp1 [("a", "1"); ("b", "1")] [e1] in
  (build b == Ok (sg cp1 [("a", "1"); ("b", "1")] [e1])) && (build b == build (builder_copy o b))) = true.
Proof. vm_compute. reflexivity. Qed.

(** test_sample_graph.py:72-81 *)
Example test_build_empty_single :
  (g_nodes (s_g (build_empty (new_builder cp1))) == ∅) &&
  (build_single_node (new_builder cp1) ("a" : Var) ("1" : Val) == Ok (sg cp1 [("a", "1")] [])) = true.
Proof. vm_compute. reflexivity. Qed.

(** test_sample_graph.py:83-110 *)
Example test_is_edges_connected : both (fun o =>
  let c l := is_edges_connected o (edges l) in
  let ab := ed "a" "1" "b" "1" "r" in let bc := ed "b" "1" "c" "1" "r" in let cd := ed "c" "1" "d" "1" "r" in
  (c [ab] == Ok true) && (c [ab; bc] == Ok true) && (c [ab; bc; ed "a" "1" "d" "1" "r"] == Ok true) &&
  (c [ab; bc; cd; ed "d" "1" "a" "1" "r"] == Ok true) &&
  (c [ab; cd] == Ok false) && (c [ab; bc; ed "d" "1" "f" "1" "r"] == Ok false)) = true.
Proof. vm_compute. reflexivity. Qed.

(** test_sample_graph.py:112-118 *)
Example test_validate_endpoints :
  asserts (validate_endpoints (nodes [("a", "1")])) &&
  asserts (validate_endpoints (nodes [("a", "1"); ("b", "1"); ("c", "1")])) &&
  asserts (validate_endpoints (nodes [("a", "1"); ("a", "1")])) = true.
Proof. vm_compute. reflexivity. Qed.

(** test_sample_graph.py:120-135 *)
Example test_build_from_edges : both (fun o =>
  ((build_from_edges o (new_builder cp1) (edges [e1; e2]) true).2 == Ok (sg cp1 [("a", "1"); ("b", "1"); ("c", "1")] [e1; e2])) &&
  is_ok (build_from_edges o (new_builder cp1) (edges [e1; ed "c" "1" "d" "1" "r"]) false).2) = true.
Proof. vm_compute. reflexivity. Qed.

(** test_sample_graph.py:137-171 *)
Example test_add_relation :
  let b := added (new_builder cp1) [e1; e2] in
  let b' := add_relation b.1 (nodes [("c", "1"); ("d", "1")]) (rl "s") in
  let fails b eps r := asserts (add_relation b (nodes eps) (rl r)).2 in
  (b.2 == Ok tt) && (build b.1 == Ok (sg cp1 [("a", "1"); ("b", "1"); ("c", "1")] [e1; e2])) &&
  (b'.2 == Ok tt) && bool_decide (nd "d" "1" ∈ g_nodes (gr (build b'.1))) &&
  existsb (fun e : edge => rel_of e == rl "s") (elements (g_edges (gr (build b'.1)))) &&
  fails b'.1 [("c", "1")] "r" && fails b'.1 [("a", "1"); ("b", "1"); ("c", "1")] "r" &&
  fails b'.1 [("a", "1"); ("a", "2")] "r" &&
  asserts (added (new_builder cp1) [e1; ed "c" "1" "d" "1" "r"]).2 &&
  asserts (added (new_builder cp1) [e3; e1]).2 = true.
Proof. vm_compute. reflexivity. Qed.

(** test_sample_graph.py:173-180 *)
Example test_add_directed_relation :
  let b1 := add_directed_relation (new_builder cp1) (nd "a" "1") (nd "b" "1") ("r" : Rel) in
  let b2 := add_directed_relation b1.1 (nd "b" "1") (nd "c" "1") ("r" : Rel) in
  (b1.2 == Ok tt) && (b2.2 == Ok tt) &&
  (build b2.1 == Ok (sg cp1 [("a", "1"); ("b", "1"); ("c", "1")]
    [(nodes [("a", "1"); ("b", "1")], drl "a" "b" "r"); (nodes [("b", "1"); ("c", "1")], drl "b" "c" "r")])) = true.
Proof. vm_compute. reflexivity. Qed.

(** test_sample_graph.py:182-194 *)
Example test_can_sample_be_joined : both (fun o =>
  let b := sb o cp1 [("a", "1"); ("b", "1")] [e1] in
  (can_sample_be_joined b (sg cp1 [("a", "1"); ("b", "1")] [e1]) == Ok true) &&
  (can_sample_be_joined b (sg cp1 [("a", "1"); ("b", "1")] [e3]) == Ok false) &&
  (can_sample_be_joined b (sg cp1 [("b", "1"); ("c", "1")] [e4]) == Ok true) &&
  asserts (can_sample_be_joined b (sg cp1' [("b", "1"); ("c", "1")] [e3]))) = true.
Proof. vm_compute. reflexivity. Qed.

(** test_sample_graph.py:196-245 *)
Example test_join_sample : both (fun o =>
  let b := sb o cp1 [("a", "1"); ("b", "1")] [e1] in
  let j1 := join_sample o b (sg cp1 [("b", "1"); ("c", "1"); ("d", "1")] [e2; e5]) in
  let j2 := join_sample o b (sg cp1 [("b", "1")] []) in
  let j3 := join_sample o (new_builder cp1) (sg cp1 [("b", "1")] []) in
  (build j1.1 == Ok (sg cp1 [("a", "1"); ("b", "1"); ("c", "1"); ("d", "1")] [e1; e2; e5])) && is_ok j1.2 &&
  (build j2.1 == Ok (sg cp1 [("a", "1"); ("b", "1")] [e1])) && is_ok j2.2 &&
  (build j3.1 == Ok (sg cp1 [("b", "1")] [])) && is_ok j3.2 &&
  asserts (join_sample o j1.1 (sg cp1 [("a", "1"); ("b", "1")] [e4])).2 &&
  asserts (join_sample o (sb o cp1 [("a", "1")] []) (sg cp1 [("b", "1")] [])).2 &&
  asserts (join_sample o b (sg cp1 [("c", "1"); ("d", "1")] [e5])).2 &&
  asserts (join_sample o b (sg cp1 [("a", "2"); ("b", "1")] [e6])).2 &&
  asserts (build (new_builder cp1))) = true.
Proof. vm_compute. reflexivity. Qed.

(** test_sample_graph.py:250-265 *)
Definition cp2 : provider :=
  decl 1 [("a", ["1"; "5"]); ("b", ["1"; "7"]); ("c", ["1"]); ("d", ["1"]); ("f", ["1"])] ["r"; "g"; "b"].
Definition cp2' : provider :=
  decl 2 [("a", ["1"; "5"]); ("b", ["1"; "7"]); ("c", ["1"]); ("d", ["1"]); ("f", ["1"])] ["r"; "g"; "b"].
Definition s1 : sample := sg cp2 [("a", "1"); ("b", "1")] [e1].
Definition s2 : sample := sg cp2 [("a", "1")] [].
Definition s12 : sample := sg cp2 [("a", "1"); ("b", "1"); ("c", "1")] [e1; e2].
Definition acg := ed "a" "1" "c" "1" "g".
Definition adb := ed "a" "1" "d" "1" "b".
Definition s3 : graph := gr (built cp2 [e1; acg; adb]).

(** test_sample_graph.py:267-275, :294-298 *)
Example test_graph_init :
  (content (s_g s1) == {[inl (nd "a" "1"); inl (nd "b" "1"); inr e1]}) &&
  negb (is_single_node (s_g s1)) && is_single_node (s_g s2) && negb (is_k_0 (s_g s1)) && is_k_0 (Graph ∅ ∅) &&
  graph_eqb (s_g s1) (Graph (nodes [("b", "1"); ("a", "1")]) (edges [e1])) = true.
Proof. vm_compute. reflexivity. Qed.

(** test_sample_graph.py:280-288, :304-306; test_graph_components.py:41-42, :75-76 *)
Example test_graph_texts : both (fun o =>
  let sv (s : string) := lit s in
  (default_name sv sv sv o (s_g s12) == lit "{(a_1)--{r}--(b_1); (b_1)--{r}--(c_1)}") &&
  (text_view sv sv sv o (s_g s2) == lit "{(a_1)}") && (text_view sv sv sv o (s_g s1) == lit "{(a_1)--{r}--(b_1)}") &&
  (node_text sv sv (nd "a" "1") == lit "(a_1)") && (edge_text sv sv sv o e1 == lit "(a_1)--{r}--(b_1)") &&
  (rel_text sv sv (drl "a" "b" "r") == lit "r[a->b]")) = true.
Proof. vm_compute. reflexivity. Qed.

(** test_sample_graph.py:300-302 *)
Example test_is_compatible : is_compatible s1 cp2 && negb (is_compatible s1 cp2') = true.
Proof. vm_compute. reflexivity. Qed.

Definition view_eqb (v w : view) : bool :=
  match v, w with
  | VEdges X, VEdges Y => X == Y
  | VNode n, VNode m => n == m
  | VNone, VNone => true
  | _, _ => false
  end.

(** test_sample_graph.py:308-321 *)
Example test_edges_set_view : both (fun o =>
  view_eqb (edges_set_view o (s_g s1)) (VEdges (edges [e1])) && view_eqb (edges_set_view o (s_g s2)) (VNode (nd "a" "1")) &&
  let b := add_relation (graph_builder o cp2 (s_g s1)) (nodes [("b", "1"); ("f", "1")]) (rl "g") in
  is_ok b.2 && bool_decide (nd "f" "1" ∈ g_nodes (gr (build b.1))) &&
  existsb (fun e : edge => rel_of e == rl "g") (elements (g_edges (gr (build b.1))))) = true.
Proof. vm_compute. reflexivity. Qed.

(** test_sample_graph.py:323-336 *)
Example test_is_subgraph : both (fun o =>
  is_subgraph (s_g s1) (s_g s12) && negb (is_subgraph (s_g s1) (s_g s2)) &&
  (value_for_variable o (s_g s1) ("a" : Var) == Some "1") && (value_for_variable o (s_g s1) ("b" : Var) == Some "1") &&
  (value_for_variable o (s_g s1) ("not_in_graph" : Var) == None)) = true.
Proof. vm_compute. reflexivity. Qed.

(** test_sample_graph.py:338-359 *)
Example test_transform : both (fun o =>
  let t d := transform_with_replaced_values o cp2 (dict d) (s_g s12) in
  (t [("a", "5"); ("b", "7")] ==
     Ok (false, Graph (nodes [("a", "5"); ("b", "7"); ("c", "1")]) (edges [ed "a" "5" "b" "7" "r"; ed "b" "7" "c" "1" "r"]))) &&
  (t [] == Ok (true, s_g s12)) && (t [("x", "1")] == Ok (true, s_g s12))) = true.
Proof. vm_compute. reflexivity. Qed.

(** test_sample_graph.py:361-378 *)
Example test_neighboring_values : both (fun o =>
  (neighboring_values o s3 (nd "a" "1") None ==
     Ok (list_to_map [(nd "b" "1", e1); (nd "c" "1", acg); (nd "d" "1", adb)])) &&
  (neighboring_values o s3 (nd "b" "1") None == Ok (list_to_map [(nd "a" "1", e1)])) &&
  (neighboring_values o s3 (nd "a" "1") (rels ["r"; "g"]) == Ok (list_to_map [(nd "b" "1", e1); (nd "c" "1", acg)]))) = true.
Proof. vm_compute. reflexivity. Qed.

(** test_sample_graph.py:380-398: 0.6, 0.2 and 0.3333333333333333 are the doubles nearest to 3/5, 1/5, 1/3. *)
Definition f_eqb (x y : b64) : bool := Beqb x y.
Definition res_f_eqb (r : res b64) (x : b64) : bool := match r with Ok y => f_eqb y x | Err _ => false end.
Example test_similarity :
  let g1 := gr (built cp2 [e1; ed "a" "1" "c" "1" "r"]) in
  let g2 := gr (built cp2 [e1]) in
  let g3 := one cp2 "a" "1" in
  (similarity g1 g2 == py_div 3 5) && (similarity g1 g3 == py_div 1 5) && (similarity g2 g1 == py_div 3 5) &&
  (similarity g2 g3 == py_div 1 3) && (similarity g3 g1 == py_div 1 5) && (similarity g3 g2 == py_div 1 3) &&
  res_f_eqb (similarity_f g1 g2) (int_div 6 10) && res_f_eqb (similarity_f g1 g3) (int_div 2 10) &&
  res_f_eqb (similarity_f g2 g3) (int_div 3333333333333333 10000000000000000) = true.
Proof. vm_compute. reflexivity. Qed.

(** test_sample_graph.py:400-428: the sample has two values of b. *)
Example test_belt_nodes : both (fun o =>
  let abg := ed "a" "1" "b" "7" "g" in
  let g := gr (built cp2 [e1; abg; acg]) in
  let b c f := belt_nodes o g (nodes c) f in
  (b [("a", "1")] None == Ok (list_to_map [(nd "b" "1", {[e1]}); (nd "b" "7", {[abg]}); (nd "c" "1", {[acg]})])) &&
  (b [("b", "1"); ("c", "1")] None == Ok (list_to_map [(nd "a" "1", {[e1; acg]})])) &&
  (b [("a", "1"); ("b", "1"); ("b", "7"); ("c", "1")] None == Ok ∅) &&
  (b [("a", "1")] (rels ["r"]) == Ok (list_to_map [(nd "b" "1", {[e1]})])) &&
  asserts (b [] None)) = true.
Proof. vm_compute. reflexivity. Qed.

(** test_sample_graph.py:430-448 *)
Example test_external_nodes : both (fun o =>
  let cdg := ed "c" "1" "d" "1" "g" in let dfg := ed "d" "1" "f" "1" "g" in
  let g := gr (built cp2 [e1; e2; cdg; dfg]) in
  let x c f := external_nodes o g (nodes c) f in
  (x [("a", "1")] None ==
     Ok (list_to_map [(nd "b" "1", {[e1]}); (nd "c" "1", {[e2]}); (nd "d" "1", {[cdg]}); (nd "f" "1", {[dfg]})])) &&
  (x [("a", "1"); ("c", "1")] None ==
     Ok (list_to_map [(nd "b" "1", {[e1; e2]}); (nd "d" "1", {[cdg]}); (nd "f" "1", {[dfg]})])) &&
  (x [("a", "1")] (rels ["r"]) == Ok (list_to_map [(nd "b" "1", {[e1]}); (nd "c" "1", {[e2]})]))) = true.
Proof. vm_compute. reflexivity. Qed.

(** test_sample_graph.py:450-479 *)
Example test_graph_queries : both (fun o =>
  (variables_subgraph_hash (s_g s1) (vars ["a"]) == {[inl (nd "a" "1")]}) &&
  (variables_subgraph_hash (s_g s1) (vars ["a"; "b"]) == {[inl (nd "a" "1"); inl (nd "b" "1"); inr e1]}) &&
  (single_node_variable o (s_g s2) == Ok "a") && asserts (single_node_variable o (s_g s1)) &&
  (values s3 == nodes [("a", "1"); ("b", "1"); ("c", "1"); ("d", "1")]) &&
  have_value s3 ("a" : Var) ("1" : Val) && negb (have_value s3 ("a" : Var) ("not_in_sample" : Val)) &&
  negb (have_value s3 ("not_in_sample" : Var) ("1" : Val)) && have_variable s3 ("a" : Var) &&
  negb (have_variable s3 ("not_in_sample" : Var))) = true.
Proof. vm_compute. reflexivity. Qed.

(** ** test_graph_components.py *)

(** test_graph_components.py:58-96 *)
Example test_relation_edge : both (fun o =>
  let a1 := nd "a" "1" in let b1 := nd "b" "1" in let b2 := nd "b" "2" in
  is_endpoint e1 a1 && negb (is_endpoint e1 b2) && (e1 == ed "b" "1" "a" "1" "r") &&
  (opposite_endpoint o e1 a1 == Ok b1) && (opposite_endpoint o e1 b1 == Ok a1) && asserts (opposite_endpoint o e1 b2) &&
  match edge_ab o e1 with
  | Some (a, b) => bool_decide (a ∈ e1.1) && bool_decide (b ∈ e1.1) && negb (a == b)
  | None => false
  end) = true.
Proof. vm_compute. reflexivity. Qed.

(** test_graph_components.py:177-264; the ids of the objects are in Provider.v and the theorems of C08. *)
Example test_components_provider :
  let vs l : gmap Var (gset Val) := cp_vars (decl 0 l []) in
  let p := decl 1 [("a", ["1"; "2"]); ("b", ["2"; "3"])] ["r"; "s"] in
  let ge r := get_edge p (nodes [("a", "1"); ("b", "2")]) r in
  is_ok (provider_init 0 (vs [("a", ["1"; "2"])]) {["r"]}) && asserts (provider_init 0 (vs []) {["r"]}) &&
  asserts (provider_init 0 (vs [("a", [])]) {["r"]}) && asserts (provider_init 0 (vs [("a", ["1"; "2"])]) ∅) &&
  (get_node p ("a" : Var) ("1" : Val) == Ok (nd "a" "1")) && asserts (get_node p ("unknown_variable" : Var) ("1" : Val)) &&
  asserts (get_node p ("a" : Var) ("unknown_value" : Val)) &&
  (ge (rl "r") == Ok (ed "a" "1" "b" "2" "r")) && (ge (rl "s") == Ok (ed "a" "1" "b" "2" "s")) &&
  (ge (drl "a" "b" "r") == Ok (nodes [("a", "1"); ("b", "2")], drl "a" "b" "r")) &&
  asserts (ge (rl "unknown_relation")) && asserts (ge (drl "a" "b" "unknown_relation")) &&
  asserts (ge (drl "unknown_variable" "b" "r")) && asserts (ge (drl "a" "unknown_variable" "r")) = true.
Proof. vm_compute. reflexivity. Qed.
