(** * RepoTestsSets: the unit tests of sets, spaces and relation graphs, run on the model (see RepoTests.v) *)

From Verif Require Import Base Components SampleGraph SampleSet SampleSpace RelationGraph Activation Text Floats ActFloats.
From Verif Require Import Examples ExamplesSets RepoTests.
From Flocq Require Import IEEE754.BinarySingleNaN.
Local Open Scope string_scope.
Local Open Scope Z_scope.

Local Notation txt := (list N).
Local Notation "x == y" := (bool_decide (x = y)) (at level 70, only parsing).

(** ** test_sample_set.py *)

Definition sm (cp : provider) (g : graph) : sample := Sample (cp_id cp) g.
Definition smap (l : list (graph * Z)) : gmap graph Z := list_to_map l.
Definition has (r : res samples) (l : list (graph * Z)) : bool := match r with Ok ss => ss_map ss == smap l | Err _ => false end.

(** test_sample_set.py:30-34, :61-80, :197-200 *)
Definition vs7 : list (string * list string) := (fun v => (v, ["1"; "2"; "3"])) <$> ["a"; "b"; "c"; "d"; "e"; "f"; "g"].
Definition cp3 : provider := decl 1 vs7 ["r"; "s"; "t"].
Definition cp3' : provider := decl 2 [("a", ["1"])] ["r"].
Definition a1 : graph := one cp3 "a" "1".
Definition a2 : graph := one cp3 "a" "2".
Definition a3 : graph := one cp3 "a" "3".
Definition b2 : graph := one cp3 "b" "2".
Definition abr : graph := gr (built cp3 [ed "a" "1" "b" "1" "r"]).
Definition bcs : graph := gr (built cp3 [ed "b" "1" "c" "1" "s"]).
Definition ss1 : samples := sset cp3 [(a1, 1); (a2, 2)].
Definition ss2 : samples := sset cp3 [(abr, 3); (bcs, 4)].

(** test_sample_set.py:36-56, :82-92 *)
Example test_samples : both (fun o =>
  ss_bool ss1 && negb (ss_bool (sset cp3 [])) &&
  ((list_to_set (ss_items o ss1) : gset (graph * Z)) == {[(a1, 1); (a2, 2)]}) && (ss_samples ss1 == {[a1; a2]}) &&
  ss_compatible ss1 (sset cp3 []) && negb (ss_compatible ss1 (sset cp3' [])) &&
  (count_of ss1 a2 == Ok 2) && asserts (count_of ss1 a3) && (ss_length ss1 == 3) &&
  ss_eqb ss1 (sset cp3 [(a2, 2); (a1, 1)])) = true.
Proof. vm_compute. reflexivity. Qed.

(** test_sample_set.py:94-95 *)
Example test_set_repr : both (fun o =>
  let sv (s : string) := lit s in
  set_repr sv sv sv o ss1 == (lit "{" ++ newline ++ lit "    {(a_1)}: 1" ++ newline ++ lit "    {(a_2)}: 2" ++ newline ++ lit "}")%list) = true.
Proof. vm_compute. reflexivity. Qed.

(** test_sample_set.py:102-120 *)
Example test_union_filter : both (fun o =>
  has (ss_union o ss1 (sset cp3 [(a1, 3); (a3, 4)])) [(a1, 4); (a2, 2); (a3, 4)] &&
  asserts (ss_union o ss1 (sset cp3' [(a1, 3); (a3, 4)])) &&
  (ss_map (filter_samples (fun g => bool_decide (("a" : Var) ∈ included_variables g)) (sset cp3 [(a1, 3); (b2, 4)])) == smap [(a1, 3)])) = true.
Proof. vm_compute. reflexivity. Qed.

(** test_sample_set.py:122-156 *)
Example test_group_intersecting : both (fun o =>
  let o21 := gr (built cp3 [ed "a" "1" "b" "1" "r"]) in
  let o22 := gr (built cp3 [ed "c" "2" "d" "2" "s"]) in
  let o23 := gr (built cp3 [ed "a" "2" "b" "2" "s"; ed "b" "2" "c" "1" "t"; ed "c" "1" "d" "2" "r"]) in
  let o31 := one cp3 "f" "1" in
  let o41 := gr (built cp3 [ed "f" "2" "g" "1" "r"]) in
  let o42 := gr (built cp3 [ed "f" "2" "g" "1" "s"]) in
  match group_intersecting o (sset cp3 [(a1, 1); (a2, 2); (o21, 3); (o22, 4); (o23, 5); (o31, 6); (o41, 7); (o42, 8)]) with
  | Ok m => (ss_map <$> m) == list_to_map
      [(vars ["a"], smap [(a1, 1); (a2, 2)]); (vars ["a"; "b"; "c"; "d"], smap [(o21, 3); (o22, 4); (o23, 5)]);
       (vars ["f"], smap [(o31, 6)]); (vars ["g"; "f"], smap [(o41, 7); (o42, 8)])]
  | Err _ => false
  end) = true.
Proof. vm_compute. reflexivity. Qed.

(** test_sample_set.py:158-171, :178-186 *)
Example test_make_joined_sample : both (fun o =>
  match make_joined_sample o ss2 with
  | Ok (s, cs) => (s_g s == gr (built cp3 [ed "a" "1" "b" "1" "r"; ed "b" "1" "c" "1" "s"])) &&
                  ((list_to_set cs : gset Z) == {[3; 4]})
  | Err _ => false
  end &&
  is_all_values_match o (sset cp3 []) && negb (is_all_values_match o ss1) && is_all_values_match o ss2 &&
  ss_have_value ss2 ("a" : Var) ("1" : Val) && ss_have_value ss2 ("c" : Var) ("1" : Val) &&
  negb (ss_have_value ss2 ("a" : Var) ("not_in_sample" : Val)) && negb (ss_have_value ss2 ("not_in_sample" : Var) ("1" : Val)) &&
  ss_have_variable ss2 ("a" : Var) && negb (ss_have_variable ss2 ("not_in_sample" : Var))) = true.
Proof. vm_compute. reflexivity. Qed.

(** A Python float literal with [k] digits after the point: the nearest double. *)
Definition decimal (z : Z) (k : Z) : b64 := int_div z (10 ^ k).
Definition weights_eqb `{Countable K} (m : gmap K b64) (l : list (K * b64)) : bool :=
  (dom m == list_to_set l.*1) && forallb (fun p => match m !! p.1 with Some x => f_eqb x p.2 | None => false end) l.

(** test_sample_set.py:173-176, :188-192 *)
Example test_probabilities : both (fun o =>
  (probabilities ss2 == Ok (list_to_map [(abr, qdiv 3 7); (bcs, qdiv 4 7)])) &&
  match probabilities_f f_sum o ss2 with
  | Ok m => weights_eqb m [(abr, int_div 3 7); (bcs, int_div 4 7)]
  | Err _ => false
  end &&
  res_f_eqb (probability_of_f ss1 a2) (decimal 6666666666666666 16) && asserts (probability_of_f ss1 a3) &&
  (probability_of ss1 a2 == py_div 2 3) && asserts (probability_of ss1 a3)) = true.
Proof. vm_compute. reflexivity. Qed.

(** test_sample_set.py:202-252 *)
Example test_set_builder : both (fun o =>
  has (join_sample_set o [ss1; sset cp3 [(a1, 1); (a3, 3)]; sset cp3 [(a3, 3)]]) [(a1, 2); (a2, 2); (a3, 6)] &&
  (let b1 := ssb_add (ssb_new cp3) (sm cp3 a1) 10 in
   let b2 := ssb_add b1.1 (sm cp3 a1) 20 in
   let b3 := ssb_add b2.1 (sm cp3 a2) 40 in
   is_ok b3.2 && (ss_map b3.1 == smap [(a1, 30); (a2, 40)])) &&
  (ss_map (ssb_add_all o (ssb_new cp3) ss1).1 == smap [(a1, 1); (a2, 2)]) &&
  (let r := ssb_remove ss1 (sm cp3 a1) in (ss_map r.1 == smap [(a2, 2)]) && (r.2 == Ok (a1, 1))) &&
  (ss_map (ssb_remove_all o ss1 ss1).1 == ∅) && (ss_length (ssb_new cp3) == 0)) = true.
Proof. vm_compute. reflexivity. Qed.

(** ** test_sample_space.py *)

(** test_sample_space.py:33-40 *)
Definition cp4 : provider := decl 1 [("a", ["1"; "2"]); ("b", ["2"; "3"]); ("c", ["3"; "4"])] ["r"; "s"].
Definition p_a1 : graph := one cp4 "a" "1".
Definition p_a2 : graph := one cp4 "a" "2".
Definition p_ab : graph := gr (built cp4 [ed "a" "1" "b" "2" "r"]).
Definition sp1 : space := Space cp4 (sset cp4 [(p_a1, 1); (p_a2, 2); (p_ab, 3)]).

Definition pair_eqb (a b : view * Z) : bool := view_eqb a.1 b.1 && (a.2 =? b.2).
Definition views_eqb (l k : list (view * Z)) : bool :=
  (length l =? length k)%nat && forallb (fun a => existsb (pair_eqb a) k) l && forallb (fun a => existsb (pair_eqb a) l) k.

(** test_sample_space.py:42-77, :98-104 *)
Example test_space_outcomes : both (fun o =>
  (ss_length (sp_out sp1) == 6) &&
  match sp_builder sp1 with
  | Ok b => match rgb_build b with
            | Ok sp => (cp_vars (sp_cp sp) == cp_vars cp4) && (cp_rels (sp_cp sp) == cp_rels cp4) &&
                       (ss_map (sp_out sp) == smap [(p_a1, 1); (p_a2, 2); (p_ab, 3)])
            | Err _ => false
            end
  | Err _ => false
  end &&
  (ss_map (sp_out (sp_relation_graph sp1)) == ss_map (sp_out sp1)) &&
  view_eqb (edges_set_view o (gr (build_single_node (sp_sample_builder sp1) ("a" : Var) ("2" : Val)))) (VNode (nd "a" "2")) &&
  views_eqb (outcomes_as_edges_sets o sp1)
    [(VEdges {[ed "a" "1" "b" "2" "r"]}, 3); (VNode (nd "a" "1"), 1); (VNode (nd "a" "2"), 2)] &&
  (sp_included_variables o sp1 == cp_vars (decl 0 [("a", ["1"; "2"]); ("b", ["2"])] [])) &&
  (sp_included_relations sp1 == {[rl "r"]})) = true.
Proof. vm_compute. reflexivity. Qed.

(** test_sample_space.py:79-96 *)
Example test_marginals : both (fun o =>
  let m vs u l :=
    match marginal_variables_probability_f f_sum o sp1 vs u with
    | Ok d => (dom d == list_to_set l.*1) &&
              forallb (fun p : Var * list (Val * b64) => match d !! p.1 with Some w => weights_eqb w p.2 | None => false end) l
    | Err _ => false
    end in
  let x23 := decimal 6666666666666666 16 in let x13 := decimal 3333333333333333 16 in
  m None false [("a", [("1", x23); ("2", x13)]); ("b", [("2", f_one)])] &&
  m (Some (vars ["a"])) false [("a", [("1", x23); ("2", x13)])] &&
  m None true [("a", [("1", x23); ("2", x13); ("u", f_zero)]); ("b", [("2", decimal 5 1); ("u", decimal 5 1)])] &&
  m (Some (vars ["a"])) true [("a", [("1", x23); ("2", x13); ("u", f_zero)])] &&
  (marginal_variables_probability o sp1 None true ==
     Ok (list_to_map [("a" : Var, list_to_map [("1" : Val, qdiv 2 3); ("2" : Val, qdiv 1 3); ("u" : Val, qdiv 0 1)]);
                      ("b" : Var, list_to_map [("2" : Val, qdiv 1 2); ("u" : Val, qdiv 1 2)])]))) = true.
Proof. vm_compute. reflexivity. Qed.

Definition fnode_eqb (f : option fnode) (vals : list string) (cs : list (node * Z)) (t : Z) : bool :=
  match f with
  | Some f => (fn_values f == list_to_set vals) && (fn_counts f == list_to_map cs) && (fn_total f =? t)
  | None => false
  end.

(** test_sample_space.py:106-122; [FoldedNode.__eq__] ignores the last argument of the constructor, which is the number
    of outcomes 6 in the code and 3 in the test. *)
Example test_folded_graph : both (fun o =>
  match folded_graph o sp1 with
  | Ok g => (dom (fg_nodes g) == vars ["a"; "b"]) &&
            fnode_eqb (folded_node g ("b" : Var)) ["2"; "3"] [(nd "b" "2", 3)] 6 &&
            fnode_eqb (folded_node g ("a" : Var)) ["1"; "2"] [(nd "a" "1", 4); (nd "a" "2", 2)] 6 &&
            (fg_edges g == {[vars ["a"; "b"] := {[ed "a" "1" "b" "2" "r" := 3]}]})
  | Err _ => false
  end) = true.
Proof. vm_compute. reflexivity. Qed.

(** test_sample_space.py:124-132 *)
Example test_print_find : both (fun o =>
  let sv (s : string) := lit s in
  (print_samples sv sv sv newline o (sp_out sp1) == (lit "{(a_1)--{r}--(b_2)}(3)" ++ newline ++ lit "{(a_1)}(1)" ++ newline ++ lit "{(a_2)}(2)")%list) &&
  has (find_for_values o sp1 (nodes [("a", "1"); ("b", "2")])) [(p_ab, 3)]) = true.
Proof. vm_compute. reflexivity. Qed.

Definition f_ab2 : graph := gr (built cp4 [ed "a" "2" "b" "3" "r"]).
Definition f_bc : graph := gr (built cp4 [ed "b" "2" "c" "3" "r"]).
Definition f_abc : graph := gr (built cp4 [ed "a" "1" "b" "2" "r"; ed "b" "2" "c" "3" "r"]).
Definition spc (l : list (graph * Z)) : space := Space cp4 (sset cp4 l).

(** test_sample_space.py:134-165 *)
Example test_factorized : both (fun o =>
  (factorized o (spc [(p_ab, 1)]) == Ok {[smap [(p_ab, 1)]]}) &&
  (factorized o (spc [(p_ab, 1); (f_ab2, 2)]) == Ok {[smap [(p_ab, 1); (f_ab2, 2)]]}) &&
  (factorized o (spc [(p_ab, 1); (f_ab2, 2); (f_bc, 3)]) == Ok {[smap [(p_ab, 1); (f_ab2, 2)]; smap [(f_bc, 3)]]}) &&
  asserts (factorized o (spc [(p_ab, 1); (f_abc, 2)])) && asserts (factorized o (spc [(p_ab, 1); (Graph ∅ ∅, 2)]))) = true.
Proof. vm_compute. reflexivity. Qed.

(** ** test_folded_graph.py:28-48: here the floats 0.2 and 0.4 are the exact fractions. *)
Example test_folded_node : both (fun o =>
  let f := FNode {["1"; "2"]} (list_to_map [(nd "a" "1", 1); (nd "a" "2", 2)]) 5 in
  (unobserved_count f == 2) &&
  (marginal_distribution o f ==
     Ok (list_to_map [("1" : Val, qdiv 1 5); ("2" : Val, qdiv 2 5); ("unobserved" : Val, qdiv 2 5)]))) = true.
Proof. vm_compute. reflexivity. Qed.

(** ** test_relation_graph.py *)

(** test_relation_graph.py:34-37 *)
Definition cp5 : provider := decl 1 [("a", ["1"; "2"]); ("b", ["2"; "3"])] ["r"; "s"].
Definition q_a1 : graph := one cp5 "a" "1".
Definition q_a2 : graph := one cp5 "a" "2".

(** test_relation_graph.py:39-53, :71-104, :289-294 *)
Example test_relation_graph_builder :
  let out r := match r with (b, Ok _) => match rgb_build b with Ok sp => Some (ss_map (sp_out sp)) | Err _ => None end | _ => None end in
  match rgb_init 9 None None (Some (sset cp5 [])) (Some cp5), rgb_init 9 (Some (cp_vars cp5)) (Some (cp_rels cp5)) None None,
        rgb_init 9 None None (Some (sset cp5 [(q_a1, 1)])) (Some cp5) with
  | Ok b, Ok b', Ok b'' =>
      let r1 := add_outcome b (sm cp5 q_a1) 1 in
      let r2 := add_outcome r1.1 (sm cp5 q_a1) 1 in
      let r3 := add_outcome r2.1 (sm cp5 q_a2) 1 in
      (out r1 == Some (smap [(q_a1, 1)])) && (out r2 == Some (smap [(q_a1, 2)])) &&
      (out r3 == Some (smap [(q_a1, 2); (q_a2, 1)])) &&
      match build_single_node (new_builder (rb_cp b')) ("a" : Var) ("1" : Val) with
      | Ok s => asserts (add_outcome r3.1 s 1).2 && is_ok (add_outcome b' s 1).2
      | Err _ => false
      end &&
      asserts (add_outcome r3.1 (sm cp5 q_a1) 0).2 &&
      (out (add_outcomes b [sm cp5 q_a1; sm cp5 q_a1; sm cp5 q_a1] 1) == Some (smap [(q_a1, 3)])) &&
      (out (build_sample b (fun sb => build_single_node sb ("a" : Var) ("2" : Val))) == Some (smap [(q_a2, 1)])) &&
      (out (b'', Ok tt) == Some (smap [(q_a1, 1)])) && asserts (rgb_build b)
  | _, _, _ => false
  end = true.
Proof. vm_compute. reflexivity. Qed.

Definition all_outcomes (o : oracle) (vs : list (string * list string)) (rs : list string) : list (view * Z) :=
  match rgb_init 1 (Some (cp_vars (decl 0 vs []))) (Some (list_to_set rs)) None None with
  | Ok b => match generate_all_possible_outcomes o b with
            | (b', Ok _) => match rgb_build b' with Ok sp => outcomes_as_edges_sets o sp | Err _ => [] end
            | _ => []
            end
  | Err _ => []
  end.
Definition ones (vn : list (string * string)) (es : list (list edge)) : list (view * Z) :=
  (((fun p : string * string => (VNode (nd p.1 p.2), 1)) <$> vn) ++ ((fun l => (VEdges (edges l), 1)) <$> es))%list.

(** test_relation_graph.py:106-287, all but the fifth builder, with 3 variables and two relations *)
Example test_generate_all_possible_outcomes : both (fun o =>
  let ab x y r := ed "a" x "b" y r in
  let ab1 := ab "1" "1" "r" in let bc1 := ed "b" "1" "c" "1" "r" in let ca1 := ed "c" "1" "a" "1" "r" in
  views_eqb (all_outcomes o [("a", ["1"])] ["r"]) (ones [("a", "1")] []) &&
  views_eqb (all_outcomes o [("a", ["1"]); ("b", ["1"])] ["r"]) (ones [("a", "1"); ("b", "1")] [[ab1]]) &&
  views_eqb (all_outcomes o [("a", ["1"]); ("b", ["1"])] ["r"; "s"]) (ones [("a", "1"); ("b", "1")] [[ab1]; [ab "1" "1" "s"]]) &&
  views_eqb (all_outcomes o [("a", ["1"]); ("b", ["1"]); ("c", ["1"])] ["r"])
    (ones [("a", "1"); ("b", "1"); ("c", "1")] [[ab1]; [bc1]; [ca1]; [ab1; bc1]; [bc1; ca1]; [ab1; ca1]; [ab1; bc1; ca1]]) &&
  views_eqb (all_outcomes o [("a", ["1"; "2"])] ["r"]) (ones [("a", "2"); ("a", "1")] []) &&
  views_eqb (all_outcomes o [("a", ["1"; "2"]); ("b", ["1"; "2"])] ["r"])
    (ones [("a", "1"); ("a", "2"); ("b", "1"); ("b", "2")] [[ab1]; [ab "1" "2" "r"]; [ab "2" "1" "r"]; [ab "2" "2" "r"]]) &&
  views_eqb (all_outcomes o [("a", ["1"; "2"]); ("b", ["1"; "2"])] ["r"; "s"])
    (ones [("a", "1"); ("a", "2"); ("b", "1"); ("b", "2")]
       [[ab1]; [ab "1" "2" "r"]; [ab "2" "1" "r"]; [ab "2" "2" "r"];
        [ab "1" "1" "s"]; [ab "1" "2" "s"]; [ab "2" "1" "s"]; [ab "2" "2" "s"]]) &&
  views_eqb (all_outcomes o [("a", ["1"; "2"]); ("b", ["1"])] ["r"])
    (ones [("a", "1"); ("a", "2"); ("b", "1")] [[ab1]; [ab "2" "1" "r"]])) = true.
Proof. vm_compute. reflexivity. Qed.

(** test_relation_graph.py:299-305 *)
Definition cp6 : provider := decl 1 [("a", ["1"; "2"]); ("b", ["2"; "3"]); ("c", ["3"; "4"]); ("d", ["4"; "5"])] ["r"; "s"].
Definition sp6 (l : list (graph * Z)) : space := Space cp6 (sset cp6 l).

(** test_relation_graph.py:405-455; the sample [o4] has two values of a. *)
Example test_conditional_graph :
  let ab := ed "a" "1" "b" "2" "r" in let bc := ed "b" "2" "c" "3" "r" in let ca := ed "c" "3" "a" "1" "s" in
  let o1 := one cp6 "b" "2" in let o2 := gr (built cp6 [ab]) in let o3 := gr (built cp6 [bc]) in
  let o4 := gr (built cp6 [ab; bc; ed "c" "3" "a" "2" "s"]) in let o5 := gr (built cp6 [ca]) in
  let sp := sp6 [(o1, 1); (o2, 2); (o3, 3); (o4, 4); (o5, 5)] in
  let c q l := match conditional_graph sp (sm cp6 q) with
               | Ok cg => ss_map (sp_out (cg_space cg)) == smap l
               | Err _ => false
               end in
  c o1 [(o1, 1); (o2, 2); (o3, 3); (o4, 4); (o5, 5)] && c o2 [(o2, 2); (o4, 4)] && c o3 [(o3, 3); (o4, 4)] &&
  c o5 [(o5, 5); (o1, 1)] = true.
Proof. vm_compute. reflexivity. Qed.

(** test_relation_graph.py:487-519 *)
Example test_is_joined_factorized : both (fun o =>
  let ab1 := gr (built cp6 [ed "a" "1" "b" "2" "r"]) in let ab2 := gr (built cp6 [ed "a" "2" "b" "3" "r"]) in
  let bc := gr (built cp6 [ed "b" "2" "c" "3" "r"]) in
  let abc := gr (built cp6 [ed "a" "1" "b" "2" "r"; ed "b" "2" "c" "3" "r"]) in
  is_joined o (sp6 [(one cp6 "a" "1", 1); (one cp6 "a" "2", 2)]) &&
  negb (is_joined o (sp6 [(one cp6 "a" "1", 1); (one cp6 "b" "3", 3)])) &&
  is_factorized o (sp6 [(ab1, 1); (ab2, 2)]) && is_factorized o (sp6 [(ab1, 1); (bc, 2)]) && is_factorized o (sp6 [(abc, 1)]) &&
  negb (is_factorized o (sp6 [(ab1, 1); (abc, 2)])) && negb (is_factorized o (sp6 [(Graph ∅ ∅, 1); (abc, 2)]))) = true.
Proof. vm_compute. reflexivity. Qed.

(** ** test_conditional_graph.py:52-153 *)

Definition t_ab := ed "a" "1" "b" "2" "r".
Definition t_bc := ed "b" "2" "c" "3" "s".
Definition t_cd := ed "c" "3" "d" "4" "r".
Definition t1 : graph := one cp6 "a" "1".
Definition t2 : graph := gr (built cp6 [t_ab]).
Definition t3 : graph := gr (built cp6 [t_ab; t_bc]).
Definition t4 : graph := gr (built cp6 [t_ab; t_bc; t_cd]).
Definition active (o : oracle) (ev : graph) (l : list (graph * Z)) (f : option (gset relation))
    (ns : list (Var * (list (Val * b64) * bool))) (es : list (gset Var * (list (relation * Z) * bool))) : bool :=
  match activation_graph_f o (CGraph (sp6 l) (sm cp6 ev)) f with
  | Ok g =>
      (fa_total g =? zsum l.*2) && (dom (fa_nodes g) == list_to_set ns.*1) && (dom (fa_edges g) == list_to_set es.*1) &&
      forallb (fun p : Var * (list (Val * b64) * bool) =>
        match fa_nodes g !! p.1 with
        | Some a => weights_eqb (fa_values a) p.2.1 && Bool.eqb (fa_in_query a) p.2.2
        | None => false
        end) ns &&
      forallb (fun p : gset Var * (list (relation * Z) * bool) =>
        match fa_edges g !! p.1 with
        | Some a => (ae_relations a == list_to_map p.2.1) && Bool.eqb (ae_in_query a) p.2.2
        | None => false
        end) es
  | Err _ => false
  end.
Definition an (v x : string) (w : b64) (y : string) (q : bool) : Var * (list (Val * b64) * bool) :=
  (v, ([(x : Val, w); (y : Val, f_zero)], q)).
Definition ae (v w r : string) (c : Z) (q : bool) : gset Var * (list (relation * Z) * bool) := (vars [v; w], ([(rl r, c)], q)).

(** The weights 0.18380…, 0.11714… and 0.05714… of the first test are computed in it from the similarities 1/3, 1/5
    and 1/7. *)
Example test_active_values : both (fun o =>
  let sum l := f_sum l in
  let w13 := fmul (int_div 1 3) (int_div 2 1) in let w15 := fmul (int_div 1 5) (int_div 3 1) in
  let w17 := fmul (int_div 1 7) (int_div 4 1) in let by10 x := Bdiv mode_NE x (int_div 10 1) in
  active o t1 [(t1, 1); (t2, 2); (t3, 3); (t4, 4)] None
    [an "a" "1" f_one "2" true; an "b" "2" (by10 (sum [w13; w15; w17])) "3" false; an "c" "3" (by10 (sum [w15; w17])) "4" false;
     an "d" "4" (by10 w17) "5" false]
    [ae "b" "a" "r" 9 false; ae "c" "b" "s" 7 false; ae "d" "c" "r" 4 false] &&
  active o t2 [(t2, 2); (t3, 3); (t4, 4)] None
    [an "a" "1" f_one "2" true; an "b" "2" f_one "3" true; an "c" "3" (decimal 3904761904761905 16) "4" false;
     an "d" "4" (decimal 19047619047619047 17) "5" false]
    [ae "b" "a" "r" 9 true; ae "c" "b" "s" 7 false; ae "d" "c" "r" 4 false]) = true.
Proof. vm_compute. reflexivity. Qed.

Example test_active_values_2 : both (fun o =>
  active o t3 [(t3, 3); (t4, 4)] None
    [an "a" "1" f_one "2" true; an "b" "2" f_one "3" true; an "c" "3" f_one "4" true;
     an "d" "4" (decimal 40816326530612246 17) "5" false]
    [ae "b" "a" "r" 7 true; ae "c" "b" "s" 7 true; ae "d" "c" "r" 4 false] &&
  active o t4 [(t4, 4)] None
    [an "a" "1" f_one "2" true; an "b" "2" f_one "3" true; an "c" "3" f_one "4" true; an "d" "4" f_one "5" true]
    [ae "b" "a" "r" 4 true; ae "c" "b" "s" 4 true; ae "d" "c" "r" 4 true] &&
  active o t1 [(t1, 1); (t2, 2); (t3, 3); (t4, 4)] (rels ["r"])
    [an "a" "1" f_one "2" true; an "b" "2" (decimal 1838095238095238 16) "3" false; an "c" "3" f_zero "4" false;
     an "d" "4" f_zero "5" false]
    [ae "b" "a" "r" 9 false]) = true.
Proof. vm_compute. reflexivity. Qed.
