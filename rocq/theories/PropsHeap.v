(** * Properties: built objects never change, copies are independent (C41) *)

From Verif Require Import HeapFacts ExamplesSets.

Section props.
Context {U : Universe}.

(** Whatever calls follow, on any objects in any order and with any iteration orders, and however the
    client changes the containers it holds: a SampleGraph, SampleSet or RelationGraph keeps its content
    (nodes and edges; counts and length; counts, length, variables and relations). *)
Theorem C41_frozen (st : state) (l : list (oracle * call)) (a : nat) (v : seen) :
  reachable st -> see (st_h st) a = Some v ->
  match v with SGraph _ _ | SSet _ _ _ | SSpace _ _ _ _ _ => True | _ => False end ->
  see (st_h (run st l)) a = Some v.
Proof. intros H. exact (frozen_run l st a v (reachable_inv st H)). Qed.

(** A SampleSetBuilder changes only by add, add_all, remove, remove_all on itself, or by add_outcome on a
    RelationGraphBuilder that was given this very object. *)
Theorem C41_set_builder_own_calls (o : oracle) (st : state) (c : call) (b p : nat) (m : gmap graph Z) :
  reachable st -> see (st_h st) b = Some (SSetBuilder p m) ->
  see (st_h (step o st c).1) b <> Some (SSetBuilder p m) ->
  match c with
  | KSBAdd b' _ _ | KSBAddAll b' _ | KSBRemove b' _ | KSBRemoveAll b' _ => b' = b
  | KRGBAdd r _ _ => exists p' vs rs, st_h st !! r = Some (HRGB p' b vs rs)
  | _ => False
  end.
Proof.
  intros HR H Hd.
  destruct (decide (on_set_builder st c b)) as [Y|N]; [exact Y|].
  destruct Hd. exact (sb_step o st c b p m (reachable_inv st HR) H N).
Qed.

(** [SampleSetBuilder.copy]: a new object with the same counts (its independence is the theorem above). *)
Theorem C41_set_builder_copy (o : oracle) (st st' : state) (b b' p : nat) (m : gmap graph Z) :
  reachable st -> see (st_h st) b = Some (SSetBuilder p m) -> step o st (KSBCopy b) = (st', Ok b') ->
  see (st_h st') b' = Some (SSetBuilder p m) /\ see (st_h st') b = Some (SSetBuilder p m) /\ b' <> b.
Proof. intros H. exact (sb_copy_spec o st st' b b' p m (reachable_inv st H)). Qed.

(** [SampleSetBuilder.build] and [SampleSet.builder]: new objects with the same counts. *)
Theorem C41_set_build (o : oracle) (st st' : state) (b s p : nat) (m : gmap graph Z) :
  reachable st -> see (st_h st) b = Some (SSetBuilder p m) -> step o st (KSBBuild b) = (st', Ok s) ->
  see (st_h st') s = Some (SSet p m (zsum (map_to_list m).*2)) /\ st_h st !! s = None.
Proof. intros H. exact (sb_build_spec o st st' b s p m (reachable_inv st H)). Qed.

Theorem C41_set_to_builder (o : oracle) (st st' : state) (s b p : nat) (m : gmap graph Z) (len : Z) :
  reachable st -> see (st_h st) s = Some (SSet p m len) -> step o st (KSetBuilder s) = (st', Ok b) ->
  see (st_h st') b = Some (SSetBuilder p m) /\ st_h st !! b = None.
Proof. intros H. exact (set_builder_spec o st st' s b p m len (reachable_inv st H)). Qed.

(** A dict given to the constructors of SampleSetBuilder and SampleSet, and the sets returned by items()
    and samples(), are copies: changing one afterwards changes no library object whatever. *)
Theorem C41_copied_containers (o : oracle) (st : state) (a : nat) (ob : obj) (x : nat) :
  reachable st ->
  match st_h st !! a with Some (MDict _) | Some (MItems _) | Some (MSamples _) => True | _ => False end ->
  see (st_h (step o st (UChange a ob)).1) x = see (st_h st) x.
Proof.
  intros H K. apply (change_step o st a ob x (reachable_inv st H));
    intros Y E; by rewrite E in K.
Qed.

(** The two constructors take the counts of the dict they are given. *)
Theorem C41_constructors (o : oracle) (st st' : state) (p a b : nat) (m : gmap graph Z) :
  reachable st -> st_h st !! a = Some (MDict m) ->
  (step o st (KSB p (Some a)) = (st', Ok b) -> see (st_h st') b = Some (SSetBuilder p m)) /\
  (step o st (KSet p a) = (st', Ok b) -> see (st_h st') b = Some (SSet p m (zsum (map_to_list m).*2))).
Proof. intros H. exact (constructors_spec o st st' p a b m (reachable_inv st H)). Qed.

(** A SampleGraphBuilder made by SampleGraphBuilder(provider), by __copy__ or by SampleGraph.builder()
    changes only by its own methods, whatever else happens. *)
Theorem C41_graph_builder_own_calls (o : oracle) (st st' : state) (c : call) (b : nat) (v : seen)
    (l : list (oracle * call)) :
  reachable st ->
  match c with KGB _ None None | KGBCopy _ | KGraphBuilder _ => True | _ => False end ->
  step o st c = (st', Ok b) ->
  forall l1, see (st_h (run st' l1)) b = Some v ->
  Forall (fun oc => match oc.2 with KGBCall b' _ => b' <> b | _ => True end) l ->
  see (st_h (run (run st' l1) l)) b = Some v.
Proof. intros H. exact (graph_builder_spec o st st' c b v l (reachable_inv st H)). Qed.

(** What these three creations contain at first, and that they are new objects. *)
Theorem C41_graph_builder_created (o : oracle) (st st' : state) (a b p : nat) (X : gset node) (Y : gset edge)
    (m : gmap (gset node) edge) (g : graph) :
  reachable st ->
  (step o st (KGB p None None) = (st', Ok b) ->
     see (st_h st') b = Some (SGraphBuilder p ∅ ∅ ∅) /\ st_h st !! b = None) /\
  (see (st_h st) a = Some (SGraphBuilder p X Y m) -> step o st (KGBCopy a) = (st', Ok b) ->
     (exists m', see (st_h st') b = Some (SGraphBuilder p X Y m')) /\ st_h st !! b = None) /\
  (see (st_h st) a = Some (SGraph p g) -> step o st (KGraphBuilder a) = (st', Ok b) ->
     (exists m', see (st_h st') b = Some (SGraphBuilder p (g_nodes g) (g_edges g) m')) /\ st_h st !! b = None).
Proof. intros H. exact (graph_created_spec o st st' a b p X Y m g (reachable_inv st H)). Qed.

(** [build] gives a new graph with the nodes and edges of the builder at that moment. *)
Theorem C41_graph_build (o : oracle) (st st' : state) (a b p : nat) (X : gset node) (Y : gset edge)
    (m : gmap (gset node) edge) :
  reachable st -> see (st_h st) b = Some (SGraphBuilder p X Y m) ->
  step o st (KGBCall b MBuild) = (st', Ok a) ->
  see (st_h st') a = Some (SGraph p (Graph X Y)) /\ see (st_h st') b = Some (SGraphBuilder p X Y m) /\
  st_h st !! a = None.
Proof. intros H. exact (graph_build_spec o st st' a b p X Y m (reachable_inv st H)). Qed.

(** RelationGraphBuilder.build() and SampleSpace.builder(): the outcomes are copied both ways. *)
Theorem C41_space_build (o : oracle) (st st' : state) (r g p : nat) (m : gmap graph Z)
    (vs : gmap Var (gset Val)) (rs : gset Rel) :
  reachable st -> see (st_h st) r = Some (SSpaceBuilder p m vs rs) -> step o st (KRGBuild r) = (st', Ok g) ->
  exists vs' rs', see (st_h st') g = Some (SSpace p m (zsum (map_to_list m).*2) vs' rs') /\ st_h st !! g = None /\
    see (st_h st) p = Some (SProvider vs' rs').
Proof. intros H. exact (space_build_spec o st st' r g p m vs rs (reachable_inv st H)). Qed.

Theorem C41_space_builder (o : oracle) (st st' : state) (r g p : nat) (m : gmap graph Z) (len : Z)
    (vs : gmap Var (gset Val)) (rs : gset Rel) :
  reachable st -> see (st_h st) g = Some (SSpace p m len vs rs) -> step o st (KRGBuilder g) = (st', Ok r) ->
  exists p' b vs' rs', st_h st' !! r = Some (HRGB p' b vs' rs') /\ st_h st !! b = None /\
    see (st_h st') r = Some (SSpaceBuilder p m vs' rs').
Proof. intros H. exact (space_builder_spec o st st' r g p m len vs rs (reachable_inv st H)). Qed.

(** [SampleSetBuilder.add] has its effect on the builder it is called on. *)
Theorem C41_set_builder_add (o : oracle) (st st' : state) (b g a p q : nat) (m : gmap graph Z) (gr : graph) (c : Z) :
  reachable st -> see (st_h st) b = Some (SSetBuilder p m) -> see (st_h st) g = Some (SGraph q gr) ->
  step o st (KSBAdd b g c) = (st', Ok a) ->
  q = p /\ a = b /\ see (st_h st') b = Some (SSetBuilder p (<[gr := (default 0 (m !! gr) + c)%Z]> m)).
Proof. intros H. exact (sb_add_spec o st st' b g a p q m gr c (reachable_inv st H)). Qed.

(** A SampleGraphBuilder method leaves in the builder's own containers what the value level model of
    SampleGraph.v says, also when it raises. *)
Theorem C41_graph_builder_calls (o : oracle) (st : state) (b : nat) (mt : gb_method) (bv : builder) :
  reachable st -> get_gb (st_h st) b = Some bv ->
  let bv' := (run_method o (st_h st) bv mt).1 in
  see (st_h (step o st (KGBCall b mt)).1) b =
    Some (SGraphBuilder (cp_id (b_cp bv)) (b_nodes bv') (b_edges bv') (b_endpoints bv')).
Proof. intros H. exact (gb_call_spec o st b mt bv (reachable_inv st H)). Qed.

End props.

(** ** Examples and the gaps *)

Global Instance seen_eq_dec : EqDecision (@seen StrU).
Proof. solve_decision. Defined.

Definition hist (l : list (@call StrU)) : state := run start (map (pair o0) l).

Lemma hist_reachable l : reachable (hist l).
Proof. by exists (map (pair o0) l). Qed.

(** Provider 2 over the dict 0 and the set 1; a builder 6 for a sample 7; SampleSetBuilder 9 holding it once;
    SampleSet 11 built from that; a copy 13 of the builder. *)
Definition h_base : list (@call StrU) :=
  [UNew (MVars (cp_vars cpx)); UNew (MRels (cp_rels cpx)); KProv 0 1].
Definition h_sets : list (@call StrU) :=
  h_base ++ [KGB 2 None None; KGBCall 6 (MAddRelation {[nd "a" "1"; nd "b" "1"]} (rl "r")); KGBCall 6 MBuild;
    KSB 2 None; KSBAdd 9 7 1; KSBBuild 9; KSBCopy 9].

Definition h_more : list (@call StrU) :=
  h_sets ++ [KSBAdd 9 7 5; KSBRemove 13 7; KGBCall 6 (MAddRelation {[nd "b" "1"; nd "c" "1"]} (rl "q"));
    KItems 11; UChange 14 (MItems ∅)].

Definition st_sets := hist h_sets.
Definition st_more := hist h_more.

Example C41_example : bool_decide (
  see (st_h st_sets) 7 = Some (SGraph 2 (graph_of [ab])) /\
  see (st_h st_sets) 11 = Some (SSet 2 {[graph_of [ab] := 1%Z]} 1%Z) /\
  see (st_h st_sets) 13 = Some (SSetBuilder 2 {[graph_of [ab] := 1%Z]}) /\
  see (st_h st_more) 7 = see (st_h st_sets) 7 /\
  see (st_h st_more) 11 = see (st_h st_sets) 11 /\
  see (st_h st_more) 13 = Some (SSetBuilder 2 ∅) /\
  see (st_h st_more) 9 = Some (SSetBuilder 2 {[graph_of [ab] := 6%Z]}) /\
  see (st_h st_more) 6 <> see (st_h st_sets) 6) = true.
Proof. vm_compute. reflexivity. Qed.

(** Not covered by the above, and false: a SampleGraphBuilder given a non-empty set of nodes keeps that set,
    so a later change of it by the caller changes the builder. *)
Definition nodes_before : gset (@node StrU) := {[nd "a" "1"]}.
Definition nodes_after : gset (@node StrU) := {[nd "a" "1"; nd "c" "2"]}.
Definition st_nodes := hist (h_base ++ [UNew (MNodes nodes_before); KGB 2 (Some 3) None]).

Theorem C41_shared_nodes_refuted :
  exists (st : @state StrU) (b a p : nat) (X X' : gset node), reachable st /\ X <> X' /\
    see (st_h st) b = Some (SGraphBuilder p X ∅ ∅) /\
    see (st_h (step o0 st (UChange a (MNodes X'))).1) b = Some (SGraphBuilder p X' ∅ ∅).
Proof.
  exists st_nodes, 6, 3, 2, nodes_before, nodes_after.
  split; [apply hist_reachable|]. split; [by_vm|]. split; by_vm.
Qed.

(** Two builders given the same sets write to both, but each looks up endpoints in its own dict, so together
    they build a graph with two edges on the same endpoints. *)
Definition h_two : list (@call StrU) :=
  h_base ++ [UNew (MNodes {[nd "a" "1"; nd "b" "1"]}); UNew (MEdges {[ab]});
    KGB 2 (Some 3) (Some 4); KGB 2 (Some 3) (Some 4);
    KGBCall 6 (MAddRelation {[nd "b" "1"; nd "c" "1"]} (rl "r"));
    KGBCall 8 (MAddRelation {[nd "b" "1"; nd "c" "1"]} (rl "q"))].

Theorem C41_shared_sets_refuted :
  exists (st : @state StrU) (b p a : nat) (g : graph) (e e' : edge), reachable st /\
    see (st_h (step o0 st (KGBCall b MBuild)).1) a = Some (SGraph p g) /\
    (step o0 st (KGBCall b MBuild)).2 = Ok a /\
    e ∈ g_edges g /\ e' ∈ g_edges g /\ endpoints e = endpoints e' /\ e <> e'.
Proof.
  exists (hist h_two), 6, 2, 9, (graph_of [ab; bc; ed "b" "1" "c" "1" "q"]), bc, (ed "b" "1" "c" "1" "q").
  split; [apply hist_reachable|]. split; [by_vm|]. split; [by_vm|]. split; [by_vm|]. split; [by_vm|].
  split; by_vm.
Qed.

(** A RelationGraphBuilder keeps a non-empty SampleSetBuilder it is given, and does not keep an empty one:
    add_outcome on it shows up in the caller's builder in the first case only. *)
Definition h_out : list (@call StrU) :=
  h_base ++ [KGB 2 None None; KGBCall 6 (MBuildSingle "a" "1"); KSB 2 None; KSBAdd 9 7 1; KRGB 2 (Some 9)].
Definition h_out0 : list (@call StrU) :=
  h_base ++ [KGB 2 None None; KGBCall 6 (MBuildSingle "a" "1"); KSB 2 None; KRGB 2 (Some 9)].

Theorem C41_shared_outcomes_refuted :
  (exists (st : @state StrU) (r g b p : nat) (m m' : gmap graph Z), reachable st /\ r <> b /\ m <> m' /\
    see (st_h st) b = Some (SSetBuilder p m) /\
    see (st_h (step o0 st (KRGBAdd r g 1)).1) b = Some (SSetBuilder p m')) /\
  (exists (st : @state StrU) (r g b p : nat), reachable st /\ (step o0 st (KRGBAdd r g 1)).2 = Ok 11 /\
    see (st_h st) b = Some (SSetBuilder p ∅) /\
    see (st_h (step o0 st (KRGBAdd r g 1)).1) b = Some (SSetBuilder p ∅)).
Proof.
  split.
  - exists (hist h_out), 10, 7, 9, 2, {[single "a" "1" := 1%Z]}, {[single "a" "1" := 2%Z]}.
    split; [apply hist_reachable|]. split; [done|]. split; [by_vm|]. split; by_vm.
  - exists (hist h_out0), 12, 7, 9, 2.
    split; [apply hist_reachable|]. split; [by_vm|]. split; by_vm.
Qed.

(** The provider keeps the dict of variables it is given: a change by the caller changes what it declares,
    while a RelationGraph built before keeps the old declarations. *)
Definition h_rg : list (@call StrU) := h_out ++ [KRGBuild 10].

Theorem C41_shared_declarations_refuted :
  exists (st : @state StrU) (a p g : nat) (vs vs' : gmap Var (gset Val)) (rs : gset Rel) (m : gmap graph Z) (len : Z),
    reachable st /\ vs <> vs' /\
    see (st_h st) p = Some (SProvider vs rs) /\ see (st_h st) g = Some (SSpace p m len vs rs) /\
    see (st_h (step o0 st (UChange a (MVars vs'))).1) p = Some (SProvider vs' rs) /\
    see (st_h (step o0 st (UChange a (MVars vs'))).1) g = Some (SSpace p m len vs rs).
Proof.
  exists (hist h_rg), 0, 2, 13, (cp_vars cpx), ∅, (cp_rels cpx), {[single "a" "1" := 1%Z]}, 1%Z.
  split; [apply hist_reachable|]. split; [by_vm|]. split; [by_vm|]. split; [by_vm|]. split; by_vm.
Qed.

Print Assumptions C41_frozen.
Print Assumptions C41_set_builder_own_calls.
Print Assumptions C41_set_builder_copy.
Print Assumptions C41_set_build.
Print Assumptions C41_set_to_builder.
Print Assumptions C41_copied_containers.
Print Assumptions C41_constructors.
Print Assumptions C41_graph_builder_own_calls.
Print Assumptions C41_graph_builder_created.
Print Assumptions C41_graph_build.
Print Assumptions C41_space_build.
Print Assumptions C41_space_builder.
Print Assumptions C41_set_builder_add.
Print Assumptions C41_graph_builder_calls.
Print Assumptions C41_shared_nodes_refuted.
Print Assumptions C41_shared_sets_refuted.
Print Assumptions C41_shared_outcomes_refuted.
Print Assumptions C41_shared_declarations_refuted.
