(** * PropsSets: properties of sample sets (C18-C25)

    Vocabulary: SpecSets.v.  Every [Theorem] is closed by a lemma proved elsewhere; refutations carry
    their computed witness. *)

From Verif Require Import ExamplesSets.

Section theorems.
Context {U : Universe}.

(** ** C18: every history of add / add_all / remove / remove_all calls, accepted or not. *)
Theorem C18_builder_history (cp : provider) (ops : list set_op) :
  exists h, set_steps (cp_id cp) [] ops (run_set_ops (ssb_new cp) ops).2 h /\
    (forall g, count_of (run_set_ops (ssb_new cp) ops).1 g =
       match live h g with [] => Err AssertionError | l => Ok (zsum l) end) /\
    (forall g, g ∈ ss_samples (run_set_ops (ssb_new cp) ops).1 <-> live h g <> []) /\
    ss_cp (run_set_ops (ssb_new cp) ops).1 = cp.
Proof. exact (C18_lemma cp ops). Qed.

(** [live] is: the counts added after the last removal. *)
Theorem C18_since_last_removal (h1 h2 : list event) (g : graph) :
  (h1 = [] \/ last h1 = Some (Removed g)) -> Removed g ∉ h2 ->
  live (h1 ++ h2) g = omap (fun ev => match ev with
                                      | Added g' c => if decide (g' = g) then Some c else None
                                      | Removed _ => None
                                      end) h2.
Proof. exact (live_since h1 h2 g). Qed.

(** Each sample is listed once, with its count, and [length] is the sum of the counts. *)
Theorem C18_items_and_length (o : oracle) (ss : samples) :
  NoDup (ss_items o ss).*1 /\
  (forall g c, (g, c) ∈ ss_items o ss <-> count_of ss g = Ok c) /\
  (forall g, g ∈ ss_samples ss <-> contains ss g) /\
  total_count ss (ss_length ss) /\ zsum (ss_items o ss).*2 = ss_length ss.
Proof. exact (C18_items_lemma o ss). Qed.

(** ** C19 *)
Theorem C19_union (o : oracle) (a b : samples) :
  match ss_union o a b with
  | Ok c => cp_id (ss_cp a) = cp_id (ss_cp b) /\ ss_cp c = ss_cp a /\
            (forall g, times_in c g = times_in a g + times_in b g)%Z /\
            (forall g, contains c g <-> contains a g \/ contains b g) /\
            ss_length c = (ss_length a + ss_length b)%Z
  | Err x => x = AssertionError /\ cp_id (ss_cp a) <> cp_id (ss_cp b)
  end.
Proof. exact (C19_union_lemma o a b). Qed.

Theorem C19_union_order_independent (o o' : oracle) (a b : samples) : ss_union o a b = ss_union o' a b.
Proof. exact (union_order o o' a b). Qed.

Theorem C19_union_commutative (o o' : oracle) (a b : samples) :
  ss_cp a = ss_cp b -> ss_union o a b = ss_union o' b a.
Proof. exact (union_comm o o' a b). Qed.

Theorem C19_union_associative (o1 o2 o3 o4 : oracle) (a b c ab bc : samples) :
  ss_union o1 a b = Ok ab -> ss_union o2 b c = Ok bc -> ss_union o3 ab c = ss_union o4 a bc.
Proof. exact (union_assoc o1 o2 o3 o4 a b c ab bc). Qed.

Theorem C19_union_unit (o : oracle) (cp : provider) (a : samples) :
  cp_id cp = cp_id (ss_cp a) ->
  ss_union o a (ssb_new cp) = Ok a /\ (cp = ss_cp a -> ss_union o (ssb_new cp) a = Ok a).
Proof. exact (union_unit o cp a). Qed.

Theorem C19_join_sample_set (o : oracle) (l : list samples) :
  match join_sample_set o l with
  | Ok c => (exists x l', l = x :: l' /\ ss_cp c = ss_cp x) /\
            (forall x, x ∈ l -> cp_id (ss_cp x) = cp_id (ss_cp c)) /\
            (forall g, times_in c g = zsum ((fun x => times_in x g) <$> l)) /\
            (forall g, contains c g <-> exists x, x ∈ l /\ contains x g)
  | Err x => x = AssertionError /\
      (l = [] \/ exists a b, a ∈ l /\ b ∈ l /\ cp_id (ss_cp a) <> cp_id (ss_cp b))
  end.
Proof. exact (join_sample_set_spec o l). Qed.

Theorem C19_join_sample_set_any_order (o o' : oracle) (l l' : list samples) (cp : provider) :
  Forall (fun x => ss_cp x = cp) l -> l ≡ₚ l' -> join_sample_set o l = join_sample_set o' l'.
Proof. exact (join_sample_set_perm o o' l l' cp). Qed.

(** ** C20 *)
Theorem C20_filter (p : graph -> bool) (ss : samples) :
  ss_cp (filter_samples p ss) = ss_cp ss /\
  forall g c, count_of (filter_samples p ss) g = Ok c <-> count_of ss g = Ok c /\ p g = true.
Proof. exact (C20_lemma p ss). Qed.

Theorem C20_filter_splits (o : oracle) (p : graph -> bool) (ss : samples) :
  ss_union o (filter_samples p ss) (filter_samples (fun g => negb (p g)) ss) = Ok ss /\
  (ss_length (filter_samples p ss) + ss_length (filter_samples (fun g => negb (p g)) ss))%Z = ss_length ss.
Proof. exact (conj (filter_split o p ss) (filter_length p ss)). Qed.

Theorem C20_filters_compose (p q : graph -> bool) (ss : samples) :
  filter_samples p (filter_samples q ss) = filter_samples (fun g => p g && q g) ss /\
  filter_samples p (filter_samples q ss) = filter_samples q (filter_samples p ss).
Proof. exact (conj (filter_filter p q ss) (filter_comm p q ss)). Qed.

(** ** C21: any integer counts; the internal assertion fires for the empty set only. *)
Theorem C21_probabilities (ss : samples) :
  match probabilities ss with
  | Ok m => ss_map ss <> ∅ /\ ss_length ss <> 0%Z /\
      (forall g, m !! g = (fun c => qdiv c (ss_length ss)) <$> ss_map ss !! g) /\
      qsum (map_to_list m).*2 = 1%Qc /\
      (forall g p, m !! g = Some p <-> probability_of ss g = Ok p)
  | Err x => (x = AssertionError /\ ss_map ss = ∅) \/
             (x = ZeroDivisionError /\ ss_map ss <> ∅ /\ ss_length ss = 0%Z)
  end.
Proof. exact (probabilities_spec ss). Qed.

Theorem C21_distribution (ss : samples) :
  pos_counts ss -> ss_map ss <> ∅ ->
  exists m, probabilities ss = Ok m /\ dom m = ss_samples ss /\
    forall g p, m !! g = Some p -> (0 < p)%Qc /\ (p <= 1)%Qc.
Proof. exact (C21_lemma ss). Qed.

Theorem C21_probability_of (ss : samples) (g : graph) :
  match probability_of ss g with
  | Ok p => exists c, ss_map ss !! g = Some c /\ ss_length ss <> 0%Z /\ p = qdiv c (ss_length ss)
  | Err x => (x = AssertionError /\ ~ contains ss g) \/
             (x = ZeroDivisionError /\ contains ss g /\ ss_length ss = 0%Z)
  end.
Proof. exact (probability_of_spec ss g). Qed.

(** ** C22 *)
Theorem C22_is_all_values_match (o : oracle) (ss : samples) :
  is_all_values_match o ss = true <-> values_match ss.
Proof. exact (is_all_values_match_spec o ss). Qed.

(** ** C23: what [can_join_samples] decides. *)
Theorem C23_can_join_samples (o : oracle) (ss : samples) :
  (forall g, contains ss g -> single_valued (g_nodes g)) ->
  match can_join_samples o ss with
  | Ok r => ss_map ss <> ∅ /\
      (r = true <-> forall v x y, common_var ss v -> occurs ss (v, x) -> occurs ss (v, y) -> x = y)
  | Err e => e = TypeError /\ ss_map ss = ∅
  end.
Proof. exact (can_join_samples_spec o ss). Qed.

(** It is necessary for [make_joined_sample] (in any order), and implied by matching values. *)
Theorem C23_necessary (o o' : oracle) (ss : samples) (r : sample * list Z) :
  (forall g, contains ss g -> wf_graph (ss_cp ss) g) ->
  make_joined_sample o ss = Ok r -> can_join_samples o' ss = Ok true.
Proof. exact (can_join_necessary o o' ss r). Qed.

Theorem C23_values_match (o : oracle) (ss : samples) :
  ss_map ss <> ∅ -> values_match ss -> can_join_samples o ss = Ok true.
Proof. exact (can_join_of_match o ss). Qed.

(** ** C24: exact result for a given dictionary order. *)
Theorem C24_make_joined_sample (o : oracle) (ss : samples) :
  (forall g, contains ss g -> wf_graph (ss_cp ss) g) ->
  match make_joined_sample o ss with
  | Ok (s, cs) => ss_map ss <> ∅ /\ s_cp s = cp_id (ss_cp ss) /\ union_graph ss (s_g s) /\
      wf_graph (ss_cp ss) (s_g s) /\ values_match ss /\ edges_match ss /\
      (forall g, contains ss g -> g_nodes g <> ∅) /\ linked_order (ss_items (sub o 0) ss).*1 /\
      cs = (ss_items (sub o 0) ss).*2
  | Err x => x = AssertionError /\
      ~ (ss_map ss <> ∅ /\ (forall g, contains ss g -> g_nodes g <> ∅) /\
         linked_order (ss_items (sub o 0) ss).*1 /\ values_match ss /\ edges_match ss)
  end.
Proof. exact (make_joined_spec o ss). Qed.

(** It succeeds for all dictionary orders exactly when any two samples share a node, and for some order
    exactly when the union of the samples is connected (plus, each time, no conflicts). *)
Theorem C24_all_orders (ss : samples) :
  (forall g, contains ss g -> wf_graph (ss_cp ss) g) ->
  (forall o, is_ok (make_joined_sample o ss) = true) <->
  ss_map ss <> ∅ /\ pairwise_meet ss /\ values_match ss /\ edges_match ss.
Proof. exact (all_orders_lemma ss). Qed.

Theorem C24_some_order (ss : samples) :
  (forall g, contains ss g -> wf_graph (ss_cp ss) g) ->
  (exists o, is_ok (make_joined_sample o ss) = true) <->
  ss_map ss <> ∅ /\ (forall g, contains ss g -> g_nodes g <> ∅) /\ values_match ss /\ edges_match ss /\
  exists G, union_graph ss G /\ connected G.
Proof. exact (some_order_lemma ss). Qed.

(** ** C25: exact grouping when merged keys cannot collide and single-node variables are not split. *)
Theorem C25_group_intersecting (o : oracle) (ss : samples) :
  (forall g, contains ss g -> wf_graph (ss_cp ss) g) -> no_collision ss ->
  (forall g v, contains ss g -> g_edges g = ∅ -> has_var (g_nodes g) v -> var_iter v = Some [v]) ->
  match group_intersecting o ss with
  | Ok m =>
      (forall vs grp, m !! vs = Some grp -> ss_cp grp = ss_cp ss /\
         exists g, contains ss g /\ class_of ss g (ss_map grp) /\ (forall v, v ∈ vs <-> class_vars ss g v)) /\
      (forall g, contains ss g -> exists vs grp, m !! vs = Some grp /\ contains grp g)
  | Err x => x = AssertionError /\ exists g g', contains ss g /\ contains ss g' /\ ~ chain ss g g' /\
      forall v, class_vars ss g v <-> class_vars ss g' v
  end.
Proof. exact (group_spec o ss). Qed.

(** A variable that cannot be iterated makes the call raise TypeError. *)
Theorem C25_not_iterable (o : oracle) (cp : provider) (v : Var) (x : Val) (c : Z) :
  var_iter v = None -> group_intersecting o (Samples cp {[Graph {[(v, x)]} ∅ := c]}) = Err TypeError.
Proof. exact (group_not_iterable o cp v x c). Qed.

(** The merging loop always ends. *)
Theorem C25_terminates (o : oracle) (ss : samples) : group_intersecting o ss <> Err OutOfFuel.
Proof. exact (group_terminates o ss). Qed.

End theorems.

(** ** Refutations *)

(** C23: a conflict on a variable that one sample lacks is not noticed; joining then fails in any order. *)
Theorem C23_not_sufficient_refuted :
  exists ss : samples, (forall g, contains ss g -> wf_graph (ss_cp ss) g) /\
    can_join_samples o0 ss = Ok true /\ forall o, make_joined_sample o ss = Err AssertionError.
Proof.
  set (ss := set_of [(g_ab, 1%Z); (graph_of [ed "a" "2" "c" "1" "r"], 1%Z); (g_bc, 1%Z)]).
  assert (forall g, contains ss g -> wf_graph (ss_cp ss) g) as Hwf by (apply set_wfb_spec; vm_compute; reflexivity).
  exists ss. split_and!; [exact Hwf|by_vm|].
  intros o. pose proof (make_joined_spec o ss Hwf) as Hs.
  destruct (make_joined_sample o ss) as [[s cs]|x]; [|by destruct Hs as [-> _]]. exfalso.
  destruct Hs as (_ & _ & _ & _ & Hv & _). apply (is_all_values_match_spec o0) in Hv.
  vm_compute in Hv. discriminate Hv.
Qed.

(** C24: success depends on the dictionary order (a-b, b-c, c-d). *)
Theorem C24_order_dependent_refuted :
  exists (ss : samples) (o o' : oracle), (forall g, contains ss g -> wf_graph (ss_cp ss) g) /\
    is_ok (make_joined_sample o ss) = true /\ make_joined_sample o' ss = Err AssertionError.
Proof.
  exists (set_of [(g_ab, 1%Z); (g_bc, 2%Z); (g_cd, 3%Z)]), o1, o0. split_and!.
  - apply set_wfb_spec. vm_compute. reflexivity.
  - by_vm.
  - by_vm.
Qed.

(** C25: a merged key overwrites the group of a larger sample, which disappears from the result. *)
Theorem C25_sample_lost_refuted :
  exists (ss : samples) (o : oracle) (g : graph) (m : gmap (gset Var) samples),
    (forall g, contains ss g -> wf_graph (ss_cp ss) g) /\ contains ss g /\ group_intersecting o ss = Ok m /\
    forall vs grp, m !! vs = Some grp -> ~ contains grp g.
Proof.
  set (ss := set_of [(graph_of [ab; bc], 1%Z); (graph_of [bc; cd], 2%Z); (graph_of [ab; bc; cd], 3%Z)]).
  set (o := (fun _ => [0;1]%nat) : oracle).
  exists ss, o, (graph_of [ab; bc; cd]), {[ {["a"; "b"; "c"; "d"]} :=
    set_of [(graph_of [ab; bc], 1%Z); (graph_of [bc; cd], 2%Z)] ]}. split_and!.
  - apply set_wfb_spec. vm_compute. reflexivity.
  - exists 3%Z. by_vm.
  - by_vm.
  - intros vs grp. rewrite lookup_singleton_Some. intros [_ <-] Hc.
    apply (bool_decide_eq_true_2 _) in Hc. vm_compute in Hc. discriminate Hc.
Qed.

(** C25: the name of a single-node variable is split into characters; two such names may then collide. *)
Definition cp_long : provider := Provider 7 (list_to_map [("ab", vals12); ("ba", vals12)]) {["r"]}.

Theorem C25_name_split_refuted :
  exists (ss : samples) (m : gmap (gset Var) samples),
    (forall g, contains ss g -> wf_graph (ss_cp ss) g) /\ contains ss (single "ab" "1") /\
    group_intersecting o0 ss = Ok m /\ m !! {["a"; "b"]} = Some ss /\ m !! {["ab"]} = None.
Proof.
  set (ss := Samples cp_long {[single "ab" "1" := 1%Z]}).
  exists ss, {[ {["a"; "b"]} := ss ]}. split_and!.
  - apply set_wfb_spec. vm_compute. reflexivity.
  - exists 1%Z. by_vm.
  - by_vm.
  - by_vm.
  - by_vm.
Qed.

Theorem C25_names_collide_refuted :
  exists ss : samples, (forall g, contains ss g -> wf_graph (ss_cp ss) g) /\
    group_intersecting o0 ss = Err AssertionError.
Proof.
  exists (Samples cp_long {[single "ab" "1" := 1%Z; single "ba" "1" := 1%Z]}). split.
  - apply set_wfb_spec. vm_compute. reflexivity.
  - by_vm.
Qed.

(** C25: two groups over the same variables (paths a-b-c-d and b-d-a-c) make the call raise. *)
Theorem C25_same_variables_refuted :
  exists ss : samples, (forall g, contains ss g -> wf_graph (ss_cp ss) g) /\ no_collision ss /\
    forall o, group_intersecting o ss = Err AssertionError.
Proof.
  set (g2 := graph_of [ed "b" "1" "d" "1" "r"; ed "d" "1" "a" "1" "r"; ed "a" "1" "c" "1" "r"]).
  set (ss := set_of [(g_path, 1%Z); (g2, 2%Z)]).
  assert (forall g, contains ss g -> wf_graph (ss_cp ss) g) as Hwf by (apply set_wfb_spec; vm_compute; reflexivity).
  assert (no_collision ss) as Hnc by (apply privateb_spec; vm_compute; reflexivity).
  exists ss. split_and!; [exact Hwf|exact Hnc|].
  assert (contains ss g_path) as H1 by (exists 1%Z; by_vm).
  assert (contains ss g2) as H2 by (exists 2%Z; by_vm).
  assert (forall g v, contains ss g -> g_edges g = ∅ -> has_var (g_nodes g) v -> var_iter v = Some [v]) as Hit
    by (apply iter_selfb_spec; vm_compute; reflexivity).
  intros o. pose proof (group_spec o ss Hwf Hnc Hit) as Hs.
  destruct (group_intersecting o ss) as [m|x]; [|by destruct Hs as [-> _]]. exfalso.
  destruct Hs as [Hs1 Hs2].
  assert (forall g h, contains ss g -> chain ss g h -> g = h) as Hch.
  { intros g h _ Hc. induction Hc as [|x y z (Hx & Hy & Ho) _ IH]; [done|].
    assert (x = y) as ->; [|done].
    assert (map_Forall (fun x _ => map_Forall (fun y _ => group_key x ∩ group_key y <> ∅ -> x = y) (ss_map ss)) (ss_map ss)) as Hall
      by (by_vm).
    destruct Hx as [c Hx], Hy as [d Hy]. apply (Hall x c Hx y d Hy). by apply overlap_key. }
  assert (forall g, contains ss g -> forall v, has_var (g_nodes g) v <-> v ∈ included_variables g) as Hvs
    by (intros g _ v; symmetry; apply included_variables_spec).
  destruct (Hs2 _ H1) as (vs1 & grp1 & Hm1 & Hc1). destruct (Hs2 _ H2) as (vs2 & grp2 & Hm2 & Hc2).
  destruct (Hs1 _ _ Hm1) as (_ & a & Ha & Hca & Hva). destruct (Hs1 _ _ Hm2) as (_ & b & Hb & Hcb & Hvb).
  destruct Hc1 as [c1 Hc1], Hc2 as [c2 Hc2]. apply Hca in Hc1 as [_ Hc1]. apply Hcb in Hc2 as [_ Hc2].
  apply (Hch _ _ Ha) in Hc1. apply (Hch _ _ Hb) in Hc2. subst a b.
  assert (vs1 = vs2) as <-.
  { apply set_eq. intros v. rewrite Hva, Hvb. unfold class_vars. split.
    - intros (h & Hh & Hc & Hv). apply (Hch _ _ H1) in Hc. subst h. exists g2. split_and!; [done|constructor|].
      apply included_variables_spec in Hv. apply included_variables_spec.
      assert (included_variables g_path = included_variables g2) as <- by (by_vm). done.
    - intros (h & Hh & Hc & Hv). apply (Hch _ _ H2) in Hc. subst h. exists g_path. split_and!; [done|constructor|].
      apply included_variables_spec in Hv. apply included_variables_spec.
      assert (included_variables g_path = included_variables g2) as -> by (by_vm). done. }
  rewrite Hm1 in Hm2. injection Hm2 as <-.
  assert (ss_map grp1 !! g2 = Some 2%Z) as Hx by (apply Hcb; split; [by_vm|constructor]).
  apply Hca in Hx as [_ Hx]. apply (Hch _ _ H1) in Hx.
  apply (bool_decide_eq_true_2 _) in Hx. vm_compute in Hx. discriminate Hx.
Qed.

(** ** Non-vacuity *)

Definition ss3 : samples := set_of [(g_ab, 1%Z); (g_bc, 2%Z); (g_path, 3%Z)].

Example C18_run : bool_decide ((run_set_ops (ssb_new cpx)
    [SAdd (smp g_ab) 2; SAdd (smp g_ab) 3; SAdd (Sample 9 g_bc) 1; SRemove (smp g_bc); SAddAll o1 ss3;
     SRemoveAll o0 (set_of [(g_bc, 1%Z)]); SRemove (smp g_path)]).2 =
  [Ok None; Ok None; Err AssertionError; Err AssertionError; Ok None; Ok None; Ok (Some (g_path, 3%Z))]) = true.
Proof. by_vm. Qed.
Example C18_run_counts : let b := (run_set_ops (ssb_new cpx)
    [SAdd (smp g_ab) 2; SAdd (smp g_ab) 3; SAddAll o1 ss3; SRemove (smp g_bc)]).1 in
  count_of b g_ab = Ok 6%Z /\ count_of b g_bc = Err AssertionError /\ ss_length b = 9%Z.
Proof. by_vm. Qed.
(** A failing [remove_all] has removed some samples already. *)
Example C18_remove_all_partial : let b := (run_set_op ss3 (SRemoveAll o0 (set_of [(g_ab, 1%Z); (g_cd, 1%Z)]))) in
  let b' := (run_set_op ss3 (SRemoveAll o1 (set_of [(g_ab, 1%Z); (g_cd, 1%Z)]))) in
  b.2 = Err AssertionError /\ b'.2 = Err AssertionError /\
  size (ss_map b.1) <> size (ss_map b'.1).
Proof. by_vm. Qed.

Example C19_example :
  (match ss_union o1 ss3 (set_of [(g_ab, 4%Z); (g_cd, 1%Z)]) with
   | Ok c => Some (times_in c g_ab, ss_length c) | Err _ => None end) = Some (5, 11)%Z /\
  ss_union o0 ss3 (Samples other_cp ∅) = Err AssertionError.
Proof. by_vm. Qed.
Example C19_join_example : is_ok (join_sample_set o1 [ss3; set_of [(g_cd, 1%Z)]; ss3]) = true /\
  join_sample_set o1 (@nil samples) = Err AssertionError /\
  join_sample_set o1 [ss3; ss3; Samples other_cp ∅] = Err AssertionError.
Proof. by_vm. Qed.

Example C20_example : ss_length (filter_samples (fun g => have_variable g ("a" : @Var StrU)) ss3) = 4%Z.
Proof. by_vm. Qed.

Example C21_example : pos_counts ss3 /\ ss_map ss3 <> ∅ /\ probability_of ss3 g_path = Ok (qdiv 1 2) /\
  probabilities (ssb_new cpx) = Err AssertionError.
Proof.
  split; [apply set_posb_spec; vm_compute; reflexivity|by_vm].
Qed.
Example C21_zero : probabilities (set_of [(g_ab, 1%Z); (g_bc, (-1)%Z)]) = Err ZeroDivisionError.
Proof. by_vm. Qed.

Example C22_example : is_all_values_match o1 ss3 = true /\
  is_all_values_match o1 (set_of [(g_ab, 1%Z); (single "a" "2", 1%Z)]) = false /\
  is_all_values_match o1 (ssb_new cpx) = true.
Proof. by_vm. Qed.

Example C23_example : (forall g, contains ss3 g -> single_valued (g_nodes g)) /\
  can_join_samples o1 ss3 = Ok true /\
  can_join_samples o1 (set_of [(g_ab, 1%Z); (single "a" "2", 1%Z)]) = Ok false /\
  can_join_samples o1 (ssb_new cpx) = Err TypeError.
Proof. split; [apply set_singleb_spec; vm_compute; reflexivity|by_vm]. Qed.

Example C24_example : (forall g, contains ss3 g -> wf_graph (ss_cp ss3) g) /\
  is_ok (make_joined_sample o1 ss3) = true.
Proof. split; [apply set_wfb_spec; vm_compute; reflexivity|vm_compute; reflexivity]. Qed.
Example C24_meet : pairwise_meet ss3.
Proof.
  assert (map_Forall (fun g _ => map_Forall (fun h _ => g_nodes g ∩ g_nodes h <> ∅) (ss_map ss3)) (ss_map ss3)) as H
    by (by_vm).
  intros g h [c Hc] [d Hd]. pose proof (H g c Hc h d Hd) as Hne. apply set_choose_L in Hne as [n Hn].
  exists n. set_solver +Hn.
Qed.

Definition ss4 : samples :=
  set_of [(graph_of [ab; bc], 1%Z); (graph_of [bc; cd], 2%Z); (single "a" "2", 3%Z); (single "a" "1", 1%Z)].
Example C25_hyps : (forall g, contains ss4 g -> wf_graph (ss_cp ss4) g) /\ no_collision ss4 /\
  (forall g v, contains ss4 g -> g_edges g = ∅ -> has_var (g_nodes g) v -> var_iter v = Some [v]).
Proof.
  split_and!; [apply set_wfb_spec|apply privateb_spec|apply iter_selfb_spec]; vm_compute; reflexivity.
Qed.
Example C25_result : bool_decide (group_intersecting o1 ss4 = Ok {[
    {["a"; "b"; "c"; "d"]} := set_of [(graph_of [ab; bc], 1%Z); (graph_of [bc; cd], 2%Z)];
    {["a"]} := set_of [(single "a" "2", 3%Z); (single "a" "1", 1%Z)] ]}) = true.
Proof. by_vm. Qed.

(** ** Trusted base *)
Print Assumptions C18_builder_history.
Print Assumptions C18_since_last_removal.
Print Assumptions C18_items_and_length.
Print Assumptions C19_union.
Print Assumptions C19_union_order_independent.
Print Assumptions C19_union_commutative.
Print Assumptions C19_union_associative.
Print Assumptions C19_union_unit.
Print Assumptions C19_join_sample_set.
Print Assumptions C19_join_sample_set_any_order.
Print Assumptions C20_filter.
Print Assumptions C20_filter_splits.
Print Assumptions C20_filters_compose.
Print Assumptions C21_probabilities.
Print Assumptions C21_distribution.
Print Assumptions C21_probability_of.
Print Assumptions C22_is_all_values_match.
Print Assumptions C23_can_join_samples.
Print Assumptions C23_necessary.
Print Assumptions C23_values_match.
Print Assumptions C24_make_joined_sample.
Print Assumptions C24_all_orders.
Print Assumptions C24_some_order.
Print Assumptions C25_group_intersecting.
Print Assumptions C25_not_iterable.
Print Assumptions C25_terminates.
Print Assumptions C23_not_sufficient_refuted.
Print Assumptions C24_order_dependent_refuted.
Print Assumptions C25_sample_lost_refuted.
Print Assumptions C25_name_split_refuted.
Print Assumptions C25_names_collide_refuted.
Print Assumptions C25_same_variables_refuted.
