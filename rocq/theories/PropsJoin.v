(** * PropsJoin: properties of joining outcomes (C38, C39, C40, C44)

    Vocabulary: SpecJoin.v. *)

From Verif Require Import ExamplesSets CondJoinFacts.

Section theorems.
Context {U : Universe}.

(** ** C38: joining on one variable; the outcomes with it are replaced by the consistent selections of one
    outcome from each linked group.  It can only raise when two groups are over the same variables. *)
Theorem C38_joined_on_one_variable (o : oracle) (sp : space) (v : Var) :
  ss_cp (sp_out sp) = sp_cp sp -> all_wf (sp_cp sp) (sp_out sp) -> all_simple (sp_out sp) -> no_collision_on (sp_out sp) v ->
  self_named (sp_out sp) ->
  match joined_on_variables o sp (Some {[v]}) with
  | Ok r => sp_cp r = sp_cp sp /\ ss_cp (sp_out r) = sp_cp sp /\ forall G c, count_of (sp_out r) G = Ok c <->
      (count_of (sp_out sp) G = Ok c /\ lacking v G) \/
      ((exists h, contains (sp_out sp) h /\ having v h) /\ joint (linked_on (sp_out sp) v) (having v) (sp_out sp) G c)
  | Err x => x = AssertionError /\ exists g g', contains (sp_out sp) g /\ contains (sp_out sp) g' /\ having v g /\ having v g' /\
      ~ linked_on (sp_out sp) v g g' /\ forall w, linked_vars (sp_out sp) v g w <-> linked_vars (sp_out sp) v g' w
  end.
Proof. exact (C38_one_lemma o sp v). Qed.

(** Joining on several variables, for factorized spaces with some consistent choice. *)
Theorem C38_joined_on_variables (o : oracle) (sp : space) (variables : option (gset Var)) (V : gset Var) :
  ss_cp (sp_out sp) = sp_cp sp -> all_wf (sp_cp sp) (sp_out sp) -> one_valued (sp_out sp) -> all_simple (sp_out sp) ->
  factorable (sp_out sp) -> self_named (sp_out sp) -> compatible_choice (sp_out sp) ->
  match variables with Some X => V = X | None => forall v, v ∈ V <-> occurs_var (sp_out sp) v end ->
  match joined_on_variables o sp variables with
  | Ok sp' => sp_cp sp' = sp_cp sp /\ ss_cp (sp_out sp') = sp_cp sp /\
      forall G c, count_of (sp_out sp') G = Ok c <->
        exists h, contains (sp_out sp) h /\ joint same_pairs (cluster (sp_out sp) V h) (sp_out sp) G c
  | Err x => x = AssertionError /\ twin_parts (sp_out sp)
  end.
Proof. exact (C38_lemma o sp variables V). Qed.

(** ** C39: joining all factors. *)
Theorem C39_make_joined (o : oracle) (sp : space) : joinable sp ->
  match make_joined o sp with
  | Ok sp' => sp_cp sp' = sp_cp sp /\ ss_cp (sp_out sp') = sp_cp sp /\ ~ disconnected (sp_out sp) /\
      forall G c, count_of (sp_out sp') G = Ok c <->
        (exists h, contains (sp_out sp) h) /\ joint same_pairs anything (sp_out sp) G c
  | Err x => x = AssertionError /\ (disconnected (sp_out sp) \/ cyclic (sp_out sp) /\ crowded (sp_out sp))
  end.
Proof. exact (joined_spec o sp). Qed.

Theorem C39_complete_outcomes (o o' : oracle) (sp r : space) : joinable sp -> make_joined o sp = Ok r ->
  is_joined o' r = true /\
  forall G, contains (sp_out r) G -> single_valued (g_nodes G) /\ forall v, having v G <-> occurs_var (sp_out sp) v.
Proof.
  exact (fun Hj Hr => conj (joined_is_joined o o' sp r Hj Hr) (fun G => joined_covers o sp r G Hj Hr)).
Qed.

(** ** C40: the result does not depend on the order, and a connected space without cycles can be joined in
    every order; with a cycle it depends on the order whether the call raises. *)
Theorem C40_result_order_independent (o o' : oracle) (sp r r' : space) :
  joinable sp -> make_joined o sp = Ok r -> make_joined o' sp = Ok r' -> r = r'.
Proof. exact (joined_order o o' sp r r'). Qed.

Theorem C40_acyclic_succeeds (o : oracle) (sp : space) :
  joinable sp -> ~ disconnected (sp_out sp) -> ~ cyclic (sp_out sp) -> is_ok (make_joined o sp) = true.
Proof. exact (joined_total o sp). Qed.

(** ** C46: a connected space in which no variable occurs in three kinds (a chain, a ring) can be joined in every
    order, whatever its cycles. *)
Theorem C46_two_kinds_succeeds (o : oracle) (sp : space) :
  joinable sp -> ~ disconnected (sp_out sp) -> ~ crowded (sp_out sp) -> is_ok (make_joined o sp) = true.
Proof. exact (joined_total_two o sp). Qed.

Theorem C39_is_joined (o : oracle) (sp : space) : is_joined o sp = true <->
  forall g h, contains (sp_out sp) g -> contains (sp_out sp) h -> forall v, having v g <-> having v h.
Proof. exact (is_joined_spec o sp). Qed.

(** ** C44: conditioning on one value and joining commute. *)
Theorem C44_condition_then_join (o o' : oracle) (sp : space) (ev : sample) (cg : cgraph) (v : Var) (x : Val) (r r' : space) :
  joinable sp -> conditional_graph sp ev = Ok cg ->
  g_nodes (s_g ev) = {[(v, x)]} -> g_edges (s_g ev) = ∅ -> occurs (sp_out sp) (v, x) ->
  make_joined o sp = Ok r -> make_joined o' (sp_relation_graph (cg_space cg)) = Ok r' ->
  sp_cp r' = sp_cp r /\ forall G c, count_of (sp_out r') G = Ok c <-> count_of (sp_out r) G = Ok c /\ has v x G.
Proof. exact (C44_lemma o o' sp ev cg v x r r'). Qed.

Theorem C44_commute (o o' : oracle) (sp : space) (ev : sample) (cg cg2 : cgraph) (v : Var) (x : Val) (r r' : space) :
  joinable sp -> conditional_graph sp ev = Ok cg ->
  g_nodes (s_g ev) = {[(v, x)]} -> g_edges (s_g ev) = ∅ -> occurs (sp_out sp) (v, x) ->
  make_joined o sp = Ok r -> make_joined o' (sp_relation_graph (cg_space cg)) = Ok r' -> conditional_graph r ev = Ok cg2 ->
  sp_relation_graph (cg_space cg2) = r'.
Proof. exact (CondJoinFacts.C44_commute o o' sp ev cg cg2 v x r r'). Qed.

(** Conditioning keeps what joining needs, so it cannot make joining fail on a space without cycles. *)
Theorem C44_conditioned_joinable (sp : space) (ev : sample) (cg : cgraph) (v : Var) (x : Val) :
  joinable sp -> conditional_graph sp ev = Ok cg ->
  g_nodes (s_g ev) = {[(v, x)]} -> g_edges (s_g ev) = ∅ -> occurs (sp_out sp) (v, x) ->
  joinable (sp_relation_graph (cg_space cg)) /\
  (disconnected (sp_out (cg_space cg)) -> disconnected (sp_out sp)) /\ (cyclic (sp_out (cg_space cg)) -> cyclic (sp_out sp)) /\
  (crowded (sp_out (cg_space cg)) -> crowded (sp_out sp)).
Proof. exact (conditioned_joinable sp ev cg v x). Qed.

End theorems.

(** ** Checkers for the hypotheses *)

Definition all_simpleb {U : Universe} (ss : samples) : bool := bool_decide (map_Forall (fun g _ => simpleb (g_edges g) = true) (ss_map ss)).
Lemma all_simpleb_spec {U : Universe} (ss : samples) : all_simpleb ss = true -> all_simple ss.
Proof. intros H%bool_decide_eq_true g [c Hc]. apply simpleb_spec, (H g c Hc). Qed.

Definition factorableb {U : Universe} (ss : samples) : bool :=
  bool_decide (map_Forall (fun g _ => g_nodes g <> ∅ /\
    map_Forall (fun h _ => group_key g ∩ group_key h <> ∅ -> group_key g = group_key h) (ss_map ss)) (ss_map ss)).
Lemma factorableb_spec {U : Universe} (ss : samples) : factorableb ss = true -> factorable ss.
Proof.
  intros H%bool_decide_eq_true. split.
  - intros g [c Hc]. by apply (H g c Hc).
  - intros g h [c Hc] [d Hd] Ho%overlap_key. apply same_pairs_key. by apply (proj2 (H g c Hc) h d Hd).
Qed.

Fixpoint combos {U : Universe} (f : Var -> list Val) (vs : list Var) : list (list node) :=
  match vs with
  | [] => [[]]
  | v :: vs => x ← f v; cons (v, x) <$> combos f vs
  end.

Lemma combos_elem {U : Universe} f (a : Var -> Val) vs : (forall v, v ∈ vs -> a v ∈ f v) -> (fun v => (v, a v)) <$> vs ∈ combos f vs.
Proof.
  induction vs as [|v vs IH]; intros Ha; [by apply elem_of_list_singleton|]. cbn [combos fmap list_fmap].
  apply elem_of_list_bind. exists (a v). split; [|apply Ha; left]. apply elem_of_list_fmap. eexists. split; [done|].
  apply IH. intros w Hw. apply Ha. by right.
Qed.

Definition values_of {U : Universe} (ss : samples) (v : Var) : list Val :=
  omap (fun n : node => if bool_decide (n.1 = v) then Some n.2 else None) (concat ((fun g => elements (g_nodes g)) <$> (map_to_list (ss_map ss)).*1)).
Lemma values_of_elem {U : Universe} (ss : samples) v x : occurs ss (v, x) -> x ∈ values_of ss v.
Proof.
  intros (g & [c Hc] & Hx). unfold values_of. apply elem_of_list_omap. exists (v, x). split.
  - apply elem_of_concat. exists (elements (g_nodes g)). split; [|by apply elem_of_elements]. apply elem_of_list_fmap. exists g. split; [done|].
    apply elem_of_list_fmap. exists (g, c). split; [done|]. by apply elem_of_map_to_list.
  - cbn [fst snd]. by rewrite bool_decide_eq_true_2.
Qed.

Definition full_supportb {U : Universe} (ss : samples) : bool :=
  forallb (fun gc => forallb (fun ns => existsb (fun hd => if forallb (fun n => bool_decide (n ∈ g_nodes hd.1)) ns
      then bool_decide (group_key gc.1 = group_key hd.1) && bool_decide (included_variables hd.1 = included_variables gc.1)
      else false) (map_to_list (ss_map ss)))
    (combos (fun v => elements (list_to_set (values_of ss v) : gset Val)) (elements (included_variables gc.1)))) (map_to_list (ss_map ss)).

Lemma full_supportb_spec {U : Universe} (ss : samples) : full_supportb ss = true -> full_support ss.
Proof.
  intros H g a [c Hc] Ha. unfold full_supportb in H. rewrite forallb_forall in H. specialize (H (g, c)). cbn [fst] in H.
  assert (In (g, c) (map_to_list (ss_map ss))) as Hin by by apply elem_of_list_In, elem_of_map_to_list. specialize (H Hin).
  rewrite forallb_forall in H. specialize (H ((fun v => (v, a v)) <$> elements (included_variables g))).
  match type of H with ?A -> _ => assert A as HA end; [|specialize (H HA)].
  { apply elem_of_list_In, combos_elem. intros v Hv. apply elem_of_elements, elem_of_list_to_set, values_of_elem, Ha.
    by apply elem_of_elements, included_variables_spec in Hv. }
  apply existsb_exists in H as ([h d] & Hh & H). apply elem_of_list_In, elem_of_map_to_list in Hh. cbn [fst] in H.
  destruct (forallb _ _) eqn:H3 in H; [|done]. apply andb_prop in H as [H1 H2]. apply bool_decide_eq_true in H1, H2.
  exists h. split_and!; [by exists d|by apply same_pairs_key|]. intros v Hv. rewrite forallb_forall in H3.
  specialize (H3 (v, a v)). apply bool_decide_eq_true in H3; [done|]. apply elem_of_list_In, elem_of_list_fmap. exists v. split; [done|].
  apply elem_of_elements. rewrite <- H2. by apply included_variables_spec.
Qed.

Definition joinableb {U : Universe} (sp : space) : bool :=
  bool_decide (ss_cp (sp_out sp) = sp_cp sp) && set_wfb (sp_out sp) && set_singleb (sp_out sp) && all_simpleb (sp_out sp) &&
  factorableb (sp_out sp) && full_supportb (sp_out sp).
Lemma joinableb_spec {U : Universe} (sp : space) : joinableb sp = true -> joinable sp.
Proof.
  unfold joinableb. rewrite !andb_true_iff. intros [[[[[H1%bool_decide_eq_true H2] H3] H4] H5] H6]. split; [done| |..].
  - intros g Hg. rewrite <- H1. by apply set_wfb_spec.
  - intros g Hg. by apply (set_singleb_spec (sp_out sp)).
  - by apply all_simpleb_spec.
  - by apply factorableb_spec.
  - by apply full_supportb_spec.
Qed.

(** Kinds that meet in one variable at most, always the same. *)
Lemma star_acyclic {U : Universe} (ss : samples) (b : Var) :
  (forall g h, contains ss g -> contains ss h -> same_pairs g h \/ forall w, having w g -> having w h -> w = b) -> ~ cyclic ss.
Proof.
  intros Hs (v & V & g & h & Hv & Hg & Hh & Hvg & Hvh & Hn & Hc).
  assert (v = b) as -> by (destruct (Hs g h Hg Hh) as [?|Hb]; [done|by apply Hb]).
  apply Hn. clear -Hs Hc Hv. unfold cluster in Hc. induction Hc as [g|g k h [[Hg Hk] Hgk] _ IH]; [done|].
  assert (same_pairs g k) as Hsp.
  { destruct Hgk as [?|(w & Hw & H1 & H2)]; [done|]. destruct (Hs g k Hg Hk) as [?|Hb]; [done|]. rewrite (Hb w H1 H2) in Hw. done. }
  intros p. rewrite (Hsp p). apply IH.
Qed.

Definition starb {U : Universe} (ss : samples) (b : Var) : bool :=
  forallb (fun p => bool_decide (b ∈ included_variables p.1) &&
    forallb (fun q => bool_decide (group_key p.1 = group_key q.1 \/ included_variables p.1 ∩ included_variables q.1 ⊆ {[b]}))
      (map_to_list (ss_map ss))) (map_to_list (ss_map ss)).

Lemma starb_elim {U : Universe} (ss : samples) (b : Var) g : starb ss b = true -> contains ss g ->
  having b g /\ forall h, contains ss h -> same_pairs g h \/ forall w, having w g -> having w h -> w = b.
Proof.
  intros Hb [c Hc]. unfold starb in Hb. rewrite forallb_forall in Hb.
  specialize (Hb (g, c)). rewrite <- elem_of_list_In, elem_of_map_to_list in Hb.
  apply andb_prop in Hb as [H1 H2]; [|done]. split.
  - apply included_variables_spec. by apply bool_decide_eq_true in H1.
  - intros h [d Hd]. rewrite forallb_forall in H2. specialize (H2 (h, d)).
    rewrite <- elem_of_list_In, elem_of_map_to_list in H2. specialize (H2 Hd). apply bool_decide_eq_true in H2.
    cbn [fst] in H2. destruct H2 as [Hk|Hk]; [left; by apply same_pairs_key|right]. intros w Hw Hw'.
    apply included_variables_spec in Hw, Hw'. specialize (Hk w). rewrite elem_of_intersection, elem_of_singleton in Hk. auto.
Qed.
Lemma starb_acyclic {U : Universe} (ss : samples) (b : Var) : starb ss b = true -> ~ cyclic ss.
Proof. intros Hb. apply (star_acyclic ss b). intros g h Hg Hh. by apply (starb_elim ss b g Hb Hg). Qed.
Lemma starb_connected {U : Universe} (ss : samples) (b : Var) : starb ss b = true -> ~ disconnected ss.
Proof.
  intros Hb (g & h & Hg & Hh & Hn). apply (Hn {[b]}). apply rtc_once. split; [done|]. right. exists b.
  split_and!; [by apply elem_of_singleton|by apply (starb_elim ss b g)|by apply (starb_elim ss b h)].
Qed.

(** No variable in three kinds. *)
Definition keyed {U : Universe} (ss : samples) :=
  remove_dups (map (fun p : graph * Z => (group_key p.1, included_variables p.1)) (map_to_list (ss_map ss))).
Definition uncrowdedb {U : Universe} (ss : samples) : bool :=
  forallb (fun p => forallb (fun q => forallb (fun r => bool_decide (p.1 = q.1 \/ p.1 = r.1 \/ q.1 = r.1 \/ p.2 ∩ q.2 ∩ r.2 = ∅))
    (keyed ss)) (keyed ss)) (keyed ss).
Lemma keyed_elem {U : Universe} (ss : samples) g : contains ss g -> (group_key g, included_variables g) ∈ keyed ss.
Proof.
  intros [c Hc]. apply elem_of_remove_dups, elem_of_list_fmap. exists (g, c). split; [done|]. by apply elem_of_map_to_list.
Qed.
Lemma uncrowdedb_spec {U : Universe} (ss : samples) : uncrowdedb ss = true -> ~ crowded ss.
Proof.
  intros H (v & g1 & g2 & g3 & [C1 H1] & [C2 H2] & [C3 H3] & N1 & N2 & N3). unfold uncrowdedb in H.
  apply keyed_elem in C1, C2, C3. rewrite elem_of_list_In in C1, C2, C3.
  rewrite forallb_forall in H. specialize (H _ C1). rewrite forallb_forall in H. specialize (H _ C2). rewrite forallb_forall in H. specialize (H _ C3).
  apply bool_decide_eq_true in H. cbn [fst snd] in H. rewrite <- !same_pairs_key in H. destruct H as [?|[?|[?|H]]]; try done.
  apply included_variables_spec in H1, H2, H3. assert (v ∈ (∅ : gset Var)) as Hv; [|by apply elem_of_empty in Hv].
  rewrite <- H. rewrite !elem_of_intersection. done.
Qed.

(** Every outcome shares a variable with one that shares a variable with the first. *)
Definition two_stepb {U : Universe} (ss : samples) (g : graph) : bool :=
  bool_decide (is_Some (ss_map ss !! g)) &&
  forallb (fun p => existsb (fun q => bool_decide (included_variables g ∩ included_variables q.1 <> ∅) &&
      bool_decide (included_variables p.1 ∩ included_variables q.1 <> ∅)) (map_to_list (ss_map ss))) (map_to_list (ss_map ss)).
Lemma two_stepb_spec {U : Universe} (ss : samples) (g : graph) : two_stepb ss g = true -> ~ disconnected ss.
Proof.
  unfold two_stepb. intros [Hg%bool_decide_eq_true H]%andb_prop (h & k & Hh & Hk & Hn). rewrite forallb_forall in H.
  assert (forall a, contains ss a -> exists V, cluster ss V a g /\ cluster ss V g a) as Hc.
  { intros a [c Ha]. specialize (H (a, c)). rewrite <- elem_of_list_In, elem_of_map_to_list in H. specialize (H Ha).
    apply existsb_exists in H as ([b d] & Hb & H). rewrite <- elem_of_list_In, elem_of_map_to_list in Hb. cbn [fst] in H.
    apply andb_prop in H as [H1%bool_decide_eq_true H2%bool_decide_eq_true].
    apply set_choose_L in H1 as [v [H1 H1']%elem_of_intersection], H2 as [w [H2 H2']%elem_of_intersection].
    rewrite included_variables_spec in H1, H1', H2, H2'. assert (contains ss b) as Cb by by eexists. assert (contains ss a) as Ca by by eexists.
    exists {[v; w]}. split.
    - eapply rtc_l with b; [|apply rtc_once]; (split; [done|right]); [exists w|exists v]; rewrite elem_of_union, !elem_of_singleton; auto.
    - eapply rtc_l with b; [|apply rtc_once]; (split; [done|right]); [exists v|exists w]; rewrite elem_of_union, !elem_of_singleton; auto. }
  destruct (Hc h Hh) as (V & H1 & _), (Hc k Hk) as (W & _ & H2). apply (Hn (V ∪ W)). transitivity g.
  - eapply cluster_mono; [|exact H1]. apply union_subseteq_l.
  - eapply cluster_mono; [|exact H2]. apply union_subseteq_r.
Qed.

Lemma ok_inv {A} (r : res A) (P : A -> bool) : match r with Ok a => P a | Err _ => false end = true -> exists a, r = Ok a /\ P a = true.
Proof. destruct r as [a|]; [|done]. eauto. Qed.
Lemma ok_inv2 {A B} (r : res A) (r' : res B) (P : A -> B -> bool) :
  match r, r' with Ok a, Ok b => P a b | _, _ => false end = true -> exists a b, r = Ok a /\ r' = Ok b /\ P a b = true.
Proof. destruct r as [a|], r' as [b|]; try done. eauto. Qed.

Definition raises {A} (r : res A) : option exn := match r with Ok _ => None | Err e => Some e end.
Lemma raises_inv {A} (r : res A) e : raises r = Some e -> r = Err e.
Proof. destruct r; [done|]. by intros [= ->]. Qed.

(** ** Examples

    The names are small numbers instead of strings here: that keeps the computations below cheap for a checker
    that does not use the virtual machine. *)

Definition TinyU : Universe := {|
  Var := positive; Val := positive; Rel := unit;
  var_iter := fun v => Some [v]; val_u := 3%positive; val_unobserved := 4%positive |}.
#[local] Existing Instance TinyU.

Definition va : Var := 1%positive.
Definition vb : Var := 2%positive.
Definition vc : Var := 3%positive.
Definition vd : Var := 4%positive.
Definition x1 : Val := 1%positive.
Definition x2 : Val := 2%positive.

Definition tnd (v : Var) (x : Val) : node := (v, x).
Definition ted (v : Var) (x : Val) (w : Var) (y : Val) : edge := ({[tnd v x; tnd w y]}, Plain (tt : @Rel TinyU)).
Definition tcp : provider :=
  Provider 7 (list_to_map ((fun v => (v, {[x1; x2]})) <$> [va; vb; vc; vd])) {[tt : @Rel TinyU]}.
Definition tset (l : list (graph * Z)) : samples := Samples tcp (list_to_map l).
Definition tsingle (v : Var) (x : Val) : graph := Graph {[tnd v x]} ∅.
Definition tsmp (g : graph) : sample := Sample 7 g.
Definition t_ab : graph := graph_of [ted va x1 vb x1].

Definition pair_factor (v w : Var) (n : Z) : list (graph * Z) :=
  [(graph_of [ted v x1 w x1], n); (graph_of [ted v x1 w x2], n + 1)%Z;
   (graph_of [ted v x2 w x1], n + 2)%Z; (graph_of [ted v x2 w x2], n + 3)%Z].

Definition sp_chain : space := Space tcp (tset (pair_factor va vb 1 ++ pair_factor vb vc 10)).
Definition sp_tri : space := Space tcp (tset
  [(graph_of [ted va x1 vb x1], 1%Z); (graph_of [ted va x2 vb x1], 2%Z); (graph_of [ted vb x1 vc x1], 3%Z);
   (graph_of [ted vc x1 va x1], 4%Z); (graph_of [ted vc x1 va x2], 5%Z); (graph_of [ted vb x1 vd x1], 6%Z)]).

Definition oc (l : list nat) : oracle := fun _ => l.

Example sp_chain_joinable : joinable sp_chain.
Proof. apply joinableb_spec. vm_compute. reflexivity. Qed.
Example sp_tri_joinable : joinable sp_tri.
Proof. apply joinableb_spec. vm_compute. reflexivity. Qed.

Example sp_chain_named : self_named (sp_out sp_chain).
Proof. intros g v. apply iter_selfb_spec. vm_compute. reflexivity. Qed.
Example sp_chain_choice : compatible_choice (sp_out sp_chain).
Proof. apply joinable_choice, sp_chain_joinable. Qed.
Example sp_chain_no_collision : no_collision_on (sp_out sp_chain) vb.
Proof. apply (single_no_collision tcp); [apply (jn_wf _ sp_chain_joinable)|apply (jn_factorable _ sp_chain_joinable)]. Qed.
Example sp_chain_acyclic : ~ cyclic (sp_out sp_chain).
Proof. apply (starb_acyclic _ vb). vm_compute. reflexivity. Qed.
Example sp_chain_connected : ~ disconnected (sp_out sp_chain).
Proof. apply (starb_connected _ vb). vm_compute. reflexivity. Qed.

(** a1-b2 (count 2) and b2-c1 (count 12) give a1-b2-c1 with count 24. *)
Definition g_abc : graph := graph_of [ted va x1 vb x2; ted vb x2 vc x1].
Example C38_example :
  match joined_on_variables o1 sp_chain (Some {[vb]}), joined_on_variables o0 sp_chain None with
  | Ok r, Ok r' => bool_decide (count_of (sp_out r) g_abc = Ok 24%Z) && bool_decide (sp_out r = sp_out r') && bool_decide (size (ss_map (sp_out r)) = 8)
  | _, _ => false end = true.
Proof. vm_compute. reflexivity. Qed.
Example C39_example :
  match make_joined o1 sp_chain with
  | Ok r => bool_decide (count_of (sp_out r) g_abc = Ok 24%Z) && bool_decide (size (ss_map (sp_out r)) = 8)
  | _ => false end = true.
Proof. vm_compute. reflexivity. Qed.

(** A ring a-b-c-d, as in the Markov network of experiments/comparing_with_markov_network.py: cyclic, yet joined in
    every order; c has one value only to keep the space small. *)
Definition sp_ring : space :=
  Space tcp (tset (pair_factor va vb 1 ++ [(graph_of [ted vb x1 vc x1], 10%Z); (graph_of [ted vb x2 vc x1], 12%Z)] ++
    [(graph_of [ted vc x1 vd x1], 20%Z); (graph_of [ted vc x1 vd x2], 21%Z)] ++ pair_factor vd va 30)).
Example sp_ring_joinable : joinable sp_ring.
Proof. apply joinableb_spec. vm_compute. reflexivity. Qed.
Example sp_ring_connected : ~ disconnected (sp_out sp_ring).
Proof. apply (two_stepb_spec _ t_ab). vm_compute. reflexivity. Qed.
Example sp_ring_uncrowded : ~ crowded (sp_out sp_ring).
Proof. apply uncrowdedb_spec. vm_compute. reflexivity. Qed.
Example sp_ring_cyclic : cyclic (sp_out sp_ring).
Proof.
  pose (gbc := graph_of [ted vb x1 vc x1]). pose (gcd := graph_of [ted vc x1 vd x1]). pose (gda := graph_of [ted vd x1 va x1]).
  pose (gab := graph_of [ted va x1 vb x1]).
  assert (forall g, g ∈ [gab; gbc; gcd; gda] -> contains (sp_out sp_ring) g) as Hc.
  { intros g Hg. repeat (apply elem_of_cons in Hg as [->|Hg]; [by_vm|]). by apply elem_of_nil in Hg. }
  assert (forall v g, bool_decide (v ∈ included_variables g) = true -> having v g) as Hh.
  { intros v g H%bool_decide_eq_true. by apply included_variables_spec. }
  exists va, {[vb; vc; vd]}, gab, gda. split_and!.
  - apply (bool_decide_eq_false_1 _). vm_compute. reflexivity.
  - apply Hc. rewrite !elem_of_cons. auto.
  - apply Hc. rewrite !elem_of_cons. auto.
  - apply Hh. vm_compute. reflexivity.
  - apply Hh. vm_compute. reflexivity.
  - rewrite same_pairs_key. apply (bool_decide_eq_false_1 _). vm_compute. reflexivity.
  - eapply rtc_l with gbc; [|eapply rtc_l with gcd; [|apply rtc_once]]; (split; [split; apply Hc; rewrite !elem_of_cons; tauto|right]).
    + exists vb. split_and!; [by_vm|apply Hh; vm_compute; reflexivity..].
    + exists vc. split_and!; [by_vm|apply Hh; vm_compute; reflexivity..].
    + exists vd. split_and!; [by_vm|apply Hh; vm_compute; reflexivity..].
Qed.
(** a1-b2 (2), b2-c1 (12), c1-d1 (20), d1-a1 (30). *)
Example C46_example :
  match make_joined o1 sp_ring with
  | Ok r => bool_decide (count_of (sp_out r) (graph_of [ted va x1 vb x2; ted vb x2 vc x1; ted vc x1 vd x1; ted vd x1 va x1]) = Ok 14400%Z) &&
      bool_decide (size (ss_map (sp_out r)) = 8)
  | _ => false end = true.
Proof. vm_compute. reflexivity. Qed.

(** ** Refutations *)

(** Without a consistent choice the result of [joined_on_variables] depends on the order of the variables:
    joining ab and bc on b leaves nothing of them, and then cd has no partner; starting with c nothing is left. *)
Definition g_a1b1 : graph := graph_of [ted va x1 vb x1].
Definition sp_clash : space := Space tcp (tset [(g_a1b1, 1%Z); (graph_of [ted vb x2 vc x1], 1%Z); (graph_of [ted vc x1 vd x1], 1%Z)]).
Theorem C38_order_refuted : exists (o o' : oracle) (sp : space) (X : gset Var) (r r' : space),
  ss_cp (sp_out sp) = sp_cp sp /\ all_wf (sp_cp sp) (sp_out sp) /\ one_valued (sp_out sp) /\ all_simple (sp_out sp) /\ factorable (sp_out sp) /\
  self_named (sp_out sp) /\ joined_on_variables o sp (Some X) = Ok r /\ joined_on_variables o' sp (Some X) = Ok r' /\
  ss_map (sp_out r) <> ss_map (sp_out r').
Proof.
  exists (oc []), (oc [1]), sp_clash, {[vb; vc]}.
  destruct (ok_inv2 (joined_on_variables (oc []) sp_clash (Some {[vb; vc]}))
    (joined_on_variables (oc [1]) sp_clash (Some {[vb; vc]}))
    (fun r r' => negb (bool_decide (ss_map (sp_out r) = ss_map (sp_out r'))))) as (r & r' & Hr & Hr' & Hd); [vm_compute; reflexivity|].
  exists r, r'. split_and!.
  - done.
  - intros g Hg. apply (set_wfb_spec (sp_out sp_clash)); [vm_compute; reflexivity|done].
  - refine (set_singleb_spec _ _). vm_compute; reflexivity.
  - apply all_simpleb_spec. vm_compute; reflexivity.
  - apply factorableb_spec. vm_compute; reflexivity.
  - intros g v. apply iter_selfb_spec. vm_compute. reflexivity.
  - done.
  - done.
  - by apply negb_true_iff, bool_decide_eq_false in Hd.
Qed.

(** Without full support a missing value counts as neutral: no outcome over b, c has b=1, yet a1-b1 survives. *)
Definition sp_miss : space := Space tcp (tset [(g_a1b1, 3%Z); (graph_of [ted vb x2 vc x1], 5%Z)]).
Theorem C39_missing_value_refuted : exists (o : oracle) (sp r : space) (G : graph) (c : Z),
  ss_cp (sp_out sp) = sp_cp sp /\ all_wf (sp_cp sp) (sp_out sp) /\ one_valued (sp_out sp) /\ all_simple (sp_out sp) /\ factorable (sp_out sp) /\
  make_joined o sp = Ok r /\ count_of (sp_out r) G = Ok c /\ ~ joint same_pairs anything (sp_out sp) G c /\ is_joined o r = false.
Proof.
  exists (oc [1; 1]), sp_miss.
  destruct (ok_inv (make_joined (oc [1; 1]) sp_miss) (fun r => bool_decide (count_of (sp_out r) g_a1b1 = Ok 3%Z) && negb (is_joined (oc [1; 1]) r)))
    as (r & Hr & Hd); [vm_compute; reflexivity|]. apply andb_prop in Hd as [Hc%bool_decide_eq_true Hj%negb_true_iff].
  exists r, g_a1b1, 3%Z. split_and!.
  - done.
  - intros g Hg. apply (set_wfb_spec (sp_out sp_miss)); [vm_compute; reflexivity|done].
  - refine (set_singleb_spec _ _). vm_compute; reflexivity.
  - apply all_simpleb_spec. vm_compute; reflexivity.
  - apply factorableb_spec. vm_compute; reflexivity.
  - done.
  - done.
  - intros Hjt. assert (occurs_var (sp_out sp_miss) vc) as Ho.
    { exists x1, (graph_of [ted vb x2 vc x1]). split; [eexists; vm_compute; reflexivity|by_vm]. }
    eapply (joint_covers tcp) in Ho; [| |exact Hjt].
    + apply included_variables_spec in Ho. revert Ho. apply (bool_decide_eq_false_1 _). vm_compute. reflexivity.
    + intros g Hg. apply (set_wfb_spec (sp_out sp_miss)); [vm_compute; reflexivity|done].
  - done.
Qed.

(** In the same space the result depends on the order of the variables: b last keeps both outcomes, b in the
    middle keeps one of them, b first raises. *)
Theorem C40_missing_value_refuted : exists (o o' o'' : oracle) (sp r r' : space),
  ss_cp (sp_out sp) = sp_cp sp /\ all_wf (sp_cp sp) (sp_out sp) /\ one_valued (sp_out sp) /\ all_simple (sp_out sp) /\ factorable (sp_out sp) /\
  ~ cyclic (sp_out sp) /\ ~ disconnected (sp_out sp) /\
  make_joined o sp = Ok r /\ make_joined o' sp = Ok r' /\ ss_map (sp_out r) <> ss_map (sp_out r') /\
  make_joined o'' sp = Err TypeError.
Proof.
  exists (oc [1; 1]), (oc []), (oc [1]), sp_miss.
  destruct (ok_inv2 (make_joined (oc [1; 1]) sp_miss) (make_joined (oc []) sp_miss)
    (fun r r' => negb (bool_decide (ss_map (sp_out r) = ss_map (sp_out r'))))) as (r & r' & Hr & Hr' & Hd); [vm_compute; reflexivity|].
  exists r, r'. split_and!.
  - done.
  - intros g Hg. apply (set_wfb_spec (sp_out sp_miss)); [vm_compute; reflexivity|done].
  - refine (set_singleb_spec _ _). vm_compute; reflexivity.
  - apply all_simpleb_spec. vm_compute; reflexivity.
  - apply factorableb_spec. vm_compute; reflexivity.
  - apply (starb_acyclic _ vb). vm_compute. reflexivity.
  - apply (starb_connected _ vb). vm_compute. reflexivity.
  - done.
  - done.
  - by apply negb_true_iff, bool_decide_eq_false in Hd.
  - apply raises_inv. vm_compute. reflexivity.
Qed.

(** A triangle with a pendant edge: with full support, one order of the variables raises, another does not. *)
Theorem C40_success_order_refuted : exists (o o' : oracle) (sp r : space),
  joinable sp /\ make_joined o sp = Ok r /\ make_joined o' sp = Err AssertionError.
Proof.
  exists (oc [1]), (oc [3; 2]), sp_tri.
  destruct (ok_inv (make_joined (oc [1]) sp_tri) (fun _ => true)) as (r & Hr & _); [vm_compute; reflexivity|].
  exists r. split_and!; [apply sp_tri_joinable|done|]. apply raises_inv. vm_compute. reflexivity.
Qed.

(** Independent clusters raise; a join that leaves nothing makes a later one raise a TypeError. *)
Example C40_disconnected : make_joined o1 (Space tcp (tset (pair_factor va vb 1 ++ pair_factor vc vd 1))) = Err AssertionError.
Proof. apply raises_inv. vm_compute. reflexivity. Qed.
Example C40_emptied :
  make_joined (oc []) (Space tcp (tset [(g_a1b1, 1%Z); (graph_of [ted va x1 vc x1; ted vc x1 vb x2], 1%Z)])) = Err TypeError.
Proof. apply raises_inv. vm_compute. reflexivity. Qed.

(** ** C44 *)

Example C44_example :
  match conditional_graph sp_chain (tsmp (tsingle va x1)) with
  | Ok cg => match make_joined o1 (sp_relation_graph (cg_space cg)) with
             | Ok r' => bool_decide (count_of (sp_out r') g_abc = Ok 24%Z) && bool_decide (size (ss_map (sp_out r')) = 4)
             | _ => false end
  | _ => false end = true.
Proof. vm_compute. reflexivity. Qed.
Example C44_occurs : occurs (sp_out sp_chain) (tnd va x1).
Proof. exists t_ab. split; [eexists; vm_compute; reflexivity|by_vm]. Qed.

(** Evidence over two variables removes the factors that have only one of them: conditioning first and
    joining then loses the variable c. *)
Theorem C44_two_node_evidence_refuted : exists (o : oracle) (sp : space) (ev : sample) (cg cg2 : cgraph) (r r' : space),
  joinable sp /\ conditional_graph sp ev = Ok cg /\ make_joined o sp = Ok r /\
  make_joined o (sp_relation_graph (cg_space cg)) = Ok r' /\ conditional_graph r ev = Ok cg2 /\
  ss_map (sp_out r') <> ss_map (sp_out (cg_space cg2)).
Proof.
  exists o0, sp_chain, (tsmp t_ab).
  destruct (ok_inv2 (conditional_graph sp_chain (tsmp t_ab)) (make_joined o0 sp_chain)
    (fun cg r => match make_joined o0 (sp_relation_graph (cg_space cg)), conditional_graph r (tsmp t_ab) with
       | Ok r', Ok cg2 => negb (bool_decide (ss_map (sp_out r') = ss_map (sp_out (cg_space cg2))))
       | _, _ => false end)) as (cg & r & Hcg & Hr & Hd); [vm_compute; reflexivity|].
  apply ok_inv2 in Hd as (r' & cg2 & Hr' & Hcg2 & Hd).
  exists cg, cg2, r, r'. split_and!; [apply sp_chain_joinable|exact Hcg|exact Hr|exact Hr'|exact Hcg2|].
  by apply negb_true_iff, bool_decide_eq_false in Hd.
Qed.

Print Assumptions C38_joined_on_one_variable.
Print Assumptions C38_joined_on_variables.
Print Assumptions C39_make_joined.
Print Assumptions C39_complete_outcomes.
Print Assumptions C40_result_order_independent.
Print Assumptions C40_acyclic_succeeds.
Print Assumptions C46_two_kinds_succeeds.
Print Assumptions C39_is_joined.
Print Assumptions C44_condition_then_join.
Print Assumptions C44_commute.
Print Assumptions C44_conditioned_joinable.
Print Assumptions C38_order_refuted.
Print Assumptions C39_missing_value_refuted.
Print Assumptions C40_missing_value_refuted.
Print Assumptions C40_success_order_refuted.
Print Assumptions C44_two_node_evidence_refuted.
