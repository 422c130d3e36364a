(** * GenFacts: generate_all_possible_outcomes yields every possible outcome exactly once *)

From Verif Require Export OdoFacts.

Section gen_facts.
Context {U : Universe}.
Implicit Types (g : graph) (S : gset graph) (cp : provider) (v : Var).

(** Builder holding each outcome of [S] once. *)
Definition holding (cp : provider) S : rgbuilder := RGBuilder cp (Samples cp (gset_to_gmap 1%Z S)).

Lemma holding_empty cp : RGBuilder cp (ssb_new cp) = holding cp ∅.
Proof. unfold holding, ssb_new. by rewrite gset_to_gmap_empty. Qed.

Lemma holding_add cp S g : g ∉ S ->
  add_outcome (holding cp S) (Sample (cp_id cp) g) 1 = (holding cp ({[g]} ∪ S), Ok tt).
Proof.
  intros Hg. unfold add_outcome, is_compatible, holding. cbn [rb_cp s_cp rb_out].
  rewrite bool_decide_true by done. rewrite bool_decide_true by lia. cbn [andb].
  unfold ssb_add, is_compatible. cbn [rb_cp s_cp rb_out ss_cp ss_map s_g]. rewrite bool_decide_true by done.
  rewrite (proj2 (lookup_gset_to_gmap_None _ _ _) Hg). by rewrite gset_to_gmap_union_singleton.
Qed.

Lemma holding_add_list cp l S : NoDup l -> (forall g, g ∈ l -> g ∉ S) ->
  add_outcomes (holding cp S) (Sample (cp_id cp) <$> l) 1 = (holding cp (list_to_set l ∪ S), Ok tt).
Proof.
  revert S. induction l as [|g l IH]; intros S Hnd Hfresh; cbn [fmap list_fmap add_outcomes].
  - by rewrite list_to_set_nil, (left_id_L ∅ (∪)).
  - apply NoDup_cons in Hnd as [Hg Hnd]. rewrite holding_add by (apply Hfresh; left).
    unfold fmap in IH. rewrite IH; [|done|].
    + f_equal. f_equal. rewrite list_to_set_cons. set_solver +.
    + intros h Hh [->%elem_of_singleton|Hs]%elem_of_union; [done|]. eapply Hfresh; [by right|done].
Qed.

(** Loop whose body adds at most one new outcome per element. *)
Lemma for_mut_adds {A} cp (f : oracle -> rgbuilder -> A -> rgbuilder * res unit) (F : A -> option graph) o S l :
  NoDup (omap F l) -> (forall g, g ∈ omap F l -> g ∉ S) ->
  (forall o x S', x ∈ l -> F x = None -> f o (holding cp S') x = (holding cp S', Ok tt)) ->
  (forall o x g S', x ∈ l -> F x = Some g -> g ∉ S' -> f o (holding cp S') x = (holding cp ({[g]} ∪ S'), Ok tt)) ->
  for_mut f o (holding cp S) l = (holding cp (list_to_set (omap F l) ∪ S), Ok tt).
Proof.
  revert o S. induction l as [|x l IH]; intros o S Hnd Hfresh H1 H2; cbn [for_mut omap list_omap].
  - by rewrite list_to_set_nil, (left_id_L ∅ (∪)).
  - cbn [omap list_omap] in Hnd, Hfresh. destruct (F x) as [g|] eqn:HF.
    + apply NoDup_cons in Hnd as [Hg Hnd]. rewrite (H2 (sub o 1) x g S); [|left|done|by apply Hfresh; left].
      unfold omap in IH. rewrite IH; [|done|..].
      * f_equal. f_equal. rewrite list_to_set_cons. set_solver +.
      * intros h Hh [->%elem_of_singleton|Hs]%elem_of_union; [done|]. eapply Hfresh; [by right|done].
      * intros; apply H1; [by right|done].
      * intros; apply H2; [by right|done|done].
    + rewrite (H1 (sub o 1) x S); [|left|done]. apply IH; [done|done|..].
      * intros; apply H1; [by right|done].
      * intros; apply H2; [by right|done|done].
Qed.

(** ** The nodes the generator starts from *)

(** One declared node per declared variable. *)
Definition starting cp (ns : list node) : Prop :=
  NoDup ns.*1 /\ (forall n, n ∈ ns -> declared cp n) /\ (forall v X, cp_vars cp !! v = Some X -> v ∈ ns.*1).

Lemma starting_eq cp ns n m : starting cp ns -> n ∈ ns -> m ∈ ns -> n.1 = m.1 -> n = m.
Proof.
  intros (Hnd & _) Hn Hm He. apply elem_of_list_lookup in Hn as [i Hi], Hm as [j Hj].
  assert (i = j) as ->; [|congruence]. eapply (NoDup_lookup ns.*1 i j n.1); [done|..]; rewrite list_lookup_fmap.
  - by rewrite Hi.
  - by rewrite Hj, He.
Qed.

Definition values_listed cp (ivs : list (Var * list Val)) : Prop :=
  NoDup ivs.*1 /\
  (forall v xs, (v, xs) ∈ ivs -> exists X, cp_vars cp !! v = Some X /\ NoDup xs /\ forall x, x ∈ xs <-> x ∈ X) /\
  (forall v X, cp_vars cp !! v = Some X -> exists xs, (v, xs) ∈ ivs).

Lemma indexed_variables_spec o cp : values_listed cp (indexed_variables o cp).
Proof.
  unfold indexed_variables. split_and!.
  - rewrite <- list_fmap_compose. rewrite (list_fmap_ext _ fst).
    + apply NoDup_fst_iter_map.
    + by intros ? [? ?] ?.
  - intros v xs Hin. apply elem_of_list_fmap in Hin as ([v' X] & [= -> ->] & Hin). apply elem_of_iter_map in Hin.
    exists X. split_and!; [done|apply NoDup_iter_set|]. intros x. apply elem_of_iter_set.
  - intros v X HX. eexists. apply elem_of_list_fmap. exists (v, X). split; [done|]. by apply elem_of_iter_map.
Qed.

Lemma first_nodes_spec cp ivs :
  values_listed cp ivs -> (forall v X, cp_vars cp !! v = Some X -> X <> ∅) ->
  exists ns, first_nodes ivs = Ok ns /\ starting cp ns /\
    forall v xs, (v, xs) ∈ ivs -> exists x xs', xs = x :: xs' /\ (v, x) ∈ ns.
Proof.
  intros (Hnd & Hin & Hall) Hne. unfold first_nodes.
  destruct (map_res_ok (fun _ '(v, xs) => match xs with x :: _ => Ok (v, x) | [] => Err IndexError end)
    (fun '(v, xs) n => exists x xs', xs = x :: xs' /\ n = (v, x)) (fun _ => []) ivs) as (ns & -> & HF).
  { intros _ [v xs] Hv. destruct (Hin v xs Hv) as (X & HX & _ & Hx). destruct xs as [|x xs'].
    - exfalso. apply (Hne v X HX). apply set_eq. intros x. rewrite <- Hx. split; [by intros ?%elem_of_nil|by intros ?%elem_of_empty].
    - eexists. split; [done|]. by exists x, xs'. }
  exists ns. split; [done|].
  assert (ns.*1 = ivs.*1) as Hfst.
  { clear -HF. induction HF as [|[v xs] n ivs ns (x & xs' & -> & ->) HF IH]; [done|]. rewrite !fmap_cons. by f_equal. }
  assert (forall v xs, (v, xs) ∈ ivs -> exists x xs', xs = x :: xs' /\ (v, x) ∈ ns) as Hpick.
  { intros v xs Hv. apply elem_of_list_lookup in Hv as [i Hi].
    destruct (Forall2_lookup_l _ _ _ _ _ HF Hi) as (n & Hn & x & xs' & -> & ->). exists x, xs'. split; [done|].
    by eapply elem_of_list_lookup_2. }
  split; [|done]. split_and!.
  - by rewrite Hfst.
  - intros n Hn. apply elem_of_list_lookup in Hn as [i Hi].
    destruct (Forall2_lookup_r _ _ _ _ _ HF Hi) as ([v xs] & Hv & x & xs' & -> & ->).
    destruct (Hin v (x :: xs')) as (X & HX & _ & Hx); [by eapply elem_of_list_lookup_2|].
    exists X. split; [done|]. apply Hx. left.
  - intros v X HX. rewrite Hfst. destruct (Hall v X HX) as [xs Hv]. apply elem_of_list_fmap. by exists (v, xs).
Qed.

Lemma all_endpoints_spec o (ns : list node) :
  NoDup (all_endpoints o ns) /\
  forall ep, ep ∈ all_endpoints o ns <-> exists n m, n ∈ ns /\ m ∈ ns /\ n <> m /\ ep = {[n; m]}.
Proof.
  unfold all_endpoints. split; [apply NoDup_iter_set|]. intros ep. rewrite elem_of_iter_set, elem_of_list_to_set.
  rewrite elem_of_list_bind. setoid_rewrite elem_of_list_bind. split.
  - intros (m & (n & Hep & Hn) & Hm). case_bool_decide; [|by apply elem_of_nil in Hep].
    apply elem_of_list_singleton in Hep as ->. by exists n, m.
  - intros (n & m & Hn & Hm & Hne & ->). exists m. split; [|done]. exists n. split; [|done].
    rewrite bool_decide_true by done. by apply elem_of_list_singleton.
Qed.

(** ** Edge sets described by digits *)

Lemma zip_lookup {A B} (l : list A) (k : list B) i :
  zip l k !! i = (a ← l !! i; b ← k !! i; Some (a, b)).
Proof.
  revert k i. induction l as [|a l IH]; intros [|b k] [|i]; try done.
  - simpl. by destruct (l !! i).
  - simpl. apply IH.
Qed.

Lemma elem_of_active eps rels idx ep r :
  (ep, r) ∈ active_edges eps rels idx <->
  exists j i r', eps !! j = Some ep /\ idx !! j = Some i /\ (0 <= i)%Z /\ rels !! Z.to_nat i = Some r' /\ r = Plain r'.
Proof.
  unfold active_edges. rewrite elem_of_list_to_set, elem_of_list_omap. split.
  - intros ([ep' i] & Hin & He). apply elem_of_list_lookup in Hin as [j Hj]. rewrite zip_lookup in Hj.
    destruct (eps !! j) as [ep''|] eqn:Hep; [|done]. destruct (idx !! j) as [i'|] eqn:Hi; [|done]. simpl in Hj. simplify_eq.
    case_bool_decide; [|done]. destruct (rels !! Z.to_nat i) as [r'|] eqn:Hr; [|done]. simpl in He. simplify_eq.
    exists j, i, r'. split_and!; done.
  - intros (j & i & r' & Hep & Hi & H0 & Hr & ->). exists (ep, i). split.
    + apply (elem_of_list_lookup_2 _ j). rewrite zip_lookup, Hep, Hi. done.
    + rewrite bool_decide_true by done. by rewrite Hr.
Qed.

Lemma active_inj eps rels idx idx' n :
  NoDup eps -> NoDup rels -> n = length eps ->
  digits (Z.of_nat (length rels) - 1) n idx -> digits (Z.of_nat (length rels) - 1) n idx' ->
  active_edges eps rels idx = active_edges eps rels idx' -> idx = idx'.
Proof.
  intros Hne Hnr -> [Hl Hd] [Hl' Hd'] Heq.
  assert (forall idx idx', length idx = length eps -> length idx' = length eps ->
    (forall d, d ∈ idx -> -1 <= d <= Z.of_nat (length rels) - 1)%Z -> (forall d, d ∈ idx' -> -1 <= d <= Z.of_nat (length rels) - 1)%Z ->
    active_edges eps rels idx = active_edges eps rels idx' -> forall j i i', idx !! j = Some i -> idx' !! j = Some i' -> (0 <= i)%Z -> i = i') as Hhalf.
  { clear idx idx' Hl Hd Hl' Hd' Heq. intros idx idx' Hl Hl' Hd Hd' Heq j i i' Hi Hi' H0.
    assert (j < length eps) as Hj by (rewrite <- Hl; by eapply lookup_lt_Some).
    apply lookup_lt_is_Some in Hj as [ep Hep].
    assert (is_Some (rels !! Z.to_nat i)) as [r Hr].
    { apply lookup_lt_is_Some. pose proof (Hd i ltac:(by eapply elem_of_list_lookup_2)). lia. }
    assert ((ep, Plain r) ∈ active_edges eps rels idx) as Hin by (apply elem_of_active; by exists j, i, r).
    rewrite Heq in Hin. apply elem_of_active in Hin as (j' & i'' & r' & Hep' & Hi'' & H0' & Hr' & [= <-]).
    assert (j' = j) as -> by (exact (NoDup_lookup eps j' j ep Hne Hep' Hep)). assert (i'' = i') as -> by congruence.
    assert (Z.to_nat i = Z.to_nat i') by (exact (NoDup_lookup rels _ _ r Hnr Hr Hr')). lia. }
  apply list_eq. intros j. destruct (idx !! j) as [i|] eqn:Hi, (idx' !! j) as [i'|] eqn:Hi'; [|..|done].
  - f_equal. destruct (decide (0 <= i)%Z); [by apply (Hhalf idx idx' Hl Hl' Hd Hd' Heq j)|].
    destruct (decide (0 <= i')%Z); [symmetry; by apply (Hhalf idx' idx Hl' Hl Hd' Hd (eq_sym Heq) j)|].
    pose proof (Hd i ltac:(by eapply elem_of_list_lookup_2)). pose proof (Hd' i' ltac:(by eapply elem_of_list_lookup_2)). lia.
  - exfalso. apply lookup_lt_Some in Hi. apply lookup_ge_None in Hi'. lia.
  - exfalso. apply lookup_lt_Some in Hi'. apply lookup_ge_None in Hi. lia.
Qed.

(** Every simple set of plain edges over the given endpoints is described by some digits. *)
Lemma active_surj (eps : list (gset node)) (rels : list Rel) (es : gset edge) :
  simple es -> (forall e, e ∈ es -> e.1 ∈ eps /\ exists r, e.2 = Plain r /\ r ∈ rels) ->
  exists idx, digits (Z.of_nat (length rels) - 1) (length eps) idx /\ active_edges eps rels idx = es.
Proof.
  intros Hs Hes.
  assert (exists idx, Forall2 (fun ep i => (i = -1 /\ forall e, e ∈ es -> e.1 <> ep) \/
    (0 <= i /\ exists r, rels !! Z.to_nat i = Some r /\ (ep, Plain r) ∈ es))%Z eps idx) as [idx Hidx].
  { clear Hs. assert (forall ep, exists i, (i = -1 /\ forall e, e ∈ es -> e.1 <> ep) \/
      (0 <= i /\ exists r, rels !! Z.to_nat i = Some r /\ (ep, Plain r) ∈ es))%Z as Hex.
    { intros ep. destruct (decide (set_Exists (fun e : edge => e.1 = ep) es)) as [(e & He & <-)|Hno].
      - destruct (Hes e He) as (_ & r & Hr & Hin). apply elem_of_list_lookup in Hin as [k Hk].
        exists (Z.of_nat k). right. split; [lia|]. exists r. rewrite Nat2Z.id. split; [done|]. rewrite <- Hr. by destruct e.
      - exists (-1)%Z. left. split; [done|]. intros e He Heq. apply Hno. by exists e. }
    clear Hes. induction eps as [|ep eps [idx IH]]; [by exists []|]. destruct (Hex ep) as [i Hi]. exists (i :: idx). by constructor. }
  pose proof (Forall2_length _ _ _ Hidx) as Hlen. exists idx. split.
  - split; [done|]. intros d Hd. apply elem_of_list_lookup in Hd as [j Hj].
    destruct (Forall2_lookup_r _ _ _ _ _ Hidx Hj) as (ep & Hep & [[-> _]|[H0 (r & Hr & _)]]); [lia|].
    apply lookup_lt_Some in Hr. lia.
  - apply set_eq. intros [ep r]. rewrite elem_of_active. split.
    + intros (j & i & r' & Hep & Hi & H0 & Hr & ->).
      destruct (Forall2_lookup_lr _ _ _ _ _ _ Hidx Hep Hi) as [[-> _]|[_ (r & Hr' & Hin)]]; [lia|]. congruence.
    + intros He. destruct (Hes _ He) as (Hep & r' & Hr & Hin). simpl in Hep, Hr. subst r.
      apply elem_of_list_lookup in Hep as [j Hj].
      destruct (Forall2_lookup_l _ _ _ _ _ Hidx Hj) as (i & Hi & [[-> Hno]|[H0 (r & Hr & Hin')]]).
      { exfalso. by apply (Hno _ He). }
      assert ((ep, Plain r') = (ep, Plain r)) as [= ->] by (by apply Hs). by exists j, i, r.
Qed.

(** ** Replacing one value *)

Lemma repl1_node (v : Var) (x : Val) (n : node) : repl_node ({[v := x]} : gmap Var Val) n = if decide (n.1 = v) then (v, x) else n.
Proof.
  unfold repl_node. case_decide as Hn.
  - by rewrite Hn, lookup_singleton.
  - rewrite lookup_singleton_ne by done. by destruct n.
Qed.

Lemma repl1_inj (v : Var) (x : Val) g (n m : node) : single_valued (g_nodes g) -> n ∈ g_nodes g -> m ∈ g_nodes g ->
  repl_node ({[v := x]} : gmap Var Val) n = repl_node {[v := x]} m -> n = m.
Proof.
  intros Hsv Hn Hm Heq. assert (n.1 = m.1) as Hv by exact (f_equal fst Heq). destruct n as [w y], m as [w' y'].
  simpl in Hv. subst w'. f_equal. by apply (Hsv w).
Qed.

Lemma repl1_mem (v : Var) (x : Val) g (n : node) :
  n ∈ g_nodes (repl_graph ({[v := x]} : gmap Var Val) g) <->
  (n.1 <> v /\ n ∈ g_nodes g) \/ (n = (v, x) /\ has_var (g_nodes g) v).
Proof.
  unfold repl_graph. cbn [g_nodes]. rewrite elem_of_map. setoid_rewrite repl1_node. split.
  - intros (m & -> & Hm). case_decide as Hv; [right|by left]. split; [done|]. destruct m as [w y]. simpl in Hv. subst w. by exists y.
  - intros [[Hv Hn]|[-> [y Hy]]].
    + exists n. by rewrite decide_False by done.
    + exists ((v, y) : node). by rewrite decide_True by done.
Qed.

Lemma repl1_back cp (v : Var) (x y : Val) g : wf_graph cp g -> single_valued (g_nodes g) -> (v, y) ∈ g_nodes g ->
  repl_graph {[v := y]} (repl_graph ({[v := x]} : gmap Var Val) g) = g.
Proof.
  intros Hwf Hsv Hy. apply (C11_back_lemma _ _ cp); [done|..].
  - intros w z Hz [? Hw]. apply lookup_singleton_Some in Hw as [<- _]. rewrite lookup_singleton. f_equal. by apply (Hsv v).
  - intros w [? Hw]. apply lookup_singleton_Some in Hw as [<- _]. rewrite lookup_singleton. by eexists.
Qed.

Lemma repl1_ok cp (v : Var) (x : Val) (X : gset node) : declared cp (v, x) -> repl_ok cp {[v := x]} X.
Proof.
  intros Hd n Hn [? Hw]. apply lookup_singleton_Some in Hw as [Hw _]. rewrite repl1_node, decide_True; done.
Qed.

Lemma possible_repl cp (v : Var) (x : Val) g : possible cp g -> declared cp (v, x) -> possible cp (repl_graph {[v := x]} g).
Proof.
  intros [Hwf Hne Hsv Hs Hp] Hd. split.
  - apply C11_wf_lemma; [done|by apply repl1_ok].
  - cbn [repl_graph g_nodes]. apply set_choose_L in Hne as [n Hn]. intros He.
    apply (not_elem_of_empty (C:=gset node) (repl_node {[v := x]} n)). rewrite <- He. by apply elem_of_map_2.
  - intros w y z Hy Hz. cbn [repl_graph g_nodes] in Hy, Hz.
    apply elem_of_map in Hy as (n & Hny & Hn), Hz as (m & Hmz & Hm).
    assert (n.1 = w /\ m.1 = w) as [H1 H2] by (split; [exact (eq_sym (f_equal fst Hny))|exact (eq_sym (f_equal fst Hmz))]).
    assert (n = m) as ->; [|congruence]. destruct n as [n1 n2], m as [m1 m2]. simpl in H1, H2. subst n1 m1. f_equal. by apply (Hsv w).
  - intros e e' He He' Heq. cbn [repl_graph g_edges] in He, He'.
    apply elem_of_map in He as (e1 & -> & He1), He' as (e2 & -> & He2). f_equal. apply Hs; [done|done|].
    pose proof (wf_inside _ _ Hwf _ He1) as Hi1. pose proof (wf_inside _ _ Hwf _ He2) as Hi2. cbn [repl_edge fst] in Heq.
    apply set_eq. intros n. split; intros Hn.
    + apply (elem_of_map_2 (D:=gset node) (repl_node {[v := x]})) in Hn as Hn'. rewrite Heq in Hn'.
      apply elem_of_map in Hn' as (m & Hm & Hin). apply (repl1_inj v x g) in Hm; [congruence|done|by apply Hi1|by apply Hi2].
    + apply (elem_of_map_2 (D:=gset node) (repl_node {[v := x]})) in Hn as Hn'. rewrite <- Heq in Hn'.
      apply elem_of_map in Hn' as (m & Hm & Hin). apply (repl1_inj v x g) in Hm; [congruence|done|by apply Hi2|by apply Hi1].
  - intros e He. cbn [repl_graph g_edges] in He. apply elem_of_map in He as (e1 & -> & He1). apply (Hp _ He1).
Qed.

(** ** The three phases *)

Definition reached cp (ns : list node) (done : list Var) S : Prop :=
  forall g, g ∈ S <-> possible cp g /\ forall n, n ∈ g_nodes g -> n.1 ∈ done \/ n ∈ ns.

Definition point (n : node) : graph := Graph {[n]} ∅.

Lemma omap_total {A B} (f : A -> B) (l : list A) : omap (fun x => Some (f x)) l = f <$> l.
Proof. induction l as [|x l IH]; [done|]. simpl. by f_equal. Qed.

Lemma point_phase cp o ns : starting cp ns ->
  for_mut (fun _ b '(v, x) => build_sample b (fun sb => build_single_node sb v x)) o (holding cp ∅) ns =
  (holding cp (list_to_set (point <$> ns)), Ok tt).
Proof.
  intros Hst. rewrite (for_mut_adds cp _ (fun n => Some (point n))).
  - by rewrite (right_id_L ∅ (∪)), omap_total.
  - rewrite omap_total. apply NoDup_fmap_2; [|by eapply NoDup_fmap_1, Hst]. intros n m Heq. apply (f_equal g_nodes) in Heq. cbn [point g_nodes] in Heq.
    apply (elem_of_singleton (C:=gset node)). rewrite <- Heq. by apply elem_of_singleton.
  - intros g _. apply not_elem_of_empty.
  - done.
  - intros _ [v x] g S' Hin [= <-] Hg. unfold build_sample, build_single_node. cbn [rb_cp holding new_builder builder_init b_cp].
    pose proof (get_node_spec cp v x) as Hn. destruct (get_node cp v x) as [n|e].
    + destruct Hn as [-> _]. by apply holding_add.
    + exfalso. apply (proj2 Hn). destruct Hst as (_ & Hst & _). by apply (Hst _ Hin).
Qed.

Definition graph_on (es : gset edge) : graph := Graph (⋃ (fst <$> elements es)) es.

Lemma graph_on_touches es n : n ∈ g_nodes (graph_on es) <-> touches es n.
Proof.
  unfold graph_on, touches. cbn [g_nodes]. rewrite elem_of_union_list. split.
  - intros (X & HX & Hn). apply elem_of_list_fmap in HX as (e & -> & He). apply elem_of_elements in He. by exists e.
  - intros (e & He & Hn). exists e.1. split; [|done]. apply elem_of_list_fmap. exists e. split; [done|]. by apply elem_of_elements.
Qed.

Definition linkedb (es : gset edge) : bool := match is_edges_connected (fun _ => []) es with Ok c => c | Err _ => false end.

Lemma connected_check o es : es <> ∅ -> (forall e, e ∈ es -> two_nodes e.1) -> is_edges_connected o es = Ok (linkedb es) /\
  (linkedb es = true <-> edges_linked es).
Proof.
  intros Hne H2. unfold linkedb.
  assert (forall o, exists b, is_edges_connected o es = Ok b /\ (b = true <-> edges_linked es)) as H.
  { clear o. intros o. pose proof (is_edges_connected_spec o es) as Hs. destruct (is_edges_connected o es) as [b|x].
    - exists b. tauto.
    - exfalso. destruct Hs as [[_ ?]|(_ & e & He & Hsz)]; [done|]. apply Hsz. by apply two_nodes_size, H2. }
  destruct (H o) as (b & -> & Hb), (H (fun _ => [])) as (b' & -> & Hb'). split; [|done]. f_equal.
  destruct b, b'; try done; [symmetry; by apply Hb', Hb|by apply Hb, Hb'].
Qed.

Section edge_phase.
Variables (cp : provider) (ns : list node) (o : oracle) (rels : list Rel).
Hypothesis Hst : starting cp ns.
Hypothesis Hnr : NoDup rels.
Hypothesis Hrels : forall r, r ∈ rels <-> r ∈ cp_rels cp.

Notation eps := (all_endpoints o ns).
Notation top := (Z.of_nat (length rels) - 1)%Z.

Lemma active_edge_legal idx e : e ∈ active_edges eps rels idx ->
  edge_legal cp e /\ (exists r, e.2 = Plain r) /\ forall n, n ∈ e.1 -> n ∈ ns.
Proof.
  destruct e as [ep r]. intros (j & i & r' & Hep & _ & _ & Hr & ->)%elem_of_active.
  apply elem_of_list_lookup_2, all_endpoints_spec in Hep as (n & m & Hn & Hm & Hne & ->).
  assert (forall k : node, k ∈ ({[n; m]} : gset node) -> k ∈ ns) as Hin.
  { intros k [->%elem_of_singleton| ->%elem_of_singleton]%elem_of_union; done. }
  split_and!; [split_and!|by exists r'|done]; cbn [fst snd].
  - exists n, m. split; [done|]. intros Hv. apply Hne. by apply (starting_eq cp ns).
  - intros k Hk. apply Hst. by apply Hin.
  - apply Hrels. by eapply elem_of_list_lookup_2.
Qed.

Lemma active_simple idx : simple (active_edges eps rels idx).
Proof.
  intros [ep r] [ep' r'] He He' Heq. simpl in Heq. subst ep'. f_equal.
  apply elem_of_active in He as (j & i & q & H1 & H2 & H3 & H4 & ->), He' as (j' & i' & q' & H1' & H2' & H3' & H4' & ->).
  assert (j = j') as <- by (exact (NoDup_lookup eps j j' ep (proj1 (all_endpoints_spec o ns)) H1 H1')). congruence.
Qed.

Lemma active_nonempty idx : digits top (length eps) idx -> idx <> replicate (length eps) (-1)%Z -> active_edges eps rels idx <> ∅.
Proof.
  intros [Hl Hd] Hne He. apply Hne. apply list_eq_same_length with (length eps); [by rewrite replicate_length|done|].
  intros j i i' Hj Hi Hi'. apply lookup_replicate in Hi' as [-> _].
  pose proof (Hd i ltac:(by eapply elem_of_list_lookup_2)) as Hdi. destruct (decide (0 <= i)%Z); [|lia]. exfalso.
  apply lookup_lt_is_Some in Hj as [ep Hep].
  assert (is_Some (rels !! Z.to_nat i)) as [r Hr] by (apply lookup_lt_is_Some; lia).
  apply (not_elem_of_empty (C:=gset edge) (ep, Plain r)). rewrite <- He. apply elem_of_active. by exists j, i, r.
Qed.

Lemma graph_on_possible idx : active_edges eps rels idx <> ∅ -> edges_linked (active_edges eps rels idx) ->
  possible cp (graph_on (active_edges eps rels idx)).
Proof.
  intros Hne Hl. set (es := active_edges eps rels idx) in *.
  assert (forall n, touches es n -> n ∈ ns) as Hns.
  { intros n (e & He & Hn). by apply (active_edge_legal idx e). }
  split.
  - split.
    + intros n Hn%graph_on_touches. by apply Hst, Hns.
    + intros e He. by apply (active_edge_legal idx).
    + intros e He n Hn. apply graph_on_touches. by exists e.
    + intros x y Hx%graph_on_touches Hy%graph_on_touches. by apply Hl.
  - apply set_choose_L in Hne as [e He]. destruct (active_edge_legal idx e He) as (((n & m & Hnm & _) & _) & _).
    intros Hn. apply (not_elem_of_empty (C:=gset node) n). rewrite <- Hn. apply graph_on_touches. exists e. split; [done|].
    rewrite Hnm. set_solver +.
  - intros v x y Hx%graph_on_touches%Hns Hy%graph_on_touches%Hns.
    assert (((v, x) : node) = (v, y)) as [= ->]; [|done]. by apply (starting_eq cp ns).
  - apply active_simple.
  - intros e He. by apply (active_edge_legal idx).
Qed.

Definition edge_graph (idx : list Z) : option graph :=
  if linkedb (active_edges eps rels idx) then Some (graph_on (active_edges eps rels idx)) else None.

Lemma edge_phase o' L :
  NoDup L -> (forall x, x ∈ L <-> digits top (length eps) x /\ x <> replicate (length eps) (-1)%Z) ->
  exists S, for_mut (fun o' b idx =>
      let es := active_edges eps rels idx in
      match is_edges_connected (sub o' 0) es with
      | Err e => (b, Err e)
      | Ok false => (b, Ok tt)
      | Ok true => build_sample b (fun sb => (build_from_edges (sub o' 1) sb es false).2)
      end) o' (holding cp (list_to_set (point <$> ns))) L = (holding cp S, Ok tt) /\ reached cp ns [] S.
Proof.
  intros Hnd HL.
  assert (forall x, x ∈ L -> active_edges eps rels x <> ∅) as Hne.
  { intros x Hx. apply HL in Hx as [? ?]. by apply active_nonempty. }
  assert (forall x e, e ∈ active_edges eps rels x -> two_nodes e.1) as H2.
  { intros x e He. apply active_edge_legal in He as [[? _] _]. done. }
  eexists. split.
  { apply (for_mut_adds cp _ edge_graph).
    - assert (forall l, NoDup l -> (forall x, x ∈ l -> x ∈ L) -> NoDup (omap edge_graph l)) as Hgen; [|by apply Hgen].
      induction l as [|x l IH]; intros Hl Hin; [constructor|]. apply NoDup_cons in Hl as [Hx Hl].
      cbn [omap list_omap]. destruct (edge_graph x) as [g|] eqn:Hg; [|apply IH; [done|]; intros; apply Hin; by right].
      apply NoDup_cons. split; [|apply IH; [done|]; intros; apply Hin; by right].
      intros Hing. apply elem_of_list_omap in Hing as (y & Hy & Hgy). apply Hx.
      assert (x = y) as ->; [|done]. unfold edge_graph in Hg, Hgy.
      destruct (linkedb (active_edges eps rels x)), (linkedb (active_edges eps rels y)); try done.
      injection Hg as <-. injection Hgy as _ Hgy.
      apply (active_inj eps rels x y (length eps)); [apply all_endpoints_spec|done|done|..|done].
      + apply HL, Hin. left.
      + apply HL, Hin. by right.
    - intros g Hg Hp. apply elem_of_list_omap in Hg as (x & Hx & Hg). unfold edge_graph in Hg.
      destruct (linkedb _); [|done]. injection Hg as <-.
      apply elem_of_list_to_set, elem_of_list_fmap in Hp as (n & [= _ He] & _). by apply (Hne x Hx).
    - intros o2 x S' Hx Hg. cbv zeta. destruct (connected_check (sub o2 0) _ (Hne x Hx) (H2 x)) as [-> _].
      unfold edge_graph in Hg. by destruct (linkedb _).
    - intros o2 x g S' Hx Hg Hf. cbv zeta. destruct (connected_check (sub o2 0) _ (Hne x Hx) (H2 x)) as [-> Hl].
      unfold edge_graph in Hg. destruct (linkedb _) eqn:Hlb; [|done]. injection Hg as <-.
      unfold build_sample. cbn [rb_cp holding].
      pose proof (C09_unvalidated_lemma (sub o2 1) cp (active_edges eps rels x)) as Hb.
      destruct (build_from_edges _ _ _ _).2 as [s|e].
      + destruct Hb as (_ & _ & Hcp & He & Hn). destruct s as [i g]. simpl in Hcp, He, Hn. subst i.
        assert (g = graph_on (active_edges eps rels x)) as ->; [|by apply holding_add].
        destruct g as [N E]. simpl in He, Hn. subst E. unfold graph_on. f_equal.
        apply set_eq. intros n. rewrite Hn. symmetry. apply graph_on_touches.
      + exfalso. destruct Hb as [_ [Hb|Hb]]; [by apply (Hne x Hx)|]. apply Hb. intros e' He'. by apply (active_edge_legal x). }
  intros g. rewrite elem_of_union, !elem_of_list_to_set, elem_of_list_omap, elem_of_list_fmap. split.
  - intros [(x & Hx & Hg)|(n & -> & Hn)].
    + unfold edge_graph in Hg. destruct (linkedb _) eqn:Hlb; [|done]. injection Hg as <-.
      apply (proj2 (connected_check (fun _ => []) _ (Hne x Hx) (H2 x))) in Hlb.
      split; [apply graph_on_possible; [by apply Hne|done]|]. intros n (e & He & Hn)%graph_on_touches. right.
      by apply (active_edge_legal x e).
    + split.
      * split; cbn [point g_nodes g_edges].
        -- split; cbn [point g_nodes g_edges].
           ++ intros m ->%elem_of_singleton. by apply Hst.
           ++ by intros e ?%elem_of_empty.
           ++ by intros e ?%elem_of_empty.
           ++ intros x y Hx Hy. cbn [point g_nodes] in Hx, Hy. apply elem_of_singleton in Hx as ->, Hy as ->. constructor.
        -- intros He. apply (not_elem_of_empty (C:=gset node) n). rewrite <- He. by apply elem_of_singleton.
        -- intros v x y Hx%elem_of_singleton Hy%elem_of_singleton. congruence.
        -- by intros e e' ?%elem_of_empty.
        -- by intros e ?%elem_of_empty.
      * intros m Hm. cbn [point g_nodes] in Hm. apply elem_of_singleton in Hm as ->. by right.
  - intros [[Hwf Hnn Hsv Hs Hp] Hn]. destruct (decide (g_edges g = ∅)) as [He|He].
    + right. destruct (wf_single_node cp g Hwf He Hnn) as [n Hgn]. exists n. split.
      * destruct g as [N E]. simpl in *. by subst.
      * assert (n ∈ g_nodes g) as Hng by (rewrite Hgn; by apply elem_of_singleton).
        destruct (Hn n Hng) as [Hx|]; [by apply elem_of_nil in Hx|done].
    + left. destruct (active_surj eps rels (g_edges g) Hs) as (idx & Hd & Ha).
      { intros e Hin. destruct (wf_edges _ _ Hwf e Hin) as ((n & m & Hnm & Hv) & _ & Hr). split.
        - apply all_endpoints_spec. exists n, m. pose proof (wf_inside _ _ Hwf e Hin) as Hi. rewrite Hnm in Hi.
          assert (forall k, k ∈ ({[n; m]} : gset node) -> k ∈ ns) as Hk.
          { intros k Hk. destruct (Hn k (Hi k Hk)) as [Hx|]; [by apply elem_of_nil in Hx|done]. }
          assert (n ∈ ns) by (apply Hk; set_solver +). assert (m ∈ ns) by (apply Hk; set_solver +).
          split_and!; [done|done|congruence|done].
        - destruct (Hp e Hin) as [r Hre]. exists r. split; [done|]. apply Hrels. by rewrite Hre in Hr. }
      exists idx. assert (idx ∈ L) as Hin.
      { apply HL. split; [done|]. intros ->. apply He. rewrite <- Ha. apply set_eq. intros [ep r].
        rewrite elem_of_active. split; [|by intros ?%elem_of_empty].
        intros (j & i & r' & _ & Hi & H0 & _). apply lookup_replicate in Hi as [-> _]. lia. }
      split; [done|]. unfold edge_graph. rewrite Ha.
      assert (linkedb (g_edges g) = true) as ->.
      { apply (proj2 (connected_check (fun _ => []) (g_edges g) He ltac:(intros e Hin'; apply (wf_edges _ _ Hwf e Hin')))).
        intros x y (e & Hex & Hx) (e' & Hey & Hy). apply (wf_conn _ _ Hwf); [by apply (wf_inside _ _ Hwf e)|by apply (wf_inside _ _ Hwf e')]. }
      f_equal. destruct g as [N E]. unfold graph_on. cbn [g_edges]. f_equal. apply set_eq. intros n.
      rewrite (connected_touches cp (Graph N E)) by done. apply graph_on_touches.
Qed.

End edge_phase.

(** Outcomes made from [S] by giving [v] the values [xs]. *)
Definition replacements (o : oracle) S v (xs : list Val) : list graph :=
  g ← iter_set o S; if bool_decide (v ∈ included_variables g) then (fun x => repl_graph {[v := x]} g) <$> xs else [].

Lemma replaced_outcomes_spec o cp S v xs :
  (forall g, g ∈ S -> wf_graph cp g) -> (forall x, x ∈ xs -> declared cp (v, x)) ->
  replaced_outcomes o (holding cp S) v xs = Ok (Sample (cp_id cp) <$> replacements o S v (tail xs)).
Proof.
  intros Hwf Hd. unfold replaced_outcomes. cbn [rb_out holding rb_cp]. unfold ss_samples. cbn [ss_map]. rewrite dom_gset_to_gmap.
  match goal with |- context [map_res ?f ?o ?l] =>
    destruct (map_res_ok f (fun g l' => l' = Sample (cp_id cp) <$>
      (if bool_decide (v ∈ included_variables g) then (fun x => repl_graph {[v := x]} g) <$> tail xs else [])) o l) as (ys & -> & HF) end.
  - intros o' g Hg. apply elem_of_iter_set in Hg. case_bool_decide; [|by eexists].
    match goal with |- context [map_res ?f ?o ?l] =>
      destruct (map_res_ok f (fun x s => s = Sample (cp_id cp) (repl_graph {[v := x]} g)) o l) as (ys & -> & HF) end.
    + intros o2 x Hx. assert (x ∈ xs) as Hxs. { destruct xs; [done|]. by right. }
      pose proof (C11_lemma o2 cp {[v := x]} g (Hwf g Hg)) as Ht.
      destruct (transform_with_replaced_values _ _ _ _) as [[same g']|e].
      * destruct Ht as (_ & -> & _). cbn [mbind res_bind]. by eexists.
      * exfalso. apply (proj2 Ht). apply repl1_ok. by apply Hd.
    + eexists. split; [done|]. clear -HF. induction HF as [|x y l l' -> HF IH]; [done|]. cbn [fmap list_fmap]. f_equal. exact IH.
  - cbn [mbind res_bind]. f_equal. unfold replacements. clear -HF.
    induction HF as [|g y l l' -> HF IH]; [done|]. cbn [concat mbind list_bind]. rewrite fmap_app. f_equal. exact IH.
Qed.

Lemma elem_of_replacements o S v xs g : g ∈ replacements o S v xs <->
  exists h x, h ∈ S /\ has_var (g_nodes h) v /\ x ∈ xs /\ g = repl_graph {[v := x]} h.
Proof.
  unfold replacements. rewrite elem_of_list_bind. setoid_rewrite elem_of_iter_set. split.
  - intros (h & Hg & Hh). case_bool_decide as Hv; [|by apply elem_of_nil in Hg].
    apply elem_of_list_fmap in Hg as (x & -> & Hx). exists h, x. split_and!; [done|by apply included_variables_spec|done|done].
  - intros (h & x & Hh & Hv & Hx & ->). exists h. split; [|done]. rewrite bool_decide_true by (by apply included_variables_spec).
    apply elem_of_list_fmap. by exists x.
Qed.

(** One variable of the last loop. *)
Lemma value_step cp ns dn S o v x0 xs X :
  starting cp ns -> reached cp ns dn S -> v ∉ dn -> (v, x0) ∈ ns ->
  cp_vars cp !! v = Some X -> NoDup (x0 :: xs) -> (forall x, x ∈ x0 :: xs <-> x ∈ X) ->
  exists S', add_outcomes (holding cp S) (Sample (cp_id cp) <$> replacements o S v xs) 1 = (holding cp S', Ok tt) /\
    reached cp ns (v :: dn) S'.
Proof.
  intros Hst HS Hv Hn0 HX Hnd Hxs. apply NoDup_cons in Hnd as [Hx0 Hnd].
  assert (forall h, h ∈ S -> has_var (g_nodes h) v -> (v, x0) ∈ g_nodes h) as Hfirst.
  { intros h Hh [y Hy]. apply HS in Hh as [_ Hh]. destruct (Hh _ Hy) as [?|Hyn]; [done|].
    assert (((v, y) : node) = (v, x0)) as [= ->]; [|done]. by apply (starting_eq cp ns). }
  assert (forall x, x ∈ xs -> declared cp (v, x)) as Hd.
  { intros x Hx. exists X. split; [done|]. apply Hxs. by right. }
  assert (forall h h' x x', h ∈ S -> h' ∈ S -> has_var (g_nodes h) v -> has_var (g_nodes h') v ->
    repl_graph ({[v := x]} : gmap Var Val) h = repl_graph {[v := x']} h' -> h = h' /\ x = x') as Hinj.
  { intros h h' x x' Hh Hh' Hvh Hvh' Heq. pose proof (Hfirst _ Hh Hvh) as H0. pose proof (Hfirst _ Hh' Hvh') as H0'.
    apply HS in Hh as [Hp _], Hh' as [Hp' _]. split.
    - rewrite <- (repl1_back cp v x x0 h) by (done || apply Hp). rewrite Heq. by apply (repl1_back cp v x' x0 h'); [apply Hp'..|].
    - assert ((v, x) ∈ g_nodes (repl_graph ({[v := x]} : gmap Var Val) h)) as Hin by (apply repl1_mem; right; by eauto).
      rewrite Heq in Hin. apply repl1_mem in Hin as [[Hne _]|[[= ->] _]]; [done|done]. }
  rewrite holding_add_list.
  - eexists. split; [done|]. intros g. rewrite elem_of_union, elem_of_list_to_set, elem_of_replacements. split.
    + intros [(h & x & Hh & Hvh & Hx & ->)|Hg].
      * apply HS in Hh as [Hp Hh]. split; [apply possible_repl; [done|by apply Hd]|].
        intros n [[Hne Hn]|[-> _]]%repl1_mem; [|left; by left]. destruct (Hh n Hn); [left; by right|by right].
      * apply HS in Hg as [Hp Hg]. split; [done|]. intros n Hn. destruct (Hg n Hn); [left; by right|by right].
    + intros [Hp Hg]. destruct (decide (v ∈ included_variables g)) as [Hvg|Hvg].
      * apply included_variables_spec in Hvg as [x Hx]. destruct (decide (x = x0)) as [->|Hne].
        -- right. apply HS. split; [done|]. intros n Hn. destruct (decide (n.1 = v)) as [He|He].
           ++ right. assert (n = (v, x0)) as ->; [|done]. destruct n as [w y]. simpl in He. subst w. f_equal. by apply (po_single _ _ Hp v).
           ++ destruct (Hg n Hn) as [[?|?]%elem_of_cons|?]; [done|by left|by right].
        -- left. exists (repl_graph {[v := x0]} g), x.
           assert (declared cp (v, x0)) as Hd0 by (by apply Hst).
           split_and!.
           ++ apply HS. split; [by apply possible_repl|]. intros n [[He Hn]|[-> _]]%repl1_mem; [|by right].
              destruct (Hg n Hn) as [[?|?]%elem_of_cons|?]; [done|by left|by right].
           ++ exists x0. apply repl1_mem. right. split; [done|]. by exists x.
           ++ destruct (wf_nodes _ _ (po_wf _ _ Hp) _ Hx) as (X' & HX' & Hin). simpl in HX', Hin. rewrite HX in HX'. injection HX' as <-.
              apply Hxs in Hin. apply elem_of_cons in Hin as [?|?]; done.
           ++ symmetry. apply (repl1_back cp); [apply Hp|apply Hp|done].
      * right. apply HS. split; [done|]. intros n Hn. destruct (Hg n Hn) as [[He|?]%elem_of_cons|?]; [|by left|by right].
        exfalso. apply Hvg, included_variables_spec. exists n.2. rewrite <- He. by destruct n.
  - unfold replacements.
    assert (forall l, NoDup l -> (forall h, h ∈ l -> h ∈ S) ->
      NoDup (l ≫= (fun g => if bool_decide (v ∈ included_variables g) then (fun x => repl_graph ({[v := x]} : gmap Var Val) g) <$> xs else []))) as Hgen.
    { induction l as [|h l IH]; intros Hl Hin; [constructor|]. apply NoDup_cons in Hl as [Hh Hl].
      cbn [mbind list_bind]. apply NoDup_app. split_and!.
      - case_bool_decide as Hvh; [|constructor]. apply included_variables_spec in Hvh.
        assert (forall ys, NoDup ys -> (forall y, y ∈ ys -> y ∈ xs) -> NoDup ((fun x => repl_graph ({[v := x]} : gmap Var Val) h) <$> ys)) as Hys; [|by apply Hys].
        induction ys as [|y ys IHy]; intros Hy Hiny; [constructor|]. apply NoDup_cons in Hy as [Hy0 Hy]. rewrite fmap_cons. apply NoDup_cons. split.
        + intros (z & Heq & Hz)%elem_of_list_fmap. destruct (Hinj h h y z) as [_ ->]; [by apply Hin; left..|done|done|done|done].
        + apply IHy; [done|]. intros; apply Hiny. by right.
      - intros g Hg Hg'. case_bool_decide as Hvh; [|by apply elem_of_nil in Hg]. apply included_variables_spec in Hvh.
        apply elem_of_list_fmap in Hg as (x & -> & Hx). apply elem_of_list_bind in Hg' as (h' & Hg' & Hh').
        case_bool_decide as Hvh'; [|by apply elem_of_nil in Hg']. apply included_variables_spec in Hvh'.
        apply elem_of_list_fmap in Hg' as (x' & Heq & Hx').
        destruct (Hinj h h' x x') as [-> _]; [by apply Hin; left|by apply Hin; right|done|done|done|done].
      - apply IH; [done|]. intros; apply Hin; by right. }
    apply Hgen; [apply NoDup_iter_set|]. intros h. by rewrite elem_of_iter_set.
  - intros g Hg HgS. apply elem_of_replacements in Hg as (h & x & Hh & Hvh & Hx & ->).
    assert ((v, x) ∈ g_nodes (repl_graph ({[v := x]} : gmap Var Val) h)) as Hin by (apply repl1_mem; by right).
    assert ((v, x0) ∈ g_nodes (repl_graph ({[v := x]} : gmap Var Val) h)) as Hin0 by (apply Hfirst; [done|by exists x]).
    apply repl1_mem in Hin0 as [[? _]|[[= ->] _]]; done.
Qed.

Lemma value_phase cp ns o ivs dn S :
  starting cp ns -> NoDup ivs.*1 -> (forall v, v ∈ ivs.*1 -> v ∉ dn) ->
  (forall v xs, (v, xs) ∈ ivs -> exists X, cp_vars cp !! v = Some X /\ NoDup xs /\ forall x, x ∈ xs <-> x ∈ X) ->
  (forall v xs, (v, xs) ∈ ivs -> exists x xs', xs = x :: xs' /\ (v, x) ∈ ns) ->
  reached cp ns dn S ->
  exists S', for_mut (fun o' b '(v, xs) =>
      match replaced_outcomes o' b v xs with
      | Err e => (b, Err e)
      | Ok l => add_outcomes b l 1
      end) o (holding cp S) ivs = (holding cp S', Ok tt) /\ reached cp ns (reverse ivs.*1 ++ dn) S'.
Proof.
  intros Hst. revert o dn S. induction ivs as [|[v xs] ivs IH]; intros o dn S Hnd Hfr Hval Hfst HS.
  { exists S. by split. }
  rewrite fmap_cons in *. cbn [fst] in *. apply NoDup_cons in Hnd as [Hv Hnd]. cbn [for_mut].
  destruct (Hval v xs) as (X & HX & Hndx & Hx); [left|]. destruct (Hfst v xs) as (x0 & xs' & -> & Hn0); [left|].
  rewrite replaced_outcomes_spec.
  2:{ intros g Hg. by apply HS in Hg as [[? ? ? ? ?] _]. }
  2:{ intros x Hin. exists X. split; [done|]. by apply Hx. }
  cbn [tail].
  destruct (value_step cp ns dn S (sub o 1) v x0 xs' X) as (S1 & -> & HS1); [done|done|apply Hfr; left|done..|].
  destruct (IH (sub o 0) (v :: dn) S1) as (S2 & -> & HS2); [done|..|done|].
  - intros w Hw [->|?]%elem_of_cons; [done|]. eapply Hfr; [by right|done].
  - intros; apply Hval. by right.
  - intros; apply Hfst. by right.
  - exists S2. split; [done|]. by rewrite reverse_cons, <- app_assoc.
Qed.

(** ** C33 *)

Lemma C33_lemma o cp :
  (forall v X, cp_vars cp !! v = Some X -> X <> ∅) ->
  exists b, generate_all_possible_outcomes o (RGBuilder cp (ssb_new cp)) = (b, Ok tt) /\
    rb_cp b = cp /\ ss_cp (rb_out b) = cp /\
    forall g c, count_of (rb_out b) g = Ok c <-> c = 1%Z /\ possible cp g.
Proof.
  intros Hne. unfold generate_all_possible_outcomes.
  assert (ss_bool (rb_out (RGBuilder cp (ssb_new cp))) = false) as ->.
  { unfold ss_bool. cbn [rb_out ssb_new ss_map]. apply bool_decide_eq_false. intros H. by apply H. }
  cbn [rb_cp].
  pose proof (indexed_variables_spec (sub o 0) cp) as Hivs. set (ivs := indexed_variables (sub o 0) cp) in *. clearbody ivs.
  destruct (first_nodes_spec cp ivs Hivs Hne) as (ns & -> & Hst & Hpick).
  set (rels := iter_set (sub o 1) (cp_rels cp)).
  assert (NoDup rels) as Hnr by apply NoDup_iter_set.
  assert (forall r, r ∈ rels <-> r ∈ cp_rels cp) as Hrels by (intros; apply elem_of_iter_set). clearbody rels.
  destruct (odo_all (length rels) (length (all_endpoints (sub o 2) ns))) as (L & -> & HndL & HL).
  rewrite holding_empty, point_phase by done.
  destruct (edge_phase cp ns (sub o 2) rels Hst Hnr Hrels (sub o 4) L HndL HL) as (S & HE & HS).
  cbv zeta in HE. rewrite HE. clear HE.
  destruct Hivs as (Hnd & Hval & Hall).
  destruct (value_phase cp ns (sub o 5) ivs [] S) as (S' & -> & HS'); [done|done|by intros v _ ?%elem_of_nil|done|done|done|].
  assert (passert (bool_decide (map_Forall (fun _ c => c = 1%Z) (ss_map (rb_out (holding cp S'))))) = Ok tt) as ->.
  { rewrite bool_decide_true; [done|]. intros g c Hg. cbn [rb_out holding ss_map] in Hg. by apply lookup_gset_to_gmap_Some in Hg as [_ <-]. }
  exists (holding cp S'). split_and!; [done..|]. intros g c. rewrite count_of_lookup. cbn [rb_out holding ss_map].
  rewrite lookup_gset_to_gmap_Some. split.
  - intros [Hg <-]. split; [done|]. by apply HS' in Hg as [? _].
  - intros [-> Hp]. split; [|done]. apply HS'. split; [done|]. intros n Hn. left.
    destruct (wf_nodes _ _ (po_wf _ _ Hp) n Hn) as (X & HX & _). destruct (Hall n.1 X HX) as [xs Hin].
    rewrite app_nil_r. apply elem_of_reverse, elem_of_list_fmap. by exists (n.1, xs).
Qed.

Lemma C33_order_lemma o o' cp :
  (forall v X, cp_vars cp !! v = Some X -> X <> ∅) ->
  generate_all_possible_outcomes o (RGBuilder cp (ssb_new cp)) = generate_all_possible_outcomes o' (RGBuilder cp (ssb_new cp)).
Proof.
  intros Hne. destruct (C33_lemma o cp Hne) as (b & -> & H1 & H2 & H3), (C33_lemma o' cp Hne) as (b' & -> & H1' & H2' & H3').
  f_equal. destruct b as [bc [bs bm]], b' as [bc' [bs' bm']]. cbn [rb_cp rb_out ss_cp] in *. subst. do 2 f_equal.
  apply map_eq. intros g. apply option_eq. intros c. specialize (H3 g c). specialize (H3' g c). rewrite count_of_lookup in H3, H3'. cbn [ss_map] in *.
  by rewrite H3, H3'.
Qed.

Lemma C33_nonempty_lemma o b : ss_map (rb_out b) <> ∅ -> generate_all_possible_outcomes o b = (b, Err AssertionError).
Proof. intros Hne. unfold generate_all_possible_outcomes, ss_bool. by rewrite bool_decide_true. Qed.

End gen_facts.
