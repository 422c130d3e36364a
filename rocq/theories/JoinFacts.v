(** * JoinFacts: joining outcomes. *)

From Verif Require Export SpecJoin GroupFacts FactorFacts FoldFacts BuildFacts RelationGraph.

Section join_facts.
Context {U : Universe}.

Implicit Types (F : gmap graph Z) (Fs : list (gmap graph Z)) (sel J : list (graph * Z)) (G g h : graph).

(** ** Products and unions *)

Lemma product_zprod l : zprod l = product l.
Proof. induction l as [|x l IH]; [done|]. change (x * zprod l = x * product l)%Z. by rewrite IH. Qed.

Lemma product_app l l' : product (l ++ l') = (product l * product l')%Z.
Proof. by rewrite <- !product_zprod, zprod_app. Qed.

Global Instance product_proper : Proper ((≡ₚ) ==> (=)) product.
Proof. intros l l' Hp. rewrite <- !product_zprod. by rewrite Hp. Qed.

Lemma merged_unique l G G' : merged l G -> merged l G' -> G = G'.
Proof.
  intros [H1 H2] [H1' H2']. destruct G as [ns es], G' as [ns' es']. simpl in *.
  f_equal; apply set_eq; intros x; [by rewrite H1, H1'|by rewrite H2, H2'].
Qed.

Lemma merged_ext l l' G : (forall g, g ∈ l <-> g ∈ l') -> merged l G -> merged l' G.
Proof. intros Hl [H1 H2]. split; intros x; [rewrite H1|rewrite H2]; by setoid_rewrite Hl. Qed.

Definition merge (l : list graph) : graph := Graph (⋃ (g_nodes <$> l)) (⋃ (g_edges <$> l)).

Lemma merge_spec l : merged l (merge l).
Proof.
  split; intros x; cbn [merge g_nodes g_edges]; rewrite elem_of_union_list; split.
  - intros (X & HX & Hx). apply elem_of_list_fmap in HX as (g & -> & Hg). eauto.
  - intros (g & Hg & Hx). exists (g_nodes g). split; [|done]. apply elem_of_list_fmap. eauto.
  - intros (X & HX & Hx). apply elem_of_list_fmap in HX as (g & -> & Hg). eauto.
  - intros (g & Hg & Hx). exists (g_edges g). split; [|done]. apply elem_of_list_fmap. eauto.
Qed.

Lemma merged_merge l G : merged l G <-> G = merge l.
Proof. split; [intros H; eapply merged_unique; [done|apply merge_spec]|intros ->; apply merge_spec]. Qed.

Lemma merged_sub l G g : merged l G -> g ∈ l -> g_nodes g ⊆ g_nodes G /\ g_edges g ⊆ g_edges G.
Proof. intros [H1 H2] Hg. split; intros x Hx; [apply H1|apply H2]; eauto. Qed.

(** ** Separate factors *)

Definition apart F F' : Prop := forall g h, is_Some (F !! g) -> is_Some (F' !! h) -> ~ overlap g h.

Definition separate Fs : Prop :=
  forall i j F F', Fs !! i = Some F -> Fs !! j = Some F' -> i <> j -> apart F F'.

Record good_graph (cp : provider) (g : graph) : Prop := {
  gg_wf : wf_graph cp g;
  gg_ne : g_nodes g <> ∅;
  gg_simple : simple (g_edges g)
}.

(** All graphs are good; those without edges are over the same variable. *)
Record good_factor (cp : provider) F : Prop := {
  gf_graph : forall g, is_Some (F !! g) -> good_graph cp g;
  gf_atom : forall g h, is_Some (F !! g) -> is_Some (F !! h) -> g_edges g = ∅ -> g_edges h = ∅ -> overlap g h
}.

Definition picked Fs sel : Prop := Forall2 (fun F (gc : graph * Z) => F !! gc.1 = Some gc.2) Fs sel.

Lemma overlap_sym g h : overlap g h -> overlap h g.
Proof. intros (p & H1 & H2). by exists p. Qed.

Lemma overlap_refl cp g : good_graph cp g -> overlap g g.
Proof.
  intros [Hw Hne _]. destruct (decide (group_key g = ∅)) as [Hk|Hk].
  - apply group_key_empty in Hk. rewrite Hk in Hne. by destruct Hne.
  - apply set_choose_L in Hk as [p Hp]. apply elem_of_group_key in Hp. by exists p.
Qed.

Lemma overlap_edge g h e e' : e ∈ g_edges g -> e' ∈ g_edges h -> e.1 = e'.1 -> overlap g h.
Proof.
  intros He He' Heq. exists (inr (vars_of e.1)). split.
  - exists e. split; [done|]. intros v. apply elem_of_vars_of.
  - exists e'. split; [done|]. rewrite <- Heq. intros v. apply elem_of_vars_of.
Qed.

Lemma picked_elem Fs sel gc : picked Fs sel -> gc ∈ sel -> exists F, F ∈ Fs /\ F !! gc.1 = Some gc.2.
Proof.
  intros Hp Hin. apply elem_of_list_lookup in Hin as [i Hi].
  destruct (Forall2_lookup_r _ _ _ _ _ Hp Hi) as (F & HF & Hl). exists F. split; [|done].
  by eapply elem_of_list_lookup_2.
Qed.

Lemma picked_determined cp Fs sel sel' G :
  separate Fs -> (forall F, F ∈ Fs -> good_factor cp F) -> picked Fs sel -> picked Fs sel' ->
  merged sel.*1 G -> merged sel'.*1 G -> single_valued (g_nodes G) -> sel = sel'.
Proof.
  intros Hsep Hgood Hp Hp' HG HG' Hsv.
  assert (forall sel sel' i F g g', picked Fs sel -> picked Fs sel' -> merged sel.*1 G -> merged sel'.*1 G ->
    Fs !! i = Some F -> sel.*1 !! i = Some g -> sel'.*1 !! i = Some g' -> g_edges g ⊆ g_edges g') as Hedges.
  { clear sel sel' Hp Hp' HG HG'. intros sel sel' i F g g' Hp Hp' HG HG' HF Hg Hg' e He.
    assert (e ∈ g_edges G) as HeG.
    { eapply merged_sub; [apply HG| |apply He]. by eapply elem_of_list_lookup_2. }
    apply HG' in HeG as (h & Hh & Heh). apply elem_of_list_lookup in Hh as [j Hj].
    destruct (decide (i = j)) as [->|Hij]; [congruence|exfalso].
    rewrite list_lookup_fmap in Hj. destruct (sel' !! j) as [[h0 d]|] eqn:Hsj; [|done]. simpl in Hj. injection Hj as ->.
    rewrite list_lookup_fmap in Hg. destruct (sel !! i) as [[g0 c]|] eqn:Hsi; [|done]. simpl in Hg. injection Hg as ->.
    destruct (Forall2_lookup_r _ _ _ _ _ Hp' Hsj) as (F' & HF' & Hl').
    destruct (Forall2_lookup_r _ _ _ _ _ Hp Hsi) as (F0 & HF0 & Hl).
    rewrite HF in HF0. injection HF0 as <-.
    apply (Hsep i j F F' HF HF' Hij g h); [by eexists|by eexists|]. by apply (overlap_edge _ _ e e). }
  apply list_eq. intros i. destruct (Fs !! i) as [F|] eqn:HF.
  2:{ rewrite !lookup_ge_None_2; [done|..].
      - rewrite <- (Forall2_length _ _ _ Hp'). by apply lookup_ge_None.
      - rewrite <- (Forall2_length _ _ _ Hp). by apply lookup_ge_None. }
  destruct (Forall2_lookup_l _ _ _ _ _ Hp HF) as ([g c] & Hs & Hl).
  destruct (Forall2_lookup_l _ _ _ _ _ Hp' HF) as ([g' c'] & Hs' & Hl'). simpl in *.
  assert (sel.*1 !! i = Some g) as H1 by (rewrite list_lookup_fmap, Hs; done).
  assert (sel'.*1 !! i = Some g') as H1' by (rewrite list_lookup_fmap, Hs'; done).
  assert (g = g') as ->; [|rewrite Hs, Hs'; congruence].
  assert (g_edges g = g_edges g') as He.
  { apply set_eq. intros e. split; [by eapply (Hedges sel sel' i F g g')|by eapply (Hedges sel' sel i F g' g)]. }
  assert (good_factor cp F) as [Hgg Hat] by (apply Hgood; by eapply elem_of_list_lookup_2).
  destruct (Hgg g ltac:(by eexists)) as [Hw Hne _]. destruct (Hgg g' ltac:(by eexists)) as [Hw' Hne' _].
  destruct (decide (g_edges g = ∅)) as [Hemp|Hemp].
  - destruct (wf_single_node cp g Hw Hemp Hne) as [[v x] Hn].
    destruct (wf_single_node cp g' Hw' ltac:(by rewrite <- He) Hne') as [[w y] Hn'].
    assert (overlap g g') as (p & Hpp & Hpp') by (apply Hat; [by eexists|by eexists|done|by rewrite <- He]).
    assert (v = w) as ->.
    { destruct p as [u|X]; simpl in Hpp, Hpp'.
      - destruct Hpp as [_ [z Hz]], Hpp' as [_ [z' Hz']]. rewrite Hn in Hz. rewrite Hn' in Hz'.
        apply elem_of_singleton in Hz, Hz'. congruence.
      - destruct Hpp as (e & Hin & _). rewrite Hemp in Hin. by apply elem_of_empty in Hin. }
    assert (x = y) as ->.
    { apply (Hsv w).
      - eapply (merged_sub sel.*1); [done|by eapply elem_of_list_lookup_2|]. rewrite Hn. by apply elem_of_singleton.
      - eapply (merged_sub sel'.*1); [done|by eapply elem_of_list_lookup_2|]. rewrite Hn'. by apply elem_of_singleton. }
    destruct g as [ns es], g' as [ns' es']. simpl in *. congruence.
  - assert (g_nodes g = g_nodes g') as Hnn.
    { apply set_eq. intros n. split; intros Hin.
      - apply (connected_touches cp) in Hin as (e & Hin & Hne''); [|done..]. rewrite He in Hin.
        by apply (wf_inside _ _ Hw' e Hin).
      - apply (connected_touches cp) in Hin as (e & Hin & Hne''); [|done|by rewrite <- He]. rewrite <- He in Hin.
        by apply (wf_inside _ _ Hw e Hin). }
    destruct g as [ns es], g' as [ns' es']. simpl in *. congruence.
Qed.


(** ** Adding fresh entries *)

Lemma add_fresh b (s : sample) c : s_cp s = cp_id (ss_cp b) -> ss_map b !! s_g s = None ->
  ssb_add b s c = (Samples (ss_cp b) (<[s_g s := c]> (ss_map b)), Ok tt).
Proof. intros Hc Hn. unfold ssb_add. rewrite (proj2 (is_compatible_spec s _)) by done. by rewrite Hn. Qed.

Lemma add_all_fresh o b ss : cp_id (ss_cp ss) = cp_id (ss_cp b) -> ss_map b ##ₘ ss_map ss ->
  ssb_add_all o b ss = (Samples (ss_cp b) (ss_map b ∪ ss_map ss), Ok tt).
Proof.
  intros Hc Hd. unfold ssb_add_all, ss_items. generalize (sub o 0). intros o'.
  match goal with |- for_mut ?f _ _ _ = _ => set (fn := f) end.
  pose proof (for_mut_map_ind (fun m s => s = Samples (ss_cp b) (ss_map b ∪ m)) (fun _ _ => False) fn o' o b (ss_map ss)) as H.
  destruct (for_mut fn o' b (iter_map o (ss_map ss))) as [s [[]|e]].
  - rewrite H; [done| |].
    + rewrite (right_id_L ∅ (∪)). by destruct b.
    + intros m k a s' o'' Hk Hm Hsub ->. unfold fn. rewrite add_fresh; cbn [ss_cp ss_map sample_of s_cp s_g].
      * f_equal. f_equal. rewrite insert_union_r; [done|]. by eapply map_disjoint_Some_r.
      * done.
      * rewrite lookup_union_r; [done|]. by eapply map_disjoint_Some_r.
  - destruct H.
    + rewrite (right_id_L ∅ (∪)). by destruct b.
    + intros m k a s' o'' Hk Hm Hsub ->. unfold fn. rewrite add_fresh; cbn [ss_cp ss_map sample_of s_cp s_g].
      * f_equal. rewrite insert_union_r; [done|]. by eapply map_disjoint_Some_r.
      * done.
      * rewrite lookup_union_r; [done|]. by eapply map_disjoint_Some_r.
Qed.

(** ** Picks *)

Lemma separate_cons F Fs : separate (F :: Fs) <-> (forall F', F' ∈ Fs -> apart F F' /\ apart F' F) /\ separate Fs.
Proof.
  split.
  - intros Hs. split.
    + intros F' HF'. apply elem_of_list_lookup in HF' as [j Hj]. split.
      * by apply (Hs 0 (S j)).
      * by apply (Hs (S j) 0).
    + intros i j F1 F2 Hi Hj Hij. apply (Hs (S i) (S j)); [done|done|lia].
  - intros [Ha Hs] i j F1 F2 Hi Hj Hij. destruct i as [|i], j as [|j]; simpl in *; simplify_eq.
    + apply Ha. by eapply elem_of_list_lookup_2.
    + apply Ha. by eapply elem_of_list_lookup_2.
    + apply (Hs i j); [done|done|lia].
Qed.

Lemma apart_sym F F' : apart F F' -> apart F' F.
Proof. intros Ha g h Hg Hh Ho. apply (Ha h g Hh Hg). by apply overlap_sym. Qed.

Global Instance separate_perm : Proper ((≡ₚ) ==> iff) separate.
Proof.
  assert (forall Fs Fs', Fs ≡ₚ Fs' -> separate Fs -> separate Fs') as H.
  { intros Fs Fs' Hp. induction Hp as [|F Fs Fs' Hp IH|F F' Fs|Fs Fs' Fs'' _ IH1 _ IH2]; [done| | |auto].
    - rewrite !separate_cons. intros [Ha Hs]. split; [|auto]. intros F'. rewrite <- Hp. apply Ha.
    - rewrite !separate_cons. intros (Ha & Hb & Hs). split_and!; [|intros F0 H0; apply Ha; by right|done].
      intros F0 [->|H0]%elem_of_cons; [|by apply Hb]. destruct (Ha F ltac:(left)). done. }
  intros Fs Fs' Hp. split; apply H; [done|by symmetry].
Qed.

Lemma separate_app_l Fs Fs' : separate (Fs ++ Fs') -> separate Fs.
Proof.
  intros Hs i j F F' Hi Hj. apply (Hs i j); by apply lookup_app_l_Some.
Qed.

Lemma separate_app_r Fs Fs' : separate (Fs ++ Fs') -> separate Fs'.
Proof. rewrite (Permutation_app_comm Fs Fs'). apply separate_app_l. Qed.

Lemma picked_app Fs Fs' sel sel' : picked Fs sel -> picked Fs' sel' -> picked (Fs ++ Fs') (sel ++ sel').
Proof. apply Forall2_app. Qed.

(** Different picks are different graphs. *)
Lemma picked_NoDup cp Fs sel : separate Fs -> (forall F, F ∈ Fs -> good_factor cp F) -> picked Fs sel -> NoDup sel.*1.
Proof.
  intros Hs Hg Hp. induction Hp as [|F [g c] Fs sel Hl Hp IH]; [constructor|].
  apply separate_cons in Hs as [Ha Hs]. cbn [fmap list_fmap fst]. constructor.
  - intros Hin. apply elem_of_list_fmap in Hin as ([g' c'] & Heq & Hin). simpl in Heq. subst g'.
    destruct (picked_elem _ _ _ Hp Hin) as (F' & HF' & Hl'). simpl in *.
    destruct (Ha F' HF') as [Hap _]. apply (Hap g g); [by eexists|by eexists|].
    apply (overlap_refl cp). eapply gf_graph; [apply Hg; left|by eexists].
  - apply IH; [done|]. intros F' HF'. apply Hg. by right.
Qed.

Lemma picked_contains cp Fs J : separate Fs -> (forall F, F ∈ Fs -> good_factor cp F) -> picked Fs J ->
  forall (cp' : provider) g, contains (Samples cp' (list_to_map J)) g <-> g ∈ J.*1.
Proof.
  intros Hs Hg Hp cp' g. pose proof (picked_NoDup cp Fs J Hs Hg Hp) as Hnd. unfold contains. cbn [ss_map]. split.
  - intros [c Hc]. apply elem_of_list_to_map_2 in Hc. apply elem_of_list_fmap. by exists (g, c).
  - intros Hin. apply elem_of_list_fmap in Hin as ([g' c] & -> & Hin). exists c. by apply elem_of_list_to_map_1.
Qed.

(** A consistent selection of outcomes that all have [v] can be joined, whatever the order. *)
Lemma join_picked cp o Fs J v :
  separate Fs -> (forall F, F ∈ Fs -> good_factor cp F) -> picked Fs J -> J <> [] ->
  (forall g, g ∈ J.*1 -> having v g) -> single_valued (g_nodes (merge J.*1)) ->
  exists s cs, make_joined_sample o (Samples cp (list_to_map J)) = Ok (s, cs) /\ s_cp s = cp_id cp /\
    s_g s = merge J.*1 /\ zprod cs = product J.*2.
Proof.
  intros Hs Hg Hp Hne Hv Hsv. set (ss := Samples cp (list_to_map J)).
  pose proof (picked_contains cp Fs J Hs Hg Hp cp) as Hin. fold ss in Hin.
  pose proof (picked_NoDup cp Fs J Hs Hg Hp) as Hnd.
  assert (forall g, contains ss g -> exists F, F ∈ Fs /\ good_graph cp g /\ is_Some (F !! g)) as Hgg.
  { intros g Hc. apply Hin, elem_of_list_fmap in Hc as ([g' c] & -> & Hc).
    destruct (picked_elem _ _ _ Hp Hc) as (F & HF & Hl). exists F. split_and!; [done| |by eexists].
    eapply gf_graph; [by apply Hg|by eexists]. }
  assert (forall n, occurs ss n -> n ∈ g_nodes (merge J.*1)) as Hocc.
  { intros n (g & Hc & Hn). apply (merge_spec J.*1). exists g. by rewrite <- Hin. }
  assert (forall g, contains ss g -> wf_graph (ss_cp ss) g) as Hwf.
  { intros g Hc. destruct (Hgg g Hc) as (_ & _ & [? _ _] & _). done. }
  assert (is_ok (make_joined_sample o ss) = true) as Hok.
  { apply all_orders_lemma; [done|]. split_and!.
    - intros He. destruct J as [|[g c] J]; [done|]. cbn [ss ss_map list_to_map foldr] in He.
      by apply (insert_non_empty (M:=gmap graph)) in He.
    - intros g g' Hc Hc'. destruct (Hv g) as [x Hx]; [by apply Hin|]. destruct (Hv g') as [y Hy]; [by apply Hin|].
      assert (x = y) as ->; [|by exists (v, y)]. apply (Hsv v); apply Hocc; [by exists g|by exists g'].
    - intros w x y Hx Hy. by apply (Hsv w); apply Hocc.
    - intros e e' (g & Hc & He) (g' & Hc' & He') Heq.
      assert (g = g') as ->.
      2:{ destruct (Hgg g' Hc') as (_ & _ & [_ _ Hsi] & _). by apply Hsi. }
      destruct (decide (g = g')) as [|Hd]; [done|exfalso]. apply Hin in Hc, Hc'.
      apply elem_of_list_fmap in Hc as ([g0 c] & -> & Hc), Hc' as ([g1 c'] & -> & Hc'). simpl in *.
      apply elem_of_list_lookup in Hc as [i Hi], Hc' as [j Hj].
      destruct (Forall2_lookup_r _ _ _ _ _ Hp Hi) as (F & HF & Hl). destruct (Forall2_lookup_r _ _ _ _ _ Hp Hj) as (F' & HF' & Hl').
      refine (Hs i j F F' HF HF' _ g0 g1 (mk_is_Some _ _ Hl) (mk_is_Some _ _ Hl') (overlap_edge _ _ e e' He He' Heq)).
      intros ->. rewrite Hi in Hj. congruence. }
  pose proof (make_joined_spec o ss Hwf) as Hj. destruct (make_joined_sample o ss) as [[s cs]|]; [|done].
  destruct Hj as (_ & Hcp & Hu & _ & _ & _ & _ & _ & Hcs). exists s, cs. split_and!; [done|done| |].
  - apply merged_merge. destruct Hu as [Hu1 Hu2]. split; intros x; [rewrite Hu1|rewrite Hu2]; split.
    + intros (g & Hc & Hx). exists g. by rewrite <- Hin.
    + intros (g & Hc & Hx). exists g. by rewrite Hin.
    + intros (g & Hc & Hx). exists g. by rewrite <- Hin.
    + intros (g & Hc & Hx). exists g. by rewrite Hin.
  - rewrite product_zprod, Hcs. unfold ss_items. rewrite iter_map_perm. cbn [ss ss_map].
    by rewrite map_to_list_to_map.
Qed.

Lemma values_match_picked cp Fs J : separate Fs -> (forall F, F ∈ Fs -> good_factor cp F) -> picked Fs J ->
  values_match (Samples cp (list_to_map J)) <-> single_valued (g_nodes (merge J.*1)).
Proof.
  intros Hs Hg Hp. pose proof (picked_contains cp Fs J Hs Hg Hp cp) as Hin.
  assert (forall n, occurs (Samples cp (list_to_map J)) n <-> n ∈ g_nodes (merge J.*1)) as Ho.
  { intros n. rewrite (proj1 (merge_spec J.*1) n). unfold occurs. by setoid_rewrite Hin. }
  unfold values_match, single_valued. by setoid_rewrite Ho.
Qed.


(** ** Products of factors *)

Definition prod_from J Fs G (c : Z) : Prop :=
  exists sel, picked Fs sel /\ G = merge (J ++ sel).*1 /\ single_valued (g_nodes G) /\ c = product (J ++ sel).*2.

Definition prod_of Fs G (c : Z) : Prop := prod_from [] Fs G c.

Lemma prod_from_fun cp Ds J Fs G c c' : separate (Ds ++ Fs) -> (forall F, F ∈ Ds ++ Fs -> good_factor cp F) ->
  picked Ds J -> prod_from J Fs G c -> prod_from J Fs G c' -> c = c'.
Proof.
  intros Hs Hg HJ (sel & Hp & HG & Hsv & ->) (sel' & Hp' & HG' & _ & ->).
  rewrite (picked_determined cp (Ds ++ Fs) (J ++ sel) (J ++ sel') G); [done|done|done|by apply picked_app|by apply picked_app| | |done].
  - by apply merged_merge.
  - by apply merged_merge.
Qed.

Lemma NoDup_fst_lookup (J : list (graph * Z)) g c : NoDup J.*1 -> g ∉ J.*1 ->
  list_to_map (J ++ [(g, c)]) = <[g := c]> (list_to_map J : gmap graph Z).
Proof. intros Hnd Hg. by apply list_to_map_snoc. Qed.

Lemma cross_join_spec cp v (Gs : list samples) : forall o Ds J,
  separate (Ds ++ (ss_map <$> Gs)) -> (forall F, F ∈ Ds ++ (ss_map <$> Gs) -> good_factor cp F) ->
  picked Ds J -> (forall grp, grp ∈ Gs -> ss_cp grp = cp) ->
  (forall F g, F ∈ Ds ++ (ss_map <$> Gs) -> is_Some (F !! g) -> having v g) ->
  (J <> [] \/ Gs <> []) ->
  exists r, cross_join o cp Gs (Samples cp (list_to_map J)) = Ok r /\ ss_cp r = cp /\
    forall G c, ss_map r !! G = Some c <-> prod_from J (ss_map <$> Gs) G c.
Proof.
  induction Gs as [|g0 Gs IH]; intros o Ds J Hs Hg HJ Hcp Hv Hne.
  - destruct Hne as [Hne|Hne]; [|done]. cbn [fmap list_fmap] in *. rewrite (right_id_L [] (++)) in Hs, Hg, Hv.
    cbn [cross_join].
    assert (forall g, g ∈ J.*1 -> having v g) as HvJ.
    { intros g Hin. apply elem_of_list_fmap in Hin as ([g' c] & -> & Hin).
      destruct (picked_elem _ _ _ HJ Hin) as (F & HF & Hl). eapply Hv; [done|]. by eexists. }
    assert (ss_bool (Samples cp (list_to_map J)) = true) as ->.
    { apply bool_decide_eq_true. intros He. destruct J as [|[g c] J]; [done|]. cbn [ss_map list_to_map foldr] in He.
      by apply (insert_non_empty (M:=gmap graph)) in He. }
    cbn [andb]. pose proof (values_match_picked cp Ds J Hs Hg HJ) as Hvm.
    destruct (is_all_values_match (sub o 0) (Samples cp (list_to_map J))) eqn:Hm.
    + apply is_all_values_match_spec in Hm. apply Hvm in Hm.
      destruct (join_picked cp (sub o 1) Ds J v Hs Hg HJ Hne HvJ Hm) as (s & cs & -> & Hscp & Hsg & Hz).
      cbn [mbind res_bind]. rewrite add_fresh; [|done|apply lookup_empty].
      eexists. split; [done|]. split; [done|]. intros G c. cbn [ssb_new ss_map ss_cp]. unfold prod_from.
      rewrite Hsg, Hz. split.
      * rewrite lookup_insert_Some, lookup_empty. intros [[<- <-]|[_ ?]]; [|done]. exists []. rewrite (right_id_L [] (++)). split_and!; [constructor|done..].
      * intros (sel & Hsel & -> & _ & ->). apply Forall2_nil_inv_l in Hsel as ->. rewrite (right_id_L [] (++)).
        apply lookup_insert.
    + eexists. split; [done|]. split; [done|]. intros G c. cbn [ssb_new ss_map]. rewrite lookup_empty. split; [done|].
      intros (sel & Hsel & -> & Hsv & ->). apply Forall2_nil_inv_l in Hsel as ->. rewrite (right_id_L [] (++)) in Hsv.
      apply Hvm, (is_all_values_match_spec (sub o 0)) in Hsv. congruence.
  - cbn [cross_join]. unfold ss_items. rewrite fmap_cons in *.
    assert (forall (F : gmap graph Z), F ∈ Ds ++ ss_map g0 :: (ss_map <$> Gs) <-> F ∈ (Ds ++ [ss_map g0]) ++ (ss_map <$> Gs)) as Hmem.
    { intros F. by rewrite <- app_assoc. }
    assert (separate (Ds ++ [ss_map g0] ++ (ss_map <$> Gs))) as Hs' by done. rewrite app_assoc in Hs'.
    match goal with |- context [for_res ?f _ _ _] => set (fn := f) end.
    pose proof (for_res_map_ind (fun D r => ss_cp r = cp /\ forall G c, ss_map r !! G = Some c <->
        exists g d, D !! g = Some d /\ prod_from (J ++ [(g, d)]) (ss_map <$> Gs) G c) (fun _ => False)
        fn (sub o 0) (sub o 1) (ssb_new cp) (ss_map g0)) as H.
    assert (forall g d, ss_map g0 !! g = Some d -> g ∉ J.*1) as Hfresh.
    { intros g d Hgd Hin. apply elem_of_list_fmap in Hin as ([g' c] & Heq & Hin). simpl in Heq. subst g'.
      destruct (picked_elem _ _ _ HJ Hin) as (F & HF & Hl). simpl in Hl.
      assert (separate (ss_map g0 :: Ds)) as Hs0.
      { apply (separate_app_l _ (ss_map <$> Gs)). rewrite <- (Permutation_cons_append Ds) in Hs'. done. }
      apply separate_cons in Hs0 as [Ha _]. destruct (Ha F HF) as [Ha1 _]. apply (Ha1 g g); [by eexists|by eexists|].
      apply (overlap_refl cp). eapply gf_graph; [apply Hg|by eexists]. rewrite elem_of_app, elem_of_cons. auto. }
    assert (forall g d, ss_map g0 !! g = Some d -> picked (Ds ++ [ss_map g0]) (J ++ [(g, d)])) as HJ'.
    { intros g d Hgd. apply picked_app; [done|]. by constructor. }
    assert (forall D g d r o', ss_map g0 !! g = Some d -> D !! g = None -> D ⊆ ss_map g0 ->
      (ss_cp r = cp /\ forall G c, ss_map r !! G = Some c <->
        exists g d, D !! g = Some d /\ prod_from (J ++ [(g, d)]) (ss_map <$> Gs) G c) ->
      match fn o' r (g, d) with
      | Ok r' => ss_cp r' = cp /\ forall G c, ss_map r' !! G = Some c <->
          exists g' d', <[g := d]> D !! g' = Some d' /\ prod_from (J ++ [(g', d')]) (ss_map <$> Gs) G c
      | Err _ => False
      end) as Hstep.
    { intros D g d r o' Hgd HDn HDs [Hrc Hr]. unfold fn.
      assert (ss_cp g0 = cp) as Hg0 by (apply Hcp; left).
      rewrite add_fresh; cbn [sample_of s_cp s_g ss_cp ss_map].
      2:{ by rewrite Hg0. }
      2:{ apply not_elem_of_list_to_map. by eapply Hfresh. }
      rewrite <- NoDup_fst_lookup; [| |by eapply Hfresh].
      2:{ apply (picked_NoDup cp Ds); [by eapply separate_app_l| |done]. intros F HF. apply Hg. rewrite elem_of_app. auto. }
      destruct (IH (sub o' 0) (Ds ++ [ss_map g0]) (J ++ [(g, d)])) as (x & Hx & Hxc & Hxs).
      { done. }
      { intros F. rewrite <- Hmem. apply Hg. }
      { by apply HJ'. }
      { intros grp Hgrp. apply Hcp. by right. }
      { intros F h. rewrite <- Hmem. apply Hv. }
      { left. by destruct J. }
      rewrite Hx. cbn [mbind res_bind].
      assert (ss_map r ##ₘ ss_map x) as Hdisj.
      { apply map_disjoint_spec. intros G c1 c2 H1 H2. apply Hr in H1 as (g' & d' & HD & (sel & Hp & HG & Hsv & _)).
        apply Hxs in H2 as (sel' & Hp' & HG' & _ & _).
        assert ((J ++ [(g', d')]) ++ sel = (J ++ [(g, d)]) ++ sel') as Heq.
        { apply (picked_determined cp (Ds ++ ss_map g0 :: (ss_map <$> Gs)) _ _ G); [done|done| | | | |done].
          - rewrite <- app_assoc. apply picked_app; [done|]. constructor; [|done]. by eapply lookup_weaken.
          - rewrite <- app_assoc. apply picked_app; [done|]. by constructor.
          - by apply merged_merge.
          - by apply merged_merge. }
        rewrite <- !app_assoc in Heq. apply app_inv_head in Heq. injection Heq as -> -> _. congruence. }
      rewrite add_all_fresh; [|congruence|done]. cbn [ss_cp ss_map]. split; [done|]. intros G c.
      rewrite lookup_union_Some by done. rewrite Hr, Hxs. split.
      - intros [(g' & d' & HD & HP)|HP].
        + exists g', d'. split; [|done]. rewrite lookup_insert_ne; [done|]. by intros <-; simplify_eq.
        + exists g, d. by rewrite lookup_insert.
      - intros (g' & d' & HD & HP). apply lookup_insert_Some in HD as [[<- <-]|[_ HD]]; [by right|left; eauto]. }
    assert (ss_cp (ssb_new cp) = cp /\ forall G c, ss_map (ssb_new cp) !! G = Some c <->
        exists g d, (∅ : gmap graph Z) !! g = Some d /\ prod_from (J ++ [(g, d)]) (ss_map <$> Gs) G c) as H0.
    { split; [done|]. intros G c. cbn [ssb_new ss_map]. rewrite lookup_empty. split; [done|]. intros (g & d & Hd & _).
      by rewrite lookup_empty in Hd. }
    specialize (H H0 ltac:(intros; by apply Hstep)).
    destruct (for_res fn (sub o 0) (ssb_new cp) (iter_map (sub o 1) (ss_map g0))) as [r|e]; [|done].
    exists r. split; [done|]. destruct H as [Hrc Hr]. split; [done|]. intros G c. rewrite Hr. unfold prod_from. split.
    + intros (g & d & Hgd & sel & Hp & HG & Hsv & Hc). exists ((g, d) :: sel). rewrite <- app_assoc in HG, Hc.
      split_and!; [by constructor|done..].
    + intros (sel & Hp & HG & Hsv & Hc). apply Forall2_cons_inv_l in Hp as ([g d] & sel' & Hgd & Hp & ->).
      exists g, d. split; [done|]. exists sel'. rewrite <- app_assoc. done.
Qed.


(** ** Selections and picks *)

Lemma selection_picked R P ss Fs :
  (forall F, F ∈ Fs -> F <> ∅ /\ forall g, is_Some (F !! g) ->
     forall h c, F !! h = Some c <-> ss_map ss !! h = Some c /\ P h /\ R g h) ->
  (forall g, contains ss g -> P g -> exists F, F ∈ Fs /\ is_Some (F !! g)) -> NoDup Fs ->
  forall G c, joint R P ss G c <-> prod_of Fs G c.
Proof.
  intros Hcl Hcov Hnd G c.
  assert (forall F F' g, F ∈ Fs -> F' ∈ Fs -> is_Some (F !! g) -> is_Some (F' !! g) -> F = F') as Huniq.
  { intros F F' g HF HF' Hg Hg'. apply map_eq. intros h. apply option_eq. intros d.
    rewrite (proj2 (Hcl F HF) g Hg), (proj2 (Hcl F' HF') g Hg'). done. }
  assert (forall sel, picked Fs sel -> selection R P ss sel) as Hps.
  { intros sel Hp.
    assert (forall i g c, sel !! i = Some (g, c) -> exists F, Fs !! i = Some F /\ F !! g = Some c) as Hl.
    { intros i g d Hi. destruct (Forall2_lookup_r _ _ _ _ _ Hp Hi) as (F & HF & H). eauto. }
    assert (forall i j g g' c c' F, sel !! i = Some (g, c) -> sel !! j = Some (g', c') -> F ∈ Fs ->
      is_Some (F !! g) -> is_Some (F !! g') -> i = j) as Hij.
    { intros i j g g' d d' F Hi Hj HF Hg Hg'. destruct (Hl i g d Hi) as (F1 & H1 & H1'). destruct (Hl j g' d' Hj) as (F2 & H2 & H2').
      assert (F1 = F2) as ->.
      { transitivity F.
        - apply (Huniq _ _ g); [by eapply elem_of_list_lookup_2|done|by eexists|done].
        - apply (Huniq _ _ g'); [done|by eapply elem_of_list_lookup_2|done|by eexists]. }
      by eapply NoDup_lookup. }
    assert (forall g, g ∈ sel.*1 -> exists i c, sel !! i = Some (g, c)) as Hin.
    { intros g Hg. apply elem_of_list_fmap in Hg as ([g' d] & -> & Hg). apply elem_of_list_lookup in Hg as [i Hi]. eauto. }
    split_and!.
    - apply NoDup_alt. intros i j g Hi Hj. rewrite list_lookup_fmap in Hi, Hj.
      destruct (sel !! i) as [[g1 c1]|] eqn:H1; [|done]. destruct (sel !! j) as [[g2 c2]|] eqn:H2; [|done]. simpl in *. simplify_eq.
      destruct (Hl i g c1 H1) as (F & HF & HFg). apply (Hij i j g g c1 c2 F); [done|done| |by eexists|by eexists].
      by eapply elem_of_list_lookup_2.
    - intros g d Hg. destruct (picked_elem _ _ _ Hp Hg) as (F & HF & HFg). simpl in *.
      apply (proj2 (Hcl F HF) g ltac:(by eexists)) in HFg. tauto.
    - intros h Hh HPh. destruct (Hcov h Hh HPh) as (F & HF & HFh). apply elem_of_list_lookup in HF as [i Hi].
      destruct (Forall2_lookup_l _ _ _ _ _ Hp Hi) as ([g d] & Hs & Hgd). simpl in *. exists g. split.
      + apply elem_of_list_fmap. exists (g, d). split; [done|]. by eapply elem_of_list_lookup_2.
      + apply elem_of_list_lookup_2 in Hi. apply (proj2 (Hcl F Hi) h HFh) in Hgd. tauto.
    - intros g g' Hg Hg' HR. destruct (Hin g Hg) as (i & d & Hi). destruct (Hin g' Hg') as (j & d' & Hj).
      destruct (Hl i g d Hi) as (F & HF & HFg). destruct (Hl j g' d' Hj) as (F' & HF' & HFg').
      assert (is_Some (F !! g')) as HFs.
      { exists d'. apply elem_of_list_lookup_2 in HF, HF'. apply (proj2 (Hcl F HF) g ltac:(by eexists)).
        apply (proj2 (Hcl F' HF') g' ltac:(by eexists)) in HFg'. tauto. }
      assert (i = j) as ->; [|congruence].
      apply (Hij i j g g' d d' F); [done|done|by eapply elem_of_list_lookup_2|by eexists|done]. }
  split.
  - intros (sel & Hsel & HG & Hsv & ->). destruct Hsel as (S1 & S2 & S3 & S4).
    assert (forall g g' F, F ∈ Fs -> is_Some (F !! g) -> is_Some (F !! g') -> R g g') as HR.
    { intros g g' F HF Hg [d Hd]. apply (proj2 (Hcl F HF) g Hg) in Hd. tauto. }
    assert (forall Fs', (forall F, F ∈ Fs' -> F ∈ Fs) -> exists sel', Forall2 (fun F (gc : graph * Z) => F !! gc.1 = Some gc.2 /\ gc ∈ sel) Fs' sel') as Hex.
    { induction Fs' as [|F Fs' IH]; intros Hsub; [by exists []|].
      destruct IH as [sel' Hsel']; [intros; apply Hsub; by right|].
      assert (F ∈ Fs) as HF by (apply Hsub; left). destruct (Hcl F HF) as [Hne HFc].
      apply map_choose in Hne as (h & d & Hh). pose proof (proj1 (HFc h ltac:(by eexists) h d) Hh) as (Hh1 & Hh2 & _).
      destruct (S3 h ltac:(by eexists) Hh2) as (g & Hg & HRg).
      apply elem_of_list_fmap in Hg as ([g' c'] & -> & Hg). exists ((g', c') :: sel'). constructor; [|done]. split; [|done].
      cbn [fst snd]. apply (HFc h ltac:(by eexists)). destruct (S2 g' c' Hg). done. }
    destruct (Hex Fs ltac:(done)) as (sel' & Hsel').
    assert (picked Fs sel') as Hp.
    { eapply Forall2_impl; [done|]. by intros ? ? [? _]. }
    assert (sel' ≡ₚ sel) as Hperm.
    { pose proof (Hps sel' Hp) as (T1 & T2 & _). apply NoDup_Permutation.
      - by eapply NoDup_fmap_1.
      - by eapply NoDup_fmap_1.
      - intros [g d]. split.
        + intros Hin. apply elem_of_list_lookup in Hin as [i Hi]. destruct (Forall2_lookup_r _ _ _ _ _ Hsel' Hi) as (F & _ & _ & H). done.
        + intros Hin. destruct (S2 g d Hin) as [Hg HPg]. destruct (Hcov g ltac:(by eexists) HPg) as (F & HF & HFg).
          apply elem_of_list_lookup in HF as [i Hi]. destruct (Forall2_lookup_l _ _ _ _ _ Hsel' Hi) as ([g' d'] & Hs & Hgd & Hin').
          simpl in *. assert (g = g') as <-.
          { apply S4; [apply elem_of_list_fmap; by exists (g, d)|apply elem_of_list_fmap; by exists (g', d')|].
            apply (HR g g' F); [by eapply elem_of_list_lookup_2|done|by eexists]. }
          assert (d = d') as <- by (destruct (S2 g d' Hin'); congruence). by eapply elem_of_list_lookup_2. }
    exists sel'. cbn [app]. split_and!; [done| |done|by rewrite Hperm].
    apply merged_merge. eapply merged_ext; [|done]. intros g. by rewrite Hperm.
  - intros (sel & Hp & HG & Hsv & ->). cbn [app] in *. exists sel. split_and!; [by apply Hps|by apply merged_merge|done|done].
Qed.

(** ** Joining on one variable *)

Lemma remove_all_sub o acc (sel : samples) : (forall g, contains sel g -> contains acc g) ->
  exists m, ssb_remove_all o acc sel = (Samples (ss_cp acc) m, Ok tt) /\
    forall g c, m !! g = Some c <-> ss_map acc !! g = Some c /\ ~ contains sel g.
Proof.
  intros Hsub. unfold ssb_remove_all.
  match goal with |- context [for_mut ?f _ _ _] => set (fn := f) end.
  pose proof (for_mut_set_ind (fun Y s => ss_cp s = ss_cp acc /\ forall g c, ss_map s !! g = Some c <-> ss_map acc !! g = Some c /\ g ∉ Y)
    (fun _ _ => False) fn (sub o 0) o acc (ss_samples sel)) as H.
  assert (forall g, g ∈ ss_samples sel <-> contains sel g) as Hss by (intros g; apply elem_of_dom).
  assert (forall Y g s o', g ∈ ss_samples sel -> g ∉ Y -> Y ⊆ ss_samples sel ->
    (ss_cp s = ss_cp acc /\ forall g c, ss_map s !! g = Some c <-> ss_map acc !! g = Some c /\ g ∉ Y) ->
    match fn o' s g with
    | (s', Ok _) => ss_cp s' = ss_cp acc /\ forall h c, ss_map s' !! h = Some c <-> ss_map acc !! h = Some c /\ h ∉ {[g]} ∪ Y
    | _ => False end) as Hstep.
  { intros Y g s o' Hg HY _ [Hc Hs]. unfold fn, ssb_remove. cbn [sample_of s_g].
    apply Hss, Hsub in Hg as [c Hc']. assert (ss_map s !! g = Some c) as -> by by apply Hs.
    cbn [ss_cp ss_map]. split; [done|]. intros h d. rewrite lookup_delete_Some, Hs. rewrite not_elem_of_union, not_elem_of_singleton.
    naive_solver. }
  assert (ss_cp acc = ss_cp acc /\ forall g c, ss_map acc !! g = Some c <-> ss_map acc !! g = Some c /\ g ∉ (∅ : gset graph)) as H0.
  { split; [done|]. intros g c. split; [|tauto]. intros Hg. split; [done|]. apply not_elem_of_empty. }
  specialize (H H0 ltac:(intros; by apply Hstep)).
  destruct (for_mut fn (sub o 0) acc (iter_set o (ss_samples sel))) as [s [[]|e]]; [|done].
  destruct H as [Hc Hs]. destruct s as [cp m]. cbn [ss_cp ss_map] in *. subst cp. exists m. split; [done|].
  intros g c. by rewrite Hs, Hss.
Qed.

Definition with_var (v : Var) (acc : samples) : samples :=
  filter_samples (fun g => bool_decide (v ∈ included_variables g)) acc.

Lemma with_var_contains v acc g : contains (with_var v acc) g <-> contains acc g /\ having v g.
Proof. unfold with_var. rewrite filter_contains, bool_decide_eq_true, included_variables_spec. done. Qed.

Lemma with_var_lookup v acc g c : ss_map (with_var v acc) !! g = Some c <-> ss_map acc !! g = Some c /\ having v g.
Proof. unfold with_var. rewrite filter_lookup, bool_decide_eq_true, included_variables_spec. done. Qed.

Lemma linked_chain v acc g h : linked_on acc v g h <-> chain (with_var v acc) g h.
Proof.
  unfold linked_on, chain. split; intros H; (eapply rtc_subrel; [|exact H]); intros x y; cbv beta; rewrite !with_var_contains; done.
Qed.

Lemma linked_has v acc g h : linked_on acc v g h -> contains acc g -> having v g -> contains acc h /\ having v h.
Proof. intros H Hg Hv. rewrite <- with_var_contains. eapply chain_contains; [by apply linked_chain|]. by apply with_var_contains. Qed.

(** Overlap of graphs without edges passes along chains. *)
Lemma overlap_atom g h : g_edges g = ∅ -> overlap g h -> g_edges h = ∅.
Proof.
  intros He (p & Hp & Hq). destruct p as [v|X]; simpl in *; [by destruct Hq|].
  destruct Hp as (e & Hin & _). rewrite He in Hin. by apply elem_of_empty in Hin.
Qed.

Lemma atom_var cp g v : wf_graph cp g -> g_edges g = ∅ -> having v g -> forall w, having w g -> w = v.
Proof.
  intros Hw He Hv w Hwv. destruct Hv as [x Hx], Hwv as [y Hy].
  assert (g_nodes g <> ∅) as Hne by (intros Hn; rewrite Hn in Hx; by apply elem_of_empty in Hx).
  destruct (wf_single_node cp g Hw He Hne) as [n Hn]. rewrite Hn in Hx, Hy. apply elem_of_singleton in Hx, Hy. congruence.
Qed.

Lemma join_on_spec cp o acc v :
  ss_cp acc = cp -> all_wf cp acc -> all_simple acc -> no_collision_on acc v ->
  (forall g, contains acc g -> g_edges g = ∅ -> having v g -> var_iter v = Some [v]) ->
  match join_on o cp acc v with
  | Ok r => ss_cp r = cp /\ forall G c, ss_map r !! G = Some c <->
      (ss_map acc !! G = Some c /\ lacking v G) \/
      ((exists h, contains acc h /\ having v h) /\ joint (linked_on acc v) (having v) acc G c)
  | Err x => x = AssertionError /\ exists g g', contains acc g /\ contains acc g' /\ having v g /\ having v g' /\
      ~ linked_on acc v g g' /\ forall w, linked_vars acc v g w <-> linked_vars acc v g' w
  end.
Proof.
  intros Hcp Hwf Hsi Hnc Hself. unfold join_on. change (filter_samples _ acc) with (with_var v acc).
  set (sel := with_var v acc).
  assert (forall g, contains sel g -> wf_graph (ss_cp sel) g) as Hwf'.
  { intros g Hg. apply with_var_contains in Hg as [Hg _]. cbn [sel with_var filter_samples ss_cp]. rewrite Hcp. by apply Hwf. }
  assert (no_collision sel) as Hnc'.
  { intros A B HA HB HAB Hp. apply Hnc; [done|done| |done]. intros g Hg. apply with_var_contains. by apply HAB. }
  assert (forall g w, contains sel g -> g_edges g = ∅ -> has_var (g_nodes g) w -> var_iter w = Some [w]) as Hself'.
  { intros g w Hg He Hw. apply with_var_contains in Hg as [Hg Hv].
    rewrite (atom_var cp g v (Hwf g Hg) He Hv w Hw). by apply (Hself g). }
  pose proof (group_spec (sub o 0) sel Hwf' Hnc' Hself') as Hgr.
  assert (forall g w, contains acc g -> having v g -> class_vars sel g w <-> linked_vars acc v g w) as Hcv.
  { intros g w Hg Hv. unfold class_vars, linked_vars. split.
    - intros (h & H1 & H2 & H3). apply with_var_contains in H1 as [H1 H1']. exists h. split_and!; [done|done|by apply linked_chain|done].
    - intros (h & H1 & H1' & H2 & H3). exists h. split_and!; [by apply with_var_contains|by apply linked_chain|done]. }
  destruct (group_intersecting (sub o 0) sel) as [m|x].
  2:{ cbn [mbind res_bind]. destruct Hgr as (-> & g & g' & Hg & Hg' & Hch & Hvs). split; [done|].
      apply with_var_contains in Hg as [Hg Hv], Hg' as [Hg' Hv'].
      exists g, g'. split_and!; [done..| |].
      - intros Hl. apply Hch. by apply linked_chain.
      - intros w. rewrite <- !Hcv by done. apply Hvs. }
  destruct Hgr as [Hgrp Hcov]. cbn [mbind res_bind].
  set (Gs := (iter_map (sub o 2) m).*2).
  assert (forall grp, grp ∈ Gs <-> exists vs, m !! vs = Some grp) as HGs.
  { intros grp. unfold Gs. rewrite elem_of_list_fmap. split.
    - intros ([vs g] & -> & H). apply elem_of_iter_map in H. eauto.
    - intros [vs H]. exists (vs, grp). split; [done|]. by apply elem_of_iter_map. }
  assert (forall F, F ∈ ss_map <$> Gs <-> exists vs grp, m !! vs = Some grp /\ F = ss_map grp) as HFs.
  { intros F. rewrite elem_of_list_fmap. split.
    - intros (grp & -> & H). apply HGs in H as [vs H]. eauto.
    - intros (vs & grp & H & ->). exists grp. split; [done|]. apply HGs. eauto. }
  assert (forall F, F ∈ ss_map <$> Gs -> F <> ∅ /\ forall g, is_Some (F !! g) ->
     forall h c, F !! h = Some c <-> ss_map acc !! h = Some c /\ having v h /\ linked_on acc v g h) as Hclass.
  { intros F HF. apply HFs in HF as (vs & grp & Hm & ->). destruct (Hgrp vs grp Hm) as (_ & g & Hg & Hco & _). split.
    - intros He. destruct Hg as [c Hc]. assert (ss_map grp !! g = Some c) as H by (apply Hco; done). by rewrite He, lookup_empty in H.
    - intros g' [c' Hg'] h c. rewrite linked_chain, (Hco h c). fold sel. unfold sel at 1. rewrite with_var_lookup.
      apply Hco in Hg' as [_ Hch]. split.
      + intros [[H1 H2] H3]. split_and!; [done|done|]. transitivity g; [by apply chain_sym|done].
      + intros (H1 & H2 & H3). split_and!; [done|done|]. by transitivity g'. }
  assert (forall g, contains acc g -> having v g -> exists F, F ∈ ss_map <$> Gs /\ is_Some (F !! g)) as Hcov'.
  { intros g Hg Hv. destruct (Hcov g) as (vs & grp & Hm & Hc); [by apply with_var_contains|].
    exists (ss_map grp). split; [|done]. apply HFs. eauto. }
  assert (forall i j F F' g h, (ss_map <$> Gs) !! i = Some F -> (ss_map <$> Gs) !! j = Some F' ->
    is_Some (F !! g) -> is_Some (F' !! h) -> chain sel g h -> i = j) as Hsame.
  { intros i j F F' g h Hi Hj Hg Hh Hch. rewrite list_lookup_fmap in Hi, Hj.
    destruct (Gs !! i) as [grp|] eqn:HGi; [|done]. destruct (Gs !! j) as [grp'|] eqn:HGj; [|done]. simpl in Hi, Hj. injection Hi as <-. injection Hj as <-.
    unfold Gs in HGi, HGj. rewrite list_lookup_fmap in HGi, HGj.
    destruct (iter_map (sub o 2) m !! i) as [[vs a]|] eqn:Hii; [|done]. destruct (iter_map (sub o 2) m !! j) as [[vs' b]|] eqn:Hjj; [|done].
    simpl in HGi, HGj. injection HGi as ->. injection HGj as ->.
    assert (m !! vs = Some grp) as Hm by (eapply elem_of_iter_map, elem_of_list_lookup_2; done).
    assert (m !! vs' = Some grp') as Hm' by (eapply elem_of_iter_map, elem_of_list_lookup_2; done).
    destruct (Hgrp _ _ Hm) as (_ & g1 & Hg1 & Hco1 & Hv1). destruct (Hgrp _ _ Hm') as (_ & g2 & Hg2 & Hco2 & Hv2).
    assert (chain sel g1 g2) as H12.
    { destruct Hg as [c Hg], Hh as [d Hh]. apply Hco1 in Hg as [_ Hg]. apply Hco2 in Hh as [_ Hh].
      transitivity g; [done|]. transitivity h; [done|]. by apply chain_sym. }
    assert (vs = vs') as ->.
    { apply set_eq. intros w. rewrite Hv1, Hv2. unfold class_vars. split; intros (k & Hk1 & Hk2 & Hk3); exists k; split_and!; try done.
      - transitivity g1; [by apply chain_sym|done].
      - by transitivity g2. }
    pose proof (NoDup_fst_iter_map (sub o 2) m) as Hnd. rewrite NoDup_alt in Hnd. apply (Hnd i j vs'); rewrite list_lookup_fmap.
    - by rewrite Hii.
    - by rewrite Hjj. }
  assert (forall F g, F ∈ ss_map <$> Gs -> is_Some (F !! g) -> contains acc g /\ having v g) as Hhas.
  { intros F g HF [c Hc]. apply (proj2 (Hclass F HF) g ltac:(by eexists)) in Hc as (H1 & H2 & _). split; [by eexists|done]. }
  assert (separate (ss_map <$> Gs)) as Hsep.
  { intros i j F F' Hi Hj Hij g h Hg Hh Ho. apply Hij. apply (Hsame i j F F' g h); [done..|].
    apply rtc_once. split_and!; [| |done]; apply with_var_contains.
    - apply (Hhas F); [by eapply elem_of_list_lookup_2|done].
    - apply (Hhas F'); [by eapply elem_of_list_lookup_2|done]. }
  assert (NoDup (ss_map <$> Gs)) as Hnd.
  { apply NoDup_alt. intros i j F Hi Hj. destruct (Hclass F) as [Hne _]; [by eapply elem_of_list_lookup_2|].
    apply map_choose in Hne as (g & c & Hg). apply (Hsame i j F F g g); [done|done|by eexists|by eexists|done]. }
  assert (forall F, F ∈ ss_map <$> Gs -> good_factor cp F) as Hgood.
  { intros F HF. split.
    - intros g Hg. destruct (Hhas F g HF Hg) as [Hc [x Hx]]. split; [by apply Hwf| |by apply Hsi].
      intros Hn. rewrite Hn in Hx. by apply elem_of_empty in Hx.
    - intros g h Hg Hh He He'. destruct (Hhas F g HF Hg) as [Hc Hv]. destruct (Hhas F h HF Hh) as [Hc' Hv'].
      exists (inl v). by split. }
  assert (forall r : samples, ss_cp r = cp ->
    (forall G c, ss_map r !! G = Some c <-> (exists h, contains acc h /\ having v h) /\ joint (linked_on acc v) (having v) acc G c) ->
    match (match ssb_remove_all (sub o 3) acc sel with
           | (_, Err e) => Err e
           | (acc', Ok _) => match ssb_add_all (sub o 4) acc' r with
                             | (_, Err e) => Err e
                             | (acc'', Ok _) => Ok acc'' end end) with
    | Ok r => ss_cp r = cp /\ forall G c, ss_map r !! G = Some c <->
      (ss_map acc !! G = Some c /\ lacking v G) \/
      ((exists h, contains acc h /\ having v h) /\ joint (linked_on acc v) (having v) acc G c)
    | Err x => x = AssertionError /\ exists g g', contains acc g /\ contains acc g' /\ having v g /\ having v g' /\
      ~ linked_on acc v g g' /\ forall w, linked_vars acc v g w <-> linked_vars acc v g' w
    end) as Hfinish.
  { intros r Hrc Hr.
    destruct (remove_all_sub (sub o 3) acc sel) as (m' & -> & Hm').
    { intros g Hg. by apply with_var_contains in Hg as [? _]. }
    rewrite add_all_fresh; cbn [ss_cp ss_map].
    - split; [done|]. intros G c. rewrite lookup_union_Some_raw.
      assert (m' !! G = Some c <-> ss_map acc !! G = Some c /\ lacking v G) as Hm1.
      { rewrite Hm'. unfold sel. rewrite with_var_contains. split; intros [H1 H2]; (split; [done|]).
        - intros H. apply H2. split; [by eexists|done].
        - intros [_ H]. by apply H2. }
      assert (m' !! G = None \/ m' !! G <> None) as Hdec by (destruct (m' !! G); auto).
      rewrite Hm1, Hr. split; [tauto|]. intros [H|H]; [by left|].
      destruct Hdec as [Hd|Hd]; [by right|exfalso]. destruct (m' !! G) as [d|] eqn:Hd'; [|done].
      destruct H as [[h Hh] (s & (_ & S2 & S3 & _) & HG & _)]. destruct Hh as [Hh Hv].
      apply Hm' in Hd' as [Hd1 Hd2]. apply Hd2. apply with_var_contains. split; [by eexists|].
      destruct (S3 h Hh Hv) as (k & Hk & _). pose proof Hk as Hk'. apply elem_of_list_fmap in Hk' as ([k' e] & -> & Hk').
      destruct (S2 _ _ Hk') as [_ [x Hx]]. exists x. by eapply (merged_sub s.*1).
    - congruence.
    - apply map_disjoint_spec. intros G c d H1 H2. apply Hm' in H1 as [H1 H1']. apply H1'. apply with_var_contains. split; [by eexists|].
      apply Hr in H2 as [[h [Hh Hv]] (s & (_ & S2 & S3 & _) & HG & _)].
      destruct (S3 h Hh Hv) as (k & Hk & _). pose proof Hk as Hk'. apply elem_of_list_fmap in Hk' as ([k' e] & -> & Hk').
      destruct (S2 _ _ Hk') as [_ [x Hx]]. exists x. by eapply (merged_sub s.*1). }
  destruct (decide (Gs = [])) as [Hnil|Hnn].
  - rewrite Hnil. cbn [cross_join]. assert (ss_bool (ssb_new cp) = false) as ->.
    { unfold ss_bool. apply bool_decide_eq_false. intros H. by apply H. }
    cbn [andb mbind res_bind]. apply Hfinish; [done|]. intros G c. cbn [ssb_new ss_map]. rewrite lookup_empty. split; [done|].
    intros [(h & Hh & Hv) _]. destruct (Hcov' h Hh Hv) as (F & HF & _). rewrite Hnil in HF. by apply elem_of_nil in HF.
  - destruct (cross_join_spec cp v Gs (sub o 1) [] []) as (r & Hr & Hrc & Hrs).
    + done.
    + done.
    + constructor.
    + intros grp Hg. apply HGs in Hg as [vs Hg]. destruct (Hgrp _ _ Hg) as [-> _]. done.
    + intros F g HF Hg. by apply (Hhas F g HF Hg).
    + by right.
    + cbn [list_to_map foldr] in Hr. change (ssb_new cp) with (Samples cp ∅). rewrite Hr. cbn [mbind res_bind].
      apply Hfinish; [done|]. intros G c. rewrite Hrs. change (prod_from [] (ss_map <$> Gs) G c) with (prod_of (ss_map <$> Gs) G c).
      rewrite <- (selection_picked (linked_on acc v) (having v) acc (ss_map <$> Gs) Hclass Hcov' Hnd). split; [|tauto].
      intros Hj. split; [|done]. destruct Gs as [|grp Gs']; [done|].
      destruct (Hclass (ss_map grp)) as [Hne _]; [left|]. apply map_choose in Hne as (g & c' & Hg). exists g.
      eapply Hhas; [left|by eexists].
Qed.

End join_facts.
