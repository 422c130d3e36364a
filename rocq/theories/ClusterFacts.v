(** * ClusterFacts: joining the factors of a factorized space. *)

From Verif Require Export JoinFacts.

Section cluster_facts.
Context {U : Universe}.

Implicit Types (F D : gmap graph Z) (Fs Ds : list (gmap graph Z)) (sel J : list (graph * Z)) (G g h : graph).

(** ** Lists of factors *)

Record factor_list (cp : provider) Ds : Prop := {
  fl_sep : separate Ds;
  fl_good : forall D, D ∈ Ds -> good_factor cp D;
  fl_hom : forall D g h, D ∈ Ds -> is_Some (D !! g) -> is_Some (D !! h) -> same_pairs g h;
  fl_ne : forall D, D ∈ Ds -> D <> ∅;
  fl_sv : forall D g, D ∈ Ds -> is_Some (D !! g) -> single_valued (g_nodes g)
}.

Definition fvar D (v : Var) : Prop := exists g, is_Some (D !! g) /\ having v g.

Lemma fl_graph cp Ds D g : factor_list cp Ds -> D ∈ Ds -> is_Some (D !! g) -> good_graph cp g.
Proof. intros H HD Hg. eapply gf_graph; [by eapply fl_good|done]. Qed.

Global Instance factor_list_perm cp : Proper ((≡ₚ) ==> iff) (factor_list cp).
Proof.
  assert (forall Ds Ds', Ds ≡ₚ Ds' -> factor_list cp Ds -> factor_list cp Ds') as H.
  { intros Ds Ds' Hp [H1 H2 H3 H4 H5]. split; [by rewrite <- Hp|setoid_rewrite <- Hp..]; done. }
  intros Ds Ds' Hp. split; apply H; [done|by symmetry].
Qed.

Lemma factor_list_app_l cp Ds Ds' : factor_list cp (Ds ++ Ds') -> factor_list cp Ds.
Proof.
  intros [H1 H2 H3 H4 H5]. split; [by eapply separate_app_l| | | |]; intros D.
  - intros HD. apply H2. apply elem_of_app. auto.
  - intros g h HD. apply H3. apply elem_of_app. auto.
  - intros HD. apply H4. apply elem_of_app. auto.
  - intros g HD. apply H5. apply elem_of_app. auto.
Qed.

Lemma factor_list_app_r cp Ds Ds' : factor_list cp (Ds ++ Ds') -> factor_list cp Ds'.
Proof. rewrite (Permutation_app_comm Ds Ds'). apply factor_list_app_l. Qed.

Lemma same_overlap cp g h : good_graph cp g -> same_pairs g h -> overlap g h.
Proof.
  intros Hg Hs. destruct (overlap_refl cp g Hg) as (p & Hp & _). exists p. split; [done|]. by apply Hs.
Qed.

Lemma fl_index cp Ds i j D D' g h : factor_list cp Ds -> Ds !! i = Some D -> Ds !! j = Some D' ->
  is_Some (D !! g) -> is_Some (D' !! h) -> overlap g h -> i = j.
Proof.
  intros Hf Hi Hj Hg Hh Ho. destruct (decide (i = j)) as [|Hij]; [done|].
  exfalso. exact (fl_sep _ _ Hf i j D D' Hi Hj Hij g h Hg Hh Ho).
Qed.

Lemma fl_same cp Ds D D' g h : factor_list cp Ds -> D ∈ Ds -> D' ∈ Ds ->
  is_Some (D !! g) -> is_Some (D' !! h) -> overlap g h -> D = D'.
Proof.
  intros Hf HD HD' Hg Hh Ho. apply elem_of_list_lookup in HD as [i Hi], HD' as [j Hj].
  assert (i = j) as -> by by eapply (fl_index cp Ds i j D D' g h). congruence.
Qed.

Lemma fl_NoDup cp Ds : factor_list cp Ds -> NoDup Ds.
Proof.
  intros Hf. apply NoDup_alt. intros i j D Hi Hj.
  assert (D ∈ Ds) as HD by by eapply elem_of_list_lookup_2.
  destruct (map_choose D (fl_ne _ _ Hf D HD)) as (g & c & Hg).
  eapply (fl_index cp Ds i j D D g g); [done|done|done|by eexists|by eexists|].
  apply (overlap_refl cp). eapply fl_graph; [done|done|by eexists].
Qed.

Lemma same_pairs_vars cp g h v : wf_graph cp g -> wf_graph cp h -> same_pairs g h -> having v g <-> having v h.
Proof.
  intros Hg Hh Hs. unfold having. rewrite (wf_vars cp g v Hg), (wf_vars cp h v Hh).
  pose proof (Hs (inl v)) as H1. split; (intros [H|(X & HX & Hv)]; [left; by apply H1|right; exists X; split; [by apply Hs|done]]).
Qed.

Lemma fvar_all cp Ds D v g : factor_list cp Ds -> D ∈ Ds -> is_Some (D !! g) -> fvar D v <-> having v g.
Proof.
  intros Hf HD Hg. split; [|by exists g]. intros (h & Hh & Hv).
  eapply (same_pairs_vars cp h g); [..|done].
  - by eapply gg_wf, fl_graph.
  - by eapply gg_wf, fl_graph.
  - by eapply fl_hom.
Qed.

(** ** Merged graphs *)

Lemma having_merge l v : having v (merge l) <-> exists g, g ∈ l /\ having v g.
Proof.
  unfold having, has_var. setoid_rewrite (proj1 (merge_spec l)). naive_solver.
Qed.

Lemma pairs_merge_inr l X : var_pairs (merge l) (inr X) <-> exists g, g ∈ l /\ var_pairs g (inr X).
Proof.
  simpl. setoid_rewrite (proj2 (merge_spec l)). naive_solver.
Qed.

Lemma edges_merge_empty l : g_edges (merge l) = ∅ <-> forall g, g ∈ l -> g_edges g = ∅.
Proof.
  split.
  - intros He g Hg. apply set_eq. intros e. split; [|by intros ?%elem_of_empty]. intros Hin. rewrite <- He.
    apply (merge_spec l). eauto.
  - intros H. apply set_eq. intros e. split; [|by intros ?%elem_of_empty]. intros Hin.
    apply (merge_spec l) in Hin as (g & Hg & He). by rewrite (H g Hg) in He.
Qed.

Lemma picked_lookup Fs sel sel' g : picked Fs sel -> picked Fs sel' -> g ∈ sel.*1 ->
  exists F g', F ∈ Fs /\ is_Some (F !! g) /\ is_Some (F !! g') /\ g' ∈ sel'.*1.
Proof.
  intros Hp Hp' Hg. apply elem_of_list_fmap in Hg as ([g0 c] & -> & Hg). apply elem_of_list_lookup in Hg as [i Hi].
  destruct (Forall2_lookup_r _ _ _ _ _ Hp Hi) as (F & HF & Hl).
  destruct (Forall2_lookup_l _ _ _ _ _ Hp' HF) as ([g' c'] & Hi' & Hl'). simpl in *.
  exists F, g'. split_and!; [by eapply elem_of_list_lookup_2|by eexists|by eexists|].
  apply elem_of_list_fmap. exists (g', c'). split; [done|]. by eapply elem_of_list_lookup_2.
Qed.

Lemma merged_same_pairs cp Fs sel sel' : factor_list cp Fs -> picked Fs sel -> picked Fs sel' ->
  same_pairs (merge sel.*1) (merge sel'.*1).
Proof.
  intros Hf. assert (forall sel sel' p, picked Fs sel -> picked Fs sel' -> var_pairs (merge sel.*1) p -> var_pairs (merge sel'.*1) p) as H.
  { clear sel sel'. intros sel sel' [v|X] Hp Hp' Hv.
    - destruct Hv as [He Hv]. rewrite edges_merge_empty in He. split.
      + apply edges_merge_empty. intros g' Hg'. destruct (picked_lookup _ _ _ _ Hp' Hp Hg') as (F & g & HF & H1 & H2 & Hg).
        apply (overlap_atom g); [by apply He|]. apply (same_overlap cp); [by eapply fl_graph|by eapply fl_hom].
      + apply having_merge in Hv as (g & Hg & Hv). destruct (picked_lookup _ _ _ _ Hp Hp' Hg) as (F & g' & HF & H1 & H2 & Hg').
        apply having_merge. exists g'. split; [done|]. apply (fvar_all cp Fs F v g'); [done..|]. by exists g.
    - apply pairs_merge_inr in Hv as (g & Hg & Hv). destruct (picked_lookup _ _ _ _ Hp Hp' Hg) as (F & g' & HF & H1 & H2 & Hg').
      apply pairs_merge_inr. exists g'. split; [done|]. by apply (fl_hom _ _ Hf F g g'). }
  intros Hp Hp' p. split; by apply H.
Qed.

Lemma merged_apart cp Fs Fs' sel sel' : factor_list cp (Fs ++ Fs') -> picked Fs sel -> picked Fs' sel' ->
  ~ overlap (merge sel.*1) (merge sel'.*1).
Proof.
  intros Hf Hp Hp' (p & H1 & H2).
  assert (forall g g', g ∈ sel.*1 -> g' ∈ sel'.*1 -> ~ overlap g g') as Hno.
  { intros g g' Hg Hg' Ho. apply elem_of_list_fmap in Hg as ([g0 c] & -> & Hg), Hg' as ([g0' c'] & -> & Hg').
    apply elem_of_list_lookup in Hg as [i Hi], Hg' as [j Hj].
    destruct (Forall2_lookup_r _ _ _ _ _ Hp Hi) as (F & HF & Hl). destruct (Forall2_lookup_r _ _ _ _ _ Hp' Hj) as (F' & HF' & Hl').
    simpl in *. assert (i = length Fs + j) as Hij.
    { eapply (fl_index cp (Fs ++ Fs') i (length Fs + j) F F' g0 g0'); [done| | |by eexists|by eexists|done].
      - by apply lookup_app_l_Some.
      - rewrite lookup_app_r by lia. by replace (length Fs + j - length Fs) with j by lia. }
    apply lookup_lt_Some in HF. lia. }
  destruct p as [v|X].
  - destruct H1 as [He Hv], H2 as [He' Hv']. apply having_merge in Hv as (g & Hg & Hv), Hv' as (g' & Hg' & Hv').
    apply (Hno g g' Hg Hg'). exists (inl v). rewrite edges_merge_empty in He, He'. split; (split; [auto|done]).
  - apply pairs_merge_inr in H1 as (g & Hg & Hv), H2 as (g' & Hg' & Hv'). apply (Hno g g' Hg Hg'). by exists (inr X).
Qed.

(** ** Products *)

Lemma prod_of_unfold Fs G c : prod_of Fs G c <->
  exists sel, picked Fs sel /\ G = merge sel.*1 /\ single_valued (g_nodes G) /\ c = product sel.*2.
Proof. done. Qed.

Lemma picked_perm Fs Fs' sel : Fs ≡ₚ Fs' -> picked Fs sel -> exists sel', picked Fs' sel' /\ sel ≡ₚ sel'.
Proof.
  intros Hp. revert sel. induction Hp as [|F Fs Fs' Hp IH|F F' Fs|Fs Fs' Fs'' _ IH1 _ IH2]; intros sel Hs.
  - exists sel. split; [done|done].
  - apply Forall2_cons_inv_l in Hs as (x & sel0 & Hx & Hs & ->). destruct (IH sel0 Hs) as (sel' & Hs' & Hp').
    exists (x :: sel'). split; [by constructor|by rewrite Hp'].
  - apply Forall2_cons_inv_l in Hs as (x & s0 & Hx & Hs & ->). apply Forall2_cons_inv_l in Hs as (y & s1 & Hy & Hs & ->).
    exists (y :: x :: s1). split; [by repeat constructor|by apply perm_swap].
  - destruct (IH1 sel Hs) as (s1 & Hs1 & Hp1). destruct (IH2 s1 Hs1) as (s2 & Hs2 & Hp2). exists s2. split; [done|]. by rewrite Hp1.
Qed.

Lemma merge_perm l l' : l ≡ₚ l' -> merge l = merge l'.
Proof.
  intros Hp. apply (merged_unique l); [apply merge_spec|]. eapply merged_ext; [|apply merge_spec]. intros g. by rewrite Hp.
Qed.

Global Instance prod_of_perm : Proper ((≡ₚ) ==> (=) ==> (=) ==> iff) prod_of.
Proof.
  assert (forall Fs Fs' G c, Fs ≡ₚ Fs' -> prod_of Fs G c -> prod_of Fs' G c) as H.
  { intros Fs Fs' G c Hp (sel & Hs & HG & Hsv & Hc). cbn [app] in *. destruct (picked_perm _ _ _ Hp Hs) as (sel' & Hs' & Hp').
    exists sel'. cbn [app]. split_and!; [done| |done|by rewrite <- Hp'].
    rewrite HG. apply merge_perm. by rewrite Hp'. }
  intros Fs Fs' Hp G ? <- c ? <-. split; apply H; [done|by symmetry].
Qed.

Definition gunion g h : graph := Graph (g_nodes g ∪ g_nodes h) (g_edges g ∪ g_edges h).

Lemma merge_app l l' : merge (l ++ l') = gunion (merge l) (merge l').
Proof.
  unfold merge, gunion. cbn [g_nodes g_edges]. rewrite !fmap_app, !union_list_app_L. done.
Qed.

Lemma prod_of_app Fs Fs' G c : prod_of (Fs ++ Fs') G c <->
  exists G1 c1 G2 c2, prod_of Fs G1 c1 /\ prod_of Fs' G2 c2 /\ G = gunion G1 G2 /\ single_valued (g_nodes G) /\ c = (c1 * c2)%Z.
Proof.
  rewrite prod_of_unfold. split.
  - intros (sel & Hs & HG & Hsv & Hc). apply Forall2_app_inv_l in Hs as (s1 & s2 & H1 & H2 & ->).
    rewrite fmap_app, merge_app in HG. rewrite fmap_app, product_app in Hc.
    exists (merge s1.*1), (product s1.*2), (merge s2.*1), (product s2.*2). split_and!; [| |done..].
    + exists s1. split_and!; [done|done| |done]. intros v x y Hx Hy. apply (Hsv v); rewrite HG; cbn [gunion g_nodes]; apply elem_of_union; by left.
    + exists s2. split_and!; [done|done| |done]. intros v x y Hx Hy. apply (Hsv v); rewrite HG; cbn [gunion g_nodes]; apply elem_of_union; by right.
  - intros (G1 & c1 & G2 & c2 & (s1 & H1 & -> & _ & ->) & (s2 & H2 & -> & _ & ->) & HG & Hsv & Hc). cbn [app] in *.
    exists (s1 ++ s2). rewrite !fmap_app, merge_app, product_app. split_and!; [by apply picked_app|done..].
Qed.

Lemma merge_single g : merge [g] = g.
Proof. symmetry. apply merged_merge. split; intros x; split; intros H; [exists g| |exists g|]; try (split; [left|done]);
  destruct H as (k & Hk & Hx); apply elem_of_list_singleton in Hk as ->; done. Qed.

Lemma prod_of_single F G c : prod_of [F] G c <-> F !! G = Some c /\ single_valued (g_nodes G).
Proof.
  rewrite prod_of_unfold. split.
  - intros (sel & Hs & HG & Hsv & Hc). apply Forall2_cons_inv_l in Hs as ([g d] & s & Hg & Hs & ->).
    apply Forall2_nil_inv_l in Hs as ->. cbn [fmap list_fmap fst snd product] in *. rewrite merge_single in HG. subst g. split; [|done].
    rewrite Hg. f_equal. lia.
  - intros [HG Hsv]. exists [(G, c)]. cbn [fmap list_fmap fst snd product]. rewrite merge_single. split_and!; [by repeat constructor|done|done|lia].
Qed.

Lemma prod_of_nil G c : prod_of [] G c <-> G = Graph ∅ ∅ /\ c = 1%Z.
Proof.
  rewrite prod_of_unfold. split.
  - intros (sel & Hs & HG & _ & Hc). apply Forall2_nil_inv_l in Hs as ->. done.
  - intros [-> ->]. exists []. split_and!; [constructor|done| |done]. intros v x y Hx. by apply elem_of_empty in Hx.
Qed.

(** Multiplying products. *)
Lemma prod_of_concat Ds (P : list (list (gmap graph Z))) :
  Forall2 (fun D Fs => forall G c, D !! G = Some c <-> prod_of Fs G c) Ds P ->
  forall G c, prod_of Ds G c <-> prod_of (concat P) G c.
Proof.
  intros H. induction H as [|D Fs Ds P HD H IH]; intros G c; [done|].
  cbn [concat]. change (D :: Ds) with ([D] ++ Ds). rewrite !prod_of_app. split.
  - intros (G1 & c1 & G2 & c2 & H1 & H2 & H3). exists G1, c1, G2, c2. split_and!; [|by apply IH|tauto..].
    apply prod_of_single in H1 as [H1 _]. by apply HD.
  - intros (G1 & c1 & G2 & c2 & H1 & H2 & H3). exists G1, c1, G2, c2. split_and!; [|by apply IH|tauto..].
    apply prod_of_single. split; [by apply HD|]. destruct H1 as (sel & _ & _ & Hsv & _). done.
Qed.

(** A joint choice for all factors. *)
Definition feasible Fs : Prop := exists sel, picked Fs sel /\ single_valued (g_nodes (merge sel.*1)).

Global Instance feasible_perm : Proper ((≡ₚ) ==> iff) feasible.
Proof.
  assert (forall Fs Fs', Fs ≡ₚ Fs' -> feasible Fs -> feasible Fs') as H.
  { intros Fs Fs' Hp (sel & Hs & Hsv). destruct (picked_perm _ _ _ Hp Hs) as (sel' & Hs' & Hp'). exists sel'. split; [done|].
    rewrite <- (merge_perm sel.*1); [done|]. by rewrite Hp'. }
  intros Fs Fs' Hp. split; apply H; [done|by symmetry].
Qed.

Lemma feasible_prod Fs : feasible Fs <-> exists G c, prod_of Fs G c.
Proof.
  split.
  - intros (sel & Hs & Hsv). exists (merge sel.*1), (product sel.*2), sel. done.
  - intros (G & c & sel & Hs & HG & Hsv & _). cbn [app] in *. exists sel. split; [done|]. by rewrite <- HG.
Qed.

Lemma feasible_app_l Fs Fs' : feasible (Fs ++ Fs') -> feasible Fs.
Proof.
  rewrite !feasible_prod. intros (G & c & H). apply prod_of_app in H as (G1 & c1 & _ & _ & H & _). eauto.
Qed.

(** Joined factors with a common variable form a factor again. *)
Lemma joined_factor_list cp Ds Es v D' :
  factor_list cp (Ds ++ Es) -> Ds <> [] -> (forall D, D ∈ Ds -> fvar D v) -> feasible Ds ->
  (forall G c, D' !! G = Some c <-> prod_of Ds G c) -> factor_list cp (D' :: Es).
Proof.
  intros Hf Hne Hv Hfe HD'. pose proof (factor_list_app_l _ _ _ Hf) as HfD. pose proof (factor_list_app_r _ _ _ Hf) as HfE.
  assert (forall G, is_Some (D' !! G) -> exists sel, picked Ds sel /\ G = merge sel.*1 /\ single_valued (g_nodes G)) as HD1.
  { intros G [c Hc]. apply HD' in Hc as (sel & Hs & HG & Hsv & _). eauto. }
  assert (forall sel, picked Ds sel -> sel <> []) as Hsne.
  { intros sel Hs ->. apply Forall2_nil_inv_r in Hs. done. }
  assert (forall sel g, picked Ds sel -> g ∈ sel.*1 -> having v g) as Hsv.
  { intros sel g Hs Hg. destruct (picked_lookup _ _ _ _ Hs Hs Hg) as (F & _ & HF & HFg & _ & _).
    apply (fvar_all cp Ds F v g); [done..|]. by apply Hv. }
  assert (good_factor cp D') as Hgood.
  { split.
    - intros G HG. destruct (HD1 G HG) as (sel & Hs & -> & Hsvl). set (o := (fun _ => []) : oracle).
      destruct (join_picked cp o Ds sel v (fl_sep _ _ HfD) (fl_good _ _ HfD) Hs (Hsne sel Hs) (fun g => Hsv sel g Hs) Hsvl)
        as (s & cs & Hj & _ & Hsg & _).
      pose proof (picked_contains cp Ds sel (fl_sep _ _ HfD) (fl_good _ _ HfD) Hs cp) as Hin.
      assert (forall g, contains (Samples cp (list_to_map sel)) g -> wf_graph cp g) as Hwf.
      { intros g Hg. apply Hin in Hg. destruct (picked_lookup _ _ _ _ Hs Hs Hg) as (F & _ & HF & HFg & _ & _).
        apply gg_wf. by apply (fl_graph cp Ds F). }
      pose proof (make_joined_spec o (Samples cp (list_to_map sel)) Hwf) as Hspec. rewrite Hj in Hspec.
      destruct Hspec as (_ & _ & Hu & Hw & _ & Hem & _). rewrite Hsg in Hw, Hu. split; [done| |].
      + destruct sel as [|[g c] sel]; [by destruct (Hsne [] Hs)|]. intros Hn. destruct (Hsv _ g Hs ltac:(left)) as [x Hx].
        assert ((v, x) ∈ g_nodes (merge ((g, c) :: sel).*1)) as Hx'.
        { eapply merged_sub; [apply merge_spec| |exact Hx]. left. }
        rewrite Hn in Hx'. by apply elem_of_empty in Hx'.
      + intros e e' He He'. apply Hu in He, He'. by apply Hem.
    - intros G G' HG HG' He He'. destruct (HD1 G HG) as (sel & Hs & -> & _). destruct (HD1 G' HG') as (sel' & Hs' & -> & _).
      exists (inl v). split; (split; [done|]); apply having_merge.
      + destruct sel as [|[g c] sel]; [by destruct (Hsne [] Hs)|]. exists g. split; [left|]. by apply (Hsv _ g Hs); left.
      + destruct sel' as [|[g c] sel']; [by destruct (Hsne [] Hs')|]. exists g. split; [left|]. by apply (Hsv _ g Hs'); left. }
  split.
  - apply separate_cons. split; [|by eapply fl_sep]. intros E HE.
    assert (apart D' E) as Ha; [|split; [done|by apply apart_sym]].
    intros G g HG Hg. destruct (HD1 G HG) as (sel & Hs & -> & _).
    apply elem_of_list_split in HE as (E1 & E2 & ->).
    assert (factor_list cp (Ds ++ [E])) as Hf'.
    { apply (factor_list_app_l _ _ (E1 ++ E2)). rewrite <- app_assoc. cbn [app]. by rewrite Permutation_middle. }
    destruct Hg as [d Hd]. rewrite <- (merge_single g). change [g] with ([(g, d)].*1).
    eapply (merged_apart cp Ds [E] sel [(g, d)]); [done|done|]. by repeat constructor.
  - intros D [->|HD]%elem_of_cons; [done|by eapply fl_good].
  - intros D g h [->|HD]%elem_of_cons; [|by eapply fl_hom]. intros HG HG'.
    destruct (HD1 _ HG) as (sel & Hs & -> & _). destruct (HD1 _ HG') as (sel' & Hs' & -> & _).
    by apply (merged_same_pairs cp Ds).
  - intros D [->|HD]%elem_of_cons; [|by eapply fl_ne]. apply feasible_prod in Hfe as (G & c & HG). apply HD' in HG.
    intros He. by rewrite He, lookup_empty in HG.
  - intros D g [->|HD]%elem_of_cons; [|by eapply fl_sv]. intros HG. destruct (HD1 _ HG) as (sel & Hs & -> & Hsvl). done.
Qed.

End cluster_facts.
