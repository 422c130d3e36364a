(** * NetFacts: joining a relation graph that holds the factors of a network. *)

From Verif Require Import BaseFacts GraphFacts SpaceFacts CondJoinFacts JoinedFacts SepFacts.
From Verif Require Export SpecNet.

Section net.
Context {U : Universe}.

Lemma f_nodes f a n : n ∈ g_nodes (f_graph f a) <-> n.1 ∈ f_vars f /\ n.2 = a n.1.
Proof.
  simpl. rewrite elem_of_map. split.
  - intros (v & -> & Hv). done.
  - intros [Hv Hn]. exists n.1. split; [|done]. destruct n as [v x]. simpl in *. by subst.
Qed.

Lemma f_edges f a e : e ∈ g_edges (f_graph f a) <->
  exists v w r, (v, w, r) ∈ f_links f /\ e = ({[(v, a v); (w, a w)]}, r).
Proof.
  simpl. rewrite elem_of_map. split.
  - intros ([[v w] r] & -> & Hl). by exists v, w, r.
  - intros (v & w & r & Hl & ->). by exists (v, w, r).
Qed.

Lemma f_having f a v : having v (f_graph f a) <-> v ∈ f_vars f.
Proof.
  unfold having, has_var. split.
  - intros [x Hx]. by apply f_nodes in Hx as [? _].
  - intros Hv. exists (a v). by apply f_nodes.
Qed.

Lemma f_has f a v x : has v x (f_graph f a) <-> v ∈ f_vars f /\ x = a v.
Proof. unfold has. by rewrite f_nodes. Qed.

Lemma pair_has_var (v w : Var) (x y : Val) (u : Var) : has_var ({[(v, x); (w, y)]} : gset node) u <-> u ∈ ({[v; w]} : gset Var).
Proof.
  unfold has_var. rewrite elem_of_union, !elem_of_singleton. split.
  - intros [z Hz]. rewrite elem_of_union, !elem_of_singleton in Hz. destruct Hz as [[= -> ->]|[= -> ->]]; auto.
  - intros [->| ->]; [exists x|exists y]; rewrite elem_of_union, !elem_of_singleton; auto.
Qed.

Lemma f_pairs f a p : var_pairs (f_graph f a) p <->
  match p with
  | inr X => exists v w r, (v, w, r) ∈ f_links f /\ X = {[v; w]}
  | inl v => f_links f = ∅ /\ v ∈ f_vars f
  end.
Proof.
  destruct p as [v|X]; simpl.
  - change (g_edges (f_graph f a) = ∅ /\ having v (f_graph f a) <-> f_links f = ∅ /\ v ∈ f_vars f).
    rewrite f_having. enough (g_edges (f_graph f a) = ∅ <-> f_links f = ∅) by tauto. split; intros He.
    + apply set_eq. intros [[v' w] r]. split; [|intros H; by apply not_elem_of_empty in H]. intros Hl. exfalso.
      assert (({[(v', a v'); (w, a w)]}, r) ∈ g_edges (f_graph f a)) as Hin by (apply f_edges; by exists v', w, r).
      rewrite He in Hin. by apply not_elem_of_empty in Hin.
    + simpl. rewrite He. apply set_map_empty.
  - split.
    + intros (e & He & HX). apply f_edges in He as (v & w & r & Hl & ->). exists v, w, r. split; [done|].
      apply set_eq. intros u. rewrite HX. apply pair_has_var.
    + intros (v & w & r & Hl & ->). exists ({[(v, a v); (w, a w)]}, r). split; [apply f_edges; by exists v, w, r|].
      intros u. symmetry. apply pair_has_var.
Qed.

Lemma f_same_pairs f a b : same_pairs (f_graph f a) (f_graph f b).
Proof. intros p. by rewrite !f_pairs. Qed.

Lemma f_overlap f f' a b : overlap (f_graph f a) (f_graph f' b) <-> clash f f'.
Proof.
  unfold overlap. split.
  - intros (p & Hp & Hp'). apply f_pairs in Hp. apply f_pairs in Hp'. destruct p as [v|X].
    + right. destruct Hp, Hp'. split_and!; [done|done|by exists v].
    + left. destruct Hp as (v & w & r & Hl & ->), Hp' as (v' & w' & r' & Hl' & He). by exists v, w, r, v', w', r'.
  - intros [(v & w & r & v' & w' & r' & Hl & Hl' & He)|(He & He' & v & Hv & Hv')].
    + exists (inr {[v; w]}). rewrite !f_pairs. split; [by exists v, w, r|by exists v', w', r'].
    + exists (inl v). by rewrite !f_pairs.
Qed.

Lemma f_self_clash cp f : factor_ok cp f -> clash f f.
Proof.
  intros Hf. destruct (decide (f_links f = ∅)) as [He|He].
  - right. destruct (set_choose_L _ (fk_vars _ _ Hf)) as [v Hv]. by split_and!; [..|exists v].
  - left. destruct (set_choose_L _ He) as [[[v w] r] Hl]. by exists v, w, r, v, w, r.
Qed.

Lemma same_pairs_clash cp f f' a b : factor_ok cp f -> same_pairs (f_graph f a) (f_graph f' b) -> clash f f'.
Proof.
  intros Hf Hs. apply (f_overlap f f' a b).
  destruct (proj2 (f_overlap f f a a) (f_self_clash cp f Hf)) as (p & Hp & _). exists p. split; [done|by apply Hs].
Qed.

Lemma f_graph_ext cp f a b : factor_ok cp f -> (forall v, v ∈ f_vars f -> a v = b v) -> f_graph f a = f_graph f b.
Proof.
  intros Hf Hab. unfold f_graph. f_equal; apply set_eq; intros x; rewrite !elem_of_map.
  - split; intros (v & -> & Hv); exists v; [by rewrite Hab|by rewrite <- Hab].
  - split; intros ([[v w] r] & -> & Hl); exists (v, w, r); simpl; (split; [|done]);
      destruct (fk_links _ _ Hf v w r Hl) as (Hv & Hw & _); by rewrite (Hab v Hv), (Hab w Hw).
Qed.

Lemma rtc_mapped {A B} (R : A -> A -> Prop) (S : B -> B -> Prop) (h : A -> B) x y :
  (forall x y, R x y -> S (h x) (h y)) -> rtc R x y -> rtc S (h x) (h y).
Proof. intros HRS. induction 1; [apply rtc_refl|eapply rtc_l; [by apply HRS|done]]. Qed.

Lemma f_graph_wf cp f a : factor_ok cp f -> admissible cp (f_vars f) a -> wf_graph cp (f_graph f a).
Proof.
  intros Hf Ha. split.
  - intros n Hn. apply f_nodes in Hn as [Hv Hn]. destruct n as [v x]. simpl in *. subst. by apply Ha.
  - intros e He. apply f_edges in He as (v & w & r & Hl & ->). destruct (fk_links _ _ Hf v w r Hl) as (Hv & Hw & Hne & Hr).
    split_and!.
    + by exists (v, a v), (w, a w).
    + intros n. simpl. rewrite elem_of_union, !elem_of_singleton. intros [->| ->]; by apply Ha.
    + simpl. destruct r as [r|s t r]; simpl; [done|]. rewrite !pair_has_var. done.
  - intros e He n Hn. apply f_edges in He as (v & w & r & Hl & ->). destruct (fk_links _ _ Hf v w r Hl) as (Hv & Hw & _).
    simpl in Hn. rewrite elem_of_union, !elem_of_singleton in Hn. apply f_nodes. by destruct Hn as [->| ->].
  - intros x y Hx Hy. apply f_nodes in Hx as [Hvx Hx]. apply f_nodes in Hy as [Hvy Hy].
    destruct x as [v x], y as [w y]. simpl in *. subst.
    apply (rtc_mapped (linked_in f) (link (g_edges (f_graph f a))) (fun v => (v, a v))); [|by apply (fk_linked _ _ Hf)].
    intros u u' [r [Hl|Hl]]; (eexists; split; [apply f_edges; do 3 eexists; split; [exact Hl|done]|]); simpl;
      rewrite !elem_of_union, !elem_of_singleton; auto.
Qed.

Lemma f_graph_single f a : single_valued (g_nodes (f_graph f a)).
Proof. intros v x y Hx Hy. apply f_nodes in Hx as [_ Hx]. apply f_nodes in Hy as [_ Hy]. simpl in *. by subst. Qed.

Lemma f_graph_simple cp f a : factor_ok cp f -> simple (g_edges (f_graph f a)).
Proof.
  intros Hf e e' He He' Heq. apply f_edges in He as (v & w & r & Hl & ->). apply f_edges in He' as (v' & w' & r' & Hl' & ->).
  simpl in Heq. f_equal; [done|]. apply (fk_simple _ _ Hf v w r v' w' r'); [done..|].
  apply set_eq. intros u. by rewrite <- (pair_has_var v w (a v) (a w) u), Heq, pair_has_var.
Qed.

(** ** A space that holds a network *)
Context (sp : space) (fs : list factor).
Context (Hok : net_ok (sp_cp sp) fs) (Hsp : holds_net sp fs).

Local Notation cp := (sp_cp sp).

Lemma net_contains g : contains (sp_out sp) g <->
  exists f a, f ∈ fs /\ admissible cp (f_vars f) a /\ g = f_graph f a.
Proof.
  unfold contains, is_Some. split.
  - intros [c Hc]. destruct (proj1 (proj2 Hsp g c)) as (f & a & H1 & H2 & H3 & _); [|by exists f, a].
    unfold count_of. by rewrite Hc.
  - intros (f & a & Hf & Ha & ->). assert (count_of (sp_out sp) (f_graph f a) = Ok (f_table f a)) as Hc.
    { apply (proj2 Hsp). by exists f, a. }
    unfold count_of in Hc. destruct (ss_map (sp_out sp) !! f_graph f a) as [c|]; [by exists c|done].
Qed.

Lemma net_map g c : ss_map (sp_out sp) !! g = Some c <->
  exists f a, f ∈ fs /\ admissible cp (f_vars f) a /\ g = f_graph f a /\ c = f_table f a.
Proof.
  rewrite <- (proj2 Hsp g c). unfold count_of. destruct (ss_map (sp_out sp) !! g); split; intros; simplify_eq; done.
Qed.

Lemma clash_eq f f' : f ∈ fs -> f' ∈ fs -> clash f f' -> f = f'.
Proof.
  intros [i Hi]%elem_of_list_lookup [j Hj]%elem_of_list_lookup Hc.
  assert (i = j) as -> by (eapply (nt_clash _ _ Hok); [exact Hi|exact Hj|done]). congruence.
Qed.

Lemma factor_admits f : f ∈ fs -> exists a, admissible cp (f_vars f) a.
Proof.
  intros Hf. pose proof (nt_factors _ _ Hok f Hf) as Hfk.
  exists (fun v => match cp_vars cp !! v with Some X => match elements X with x :: _ => x | [] => val_u end | None => val_u end).
  intros v Hv. destruct (fk_values _ _ Hfk v Hv) as (x & X & HX & Hx). simpl in *. exists X. simpl. split; [done|].
  rewrite HX. destruct (elements X) as [|y l] eqn:He.
  - apply elem_of_elements in Hx. rewrite He in Hx. by apply elem_of_nil in Hx.
  - apply elem_of_elements. rewrite He. by left.
Qed.

Lemma net_joinable : joinable sp.
Proof.
  split.
  - apply (proj1 Hsp).
  - intros g Hg. apply net_contains in Hg as (f & a & Hf & Ha & ->). apply f_graph_wf; [by apply (nt_factors _ _ Hok)|done].
  - intros g Hg. apply net_contains in Hg as (f & a & Hf & Ha & ->). apply f_graph_single.
  - intros g Hg. apply net_contains in Hg as (f & a & Hf & Ha & ->). apply (f_graph_simple cp). by apply (nt_factors _ _ Hok).
  - split.
    + intros g Hg. apply net_contains in Hg as (f & a & Hf & Ha & ->).
      destruct (set_choose_L _ (fk_vars _ _ (nt_factors _ _ Hok f Hf))) as [v Hv].
      assert ((v, a v) ∈ g_nodes (f_graph f a)) as Hn by (by apply f_nodes). intros He. rewrite He in Hn. by apply not_elem_of_empty in Hn.
    + intros g h Hg Hh Ho. apply net_contains in Hg as (f & a & Hf & Ha & ->). apply net_contains in Hh as (f' & b & Hf' & Hb & ->).
      apply f_overlap in Ho. rewrite (clash_eq f f' Hf Hf' Ho). apply f_same_pairs.
  - intros g a Hg Ha. apply net_contains in Hg as (f & b & Hf & Hb & ->). exists (f_graph f a). split_and!.
    + apply net_contains. exists f, a. split_and!; [done| |done]. intros v Hv.
      destruct (Ha v) as (h & Hh & Hn); [by apply f_having|].
      apply net_contains in Hh as (f' & b' & Hf' & Hb' & ->). apply f_nodes in Hn as [Hv' Hn]. simpl in *. rewrite Hn. by apply Hb'.
    + apply f_same_pairs.
    + intros v Hv. apply f_having in Hv. by apply f_has.
Qed.

(** ** The joint outcomes *)

Definition entry (a : Var -> Val) (f : factor) : graph * Z := (f_graph f a, f_table f a).

Lemma entries_NoDup a l : (forall f, f ∈ l -> f ∈ fs) ->
  (forall i j f f', l !! i = Some f -> l !! j = Some f' -> clash f f' -> i = j) -> NoDup (entry a <$> l).*1.
Proof.
  intros Hl Hd. apply NoDup_alt. intros i j g. rewrite !list_lookup_fmap. intros Hi Hj.
  destruct (l !! i) as [f|] eqn:Hfi; [|done]. destruct (l !! j) as [f'|] eqn:Hfj; [|done]. simpl in *.
  injection Hi as <-. injection Hj as Hj. apply (Hd i j f f' Hfi Hfj). apply (same_pairs_clash cp f f' a a).
  - apply (nt_factors _ _ Hok). apply Hl. by eapply elem_of_list_lookup_2.
  - intros p. change (var_pairs (f_graph f a) p <-> var_pairs (f_graph f' a) p). unfold f_graph. by rewrite Hj, H.
Qed.

Lemma product_perm (l l' : list Z) : l ≡ₚ l' -> product l = product l'.
Proof. induction 1; simpl; lia. Qed.

Lemma net_nodes a n : n ∈ g_nodes (net_graph fs a) <-> net_vars fs n.1 /\ n.2 = a n.1.
Proof.
  simpl. rewrite elem_of_union_list. split.
  - intros (X & HX & Hn). apply elem_of_list_fmap in HX as (f & -> & Hf). apply f_nodes in Hn as [Hv Hn].
    split; [by exists f|done].
  - intros [(f & Hf & Hv) Hn]. exists (g_nodes (f_graph f a)). split; [apply elem_of_list_fmap; by exists f|by apply f_nodes].
Qed.

Lemma merged_net a G sel : sel ≡ₚ entry a <$> fs -> merged sel.*1 G <-> G = net_graph fs a.
Proof.
  intros Hp.
  assert (forall g, g ∈ sel.*1 <-> exists f, f ∈ fs /\ g = f_graph f a) as Hsel.
  { intros g. rewrite Hp, elem_of_list_fmap. split.
    - intros ([g' c] & -> & Hg). apply elem_of_list_fmap in Hg as (f & [= -> ->] & Hf). by exists f.
    - intros (f & Hf & ->). exists (entry a f). split; [done|]. apply elem_of_list_fmap. by exists f. }
  unfold merged. split.
  - intros [Hn He]. destruct G as [N E]. unfold net_graph. simpl in *. f_equal; apply set_eq; intros x; rewrite elem_of_union_list.
    + rewrite Hn. split.
      * intros (g & Hg & Hx). apply Hsel in Hg as (f & Hf & ->). exists (g_nodes (f_graph f a)).
        split; [apply elem_of_list_fmap; by exists f|done].
      * intros (X & HX & Hx). apply elem_of_list_fmap in HX as (f & -> & Hf). exists (f_graph f a). split; [apply Hsel; by exists f|done].
    + rewrite He. split.
      * intros (g & Hg & Hx). apply Hsel in Hg as (f & Hf & ->). exists (g_edges (f_graph f a)).
        split; [apply elem_of_list_fmap; by exists f|done].
      * intros (X & HX & Hx). apply elem_of_list_fmap in HX as (f & -> & Hf). exists (f_graph f a). split; [apply Hsel; by exists f|done].
  - intros ->. simpl. split; intros x; rewrite elem_of_union_list; split.
    + intros (X & HX & Hx). apply elem_of_list_fmap in HX as (f & -> & Hf). exists (f_graph f a). split; [apply Hsel; by exists f|done].
    + intros (g & Hg & Hx). apply Hsel in Hg as (f & Hf & ->). exists (g_nodes (f_graph f a)).
      split; [apply elem_of_list_fmap; by exists f|done].
    + intros (X & HX & Hx). apply elem_of_list_fmap in HX as (f & -> & Hf). exists (f_graph f a). split; [apply Hsel; by exists f|done].
    + intros (g & Hg & Hx). apply Hsel in Hg as (f & Hf & ->). exists (g_edges (f_graph f a)).
      split; [apply elem_of_list_fmap; by exists f|done].
Qed.

Definition net_admissible (a : Var -> Val) : Prop := forall v, net_vars fs v -> declared cp (v, a v).

Definition read_off (G : graph) (v : Var) : Val :=
  match filter (fun n : Var * Val => n.1 = v) (elements (g_nodes G)) with n :: _ => n.2 | [] => val_u end.

Lemma read_off_spec G v x : single_valued (g_nodes G) -> (v, x) ∈ g_nodes G -> read_off G v = x.
Proof.
  intros Hs Hx. unfold read_off. destruct (filter _ _) as [|[w y] l] eqn:Hl.
  - assert ((v, x) ∈ filter (fun n : Var * Val => n.1 = v) (elements (g_nodes G))) as Hin
      by (apply elem_of_list_filter; split; [done|by apply elem_of_elements]).
    rewrite Hl in Hin. by apply elem_of_nil in Hin.
  - assert ((w, y) ∈ filter (fun n : Var * Val => n.1 = v) (elements (g_nodes G))) as Hin by (rewrite Hl; by left).
    apply elem_of_list_filter in Hin as [Hw Hin]. simpl in *. subst. apply elem_of_elements in Hin. by apply (Hs v).
Qed.

Lemma net_joint G c : joint same_pairs anything (sp_out sp) G c <->
  exists a, net_admissible a /\ G = net_graph fs a /\ c = net_product fs a.
Proof.
  split.
  - intros (sel & (Hnd & Hin & Hall & Huniq) & Hm & Hs & ->).
    set (a := read_off G).
    assert (forall g z, (g, z) ∈ sel -> exists f, f ∈ fs /\ g = f_graph f a /\ z = f_table f a /\ admissible cp (f_vars f) a) as Hsel.
    { intros g z Hg. destruct (Hin g z Hg) as [Hmap _]. apply net_map in Hmap as (f & b & Hf & Hb & -> & ->).
      pose proof (nt_factors _ _ Hok f Hf) as Hfk.
      assert (forall v, v ∈ f_vars f -> a v = b v) as Hab.
      { intros v Hv. apply (read_off_spec G v (b v) Hs). apply (proj1 Hm). exists (f_graph f b). split; [|by apply f_nodes].
        apply elem_of_list_fmap. by exists (f_graph f b, f_table f b). }
      exists f. split_and!; [done| | |].
      - symmetry. by apply (f_graph_ext cp).
      - symmetry. by apply (fk_table _ _ Hfk).
      - intros v Hv. rewrite (Hab v Hv). by apply Hb. }
    assert (forall f, f ∈ fs -> entry a f ∈ sel /\ admissible cp (f_vars f) a) as Hfs.
    { intros f Hf. destruct (factor_admits f Hf) as [b Hb].
      destruct (Hall (f_graph f b)) as (g & Hg & Hsame); [apply net_contains; by exists f, b|done|].
      apply elem_of_list_fmap in Hg as ([g' z] & -> & Hg). simpl in Hsame.
      destruct (Hsel g' z Hg) as (f' & Hf' & -> & -> & Ha).
      assert (f = f') as ->; [|done]. apply clash_eq; [done|done|].
      eapply (same_pairs_clash cp); [by apply (nt_factors _ _ Hok)|exact Hsame]. }
    assert (sel ≡ₚ entry a <$> fs) as Hp.
    { apply NoDup_Permutation.
      - by eapply NoDup_fmap_1.
      - eapply NoDup_fmap_1. apply (entries_NoDup a fs); [done|apply (nt_clash _ _ Hok)].
      - intros [g z]. rewrite elem_of_list_fmap. split.
        + intros Hg. destruct (Hsel g z Hg) as (f & Hf & -> & -> & _). by exists f.
        + intros (f & -> & Hf). by apply Hfs. }
    exists a. split_and!.
    + intros v (f & Hf & Hv). by apply (Hfs f Hf).
    + by apply (merged_net a G sel Hp).
    + unfold net_product. apply product_perm. rewrite Hp, <- list_fmap_compose. done.
  - intros (a & Ha & -> & ->). exists (entry a <$> fs).
    assert (forall f, f ∈ fs -> admissible cp (f_vars f) a) as Haf by (intros f Hf v Hv; apply Ha; by exists f).
    split_and!.
    + split_and!.
      * apply (entries_NoDup a fs); [done|apply (nt_clash _ _ Hok)].
      * intros g z Hg. apply elem_of_list_fmap in Hg as (f & [= -> ->] & Hf). split; [|done].
        apply net_map. exists f, a. split_and!; auto.
      * intros h Hh _. apply net_contains in Hh as (f & b & Hf & Hb & ->). exists (f_graph f a). split; [|apply f_same_pairs].
        apply elem_of_list_fmap. exists (entry a f). split; [done|]. apply elem_of_list_fmap. by exists f.
      * intros g g' Hg Hg' Hsame.
        apply elem_of_list_fmap in Hg as ([? ?] & -> & Hg). apply elem_of_list_fmap in Hg as (f & [= -> ->] & Hf).
        apply elem_of_list_fmap in Hg' as ([? ?] & -> & Hg'). apply elem_of_list_fmap in Hg' as (f' & [= -> ->] & Hf').
        simpl in *. assert (f = f') as ->; [|done]. apply clash_eq; [done|done|].
        eapply (same_pairs_clash cp); [by apply (nt_factors _ _ Hok)|exact Hsame].
    + by apply (merged_net a).
    + intros v x y Hx Hy. apply net_nodes in Hx as [_ Hx]. apply net_nodes in Hy as [_ Hy]. simpl in *. by subst.
    + unfold net_product. rewrite <- list_fmap_compose. done.
Qed.

(** ** Links between factors *)

Lemma index_eq i j f f' : fs !! i = Some f -> fs !! j = Some f' -> f = f' -> i = j.
Proof.
  intros Hi Hj ->. apply (nt_clash _ _ Hok i j f' f' Hi Hj). apply (f_self_clash cp).
  apply (nt_factors _ _ Hok). by eapply elem_of_list_lookup_2.
Qed.

Lemma net_source g : contains (sp_out sp) g -> exists i f a, fs !! i = Some f /\ admissible cp (f_vars f) a /\ g = f_graph f a.
Proof.
  intros Hg. apply net_contains in Hg as (f & a & Hf & Ha & ->). apply elem_of_list_lookup in Hf as [i Hi]. by exists i, f, a.
Qed.

Lemma same_pairs_index i j f f' a b : fs !! i = Some f -> fs !! j = Some f' ->
  same_pairs (f_graph f a) (f_graph f' b) <-> i = j.
Proof.
  intros Hi Hj. split.
  - intros Hs. eapply (nt_clash _ _ Hok); [exact Hi|exact Hj|]. eapply (same_pairs_clash cp); [|exact Hs].
    apply (nt_factors _ _ Hok). by eapply elem_of_list_lookup_2.
  - intros ->. rewrite Hi in Hj. injection Hj as ->. apply f_same_pairs.
Qed.

Lemma chain_cluster (P : Var -> Prop) (V : gset Var) i j : (forall v, net_vars fs v -> P v -> v ∈ V) -> net_chain fs P i j ->
  forall f f' a b, fs !! i = Some f -> fs !! j = Some f' -> admissible cp (f_vars f) a -> admissible cp (f_vars f') b ->
  cluster (sp_out sp) V (f_graph f a) (f_graph f' b).
Proof.
  intros HV. induction 1 as [i|i k j (f & f1 & v & Hi & Hk & HP & Hv & Hv1) _ IH]; intros g g' a b Hgi Hgj Ha Hb.
  - apply rtc_once. rewrite Hgi in Hgj. injection Hgj as <-. split.
    + split; apply net_contains; [exists g, a|exists g, b]; split_and!; try done; by eapply elem_of_list_lookup_2.
    + left. apply f_same_pairs.
  - rewrite Hgi in Hi. injection Hi as <-.
    destruct (factor_admits f1) as [a1 Ha1]; [by eapply elem_of_list_lookup_2|].
    eapply rtc_l; [|by apply (IH f1 g' a1 b)]. split.
    + split; apply net_contains; [exists g, a|exists f1, a1]; split_and!; try done; by eapply elem_of_list_lookup_2.
    + right. exists v. split; [|split; by apply f_having]. apply HV; [exists g; split; [by eapply elem_of_list_lookup_2|done]|done].
Qed.

Lemma net_not_disconnected : net_connected fs -> ~ disconnected (sp_out sp).
Proof.
  intros Hc (g & h & Hg & Hh & Hno).
  destruct (net_source g Hg) as (i & f & a & Hi & Ha & ->). destruct (net_source h Hh) as (j & f' & b & Hj & Hb & ->).
  apply (Hno (⋃ (f_vars <$> fs))). apply (chain_cluster (fun _ => True) _ i j) ; [|apply Hc; [by apply lookup_lt_Some in Hi|by apply lookup_lt_Some in Hj]|done..].
  intros v (f1 & Hf1 & Hv) _. apply elem_of_union_list. exists (f_vars f1). split; [apply elem_of_list_fmap; by exists f1|done].
Qed.

Lemma cluster_chain V g h : cluster (sp_out sp) V g h -> forall i j f f' a b, fs !! i = Some f -> fs !! j = Some f' ->
  g = f_graph f a -> h = f_graph f' b -> net_chain fs (fun v => v ∈ V) i j.
Proof.
  induction 1 as [g|g g1 h ([Hg Hg1] & Hstep) _ IH]; intros i j f f' a b Hi Hj Hgi Hgj.
  - subst. assert (i = j) as ->; [|apply rtc_refl]. apply (same_pairs_index i j f f' a b Hi Hj). intros p. by rewrite Hgj.
  - subst. destruct (net_source g1 Hg1) as (k & f1 & a1 & Hk & Ha1 & ->).
    specialize (IH k j f1 f' a1 b Hk Hj eq_refl eq_refl).
    destruct Hstep as [Hs|(v & HV & Hv & Hv1)].
    + apply (same_pairs_index i k f f1 a a1 Hi Hk) in Hs as ->. done.
    + eapply rtc_l; [|exact IH]. apply f_having in Hv. apply f_having in Hv1. by exists f, f1, v.
Qed.

Lemma net_chain_mono (P Q : Var -> Prop) i j : (forall v, P v -> Q v) -> net_chain fs P i j -> net_chain fs Q i j.
Proof.
  intros HPQ. apply rtc_subrel. intros x y (f & f' & v & H1 & H2 & H3 & H4). exists f, f', v. split_and!; try done; [by apply HPQ|apply H4..].
Qed.

Lemma net_not_cyclic : ~ net_cyclic fs -> ~ cyclic (sp_out sp).
Proof.
  intros Hn (v & V & g & h & HvV & Hg & Hh & Hvg & Hvh & Hns & Hc). apply Hn.
  destruct (net_source g Hg) as (i & f & a & Hi & Ha & ->). destruct (net_source h Hh) as (j & f' & b & Hj & Hb & ->).
  apply f_having in Hvg. apply f_having in Hvh. exists i, j, f, f', v. split_and!; try done.
  - intros Hij. apply Hns. by apply (same_pairs_index i j f f' a b Hi Hj).
  - apply (net_chain_mono (fun w => w ∈ V)); [intros w Hw ->; done|]. by eapply cluster_chain.
Qed.

Lemma net_not_crowded : ~ net_crowded fs -> ~ crowded (sp_out sp).
Proof.
  intros Hn (v & g1 & g2 & g3 & [H1 V1] & [H2 V2] & [H3 V3] & N12 & N13 & N23). apply Hn.
  destruct (net_source g1 H1) as (i & f & a & Hi & _ & ->). destruct (net_source g2 H2) as (j & f' & b & Hj & _ & ->).
  destruct (net_source g3 H3) as (k & f'' & d & Hk & _ & ->).
  apply f_having in V1. apply f_having in V2. apply f_having in V3.
  exists v, i, j, k, f, f', f''. split_and!; try done; intros He.
  - apply N12. by apply (same_pairs_index i j f f' a b Hi Hj).
  - apply N13. by apply (same_pairs_index i k f f'' a d Hi Hk).
  - apply N23. by apply (same_pairs_index j k f' f'' b d Hj Hk).
Qed.

(** ** Joining *)
Lemma net_joined o : fs <> [] -> net_connected fs -> ~ net_cyclic fs \/ ~ net_crowded fs ->
  exists r, make_joined o sp = Ok r /\ sp_cp r = cp /\ ss_cp (sp_out r) = cp /\
    forall G c, count_of (sp_out r) G = Ok c <-> exists a, net_admissible a /\ G = net_graph fs a /\ c = net_product fs a.
Proof.
  intros Hne Hc Hcy.
  assert (is_ok (make_joined o sp) = true) as Hr.
  { pose proof net_joinable. pose proof (net_not_disconnected Hc).
    destruct Hcy as [Hcy|Hcr]; [apply joined_total; auto using net_not_cyclic|apply joined_total_two; auto using net_not_crowded]. }
  destruct (make_joined o sp) as [r|] eqn:Hj; [|done]. exists r. split; [done|].
  pose proof (joined_spec o sp net_joinable) as Hspec. rewrite Hj in Hspec.
  destruct Hspec as (H1 & H2 & _ & H3). split_and!; [done..|]. intros G c. rewrite (H3 G c), <- net_joint.
  split; [tauto|]. intros HG. split; [|done].
  assert (exists f, f ∈ fs) as [f Hf] by (clear -Hne; destruct fs as [|f l]; [done|exists f; by left]).
  destruct (factor_admits f Hf) as [a Ha]. exists (f_graph f a). apply net_contains. by exists f, a.
Qed.

End net.
