(** * NetInfer: joining a network after an inference on one value. *)

From Verif Require Import BaseFacts BuilderFacts CondJoinFacts.
From Verif Require Export NetBuild.

Section net_infer.
Context {U : Universe}.

Implicit Types (G g h : graph).

Lemma net_product_ext cp fs a b : net_ok cp fs -> (forall v, net_vars fs v -> a v = b v) -> net_product fs a = net_product fs b.
Proof.
  intros Hok Hab. unfold net_product. f_equal. apply list_fmap_ext. intros k f Hk. apply elem_of_list_lookup_2 in Hk.
  apply (fk_table _ _ (nt_factors _ _ Hok f Hk)). intros v Hv. apply Hab. by exists f.
Qed.

Lemma net_graph_ext cp fs a b : net_ok cp fs -> (forall v, net_vars fs v -> a v = b v) -> net_graph fs a = net_graph fs b.
Proof.
  intros Hok Hab.
  assert (forall f, f ∈ fs -> f_graph f a = f_graph f b) as Hf.
  { intros f Hf. apply (f_graph_ext cp); [by apply (nt_factors _ _ Hok)|]. intros v Hv. apply Hab. by exists f. }
  unfold net_graph. f_equal; f_equal; apply list_fmap_ext; intros k f Hk; apply elem_of_list_lookup_2 in Hk; by rewrite Hf.
Qed.

Lemma net_graph_nodes fs a n : n ∈ g_nodes (net_graph fs a) <-> net_vars fs n.1 /\ n.2 = a n.1.
Proof. apply net_nodes. Qed.

Lemma net_graph_inj fs a b v : net_graph fs a = net_graph fs b -> net_vars fs v -> a v = b v.
Proof.
  intros H Hv. assert ((v, a v) ∈ g_nodes (net_graph fs b)) as Hin by (rewrite <- H; by apply net_graph_nodes).
  by apply net_graph_nodes in Hin as [_ Hin].
Qed.

Lemma single_built cp v x : declared cp (v, x) ->
  build_single_node (new_builder cp) v x = Ok (Sample (cp_id cp) (Graph {[(v, x)]} ∅)).
Proof.
  intros Hd. unfold build_single_node. pose proof (get_node_spec cp v x) as Hg. simpl in *.
  destruct (get_node cp v x) as [n|]; [by destruct Hg as [-> _]|]. destruct Hg as [_ Hg]. done.
Qed.

Section inferred.
Context (sp : space) (fs : list factor) (Hok : net_ok (sp_cp sp) fs) (Hsp : holds_net sp fs).
Local Notation cp := (sp_cp sp).

Lemma net_occurs v x : net_vars fs v -> declared cp (v, x) -> occurs (sp_out sp) (v, x).
Proof.
  intros (f & Hf & Hv) Hd.
  assert (exists a, admissible cp (f_vars f) a) as [a Ha].
  { pose proof (fk_values _ _ (nt_factors _ _ Hok f Hf)) as Hval.
    exists (fun w => match cp_vars cp !! w with Some X => match elements X with y :: _ => y | [] => val_u end | None => val_u end).
    intros w Hw. destruct (Hval w Hw) as [y (X & HX & Hy)]. simpl in *. exists X. simpl. rewrite HX. split; [done|].
    destruct (elements X) as [|z l] eqn:Hl.
    - apply elem_of_elements in Hy. rewrite Hl in Hy. by apply elem_of_nil in Hy.
    - apply elem_of_elements. rewrite Hl. by left. }
  set (b := fun w => if decide (w = v) then x else a w).
  exists (f_graph f b). split.
  - apply (net_contains sp fs Hsp). exists f, b. split_and!; [done| |done]. intros w Hw. unfold b. case_decide as Hd'; [by subst|by apply Ha].
  - apply f_nodes. simpl. split; [done|]. unfold b. by rewrite decide_True.
Qed.

Lemma net_inferred o v x : fs <> [] -> net_connected fs -> ~ net_cyclic fs \/ ~ net_crowded fs ->
  net_vars fs v -> declared cp (v, x) ->
  exists ev cg r, build_single_node (new_builder cp) v x = Ok ev /\ conditional_graph sp ev = Ok cg /\
    make_joined o (sp_relation_graph (cg_space cg)) = Ok r /\ sp_cp r = cp /\ ss_cp (sp_out r) = cp /\
    forall G c, count_of (sp_out r) G = Ok c <->
      exists a, net_admissible sp fs a /\ a v = x /\ G = net_graph fs a /\ c = net_product fs a.
Proof.
  intros Hne Hcn Hcy Hv Hd. eexists. rewrite (single_built cp v x Hd).
  set (ev := Sample (cp_id cp) (Graph {[(v, x)]} ∅)).
  pose proof (C36_lemma sp ev) as Hev. destruct (conditional_graph sp ev) as [cg|] eqn:Hcg; [|by destruct Hev as [_ []]].
  exists cg. pose proof (net_joinable sp fs Hok Hsp) as Hj.
  destruct (conditioned_joinable sp ev cg v x Hj Hcg eq_refl eq_refl (net_occurs v x Hv Hd)) as (Hj' & Hdis & Hcyc & Hcro).
  assert (is_ok (make_joined o (sp_relation_graph (cg_space cg))) = true) as Hr.
  { destruct Hcy as [Hcy|Hcr]; [apply joined_total|apply joined_total_two]; try done.
    - intros H. by apply (net_not_disconnected sp fs Hok Hsp Hcn), Hdis.
    - intros H. by apply (net_not_cyclic sp fs Hok Hsp Hcy), Hcyc.
    - intros H. by apply (net_not_disconnected sp fs Hok Hsp Hcn), Hdis.
    - intros H. by apply (net_not_crowded sp fs Hok Hsp Hcr), Hcro. }
  destruct (make_joined o _) as [r'|] eqn:Hr'; [|done]. exists r'.
  destruct (net_joined sp fs Hok Hsp o Hne Hcn Hcy) as (r & Hjr & Hcp & Hcp' & HG).
  destruct (C44_lemma o o sp ev cg v x r r' Hj Hcg eq_refl eq_refl (net_occurs v x Hv Hd) Hjr Hr') as [H1 H2].
  pose proof (joined_spec o _ Hj') as Hs. rewrite Hr' in Hs. destruct Hs as (Hs1 & Hs2 & _).
  split_and!; [done|done|done|congruence|congruence|].
  intros G c. rewrite H2, HG. split.
  - intros [(a & Ha & -> & ->) Hx]. exists a. split_and!; try done. by apply net_graph_nodes in Hx as [_ Hx].
  - intros (a & Ha & Hx & -> & ->). split; [by exists a|]. by apply net_graph_nodes.
Qed.

End inferred.
End net_infer.
