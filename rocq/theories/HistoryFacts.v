(** * HistoryFacts: graphs built step by step (C05, C06) *)

From Verif Require Export BuilderFacts.

Section history_facts.
Context {U : Universe}.

Record hinv (cp : provider) (b : builder) : Prop := {
  hi_cp : b_cp b = cp;
  hi_index : index_ok b;
  hi_nodes : forall n, n ∈ b_nodes b -> declared cp n;
  hi_edges : forall e, e ∈ b_edges b -> edge_legal cp e;
  hi_inside : forall e, e ∈ b_edges b -> e.1 ⊆ b_nodes b;
  hi_simple : simple (b_edges b);
  hi_conn : connected (Graph (b_nodes b) (b_edges b))
}.

Lemma hinv_new cp : hinv cp (new_builder cp).
Proof.
  split; simpl; done.
Qed.

Lemma connected_put N B e :
  connected (Graph N B) -> (forall e', e' ∈ B -> e'.1 ⊆ N) ->
  (N = ∅ \/ exists n, n ∈ e.1 /\ n ∈ N) -> connected (Graph (e.1 ∪ N) ({[e]} ∪ B)).
Proof.
  intros Hc Hin Hn x y Hx Hy. simpl in *.
  assert (forall z, z ∈ e.1 ∪ N -> exists k, k ∈ e.1 /\ rtc (link ({[e]} ∪ B)) k z) as Hk.
  { intros z [Hz|Hz]%elem_of_union; [by exists z|].
    destruct Hn as [->|(n & Hne & HnN)]; [set_solver +Hz|].
    exists n. split; [done|]. eapply rtc_link_mono; [|apply (Hc n z HnN Hz)]. set_solver +. }
  destruct (Hk x Hx) as (kx & Hkx & Hrx). destruct (Hk y Hy) as (ky & Hky & Hry).
  etrans; [by apply rtc_link_sym|]. eapply rtc_l; [|done].
  exists e. split_and!; [set_solver +|done|done].
Qed.

Lemma hinv_put cp b e :
  hinv cp b -> edge_legal cp e -> (b_nodes b = ∅ \/ exists n, n ∈ e.1 /\ n ∈ b_nodes b) ->
  (forall e', e' ∈ b_edges b -> e.1 = e'.1 -> e = e') -> hinv cp (put_edge b e e.1).
Proof.
  intros [H1 H2 H3 H4 H5 H6 H7] Hl Hn Hs. split; simpl.
  - done.
  - by apply index_ok_put.
  - intros n [Hne|]%elem_of_union; [|auto]. by apply Hl.
  - intros e' [->%elem_of_singleton|]%elem_of_union; auto.
  - intros e' [->%elem_of_singleton|He']%elem_of_union; [set_solver +|].
    specialize (H5 e' He'). set_solver +H5.
  - intros a a' [->%elem_of_singleton|Ha]%elem_of_union [->%elem_of_singleton|Ha']%elem_of_union Heq; auto.
    symmetry. by apply Hs.
  - by apply connected_put.
Qed.

Lemma hinv_add cp b eps r : hinv cp b -> hinv cp (add_relation b eps r).1.
Proof.
  intros Hh. pose proof (add_relation_spec b eps r (hi_index _ _ Hh)) as Hs.
  rewrite add_relation_unfold in *.
  pose proof (make_edge_spec (b_cp b) eps r) as Hm.
  destruct (make_edge (b_cp b) eps r) as [[ns e]|]; [|done].
  destruct Hm as (-> & -> & Hl). destruct (_ && _); [|done]. simpl.
  destruct Hs as ((_ & Hn & Hne) & _). rewrite (hi_cp _ _ Hh) in Hl.
  apply (hinv_put cp b (eps, r)); [done|done|done|].
  intros e' He' Heq. by destruct (Hne e' He').
Qed.

Lemma hinv_join cp b o s : op_ok cp (OpJoin o s) -> hinv cp b -> hinv cp (join_sample o b s).1.
Proof.
  simpl. intros Hok Hb.
  destruct (decide (s_cp s = cp_id cp)) as [Hcp|Hcp].
  2:{ unfold join_sample. destruct (is_compatible s (b_cp b)) eqn:Hc; [|done].
      apply is_compatible_spec in Hc. by rewrite (hi_cp _ _ Hb) in Hc. }
  destruct (Hok Hcp) as [He Hn].
  apply (join_sample_preserve (hinv cp)); [| |done].
  - intros b' e Hb' HeE Hc Hconf _. apply hinv_put; [done|auto|by apply join_connected_spec|].
    intros e' He' Heq. destruct (decide (e = e')) as [|Hne]; [done|].
    assert (edge_conflict b' e = true); [|congruence].
    apply edge_conflict_spec; [apply Hb'|apply Hb'|by exists e'].
  - intros _ Hsz Hemp. apply size_1_elem_of in Hsz as [n Hsz]. apply leibniz_equiv in Hsz.
    destruct Hb as [H1 H2 H3 H4 H5 H6 H7]. split; simpl; try done.
    + intros m [Hm|Hm]%elem_of_union; [by apply Hn|]. by apply H3.
    + intros e Hee. specialize (H5 e Hee). set_solver +H5.
    + intros x y. rewrite Hemp, Hsz, union_empty_r_L. simpl.
      intros ->%elem_of_singleton ->%elem_of_singleton. done.
Qed.

Lemma hinv_run cp b ops : Forall (op_ok cp) ops -> hinv cp b -> hinv cp (run_ops b ops).
Proof.
  unfold run_ops. revert b. induction ops as [|op ops IH]; intros b Hok Hb; simpl; [done|].
  apply Forall_cons in Hok as [Hop Hok]. apply IH; [done|]. destruct op; simpl.
  - by apply hinv_add.
  - by apply hinv_add.
  - by eapply hinv_join.
Qed.

(** *** Emptiness *)

Lemma add_relation_nodes b eps r : b_nodes b ⊆ b_nodes (add_relation b eps r).1.
Proof.
  rewrite add_relation_unfold. destruct (make_edge _ _ _) as [[ns e]|]; [|done].
  destruct (_ && _); [|done]. simpl. set_solver +.
Qed.

Lemma join_sample_nodes o b s : b_nodes b ⊆ b_nodes (join_sample o b s).1.
Proof.
  apply (join_sample_preserve (fun b' => b_nodes b ⊆ b_nodes b')); [| |done].
  - intros b' e Hb' _ _ _ _. simpl. set_solver +Hb'.
  - intros _ _ _. simpl. set_solver +.
Qed.

Lemma run_op_nodes b op : b_nodes b ⊆ b_nodes (run_op b op).
Proof.
  destruct op; simpl; [apply add_relation_nodes|apply add_relation_nodes|apply join_sample_nodes].
Qed.

Lemma run_ops_nodes b ops : b_nodes b ⊆ b_nodes (run_ops b ops).
Proof.
  unfold run_ops. revert b. induction ops as [|op ops IH]; intros b; simpl; [done|].
  etrans; [apply (run_op_nodes b op)|apply IH].
Qed.

Lemma add_new cp eps r :
  (edge_legal cp (eps, r) -> b_nodes (add_relation (new_builder cp) eps r).1 <> ∅) /\
  (~ edge_legal cp (eps, r) -> (add_relation (new_builder cp) eps r).1 = new_builder cp).
Proof.
  pose proof (add_relation_spec (new_builder cp) eps r (hi_index _ _ (hinv_new cp))) as Hs.
  unfold add_legal in Hs. simpl in Hs.
  destruct (add_relation (new_builder cp) eps r) as [b' [[]|x]]; simpl.
  - destruct Hs as ((Hl & _ & _) & _ & Hn & _). split; [|done].
    intros [(a & c & Heq & _) _]. rewrite Hn. simpl in Heq. rewrite Heq. set_solver +.
  - destruct Hs as (_ & Hl & ->). split; [|done]. intros Hel. destruct Hl.
    split_and!; [done|by left|set_solver +].
Qed.

Lemma join_new_nonempty cp o s :
  (forall e, e ∈ g_edges (s_g s) -> edge_legal cp e) -> s_cp s = cp_id cp ->
  g_edges (s_g s) <> ∅ \/ size (g_nodes (s_g s)) = 1 ->
  b_nodes (join_sample o (new_builder cp) s).1 <> ∅.
Proof.
  intros He Hcp Hor. unfold join_sample.
  rewrite (proj2 (is_compatible_spec s (b_cp (new_builder cp))) Hcp).
  case_bool_decide as Hemp.
  - destruct Hor as [|Hsz]; [done|]. rewrite (bool_decide_true _ Hsz). simpl.
    rewrite (bool_decide_true (∅ = ∅)) by done. rewrite orb_true_r. simpl.
    apply size_1_elem_of in Hsz as [n Hsz]. apply leibniz_equiv in Hsz. rewrite Hsz. set_solver +.
  - set (es := g_edges (s_g s)) in *.
    cbn [join_edges].
    assert (iter_set o es <> []) as Hit by (by rewrite iter_set_nil).
    assert (forall e, e ∈ iter_set o es -> e ∈ es) as Hel by (intros e; by rewrite elem_of_iter_set).
    destruct (iter_set o es) as [|e l]; [done|].
    assert (edge_legal cp e) as Hle by (apply He, Hel; left).
    assert (exists x, x ∈ e.1) as [x Hx].
    { destruct Hle as [(x & y & Heq & _) _]. exists x. rewrite Heq. set_solver +. }
    pose proof (join_pass_preserve (fun b' => x ∈ b_nodes b') es) as Hpp.
    assert (x ∈ b_nodes (join_pass (new_builder cp) ∅ (e :: l)).1) as Hxp.
    { cbn [join_pass].
      assert (join_connected (new_builder cp) e = true) as -> by (apply join_connected_spec; by left).
      assert (edge_conflict (new_builder cp) e = false) as ->.
      { unfold edge_conflict. simpl. by rewrite lookup_empty. }
      assert (join_values_ok (new_builder cp) e = true) as ->.
      { apply join_values_ok_spec. intros n n' _ _ Hn. simpl in Hn. set_solver +Hn. }
      apply Hpp.
      - intros b' e' Hb' _ _ _ _. simpl. set_solver +Hb'.
      - intros e' He'. apply Hel. by right.
      - simpl. set_solver +Hx. }
    assert (forall fuel o b es', x ∈ b_nodes b -> x ∈ b_nodes (join_edges fuel o b es').1) as Hj.
    { intros fuel o' b es' Hb. apply (join_edges_preserve (fun b' => x ∈ b_nodes b') es'); [|done|done].
      intros b' e' Hb' _ _ _ _. simpl. set_solver +Hb'. }
    destruct (join_pass (new_builder cp) ∅ (e :: l)) as [b' [nc|]]; simpl in Hxp |- *.
    + case_bool_decide; [simpl; set_solver +Hxp|]. case_bool_decide; [simpl; set_solver +Hxp|].
      apply (Hj (size es) (sub o 0) b' nc) in Hxp. set_solver +Hxp.
    + set_solver +Hxp.
Qed.

Lemma edge_legal_or cp e : edge_legal cp e \/ ~ edge_legal cp e.
Proof.
  pose proof (make_edge_spec cp e.1 e.2) as Hm. rewrite <- surjective_pairing in Hm.
  destruct (make_edge _ _ _) as [[? ?]|]; tauto.
Qed.

Lemma run_op_refused cp op : op_ok cp op ->
  (op_refused cp op /\ run_op (new_builder cp) op = new_builder cp) \/
  (~ op_refused cp op /\ b_nodes (run_op (new_builder cp) op) <> ∅).
Proof.
  intros Hok. destruct op as [eps r|s t r|o s]; simpl in *.
  - destruct (add_new cp eps r) as [H1 H2]. destruct (edge_legal_or cp (eps, r)); tauto.
  - unfold add_directed_relation. destruct (add_new cp {[s; t]} (Directed s.1 t.1 r)) as [H1 H2].
    destruct (edge_legal_or cp ({[s; t]}, Directed s.1 t.1 r)); tauto.
  - destruct (decide (s_cp s = cp_id cp)) as [Hcp|Hcp].
    2:{ left. split; [by left|]. unfold join_sample.
        destruct (is_compatible s (b_cp (new_builder cp))) eqn:Hc; [|done].
        by apply is_compatible_spec in Hc. }
    destruct (Hok Hcp) as [He _].
    destruct (decide (g_edges (s_g s) = ∅)) as [Hemp|Hemp];
      [destruct (decide (size (g_nodes (s_g s)) = 1)) as [Hsz|Hsz]|].
    + right. split; [tauto|]. apply join_new_nonempty; auto.
    + left. split; [by right|]. unfold join_sample.
      rewrite (proj2 (is_compatible_spec s (b_cp (new_builder cp))) Hcp).
      rewrite (bool_decide_true _ Hemp), (bool_decide_false _ Hsz). done.
    + right. split; [tauto|]. apply join_new_nonempty; auto.
Qed.

Lemma run_ops_refused cp ops : Forall (op_ok cp) ops ->
  b_nodes (run_ops (new_builder cp) ops) = ∅ <-> Forall (op_refused cp) ops.
Proof.
  induction ops as [|op ops IH]; intros Hok; [done|].
  apply Forall_cons in Hok as [Hop Hok]. rewrite Forall_cons.
  destruct (run_op_refused cp op Hop) as [[Hr Heq]|[Hr Hne]].
  - unfold run_ops in *. simpl. rewrite Heq, IH by done. tauto.
  - split; [|tauto]. intros Hemp. destruct Hne. unfold run_ops in Hemp. simpl in Hemp.
    pose proof (run_ops_nodes (run_op (new_builder cp) op) ops) as Hm. unfold run_ops in Hm.
    rewrite Hemp in Hm. set_solver +Hm.
Qed.

(** C05 *)
Lemma C05_lemma cp ops : Forall (op_ok cp) ops ->
  match build (run_ops (new_builder cp) ops) with
  | Ok s => ~ Forall (op_refused cp) ops /\ s_cp s = cp_id cp /\ g_nodes (s_g s) <> ∅ /\
            wf_graph cp (s_g s) /\ simple (g_edges (s_g s))
  | Err x => x = AssertionError /\ Forall (op_refused cp) ops
  end.
Proof.
  intros Hok. pose proof (hinv_run cp _ ops Hok (hinv_new cp)) as Hh.
  pose proof (run_ops_refused cp ops Hok) as Hr.
  set (b := run_ops (new_builder cp) ops) in *. unfold build.
  destruct (passert_cases (b_nodes b <> ∅)) as [[Hn ->]|[Hn ->]]; simpl.
  - destruct Hh as [H1 H2 H3 H4 H5 H6 H7]. split_and!; [tauto|by rewrite H1|done| |done].
    by split.
  - split; [done|]. apply Hr. by apply dec_stable.
Qed.

(** C06: a node that joining brings in, even when the call raises half way, is the only one with its
    variable. *)
Lemma C06_join_lemma o b s n n' :
  (forall e, e ∈ g_edges (s_g s) -> two_nodes e.1) ->
  n ∈ b_nodes (join_sample o b s).1 -> n ∉ b_nodes b -> n' ∈ b_nodes (join_sample o b s).1 ->
  n.1 = n'.1 -> n = n'.
Proof.
  intros H2.
  enough (b_nodes b ⊆ b_nodes (join_sample o b s).1 /\
    forall n n', n ∈ b_nodes (join_sample o b s).1 -> n ∉ b_nodes b ->
      n' ∈ b_nodes (join_sample o b s).1 -> n.1 = n'.1 -> n = n') as [_ H] by apply H.
  clear n n'.
  apply (join_sample_preserve (fun b' => b_nodes b ⊆ b_nodes b' /\ forall n n',
    n ∈ b_nodes b' -> n ∉ b_nodes b -> n' ∈ b_nodes b' -> n.1 = n'.1 -> n = n')).
  - intros b' e [Hsub Hb'] He _ _ Hv. pose proof (proj1 (join_values_ok_spec b' e) Hv) as Hv'.
    simpl. unfold endpoints. split; [set_solver +Hsub|].
    intros n n' Hn Hnb Hn' Heq.
    destruct (decide (n ∈ b_nodes b')) as [Hnb'|Hnb'], (decide (n' ∈ b_nodes b')) as [Hnb''|Hnb''].
    + by apply Hb'.
    + apply elem_of_union in Hn' as [Hn'|]; [|done]. by destruct (Hv' n' n).
    + apply elem_of_union in Hn as [Hn|]; [|done]. by destruct (Hv' n n').
    + apply elem_of_union in Hn' as [Hn'|]; [|done]. apply elem_of_union in Hn as [Hn|]; [|done].
      destruct (H2 e He) as (x & y & Hxy & Hne). rewrite Hxy in Hn, Hn'.
      apply elem_of_union in Hn as [->%elem_of_singleton| ->%elem_of_singleton];
      apply elem_of_union in Hn' as [->%elem_of_singleton| ->%elem_of_singleton]; congruence.
  - intros _ Hsz Hb0. simpl. rewrite Hb0. split; [set_solver +|].
    apply size_1_elem_of in Hsz as [x Hx]. apply leibniz_equiv in Hx. rewrite Hx.
    intros n n' Hn _ Hn' _. assert (n = x) as -> by set_solver +Hn. set_solver +Hn'.
  - split; [done|]. intros n n' ? ?. done.
Qed.

Lemma C06_keep_lemma o b s :
  (forall e, e ∈ g_edges (s_g s) -> two_nodes e.1) ->
  single_valued (b_nodes b) -> single_valued (b_nodes (join_sample o b s).1).
Proof.
  intros H2 Hs v x y Hx Hy.
  destruct (decide ((v, x) ∈ b_nodes b)) as [Hxb|Hxb]; [destruct (decide ((v, y) ∈ b_nodes b)) as [Hyb|Hyb]|].
  - by eapply Hs.
  - assert ((v, y) = (v, x)) as Heq by (by eapply C06_join_lemma). by inversion Heq.
  - assert ((v, x) = (v, y)) as Heq by (by eapply C06_join_lemma). by inversion Heq.
Qed.

(** ** C10: the edges view determines a graph and rebuilds it *)

Lemma connected_linked g :
  (forall e, e ∈ g_edges g -> e.1 ⊆ g_nodes g) -> connected g -> edges_linked (g_edges g).
Proof.
  intros Hin Hc x y (e & He & Hx) (e' & He' & Hy). apply Hc; [by apply (Hin e)|by apply (Hin e')].
Qed.

Lemma connected_touches cp g n :
  wf_graph cp g -> g_edges g <> ∅ -> n ∈ g_nodes g <-> touches (g_edges g) n.
Proof.
  intros [H1 H2 H3 H4] Hne. split.
  - intros Hn. apply set_choose_L in Hne as [e He].
    destruct (H2 e He) as [(x & y & Hxy & _) _].
    assert (x ∈ e.1) as Hx by (rewrite Hxy; set_solver +).
    assert (x ∈ g_nodes g) as Hxg by (by apply (H3 e)).
    pose proof (H4 n x Hn Hxg) as Hp. destruct (rtc_inv _ _ Hp) as [->|(z & (e' & ? & ? & ?) & _)].
    + by exists e.
    + by exists e'.
  - intros (e & He & Hn). by apply (H3 e).
Qed.

Lemma edges_set_view_spec o g : view_of g (edges_set_view o g).
Proof.
  unfold edges_set_view. case_bool_decide as He; [done|]. simpl.
  destruct (iter_set o (g_nodes g)) as [|n l] eqn:Hl.
  - split; [done|]. by apply (iter_set_nil o).
  - split; [done|]. apply (elem_of_iter_set o). rewrite Hl. left.
Qed.

Lemma wf_no_edges cp g n : wf_graph cp g -> g_edges g = ∅ -> n ∈ g_nodes g -> g_nodes g = {[n]}.
Proof.
  intros [_ _ _ H4] He Hn. apply set_eq. intros m. rewrite elem_of_singleton. split; [|by intros ->].
  intros Hm. pose proof (H4 m n Hm Hn) as Hp. destruct (rtc_inv _ _ Hp) as [->|(z & (e' & H & ? & ?) & _)]; [done|].
  rewrite He in H. set_solver +H.
Qed.

(** Two connected graphs showing the same view are the same graph, and feeding the view back to a fresh
    builder returns the graph. *)
Lemma C10_inj_lemma o o' cp g g' :
  wf_graph cp g -> wf_graph cp g' -> edges_set_view o g = edges_set_view o' g' -> g = g'.
Proof.
  intros Hg Hg' Heq.
  pose proof (edges_set_view_spec o g) as H1. pose proof (edges_set_view_spec o' g') as H2.
  rewrite Heq in H1. destruct (edges_set_view o' g') as [es|n|]; simpl in *.
  - destruct H1 as [-> Hne], H2 as [H2 _]. destruct g as [N E], g' as [N' E']. simpl in *. subst E'. f_equal.
    apply set_eq. intros n. rewrite (connected_touches cp (Graph N E) n) by done.
    by rewrite (connected_touches cp (Graph N' E) n).
  - destruct H1 as [He Hn], H2 as [He' Hn'].
    pose proof (wf_no_edges _ _ _ Hg He Hn) as Hs. pose proof (wf_no_edges _ _ _ Hg' He' Hn') as Hs'.
    destruct g, g'; simpl in *; congruence.
  - destruct g, g'; simpl in *. destruct_and!. congruence.
Qed.

Lemma builder_state_new cp : builder_state (new_builder cp).
Proof.
  pose proof (bs_init (fun _ => []) cp ∅ ∅) as H. unfold builder_init in H.
  by rewrite iter_set_empty in H.
Qed.

Lemma C10_lemma o o' cp g :
  wf_graph cp g -> rebuild o' cp (edges_set_view o g) = Ok (Sample (cp_id cp) g).
Proof.
  intros Hg. pose proof (edges_set_view_spec o g) as Hv.
  destruct (edges_set_view o g) as [es|[v x]|]; simpl in *.
  - destruct Hv as [-> Hne].
    pose proof (C09_lemma o' (new_builder cp) (g_edges g) (builder_state_new cp)) as H9.
    assert (edges_linked (g_edges g)) as Hl by (apply connected_linked; apply Hg).
    destruct (build_from_edges _ _ _ _).2 as [s|x].
    + destruct H9 as (_ & _ & _ & Hcp & He & Hn). destruct s as [i [N E]]. simpl in *. subst i E.
      rewrite union_empty_l_L. f_equal. f_equal. destruct g as [N' E']. simpl in *. f_equal.
      apply set_eq. intros n. rewrite Hn, (connected_touches cp (Graph N' E') n) by done. simpl.
      set_solver +.
    + rewrite decide_False in H9 by done. destruct H9 as [_ H9]. destruct H9. split; [done|].
      apply Hg.
  - destruct Hv as [He Hn]. pose proof (wf_no_edges _ _ _ Hg He Hn) as Hs.
    unfold build_single_node. pose proof (get_node_spec cp v x) as Hgn. simpl.
    destruct (get_node cp v x) as [n|y].
    + destruct Hgn as [-> _]. simpl. destruct g; simpl in *; congruence.
    + destruct Hgn as [_ Hgn]. destruct Hgn. by apply Hg.
  - destruct g; simpl in *. destruct_and!. unfold build_empty. simpl. congruence.
Qed.

End history_facts.
