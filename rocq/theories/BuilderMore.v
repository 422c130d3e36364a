(** * BuilderMore: the check before a join, copies of builders, questions to sample sets (C07, C10, C18, C27) *)

From Verif Require Export SampleSet PropsGraph.

Section more.
Context {U : Universe}.

Lemma can_join_lemma (b : builder) (s : sample) :
  builder_state b -> simple (b_edges b) ->
  match can_sample_be_joined b s with
  | Ok r => s_cp s = cp_id (b_cp b) /\
      (r = true <-> forall e e', e ∈ g_edges (s_g s) -> e' ∈ b_edges b -> e.1 = e'.1 -> e.2 = e'.2)
  | Err x => x = AssertionError /\ s_cp s <> cp_id (b_cp b)
  end.
Proof.
  intros Hb Hs. apply builder_state_index in Hb as [H1 H2].
  unfold can_sample_be_joined, is_compatible.
  destruct (passert_cases (s_cp s = cp_id (b_cp b))) as [[Hc ->]|[Hc ->]]; simpl; [|done].
  split; [done|]. rewrite bool_decide_eq_true. split.
  - intros Hf e e' He He' Heq. specialize (Hf e He). unfold edge_conflict in Hf.
    change (endpoints e) with e.1 in Hf. destruct (H2 e' He') as [f Hf']. rewrite <- Heq in Hf'.
    rewrite Hf' in Hf. apply bool_decide_eq_false in Hf. unfold rel_of in Hf.
    destruct (H1 _ _ Hf') as [Hfe Hf1].
    assert (f = e') as -> by (apply Hs; congruence).
    destruct (decide (e.2 = e'.2)); [done|]. done.
  - intros Hf e He. unfold edge_conflict. change (endpoints e) with e.1.
    destruct (b_endpoints b !! e.1) as [f|] eqn:Hk; [|done].
    destruct (H1 _ _ Hk) as [Hfe Hf1]. apply bool_decide_eq_false. unfold rel_of.
    intros Hne. apply Hne. by apply Hf.
Qed.

Lemma can_join_needed (o : oracle) (b : builder) (s : sample) :
  builder_state b -> simple (b_edges b) -> (forall e, e ∈ g_edges (s_g s) -> two_nodes e.1) ->
  (join_sample o b s).2 = Ok tt -> can_sample_be_joined b s = Ok true.
Proof.
  intros Hb Hs H2 Hj. pose proof (C07_join_sample o b s Hb Hs H2) as H7.
  destruct (join_sample o b s) as [b' [[]|x]]; [|done]. destruct H7 as [[Hc Hl] _].
  pose proof (can_join_lemma b s Hb Hs) as Hcan.
  destruct (can_sample_be_joined b s) as [r|x]; [|by destruct Hcan].
  destruct Hcan as [_ Hr]. f_equal. apply Hr. intros e e' He He' Heq.
  destruct (decide (g_edges (s_g s) = ∅)) as [H0|_]; [rewrite H0 in He; set_solver|].
  destruct Hl as (_ & Hn & _). by rewrite (Hn e e' He ltac:(set_solver +He') Heq).
Qed.

Lemma graph_builder_lemma (o : oracle) (cp : provider) (g : graph) :
  builder_state (graph_builder o cp g) /\
  build (graph_builder o cp g) = if decide (g_nodes g = ∅) then Err AssertionError else Ok (Sample (cp_id cp) g).
Proof.
  split; [apply bs_init|]. unfold build, graph_builder. cbn [builder_init b_nodes b_edges b_cp].
  destruct (decide (g_nodes g = ∅)) as [Hn|Hn]; destruct (passert_cases (g_nodes g ≠ ∅)) as [[H ->]|[H ->]]; simpl; try done.
  by destruct g.
Qed.

Lemma endpoints_determined (b b' : builder) :
  builder_state b -> builder_state b' -> simple (b_edges b) ->
  b_cp b = b_cp b' -> b_nodes b = b_nodes b' -> b_edges b = b_edges b' -> b = b'.
Proof.
  intros Hb Hb' Hs Hc Hn He. apply builder_state_index in Hb as [H1 H2]. apply builder_state_index in Hb' as [H1' H2'].
  assert (b_endpoints b = b_endpoints b') as Hk.
  { apply map_eq. intros k. destruct (b_endpoints b !! k) as [e|] eqn:E.
    - destruct (H1 _ _ E) as [Hi <-]. rewrite He in Hi. destruct (H2' e Hi) as [f Hf]. rewrite Hf. f_equal.
      destruct (H1' _ _ Hf) as [Hfi Hf1]. apply Hs; [by rewrite He|by rewrite He|done].
    - destruct (b_endpoints b' !! k) as [f|] eqn:F; [|done]. destruct (H1' _ _ F) as [Hfi <-].
      rewrite <- He in Hfi. destruct (H2 f Hfi) as [x Hx]. congruence. }
  destruct b, b'; simpl in *; congruence.
Qed.

Lemma builder_copy_lemma (o : oracle) (b : builder) :
  builder_state b -> simple (b_edges b) -> builder_copy o b = b.
Proof. intros Hb Hs. symmetry. apply endpoints_determined; try done. apply bs_init. Qed.

Lemma have_variable_values (g : graph) (v : Var) : have_variable g v = true <-> exists x, (v, x) ∈ g_nodes g.
Proof.
  unfold have_variable. rewrite existsb_exists. split.
  - intros ([w x] & Hn & Hv). apply bool_decide_eq_true in Hv. simpl in Hv. subst w.
    exists x. by apply elem_of_elements, elem_of_list_In.
  - intros [x Hx]. exists (v, x). split; [by apply elem_of_list_In, elem_of_elements|]. by apply bool_decide_eq_true.
Qed.

Lemma ss_queries (ss : samples) (v : Var) :
  (forall x, ss_have_value ss v x = true <-> exists g, g ∈ ss_samples ss /\ (v, x) ∈ g_nodes g) /\
  (ss_have_variable ss v = true <-> exists g x, g ∈ ss_samples ss /\ (v, x) ∈ g_nodes g).
Proof.
  split; [intros x|].
  - unfold ss_have_value. rewrite existsb_exists. split.
    + intros (g & Hg & Hv). exists g. split; [by apply elem_of_list_In, elem_of_elements in Hg|].
      destruct (C16_point_queries (fun _ => []) g v x) as [H _]. apply H in Hv.
      unfold values in Hv. set_solver.
    + intros (g & Hg & Hv). exists g. split; [by apply elem_of_list_In, elem_of_elements|].
      destruct (C16_point_queries (fun _ => []) g v x) as [H _]. apply H. unfold values. set_solver.
  - unfold ss_have_variable. rewrite existsb_exists. split.
    + intros (g & Hg & Hv). apply elem_of_list_In, elem_of_elements in Hg.
      destruct (proj1 (have_variable_values g v) Hv) as [x Hx]. by exists g, x.
    + intros (g & x & Hg & Hv). exists g. split; [by apply elem_of_list_In, elem_of_elements|].
      apply have_variable_values. by exists x.
Qed.

Lemma ss_eqb_lemma (a b : samples) :
  ss_eqb a b = true <-> forall g c, count_of a g = Ok c <-> count_of b g = Ok c.
Proof.
  unfold ss_eqb, count_of. rewrite bool_decide_eq_true. split.
  - intros -> g c. done.
  - intros H. apply map_eq. intros g. specialize (H g).
    destruct (ss_map a !! g) as [x|], (ss_map b !! g) as [y|]; try done.
    + destruct (H x) as [Hx _]. specialize (Hx eq_refl). congruence.
    + destruct (H x) as [Hx _]. by specialize (Hx eq_refl).
    + destruct (H y) as [_ Hy]. by specialize (Hy eq_refl).
Qed.

(** What a refused join leaves behind: some edges of the sample with their ends, nothing else. *)
Lemma join_leftovers o b s :
  (join_sample o b s).2 <> Ok tt ->
  b_cp (join_sample o b s).1 = b_cp b /\
  (s_cp s <> cp_id (b_cp b) -> (join_sample o b s).1 = b) /\
  exists D : gset edge, D ⊆ g_edges (s_g s) /\ b_edges (join_sample o b s).1 = b_edges b ∪ D /\
    forall n, n ∈ b_nodes (join_sample o b s).1 <-> n ∈ b_nodes b \/ exists e, e ∈ D /\ n ∈ e.1.
Proof.
  intros Hx. split; [apply b_cp_join|]. split.
  { intros Hc. unfold join_sample, is_compatible. by rewrite bool_decide_eq_false_2. }
  destruct (decide (g_edges (s_g s) = ∅)) as [He|He].
  - exists ∅. unfold join_sample in *. destruct (is_compatible s (b_cp b)); [|set_solver +].
    rewrite bool_decide_eq_true_2 in * by done. destruct (_ && _); [by destruct Hx|]. set_solver +.
  - apply (join_sample_preserve (fun b' => exists D : gset edge, D ⊆ g_edges (s_g s) /\ b_edges b' = b_edges b ∪ D /\
      forall n, n ∈ b_nodes b' <-> n ∈ b_nodes b \/ exists e, e ∈ D /\ n ∈ e.1)).
    + intros b' e (D & HD & HE & HN) Hin _ _ _. exists ({[e]} ∪ D). simpl. split; [set_solver +HD Hin|].
      split; [rewrite HE; set_solver +|]. intros n. unfold endpoints. rewrite elem_of_union, HN. set_solver +.
    + done.
    + exists ∅. set_solver +.
Qed.

(** The first of two edges that can be taken in is taken in, in whatever order they come. *)
Lemma join_two o b (x y : edge) k : x <> y ->
  join_connected b x = true -> edge_conflict b x = false -> join_values_ok b x = true -> join_connected b y = false ->
  x ∈ b_edges (join_edges (S k) o b {[x; y]}).1.
Proof.
  intros Hne Hx1 Hx2 Hx3 Hy.
  assert (Hput : forall b' e, x ∈ b_edges b' -> x ∈ b_edges (put_edge b' e (endpoints e))) by (intros; simpl; set_solver).
  assert (Hkeep : forall l b' nc, x ∈ b_edges b' -> x ∈ b_edges (join_pass b' nc l).1).
  { intros l b' nc Hb'. apply (join_pass_preserve (fun c => x ∈ b_edges c) (list_to_set l)); [|set_solver +|done].
    intros c e Hc _ _ _ _. by apply Hput. }
  assert (Hpass : x ∈ b_edges (join_pass b ∅ (iter_set o {[x; y]})).1).
  { assert (iter_set o {[x; y]} ≡ₚ [x; y]) as Hp.
    { rewrite iter_set_perm. apply NoDup_Permutation; [apply NoDup_elements| |].
      - apply NoDup_cons. split; [by rewrite elem_of_list_singleton|apply NoDup_singleton].
      - intros z. rewrite elem_of_elements, elem_of_union, !elem_of_singleton, elem_of_cons, elem_of_list_singleton. done. }
    symmetry in Hp. assert (x ∈ b_edges (put_edge b x (endpoints x))) as Hin by (simpl; apply elem_of_union_l, elem_of_singleton_2; done).
    apply Permutation_length_2_inv in Hp as [->| ->].
    - assert (join_pass b ∅ [x; y] = join_pass (put_edge b x (endpoints x)) ∅ [y]) as ->.
      { cbn [join_pass]. by rewrite Hx1, Hx2, Hx3. }
      by apply Hkeep.
    - assert (join_pass b ∅ [y; x] = (put_edge b x (endpoints x), Ok ({[y]} ∪ ∅))) as ->.
      { cbn [join_pass]. by rewrite Hy, Hx1, Hx2, Hx3. }
      exact Hin. }
  cbn [join_edges]. destruct (join_pass b ∅ (iter_set o {[x; y]})) as [b' [nc|z]]; simpl in Hpass; [|done].
  destruct (bool_decide _); [done|]. destruct (bool_decide _); [done|].
  apply (join_edges_preserve (fun c => x ∈ b_edges c) nc); [|done|done].
  intros c e Hc _ _ _ _. by apply Hput.
Qed.

End more.
