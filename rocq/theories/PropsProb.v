(** * PropsProb: the rules of probability on conditional graphs (C53)

    Vocabulary: SpecProb.v. *)

From Verif Require Import ProbFacts SpecProb SepFacts ExamplesSets PropsJoin.

Section theorems.
Context {U : Universe}.

(** Law of total probability: conditioning on each value of a variable that every outcome observes. *)
Theorem C53_total_probability (o o0 : oracle) (o' : Val -> oracle) (sp : space) (v w : Var) (y : Val)
    (m m0 : gmap Var (gmap Val Qc)) (d : gmap Val Qc) (ev : Val -> sample) (cg : Val -> cgraph) (mc : Val -> gmap Var (gmap Val Qc)) :
  one_valued (sp_out sp) -> pos_counts (sp_out sp) -> all_wf (sp_cp sp) (sp_out sp) ->
  (forall w, ~ occurs (sp_out sp) (w, val_u)) -> y <> val_u -> everywhere (sp_out sp) v ->
  marginal_variables_probability o sp None true = Ok m -> marginal_variables_probability o0 sp None false = Ok m0 -> m0 !! v = Some d ->
  (forall x, x ∈ dom d -> observes (ev x) v x /\ conditional_graph sp (ev x) = Ok (cg x) /\
     marginal_variables_probability (o' x) (cg_space (cg x)) None true = Ok (mc x)) ->
  prob m w y = qsum ((fun '(x, p) => p * prob (mc x) w y)%Qc <$> map_to_list d).
Proof. exact (total_probability o o0 o' sp v w y m m0 d ev cg mc). Qed.

(** Bayes' rule. *)
Theorem C53_bayes_rule (o o1 o2 : oracle) (sp : space) (v w : Var) (x y : Val) (m mv mw : gmap Var (gmap Val Qc))
    (evv evw : sample) (cgv cgw : cgraph) :
  one_valued (sp_out sp) -> pos_counts (sp_out sp) -> all_wf (sp_cp sp) (sp_out sp) ->
  everywhere (sp_out sp) v -> everywhere (sp_out sp) w -> marginal_variables_probability o sp None false = Ok m ->
  observes evv v x -> conditional_graph sp evv = Ok cgv -> marginal_variables_probability o1 (cg_space cgv) None false = Ok mv ->
  observes evw w y -> conditional_graph sp evw = Ok cgw -> marginal_variables_probability o2 (cg_space cgw) None false = Ok mw ->
  (prob m v x * prob mv w y = prob m w y * prob mw v x)%Qc.
Proof. exact (bayes_rule o o1 o2 sp v w x y m mv mw evv evw cgv cgw). Qed.

(** Chain rule: the share of the outcomes that [find_for_values] finds is the product of the probabilities of the
    values, each in the graph conditioned on the values before it. *)
Theorem C53_chain_rule (o : oracle) (sp : space) (l : list node) (p : Qc) (r : samples) :
  chained sp l p -> one_valued (sp_out sp) -> pos_counts (sp_out sp) -> all_wf (sp_cp sp) (sp_out sp) ->
  ss_cp (sp_out sp) = sp_cp sp ->
  (forall v x, (v, x) ∈ l -> everywhere (sp_out sp) v) -> ss_map (sp_out sp) <> ∅ ->
  find_for_values o sp (list_to_set l) = Ok r -> p = qdiv (ss_length r) (ss_length (sp_out sp)).
Proof. exact (chain_find o sp l p r). Qed.

(** What [make_joined] returns meets the conditions, for each variable that occurs. *)
Theorem C53_joined (o : oracle) (sp r : space) (v : Var) :
  joinable sp -> pos_counts (sp_out sp) -> make_joined o sp = Ok r -> occurs_var (sp_out sp) v ->
  one_valued (sp_out r) /\ pos_counts (sp_out r) /\ all_wf (sp_cp r) (sp_out r) /\ ss_cp (sp_out r) = sp_cp r /\ everywhere (sp_out r) v.
Proof. exact (joined_rules o sp r v). Qed.
End theorems.

(** ** Examples: a1-b1: 1, a1-b2: 2, a2-b1: 3, a2-b2: 4 *)
#[local] Existing Instance TinyU.

Definition sp_pair : space := Space tcp (tset (pair_factor va vb 1)).
Definition given (v : Var) (x : Val) : sample := tsmp (tsingle v x).
Definition cond_of (sp : space) (ev : sample) : cgraph := match conditional_graph sp ev with Ok cg => cg | Err _ => CGraph sp ev end.
Definition marg_of (sp : space) (u : bool) : gmap Var (gmap Val Qc) :=
  match marginal_variables_probability o0 sp None u with Ok m => m | Err _ => ∅ end.
Definition is_ok {A} (r : res A) : bool := match r with Ok _ => true | Err _ => false end.
Lemma cond_of_ok sp ev : is_ok (conditional_graph sp ev) = true -> conditional_graph sp ev = Ok (cond_of sp ev).
Proof. unfold cond_of. by destruct (conditional_graph sp ev). Qed.
Lemma marg_of_ok sp u : is_ok (marginal_variables_probability o0 sp None u) = true -> marginal_variables_probability o0 sp None u = Ok (marg_of sp u).
Proof. unfold marg_of. by destruct (marginal_variables_probability o0 sp None u). Qed.

Definition set_everyb (ss : samples) (v : Var) : bool := forallb (fun p => bool_decide (v ∈ included_variables p.1)) (map_to_list (ss_map ss)).
Lemma set_everyb_spec ss v : set_everyb ss v = true -> everywhere ss v.
Proof.
  unfold set_everyb. rewrite forallb_forall. intros H g [c Hg]. specialize (H (g, c)). rewrite <- elem_of_list_In, elem_of_map_to_list in H.
  specialize (H Hg). apply bool_decide_eq_true in H. by apply included_variables_spec.
Qed.
Definition no_val_ub (ss : samples) : bool := forallb (fun p => forallb (fun n : node => negb (bool_decide (n.2 = val_u))) (elements (g_nodes p.1))) (map_to_list (ss_map ss)).
Lemma no_val_ub_spec ss : no_val_ub ss = true -> forall w, ~ occurs ss (w, val_u).
Proof.
  unfold no_val_ub. rewrite forallb_forall. intros H w (g & [c Hg] & Hn). specialize (H (g, c)). rewrite <- elem_of_list_In, elem_of_map_to_list in H.
  specialize (H Hg). rewrite forallb_forall in H. specialize (H (w, val_u)). rewrite <- elem_of_list_In, elem_of_elements in H.
  specialize (H Hn). apply negb_true_iff, bool_decide_eq_false in H. by apply H.
Qed.
Lemma all_in {A} `{Countable A} (P : A -> bool) (s : gset A) : forallb P (elements s) = true -> forall x, x ∈ s -> P x = true.
Proof. rewrite forallb_forall. intros HP x Hx. apply HP, elem_of_list_In, elem_of_elements, Hx. Qed.

Example sp_pair_one : one_valued (sp_out sp_pair).
Proof. refine (set_singleb_spec _ _). vm_compute; reflexivity. Qed.
Example sp_pair_pos : pos_counts (sp_out sp_pair).
Proof. refine (set_posb_spec _ _). vm_compute; reflexivity. Qed.
Example sp_pair_wf : all_wf (sp_cp sp_pair) (sp_out sp_pair).
Proof. refine (set_wfb_spec (sp_out sp_pair) _). vm_compute; reflexivity. Qed.
Example sp_pair_every v : v ∈ [va; vb] -> everywhere (sp_out sp_pair) v.
Proof. intros Hv. apply set_everyb_spec. repeat (apply elem_of_cons in Hv as [->|Hv]; [vm_compute; reflexivity|]). by apply elem_of_nil in Hv. Qed.
Example sp_pair_no_u w : ~ occurs (sp_out sp_pair) (w, val_u).
Proof. apply no_val_ub_spec. vm_compute; reflexivity. Qed.
Definition pair_a : gmap Val Qc := default ∅ (marg_of sp_pair false !! va).
Example sp_pair_conds x : x ∈ dom pair_a -> observes (given va x) va x /\ conditional_graph sp_pair (given va x) = Ok (cond_of sp_pair (given va x)) /\
  marginal_variables_probability o0 (cg_space (cond_of sp_pair (given va x))) None true = Ok (marg_of (cg_space (cond_of sp_pair (given va x))) true).
Proof.
  intros Hx. split; [split; reflexivity|].
  assert (is_ok (conditional_graph sp_pair (given va x)) && is_ok (marginal_variables_probability o0 (cg_space (cond_of sp_pair (given va x))) None true) = true) as Hb.
  { revert x Hx. apply all_in. vm_compute. reflexivity. }
  apply andb_prop in Hb as [H1 H2]. split; [apply cond_of_ok, H1|apply marg_of_ok, H2].
Qed.
(** P(b1) = 3/10 * 1/3 + 7/10 * 3/7 = 4/10. *)
Example C53_pair_total :
  prob (marg_of sp_pair true) vb x1 = qsum ((fun '(x, p) => p * prob (marg_of (cg_space (cond_of sp_pair (given va x))) true) vb x1)%Qc <$> map_to_list pair_a).
Proof.
  eapply (C53_total_probability o0 o0 (fun _ => o0) sp_pair va vb x1 _ (marg_of sp_pair false) pair_a (given va) (fun x => cond_of sp_pair (given va x))).
  - apply sp_pair_one.
  - apply sp_pair_pos.
  - apply sp_pair_wf.
  - apply sp_pair_no_u.
  - discriminate.
  - apply sp_pair_every. left.
  - apply marg_of_ok. vm_compute. reflexivity.
  - apply marg_of_ok. vm_compute. reflexivity.
  - unfold pair_a. assert (match marg_of sp_pair false !! va with Some _ => true | None => false end = true) as Hs by (vm_compute; reflexivity).
    revert Hs. destruct (marg_of sp_pair false !! va); [reflexivity|discriminate].
  - apply sp_pair_conds.
Qed.
Example C53_pair_values :
  bool_decide (prob (marg_of sp_pair true) vb x1 = qdiv 4 10) && bool_decide (size pair_a = 2) &&
  bool_decide (prob (marg_of (cg_space (cond_of sp_pair (given va x1))) true) vb x1 = qdiv 1 3) &&
  bool_decide (prob (marg_of (cg_space (cond_of sp_pair (given va x2))) true) vb x1 = qdiv 3 7) = true.
Proof. vm_compute. reflexivity. Qed.
(** 3/10 * 2/3 = 6/10 * 2/6. *)
Example C53_pair_bayes :
  (prob (marg_of sp_pair false) va x1 * prob (marg_of (cg_space (cond_of sp_pair (given va x1))) false) vb x2 =
   prob (marg_of sp_pair false) vb x2 * prob (marg_of (cg_space (cond_of sp_pair (given vb x2))) false) va x1)%Qc.
Proof.
  apply (C53_bayes_rule o0 o0 o0 sp_pair va vb x1 x2 _ _ _ (given va x1) (given vb x2) (cond_of sp_pair (given va x1)) (cond_of sp_pair (given vb x2))).
  - apply sp_pair_one.
  - apply sp_pair_pos.
  - apply sp_pair_wf.
  - apply sp_pair_every. left.
  - apply sp_pair_every. right. left.
  - apply marg_of_ok. vm_compute. reflexivity.
  - split; reflexivity.
  - apply cond_of_ok. vm_compute. reflexivity.
  - apply marg_of_ok. vm_compute. reflexivity.
  - split; reflexivity.
  - apply cond_of_ok. vm_compute. reflexivity.
  - apply marg_of_ok. vm_compute. reflexivity.
Qed.
(** a1, then b2 given a1: 3/10 * 2/3, and the outcome a1-b2 has 2 of the 10. *)
Example C53_pair_chain : exists p, chained sp_pair [(va, x1); (vb, x2)] p /\ p = qdiv 2 10.
Proof.
  eexists. split.
  - eapply (chained_cons sp_pair va x1 [(vb, x2)] (given va x1) (cond_of sp_pair (given va x1)) o0 (marg_of sp_pair false)).
    + apply marg_of_ok. vm_compute. reflexivity.
    + split; reflexivity.
    + apply cond_of_ok. vm_compute. reflexivity.
    + eapply (chained_cons _ vb x2 [] (given vb x2) (cond_of (sp_relation_graph (cg_space (cond_of sp_pair (given va x1)))) (given vb x2)) o0
        (marg_of (sp_relation_graph (cg_space (cond_of sp_pair (given va x1)))) false)).
      * apply marg_of_ok. vm_compute. reflexivity.
      * split; reflexivity.
      * apply cond_of_ok. vm_compute. reflexivity.
      * apply chained_nil.
  - apply (bool_decide_eq_true _). vm_compute. reflexivity.
Qed.
Example C53_pair_find :
  match find_for_values o0 sp_pair (list_to_set [(va, x1); (vb, x2)]) with Ok r => bool_decide (ss_length r = 2%Z) | Err _ => false end = true.
Proof. vm_compute. reflexivity. Qed.

(** ** When some outcome does not observe the variable, [conditional_graph] keeps that outcome under every value: the
    values weighted with their marginals do not add up to the marginal. *)
Definition sp_gap : space := Space tcp (tset
  [(graph_of [ted va x1 vb x1], 1%Z); (graph_of [ted va x2 vb x2], 1%Z); (tsingle vb x1, 2%Z)]).
Definition gap_a : gmap Val Qc := default ∅ (marg_of sp_gap false !! va).
Theorem C53_unobserved_variable_refuted : exists (sp : space) (v w : Var) (y : Val) (o : oracle) (m m0 : gmap Var (gmap Val Qc)) (d : gmap Val Qc)
    (ev : Val -> sample) (cg : Val -> cgraph) (mc : Val -> gmap Var (gmap Val Qc)),
  one_valued (sp_out sp) /\ pos_counts (sp_out sp) /\ all_wf (sp_cp sp) (sp_out sp) /\
  (forall w, ~ occurs (sp_out sp) (w, val_u)) /\ y <> val_u /\ occurs_var (sp_out sp) v /\ everywhere (sp_out sp) w /\
  marginal_variables_probability o sp None true = Ok m /\ marginal_variables_probability o sp None false = Ok m0 /\ m0 !! v = Some d /\
  (forall x, x ∈ dom d -> observes (ev x) v x /\ conditional_graph sp (ev x) = Ok (cg x) /\
     marginal_variables_probability o (cg_space (cg x)) None true = Ok (mc x)) /\
  prob m w y <> qsum ((fun '(x, p) => p * prob (mc x) w y)%Qc <$> map_to_list d).
Proof.
  exists sp_gap, va, vb, x1, o0, (marg_of sp_gap true), (marg_of sp_gap false), gap_a, (given va), (fun x => cond_of sp_gap (given va x)),
    (fun x => marg_of (cg_space (cond_of sp_gap (given va x))) true).
  split. { refine (set_singleb_spec _ _). vm_compute; reflexivity. }
  split. { refine (set_posb_spec _ _). vm_compute; reflexivity. }
  split. { refine (set_wfb_spec (sp_out sp_gap) _). vm_compute; reflexivity. }
  split. { apply no_val_ub_spec. vm_compute; reflexivity. }
  split; [discriminate|].
  split. { exists x1, (graph_of [ted va x1 vb x1]). split; [by_vm|]. apply (bool_decide_eq_true _). vm_compute; reflexivity. }
  split. { apply set_everyb_spec. vm_compute; reflexivity. }
  split. { apply marg_of_ok. vm_compute. reflexivity. }
  split. { apply marg_of_ok. vm_compute. reflexivity. }
  split. { unfold gap_a. assert (match marg_of sp_gap false !! va with Some _ => true | None => false end = true) as Hs by (vm_compute; reflexivity).
    revert Hs. destruct (marg_of sp_gap false !! va); [reflexivity|discriminate]. }
  split.
  - intros x Hx. split; [split; reflexivity|].
    assert (is_ok (conditional_graph sp_gap (given va x)) && is_ok (marginal_variables_probability o0 (cg_space (cond_of sp_gap (given va x))) None true) = true) as Hb.
    { revert x Hx. apply all_in. vm_compute. reflexivity. }
    apply andb_prop in Hb as [H1 H2]. split; [apply cond_of_ok, H1|apply marg_of_ok, H2].
  - apply (bool_decide_eq_false _). vm_compute. reflexivity.
Qed.

Print Assumptions C53_total_probability.
Print Assumptions C53_bayes_rule.
Print Assumptions C53_chain_rule.
Print Assumptions C53_joined.
Print Assumptions C53_unobserved_variable_refuted.
