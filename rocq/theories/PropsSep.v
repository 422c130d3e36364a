(** * PropsSep: properties C46 (conditioned spaces), C47 and C48: separated factors are conditionally independent.

    The general form of what experiments/comparing_with_markov_network.py (lines 230-262, relation_graph_separation)
    checks on one network. *)

From Verif Require Import ExamplesSets SepFacts PropsJoin.

Section theorems.
Context {U : Universe}.

(** ** C46: conditioning on one value after the other never makes joining fail. *)
Theorem C46_conditioned_succeeds (o : oracle) (sp : space) (l : list node) (sp' : space) :
  joinable sp -> ~ disconnected (sp_out sp) -> (~ cyclic (sp_out sp) \/ ~ crowded (sp_out sp)) ->
  conditioned sp l sp' -> is_ok (make_joined o sp') = true.
Proof. exact (C46_conditioned_lemma o sp l sp'). Qed.

(** ** C47: if the outcomes of [A] share only variables of [S] with the others, then of two joined outcomes with the
    same values for [S] the parts can be exchanged, and the product of the counts stays the same. *)
Theorem C47_exchange (o : oracle) (sp r : space) (A : graph -> Prop) `{!forall g, Decision (A g)} (S : gset Var) (G1 G2 : graph) (c d : Z) :
  joinable sp -> make_joined o sp = Ok r -> separates (sp_out sp) A S ->
  count_of (sp_out r) G1 = Ok c -> count_of (sp_out r) G2 = Ok d -> agree (fun v => v ∈ S) G1 G2 ->
  exists K L k l, count_of (sp_out r) K = Ok k /\ count_of (sp_out r) L = Ok l /\ (c * d = k * l)%Z /\
    agree (var_of (sp_out sp) A) K G1 /\ agree (var_of (sp_out sp) (outside A)) K G2 /\
    agree (var_of (sp_out sp) A) L G2 /\ agree (var_of (sp_out sp) (outside A)) L G1.
Proof. exact (C47_exchange_lemma o sp r A S G1 G2 c d). Qed.

(** Any event [E] about the variables of [A] and any event [F] about the variables of the other outcomes are
    independent given values of the variables of [S]: P(E, F | S) P(S) = P(E | S) P(F | S) in total counts. *)
Theorem C47_conditional_independence (o : oracle) (sp r : space) (A : graph -> Prop) `{!forall g, Decision (A g)} (S : gset Var)
    (a : Var -> Val) (E F : graph -> Prop) `{!forall g, Decision (E g)} `{!forall g, Decision (F g)} (n0 n1 n2 n3 : Z) :
  joinable sp -> make_joined o sp = Ok r -> separates (sp_out sp) A S ->
  about (var_of (sp_out sp) A) E -> about (var_of (sp_out sp) (outside A)) F ->
  weight (sp_out r) (fun G => at_values S a G /\ E G /\ F G) n0 -> weight (sp_out r) (at_values S a) n1 ->
  weight (sp_out r) (fun G => at_values S a G /\ E G) n2 -> weight (sp_out r) (fun G => at_values S a G /\ F G) n3 ->
  (n0 * n1 = n2 * n3)%Z.
Proof. exact (C47_independence_lemma o sp r A S a E F n0 n1 n2 n3). Qed.

(** ** C48: once the variables of [S] are observed, observing a variable beyond them does not change the marginal
    distribution of a variable of [A]. *)
Theorem C48_separation (o1 o2 o3 o4 : oracle) (sp sp1 sp2 r1 r2 : space) (A : graph -> Prop) `{!forall g, Decision (A g)} (S : gset Var)
    (l : list node) (w : Var) (x : Val) (u : Var) (variables : option (gset Var)) (m1 m2 : gmap Var (gmap Val Qc)) :
  joinable sp -> pos_counts (sp_out sp) -> separates (sp_out sp) A S ->
  (forall v, v ∈ S -> exists y, (v, y) ∈ l) -> conditioned sp l sp1 -> conditioned sp1 [(w, x)] sp2 ->
  var_of (sp_out sp) A u -> var_of (sp_out sp) (outside A) w ->
  make_joined o1 sp1 = Ok r1 -> make_joined o2 sp2 = Ok r2 ->
  marginal_variables_probability o3 r1 variables false = Ok m1 -> marginal_variables_probability o4 r2 variables false = Ok m2 ->
  m1 !! u = m2 !! u.
Proof. exact (C48_chain_lemma o1 o2 o3 o4 sp sp1 sp2 r1 r2 A S l w x u variables m1 m2). Qed.

End theorems.

(** ** Examples: the ring a-b-c-d, with a and c between b and d. *)

#[local] Existing Instance TinyU.

Definition b_side (g : graph) : Prop := having vb g.
Global Instance b_side_dec g : Decision (b_side g). Proof. unfold b_side. apply _. Defined.

Definition sepb (ss : samples) (b : Var) (S : gset Var) : bool :=
  forallb (fun p => forallb (fun q => bool_decide (b ∉ included_variables p.1) || bool_decide (b ∈ included_variables q.1) ||
    bool_decide (included_variables p.1 ∩ included_variables q.1 ⊆ S)) (map_to_list (ss_map ss))) (map_to_list (ss_map ss)).
Lemma sepb_spec cp ss (b : Var) (S : gset Var) : all_wf cp ss -> sepb ss b S = true -> separates ss (having b) S.
Proof.
  intros Hwf Hb. split.
  - intros g h Hg Hh Hs. apply (same_pairs_vars cp g h b); [by apply Hwf|by apply Hwf|done].
  - intros g h v [c Hg] [d Hh] Hbg Hbh Hvg Hvh. unfold sepb in Hb. rewrite forallb_forall in Hb. specialize (Hb (g, c)).
    rewrite <- elem_of_list_In, elem_of_map_to_list in Hb. specialize (Hb Hg). rewrite forallb_forall in Hb. specialize (Hb (h, d)).
    rewrite <- elem_of_list_In, elem_of_map_to_list in Hb. specialize (Hb Hh). cbn [fst] in Hb.
    apply orb_prop in Hb as [Hb|Hb]; [apply orb_prop in Hb as [Hb|Hb]|]; apply bool_decide_eq_true in Hb.
    + destruct Hb. by apply included_variables_spec.
    + destruct Hbh. by apply included_variables_spec.
    + apply Hb, elem_of_intersection. by rewrite !included_variables_spec.
Qed.

Example ring_separates : separates (sp_out sp_ring) b_side {[va; vc]}.
Proof. apply (sepb_spec tcp); [apply (jn_wf _ sp_ring_joinable)|]. vm_compute. reflexivity. Qed.
Example ring_pos : pos_counts (sp_out sp_ring).
Proof.
  assert (bool_decide (map_Forall (fun _ c => (0 < c)%Z) (ss_map (sp_out sp_ring))) = true) as H by (vm_compute; reflexivity).
  apply bool_decide_eq_true in H. exact H.
Qed.

Definition cond_on (sp : space) (v : Var) (x : Val) : res space :=
  match conditional_graph sp (tsmp (tsingle v x)) with Ok cg => Ok (sp_relation_graph (cg_space cg)) | Err e => Err e end.
Definition occursb (sp : space) (v : Var) (x : Val) : bool := existsb (fun p => bool_decide (tnd v x ∈ g_nodes p.1)) (map_to_list (ss_map (sp_out sp))).
Lemma cond_on_step sp v x l sp1 sp' : cond_on sp v x = Ok sp1 -> occursb sp v x = true -> conditioned sp1 l sp' -> conditioned sp (tnd v x :: l) sp'.
Proof.
  unfold cond_on. intros H Ho Hc. destruct (conditional_graph sp (tsmp (tsingle v x))) as [cg|] eqn:Hcg; [|done]. injection H as <-.
  eapply (conditioned_cons sp (tsmp (tsingle v x)) cg v x); [reflexivity|reflexivity| |exact Hcg|exact Hc]. apply existsb_exists in Ho as ([g c] & Hg & Hn).
  apply elem_of_list_In, elem_of_map_to_list in Hg. apply bool_decide_eq_true in Hn. exists g. split; [by exists c|done].
Qed.

(** a=1 and c=1 observed, then d=1: both joined spaces exist, b keeps its marginals 10/34
    and 24/34, d does not. *)
Definition run_ring (l : list (Var * Val)) : res (gmap Var (gmap Val Qc)) :=
  sp ← foldl (fun r n => sp ← r; cond_on sp n.1 n.2) (Ok sp_ring) l; r ← make_joined o1 sp; marginal_variables_probability o0 r None false.

Example C48_ring_example :
  match run_ring [(va, x1); (vc, x1)], run_ring [(va, x1); (vc, x1); (vd, x1)] with
  | Ok m1, Ok m2 => bool_decide (m1 !! vb = m2 !! vb) &&
      bool_decide (m1 !! vb = Some {[x1 := qdiv 10 34; x2 := qdiv 24 34]}) &&
      negb (bool_decide (m1 !! vd = m2 !! vd))
  | _, _ => false end = true.
Proof. vm_compute. reflexivity. Qed.

(** Without observing a and c the same observation does change the marginals of b. *)
Theorem C48_not_separated_refuted : exists (o : oracle) (sp sp1 r r1 : space) (w : Var) (x : Val) (u : Var) m m1,
  joinable sp /\ pos_counts (sp_out sp) /\ conditioned sp [(w, x)] sp1 /\ make_joined o sp = Ok r /\ make_joined o sp1 = Ok r1 /\
  marginal_variables_probability o r None false = Ok m /\ marginal_variables_probability o r1 None false = Ok m1 /\
  (forall g, contains (sp_out sp) g -> ~ (having w g /\ having u g)) /\ m !! u <> m1 !! u.
Proof.
  exists o1, sp_ring.
  destruct (ok_inv2 (cond_on sp_ring vd x1) (make_joined o1 sp_ring) (fun sp1 r => match make_joined o1 sp1 with
     | Ok r1 => match marginal_variables_probability o1 r None false, marginal_variables_probability o1 r1 None false with
         | Ok m, Ok m1 => negb (bool_decide (m !! vb = m1 !! vb)) | _, _ => false end
     | _ => false end)) as (sp1 & r & H1 & H2 & H); [vm_compute; reflexivity|].
  apply ok_inv in H as (r1 & H3 & H). apply ok_inv2 in H as (m & m1 & H4 & H5 & H6).
  exists sp1, r, r1, vd, x1, vb, m, m1. split_and!; [apply sp_ring_joinable|apply ring_pos| |exact H2|exact H3|exact H4|exact H5| |].
  - apply (cond_on_step _ vd x1 [] sp1 sp1 H1); [vm_compute; reflexivity|constructor].
  - intros g [c Hg] [Hd Hb]. apply included_variables_spec in Hd, Hb.
    assert (bool_decide (map_Forall (fun (g : graph) (_ : Z) => ~ (vd ∈ included_variables g /\ vb ∈ included_variables g))
      (ss_map (sp_out sp_ring))) = true) as Hall by (vm_compute; reflexivity).
    apply bool_decide_eq_true in Hall. exact (Hall g c Hg (conj Hd Hb)).
  - by apply negb_true_iff, bool_decide_eq_false in H6.
Qed.

Print Assumptions C46_conditioned_succeeds.
Print Assumptions C47_exchange.
Print Assumptions C47_conditional_independence.
Print Assumptions C48_separation.
Print Assumptions C48_not_separated_refuted.
