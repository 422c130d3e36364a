(** * BayesInfer: the distributions that the Bayesian network experiment compares. *)

From stdpp Require Import pretty.
From Verif Require Import BaseFacts SpaceFacts BfsFacts MultiFacts CondJoinFacts.
From Verif Require Export BayesJoint StageFacts.

Local Existing Instance StrU.

(** ** The loop of inference steps *)

Definition told (l : list (Var * nat)) (n : node) : Prop := exists v j, (v, j) ∈ l /\ n = (v, value_name v j).

Lemma inference_run o sp o' l : forall ev cur, stage_inv o sp ev cur ->
  (forall n, told l n -> occurs (sp_out sp) n) ->
  (forall v x y, told l (v, x) -> told l (v, y) \/ ev (v, y) -> y = x) ->
  exists cur', for_res (fun o inf_graph '(v, j) =>
      ev ← build_single_node (sp_sample_builder sp) v (value_name v j);
      cg ← conditional_graph inf_graph ev;
      make_joined o (sp_relation_graph (cg_space cg))) o' cur l = Ok cur' /\
    stage_inv o sp (fun n => ev n \/ told l n) cur' /\
    (l <> [] -> forall o1, make_joined o1 cur' = Ok cur').
Proof.
  revert o'. induction l as [|[v j] l IH]; intros o' ev cur Hinv Hocc Hco.
  - exists cur. split; [done|]. split; [|done]. destruct Hinv as [I1 I2 I3 I4 I5 I6].
    assert (forall n, ~ told [] n) as Hno by (intros n (v & j & Hn & _); by apply elem_of_nil in Hn).
    split; [done..| |].
    + intros o1 r r' Hr Hr' G c. rewrite (I5 o1 r r' Hr Hr'). naive_solver.
    + intros n Hn Hev. apply I6; [done|]. intros y Hy. apply Hev. by left.
  - assert (told ((v, j) :: l) (v, value_name v j)) as Htold by (exists v, j; split; [left|done]).
    destruct (stage_given o sp ev cur (sub o' 1) v (value_name v j) Hinv) as (c1 & Hr1 & Hi1).
    { by apply Hocc. }
    { intros y Hy. apply (Hco v _ y Htold). by right. }
    destruct (stage_joined o sp _ c1 (sub o' 1) Hi1) as (c2 & Hr2 & Hi2).
    assert (forall o1, make_joined o1 c2 = Ok c2) as Hagain.
    { intros o1. simpl in Hr2. destruct (joined_joinable _ c1 c2 (si_joinable _ _ _ _ Hi1) Hr2) as [Hj Hsame]. by apply joined_again. }
    destruct (IH (sub o' 0) _ c2 Hi2) as (c3 & Hr3 & [I1 I2 I3 I4 I5 I6] & Hag).
    { intros n (w & k & Hn & ->). apply Hocc. exists w, k. split; [by right|done]. }
    { intros w x y (w' & k & Hn & [= -> ->]) Hy. apply (Hco w'); [exists w', k; split; [by right|done]|].
      destruct Hy as [(w2 & k2 & Hn2 & [= -> ->])|[Hy|[= -> ->]]]; [left; exists w2, k2; split; [by right|done]|by right|by left]. }
    exists c3. split.
    + cbn [for_res]. unfold run_stage in Hr1. unfold sp_sample_builder in *. rewrite (si_cp _ _ _ _ Hinv) in Hr1.
      destruct (build_single_node (new_builder (sp_cp sp)) v (value_name v j)) as [e|]; [|done]. cbn [mbind res_bind] in *.
      destruct (conditional_graph cur e) as [cg|]; [|done]. cbn [mbind res_bind] in *. injection Hr1 as <-.
      change (run_stage (sub o' 1) (sp_relation_graph (cg_space cg)) Joined) with (make_joined (sub o' 1) (sp_relation_graph (cg_space cg))) in Hr2.
      by rewrite Hr2.
    + assert (forall n, (ev n \/ told ((v, j) :: l) n) <-> ((ev n \/ n = (v, value_name v j)) \/ told l n)) as Heq.
      { intros n. unfold told. setoid_rewrite elem_of_cons. split.
        - intros [H|(w & k & [[= -> ->]|H] & ->)]; [by left; left|by left; right|right; by exists w, k].
        - intros [[H| ->]|(w & k & H & ->)]; [by left|right; exists v, j; auto|right; exists w, k; auto]. }
      split.
      * split; [done..| |].
        -- intros o1 r r' Hr Hr' G c. rewrite (I5 o1 r r' Hr Hr'). f_equiv. by setoid_rewrite Heq.
        -- intros n Hn Hev. apply I6; [done|]. intros y Hy. apply Hev. by apply Heq.
      * intros _. destruct l as [|e l]; [|by apply Hag]. simpl in Hr3. by injection Hr3 as <-.
Qed.

Lemma qdiv_mult a b c d : b <> 0%Z -> d <> 0%Z -> (qdiv a b * qdiv c d)%Qc = qdiv (a * c) (b * d).
Proof.
  intros Hb Hd. unfold qdiv.
  assert (forall x y, Q2Qc (inject_Z (x * y)) = (Q2Qc (inject_Z x) * Q2Qc (inject_Z y))%Qc) as Hm.
  { intros x y. apply Qc_is_canon. simpl. rewrite !Qred_correct. by rewrite inject_Z_mult. }
  assert (forall x, x <> 0%Z -> Q2Qc (inject_Z x) <> 0%Qc) as Hn.
  { intros x Hx H. apply Hx. apply (f_equal this) in H. simpl in H. apply Qred_eq_iff in H. unfold Qeq in H. simpl in H. lia. }
  rewrite !Hm. field. split; by apply Hn.
Qed.

Section bayes.
Context {T : Type} (scale : T -> res Z) (card : Var -> nat) (net : list (Var * cpd T)) (Hok : bayes_ok scale card net) (i : nat).

Local Notation fac := (bayes_factor scale card).
Local Notation cp := (bayes_cp net i).
Local Notation vars := (net.*1).

(** Everything that the script reads off a graph whose outcomes are the assignments with property [E]. *)
Lemma bayes_read (E : (Var -> nat) -> Prop) {HE : forall b, Decision (E b)} (r : space) :
  (forall a b, (forall v, v ∈ vars -> a v = b v) -> E a -> E b) ->
  (exists t, tuple_of card vars t /\ E (value_at vars t)) -> sp_cp r = cp ->
  (forall G c, count_of (sp_out r) G = Ok c <->
     exists b, ranged card net b /\ E b /\ G = net_graph (fac <$> net) (named b) /\ c = bayes_product scale net b) ->
  let P := fun t => tuple_of card vars t /\ E (value_at vars t) in
  let w := fun t => bayes_product scale net (value_at vars t) in
  (forall o, length (ss_items o (sp_out r)) = length (filter (fun t => E (value_at vars t)) (tuples (card <$> vars)))) /\
  (forall o, exists m, normalize (value_map_from_graph o r) = Ok m /\ joint_distribution vars P w m) /\
  forall o, exists m, marginal_variables_probability o r None false = Ok m /\ marginal_distributions vars P w m.
Proof.
  intros Hext [t0 Ht0] Hcp HG P w. set (l := filter (fun t => E (value_at vars t)) (tuples (card <$> vars))).
  assert (forall t, t ∈ l <-> P t) as Hl.
  { intros t. unfold l, P. rewrite elem_of_list_filter, tuples_elem, <- tuple_below. tauto. }
  assert (NoDup l) as Hnd by apply NoDup_filter, tuples_NoDup.
  pose proof (counts_by_tuples scale card net Hok i E l (sp_out r) Hext Hl HG) as HGt.
  assert (forall t t', t ∈ l -> t' ∈ l -> bgraph scale card net t = bgraph scale card net t' -> t = t') as Hinj.
  { intros t t' Ht Ht'. apply Hl in Ht as [Ht _], Ht' as [Ht' _]. by apply (bgraph_inj scale card net Hok). }
  assert (forall t, t ∈ l -> (1 <= bweight scale net t)%Z) as Hw.
  { intros t Ht. apply Hl in Ht as [Ht _]. apply (bayes_product_pos scale card net Hok). by apply (tuple_ranged scale card net Hok t). }
  assert (forall (l' : list (list nat)), NoDup l' -> (forall t, t ∈ l' <-> P t) -> l' ≡ₚ l) as Hperm.
  { intros l' Hnd' Hl'. apply NoDup_Permutation; [done|done|]. intros t. by rewrite Hl, Hl'. }
  split_and!.
  - intros o. by apply (dist_size (sp_out r) l (bweight scale net) (bgraph scale card net)).
  - intros o.
    destruct (normalize_listed (value_map_from_graph o r) (tnames net) (bweight scale net) l Hnd) as (m & Hm & Hms); [|done| |].
    { intros t t' Ht Ht'. apply Hl in Ht as [Ht _], Ht' as [Ht' _]. by apply (tnames_inj scale card net Hok). }
    { apply (value_map_graph_spec scale card net Hok); [|done]. intros t Ht. by apply Hl. }
    exists m. split; [done|]. intros l' Hnd' Hl' X q. rewrite Hms.
    assert (zsum (w <$> l') = zsum (bweight scale net <$> l)) as -> by (by rewrite (Hperm l' Hnd' Hl')).
    split; intros (t & Ht & H); exists t; (split; [by apply Hl|exact H]).
  - intros o.
    destruct (dist_marginals (sp_out r) l (bweight scale net) (bgraph scale card net) Hnd Hinj Hw HGt vars
      (fun t v => named (value_at vars t) v)) with (o := o) (cp := sp_cp r) as (m & Hm & Hdom & Hms).
    + intros t v x Ht. apply (bgraph_nodes scale card net Hok).
    + intros Hnil. assert (t0 ∈ l) as Hin by by apply Hl. rewrite Hnil in Hin. by apply elem_of_nil in Hin.
    + intros v Hv. rewrite Hcp. destruct (bayes_declared scale card net Hok i v (value_name v 0)) as [_ Hd].
      destruct Hd as (X & HX & _); [|by exists X]. split; [done|]. exists 0. split; [by apply (card_pos scale card net Hok)|done].
    + exists m. split; [by destruct r|]. split; [done|]. intros v d Hd. pose proof (fun x q => Hms v d x q Hd) as Hdm. split.
      * intros x. split.
        -- intros [q Hq]. apply Hdm in Hq as [(t & Ht & Hx) _]. exists t. split; [by apply Hl|done].
        -- intros (t & Ht & ->). eexists. apply Hdm. split; [|done]. exists t. split; [by apply Hl|done].
      * intros l' j q Hnd' Hl' Hq. apply Hdm in Hq as [_ ->]. rewrite (Hperm l' Hnd' Hl'). f_equal.
        f_equal. f_equal. apply filter_same. intros t _. unfold named. split; [|by intros ->]. intros H. exact (proj2 (value_name_inj _ _ _ _ H)).
Qed.

Lemma joint_distribution_ext (P P' : list nat -> Prop) w m : (forall t, P t <-> P' t) ->
  joint_distribution vars P w m -> joint_distribution vars P' w m.
Proof.
  intros HP H l Hnd Hl X q. rewrite (H l Hnd) by (intros t; by rewrite Hl, HP).
  split; intros (t & Ht & H'); exists t; (split; [by apply HP|done]).
Qed.

Lemma marginal_distributions_ext (P P' : list nat -> Prop) w m : (forall t, P t <-> P' t) ->
  marginal_distributions vars P w m -> marginal_distributions vars P' w m.
Proof.
  intros HP [H1 H2]. split; [done|]. intros v d Hd. destruct (H2 v d Hd) as [H3 H4]. split.
  - intros x. rewrite H3. by setoid_rewrite HP.
  - intros l j q Hnd Hl. apply H4; [done|]. intros t. by rewrite Hl, HP.
Qed.

(** The chain rule: with tables of conditional distributions and without cycles, no normalisation is left. *)
Lemma bayes_chain F m : no_cycle net -> (forall e, e ∈ net -> columns_sum scale card F e) ->
  joint_distribution vars (tuple_of card vars) (fun t => bayes_product scale net (value_at vars t)) m ->
  forall t, tuple_of card vars t -> m !! key_of vars t = Some (chain_rule scale F net (value_at vars t)).
Proof.
  intros Hcy Hcol Hm t Ht. set (l := tuples (card <$> vars)).
  assert (forall t, t ∈ l <-> tuple_of card vars t) as Hl by (intros t'; unfold l; by rewrite tuples_elem, <- tuple_below).
  assert (NoDup l) as Hnd by apply tuples_NoDup.
  apply (Hm l Hnd Hl). exists t. split_and!; [done|done|].
  pose proof (bayes_total scale card net Hok F l Hcy Hcol Hnd Hl) as Htot. unfold bweight in Htot. rewrite Htot.
  assert (F <> 0%Z) as HF.
  { intros ->. assert (1 <= zsum (bweight scale net <$> l))%Z as Hpos.
    { apply (zsum_pos _ _ t); [|by apply Hl]. intros t' Ht'. apply Hl in Ht'. apply (bayes_product_pos scale card net Hok).
      by apply (tuple_ranged scale card net Hok t'). }
    unfold bweight in Hpos. rewrite Htot in Hpos. pose proof (bk_some _ _ _ Hok) as Hne. destruct net as [|e n]; [done|].
    rewrite Z.pow_0_l in Hpos; [lia|]. simpl. lia. }
  unfold chain_rule, bayes_product. generalize (value_at vars t) as b. intros b. clear -HF. induction net as [|e n IH].
  - simpl. apply Qc_is_canon. reflexivity.
  - change (qdiv (entry_count scale e b) F * foldr Qcmult 1 ((fun e => qdiv (entry_count scale e b) F) <$> n) =
      qdiv (entry_count scale e b * product ((fun e => entry_count scale e b) <$> n)) (F ^ Z.of_nat (S (length n))))%Qc.
    rewrite IH, qdiv_mult; [|done|by apply Z.pow_nonzero; [|lia]]. f_equal. rewrite Nat2Z.inj_succ, Z.pow_succ_r by lia. done.
Qed.

Context (Hconn : net_connected (fac <$> net)) (Htree : ~ net_cyclic (fac <$> net) \/ ~ net_crowded (fac <$> net)).

Lemma bayes_joint o o' : exists sp r, make_bayes_graph scale o i net = Ok sp /\ make_joined o' sp = Ok r /\
  (forall o1, length (ss_items o1 (sp_out r)) = foldr Nat.mul 1 (card <$> vars)) /\
  (forall o1, exists m, normalize (value_map_from_graph o1 r) = Ok m /\
     joint_distribution vars (tuple_of card vars) (fun t => bayes_product scale net (value_at vars t)) m) /\
  forall o1, exists m, marginal_variables_probability o1 r None false = Ok m /\
     marginal_distributions vars (tuple_of card vars) (fun t => bayes_product scale net (value_at vars t)) m.
Proof.
  destruct (bayes_joined scale card net Hok i Hconn Htree o o') as (sp & r & Hsp & Hr & _ & Hcp & _ & HG).
  exists sp, r. destruct (bayes_read (fun _ => True) r) as (R1 & R2 & R3).
  - done.
  - exists ((fun _ => 0) <$> vars). split; [|done]. apply tuple_below. apply (below_map card (fun _ => 0)).
    intros v Hv. apply (card_pos scale card net Hok v Hv).
  - done.
  - intros G c. rewrite HG. split; intros (b & H); exists b; tauto.
  - split_and!; [done|done| | |].
    + intros o1. rewrite R1, filter_all by done. rewrite tuples_length. generalize (card <$> vars). clear. intros ns.
      induction ns as [|n ns IH]; [done|]. simpl. by rewrite <- IH.
    + intros o1. destruct (R2 o1) as (m & Hm & Hd). exists m. split; [done|]. eapply joint_distribution_ext; [|exact Hd]. simpl. tauto.
    + intros o1. destruct (R3 o1) as (m & Hm & Hd). exists m. split; [done|]. eapply marginal_distributions_ext; [|exact Hd]. simpl. tauto.
Qed.

Lemma bayes_inference o o' ev : ev <> [] -> evidence_ok card vars ev ->
  exists sp r, make_bayes_graph scale o i net = Ok sp /\ run_inference o' sp ev = Ok r /\
  (forall o1, exists m, normalize (value_map_from_graph o1 r) = Ok m /\
     joint_distribution vars (fun t => tuple_of card vars t /\ agrees vars ev t) (fun t => bayes_product scale net (value_at vars t)) m) /\
  forall o1, exists m, marginal_variables_probability o1 r None false = Ok m /\
     marginal_distributions vars (fun t => tuple_of card vars t /\ agrees vars ev t) (fun t => bayes_product scale net (value_at vars t)) m.
Proof.
  intros Hne Hev. destruct (bayes_built scale card net Hok i o) as (sp & Hsp & Hcp & Hholds). exists sp.
  assert (net_ok (sp_cp sp) (fac <$> net)) as Hnet by (rewrite Hcp; apply (bayes_net_ok scale card net Hok)).
  pose proof (net_joinable sp _ Hnet Hholds) as Hj.
  assert (~ disconnected (sp_out sp)) as Hd by by apply (net_not_disconnected sp _ Hnet Hholds).
  assert (~ cyclic (sp_out sp) \/ ~ crowded (sp_out sp)) as Hc.
  { destruct Htree as [H|H]; [left; by apply (net_not_cyclic sp _ Hnet Hholds)|right; by apply (net_not_crowded sp _ Hnet Hholds)]. }
  destruct (bayes_joined scale card net Hok i Hconn Htree o o') as (sp' & rj & Hsp' & Hrj & _ & _ & _ & HG).
  assert (sp' = sp) as -> by congruence. clear Hsp'.
  destruct (inference_run o' sp o' ev _ sp (stage_start o' sp Hj Hd Hc)) as (r & Hr & [I1 I2 I3 I4 I5 I6] & Hag).
  { intros n (v & j & Hin & ->). destruct (Hev v j Hin) as (Hv & Hj' & _).
    apply (net_occurs sp _ Hnet Hholds); [by apply (bayes_net_vars scale card net Hok)|]. rewrite Hcp.
    apply (bayes_declared scale card net Hok). split; [done|by exists j]. }
  { intros v x y (w & j & Hin & [= -> ->]) [(w' & k & Hin' & [= <- ->])|[]]. destruct (Hev w j Hin) as (_ & _ & Hu). by rewrite (Hu k Hin'). }
  exists r. split; [done|]. split; [exact Hr|].
  set (E := fun b : Var -> nat => Forall (fun e => b e.1 = e.2) ev).
  assert (forall t, E (value_at vars t) <-> agrees vars ev t) as HE.
  { intros t. unfold E, agrees. rewrite Forall_forall. split; [intros H v j Hin; exact (H (v, j) Hin)|intros H [v j] Hin; exact (H v j Hin)]. }
  destruct (bayes_read E r) as (_ & R2 & R3).
  - intros a b Hab Ha. unfold E in *. rewrite Forall_forall in *. intros [v j] Hin. rewrite <- Hab; [by apply (Ha (v, j))|].
    by destruct (Hev v j Hin).
  - set (b := fun v => match List.find (fun e => bool_decide (e.1 = v)) ev with Some e => e.2 | None => 0 end).
    assert (forall v j, (v, j) ∈ ev -> b v = j) as Hb.
    { intros v j Hin. unfold b. destruct (List.find (fun e => bool_decide (e.1 = v)) ev) as [[w k]|] eqn:Hf.
      - apply find_some in Hf as [Hf1 Hf2]. apply elem_of_list_In in Hf1. apply bool_decide_eq_true in Hf2. simpl in *. subst w.
        destruct (Hev v j Hin) as (_ & _ & Hu). by apply Hu.
      - exfalso. apply elem_of_list_In in Hin. pose proof (find_none _ _ Hf _ Hin) as Hn. simpl in Hn. by rewrite bool_decide_eq_true_2 in Hn. }
    exists (b <$> vars). split.
    + apply tuple_below, below_map. intros v Hv. unfold b. destruct (List.find (fun e => bool_decide (e.1 = v)) ev) as [[w k]|] eqn:Hf.
      * apply find_some in Hf as [Hf1 Hf2]. apply elem_of_list_In in Hf1. apply bool_decide_eq_true in Hf2. simpl in *. subst w.
        by destruct (Hev v k Hf1) as (_ & ? & _).
      * apply (card_pos scale card net Hok v Hv).
    + apply HE. intros v j Hin. rewrite value_at_map; [by apply Hb|]. by destruct (Hev v j Hin).
  - congruence.
  - intros G c. rewrite (I5 o' rj r Hrj (Hag Hne o')), HG. split.
    + intros [(b & Hb & -> & ->) Hn]. exists b. split_and!; [done| |done|done]. unfold E. apply Forall_forall. intros [v j] Hin. simpl.
      assert ((v, value_name v j) ∈ g_nodes (net_graph (fac <$> net) (named b))) as Hin' by (apply Hn; right; by exists v, j).
      apply net_graph_nodes in Hin' as [_ Hx]. simpl in Hx. symmetry. exact (proj2 (value_name_inj _ _ _ _ Hx)).
    + intros (b & Hb & He & -> & ->). split; [by exists b|]. intros n [[]|(v & j & Hin & ->)].
      unfold E in He. rewrite Forall_forall in He. specialize (He (v, j) Hin). simpl in He.
      apply net_graph_nodes. simpl. split; [apply (bayes_net_vars scale card net Hok); by destruct (Hev v j Hin)|]. unfold named. by rewrite He.
  - split.
    + intros o1. destruct (R2 o1) as (m & Hm & Hdm). exists m. split; [done|]. eapply joint_distribution_ext; [|exact Hdm].
      intros t. simpl. by rewrite HE.
    + intros o1. destruct (R3 o1) as (m & Hm & Hdm). exists m. split; [done|]. eapply marginal_distributions_ext; [|exact Hdm].
      intros t. simpl. by rewrite HE.
Qed.

End bayes.
