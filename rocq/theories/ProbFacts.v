(** * ProbFacts: the rules of probability on conditional graphs (C53) *)

From Verif Require Import SpecProb SpaceFacts FoldFacts FactorFacts BuildFacts CondJoinFacts SepFacts StageFacts.

Section probfacts.
Context {U : Universe}.

(** ** Sums over the values of a variable *)
Lemma zsum_zero {A} (f : A -> Z) l : (forall x, x ∈ l -> f x = 0%Z) -> zsum (f <$> l) = 0%Z.
Proof.
  induction l as [|x l IH]; intros H; [done|]. rewrite fmap_cons. cbn. rewrite (H x) by left.
  change (zsum (f <$> l) = 0%Z). apply IH. intros y Hy. apply H. by right.
Qed.
Lemma zsum_one {A} (f : A -> Z) l x : NoDup l -> x ∈ l -> (forall y, y ∈ l -> y <> x -> f y = 0%Z) -> zsum (f <$> l) = f x.
Proof.
  intros Hnd Hx Hz. apply elem_of_list_split in Hx as (l1 & l2 & ->). rewrite fmap_app, fmap_cons.
  apply NoDup_app in Hnd as (_ & Hd & [Hx2 _]%NoDup_cons).
  assert (forall a b, zsum (a ++ b) = (zsum a + zsum b)%Z) as Happ.
  { intros a b. induction a as [|z a IH]; [done|]. cbn. change (z + zsum (a ++ b) = z + zsum a + zsum b)%Z. rewrite IH. lia. }
  rewrite Happ. change (zsum (f <$> l1) + (f x + zsum (f <$> l2)) = f x)%Z.
  rewrite (zsum_zero f l1), (zsum_zero f l2); [lia| |].
  - intros y Hy. apply Hz; [rewrite elem_of_app, elem_of_cons; auto|]. by intros ->.
  - intros y Hy. apply Hz; [rewrite elem_of_app; auto|]. intros ->. apply (Hd x Hy). left.
Qed.
Lemma zsum_add {A} (f g : A -> Z) l : zsum ((fun x => f x + g x)%Z <$> l) = (zsum (f <$> l) + zsum (g <$> l))%Z.
Proof.
  induction l as [|x l IH]; [done|]. rewrite !fmap_cons. cbn.
  change (f x + g x + zsum ((fun x => f x + g x)%Z <$> l) = f x + zsum (f <$> l) + (g x + zsum (g <$> l)))%Z. rewrite IH. lia.
Qed.

Lemma msum_partition (m : gmap graph Z) (P : graph -> Prop) `{!forall g, Decision (P g)} v l :
  NoDup l -> (forall g c, m !! g = Some c -> single_valued (g_nodes g) /\ exists x, x ∈ l /\ has v x g) ->
  msum (fun g c => if decide (P g) then c else 0%Z) m =
  zsum ((fun x => msum (fun g c => if decide (has v x g /\ P g) then c else 0%Z) m) <$> l).
Proof.
  intros Hnd. induction m as [|g c m Hg IH] using map_ind; intros Hm.
  - symmetry. apply zsum_zero. intros x _. apply msum_empty.
  - rewrite msum_insert by done. rewrite IH.
    2:{ intros h d Hh. apply (Hm h d). rewrite lookup_insert_ne; [done|]. intros ->. congruence. }
    destruct (Hm g c) as (Hs & x & Hx & Hhas); [apply lookup_insert|].
    assert (zsum ((fun x => if decide (has v x g /\ P g) then c else 0%Z) <$> l) = if decide (P g) then c else 0%Z) as <-.
    { rewrite (zsum_one _ l x Hnd Hx).
      - by destruct (decide (P g)), (decide (has v x g /\ P g)); try tauto.
      - intros y Hy Hne. rewrite decide_False; [done|]. intros [Hy' _]. apply Hne. by apply (Hs v y x). }
    rewrite <- zsum_add. f_equal. apply list_fmap_ext. intros i x' _. by rewrite msum_insert by done.
Qed.

(** ** Counts as rationals *)
Notation q z := (Q2Qc (inject_Z z)).
Lemma q_add a b : q (a + b) = (q a + q b)%Qc.
Proof. apply Qc_is_canon. simpl. rewrite !Qred_correct. by rewrite inject_Z_plus. Qed.
Lemma q_neq a : a <> 0%Z -> q a <> 0%Qc.
Proof. intros Ha H. apply Ha. apply (f_equal this) in H. simpl in H. apply Qred_eq_iff in H. unfold Qeq in H. simpl in H. lia. Qed.
Lemma q_zero : q 0 = 0%Qc.
Proof. by apply Qc_is_canon. Qed.
Lemma qdiv_zero a : qdiv 0 a = 0%Qc.
Proof. unfold qdiv, Qcdiv. rewrite q_zero. apply Qcmult_0_l. Qed.
Lemma qsum_q {A} (f : A -> Z) (n : Z) l : qsum ((fun x => qdiv (f x) n) <$> l) = qdiv (zsum (f <$> l)) n.
Proof.
  induction l as [|x l IH]; [symmetry; apply qdiv_zero|]. rewrite !fmap_cons.
  change (qdiv (f x) n + qsum ((fun x => qdiv (f x) n) <$> l) = qdiv (f x + zsum (f <$> l)) n)%Qc. rewrite IH.
  unfold qdiv, Qcdiv. rewrite q_add. ring.
Qed.

(** ** What the results of [marginal_variables_probability] say *)
Definition wt ss (P : graph -> Prop) `{!forall g, Decision (P g)} : Z := msum (fun g c => if decide (P g) then c else 0%Z) (ss_map ss).
Lemma wt_weight ss (P : graph -> Prop) `{!forall g, Decision (P g)} : weight ss P (wt ss P).
Proof. by apply (weight_msum ss P). Qed.
Lemma wt_unique ss (P : graph -> Prop) `{!forall g, Decision (P g)} a : weight ss P a -> a = wt ss P.
Proof. by apply (weight_msum ss P). Qed.
Lemma wt_ext ss (P Q : graph -> Prop) `{!forall g, Decision (P g)} `{!forall g, Decision (Q g)} :
  (forall g, contains ss g -> P g <-> Q g) -> wt ss P = wt ss Q.
Proof. intros Hpq. apply (wt_unique ss Q). apply (weight_ext ss P); [done|]. apply wt_weight. Qed.

Lemma prob_observed o sp m v x : one_valued (sp_out sp) -> pos_counts (sp_out sp) -> all_wf (sp_cp sp) (sp_out sp) ->
  marginal_variables_probability o sp None false = Ok m ->
  prob m v x = qdiv (wt (sp_out sp) (has v x)) (wt (sp_out sp) (having v)).
Proof.
  intros H1 H2 H3 Hm. destruct (C26_lemma o sp None false H1 H2) as (m' & Hm' & Hs); [done|].
  rewrite Hm in Hm'. injection Hm' as <-. specialize (Hs v). unfold prob.
  assert (~ occurs (sp_out sp) (v, x) -> 0%Qc = qdiv (wt (sp_out sp) (has v x)) (wt (sp_out sp) (having v))) as H0.
  { intros Ho. rewrite (weight_zero (sp_out sp) (has v x) (wt (sp_out sp) (has v x))); [by rewrite qdiv_zero| |apply wt_weight].
    intros g Hg Hh. apply Ho. by exists g. }
  destruct (m !! v) as [d|].
  - destruct Hs as (_ & _ & _ & Hs). specialize (Hs x). destruct (d !! x) as [p|]; cbn.
    + destruct Hs as (_ & a' & b' & Ha' & Hb' & ->).
      by rewrite (wt_unique _ (has v x) a' Ha'), (wt_unique _ (having v) b' Hb').
    + by apply H0.
  - apply H0. intros (g & Hg & Hin). apply Hs. split; [|exists x; by exists g].
    destruct (wf_nodes _ _ (H3 g Hg) _ Hin) as (X & HX & _). by exists X.
Qed.

Lemma prob_full o sp m v x : one_valued (sp_out sp) -> pos_counts (sp_out sp) -> all_wf (sp_cp sp) (sp_out sp) ->
  (forall w, ~ occurs (sp_out sp) (w, val_u)) -> x <> val_u ->
  marginal_variables_probability o sp None true = Ok m ->
  prob m v x = qdiv (wt (sp_out sp) (has v x)) (ss_length (sp_out sp)).
Proof.
  intros H1 H2 H3 Hu Hx Hm. destruct (C26_lemma o sp None true H1 H2) as (m' & Hm' & Hs); [done|].
  rewrite Hm in Hm'. injection Hm' as <-. specialize (Hs v). unfold prob.
  assert (~ occurs (sp_out sp) (v, x) -> 0%Qc = qdiv (wt (sp_out sp) (has v x)) (ss_length (sp_out sp))) as H0.
  { intros Ho. rewrite (weight_zero (sp_out sp) (has v x) (wt (sp_out sp) (has v x))); [by rewrite qdiv_zero| |apply wt_weight].
    intros g Hg Hh. apply Ho. by exists g. }
  destruct (m !! v) as [d|].
  - destruct Hs as (_ & _ & _ & Hs). specialize (Hs x). rewrite decide_False in Hs by done. destruct (d !! x) as [p|]; cbn.
    + destruct Hs as (_ & a' & b' & Ha' & Hb' & ->).
      apply weight_length in Hb' as ->. by rewrite (wt_unique _ (has v x) a' Ha').
    + by apply H0.
  - apply H0. intros (g & Hg & Hin). apply Hs. split; [|exists x; by exists g].
    destruct (wf_nodes _ _ (H3 g Hg) _ Hin) as (X & HX & _). by exists X.
Qed.

(** ** Conditioning on a value of a variable that every outcome observes *)
Section cond.
Variables (sp : space) (v : Var) (x : Val) (ev : sample) (cg : cgraph).
Hypothesis H1 : one_valued (sp_out sp).
Hypothesis H2 : pos_counts (sp_out sp).
Hypothesis H3 : all_wf (sp_cp sp) (sp_out sp).
Hypothesis Hev : everywhere (sp_out sp) v.
Hypothesis Ho : observes ev v x.
Hypothesis Hcg : conditional_graph sp ev = Ok cg.

Lemma cond_lookup g c : ss_map (sp_out (cg_space cg)) !! g = Some c <-> ss_map (sp_out sp) !! g = Some c /\ has v x g.
Proof.
  destruct Ho as [Hn He]. destruct (conditioned_lookup sp ev cg v x Hcg Hn He) as (_ & _ & H). rewrite H. split; [|tauto].
  intros [Hg [Hh|Hl]]; [done|]. destruct Hl. apply Hev. by exists c.
Qed.
Lemma cond_contains g : contains (sp_out (cg_space cg)) g <-> contains (sp_out sp) g /\ has v x g.
Proof.
  unfold contains. split.
  - intros [c [Hc Hh]%cond_lookup]. split; [by exists c|done].
  - intros [[c Hc] Hh]. exists c. by apply cond_lookup.
Qed.
Lemma cond_cp : sp_cp (cg_space cg) = sp_cp sp.
Proof. destruct Ho as [Hn He]. by destruct (conditioned_lookup sp ev cg v x Hcg Hn He). Qed.
Lemma cond_one : one_valued (sp_out (cg_space cg)).
Proof. intros g [Hg _]%cond_contains. by apply H1. Qed.
Lemma cond_pos : pos_counts (sp_out (cg_space cg)).
Proof. intros g c [Hg _]%cond_lookup. by apply (H2 g). Qed.
Lemma cond_wf : all_wf (sp_cp (cg_space cg)) (sp_out (cg_space cg)).
Proof. rewrite cond_cp. intros g [Hg _]%cond_contains. by apply H3. Qed.
Lemma cond_everywhere w : everywhere (sp_out sp) w -> everywhere (sp_out (cg_space cg)) w.
Proof. intros Hw g [Hg _]%cond_contains. by apply Hw. Qed.
Lemma cond_no_u : (forall w, ~ occurs (sp_out sp) (w, val_u)) -> forall w, ~ occurs (sp_out (cg_space cg)) (w, val_u).
Proof. intros Hu w (g & [Hg _]%cond_contains & Hin). apply (Hu w). by exists g. Qed.
Lemma cond_wt (P : graph -> Prop) `{!forall g, Decision (P g)} : wt (sp_out (cg_space cg)) P = wt (sp_out sp) (fun g => has v x g /\ P g).
Proof.
  apply (weight_msum (sp_out sp) (fun g => has v x g /\ P g)). intros l Hnd Hl.
  assert (weight (sp_out (cg_space cg)) P (wt (sp_out (cg_space cg)) P)) as Hw by apply wt_weight.
  rewrite (Hw l Hnd).
  - f_equal. apply list_fmap_ext. intros i g Hg%elem_of_list_lookup_2. apply Hl in Hg as ([c Hc] & Hh & _). unfold times_in.
    rewrite (proj2 (cond_lookup g c)); [by rewrite Hc|done].
  - intros g. rewrite Hl, cond_contains. tauto.
Qed.
Lemma cond_length : ss_length (sp_out (cg_space cg)) = wt (sp_out sp) (has v x).
Proof.
  symmetry. apply weight_length. assert (forall g, Decision (anything g)) as Hd by (intros; left; done).
  rewrite (wt_ext _ (has v x) (fun g => has v x g /\ anything g)) by (unfold anything; tauto). rewrite <- cond_wt. apply wt_weight.
Qed.
End cond.

Lemma everywhere_length ss v : everywhere ss v -> wt ss (having v) = ss_length ss.
Proof. intros He. apply weight_length. apply (weight_ext ss (having v)); [|apply wt_weight]. intros g Hg. split; [done|]. intros _. by apply He. Qed.

Lemma wt_nonneg ss (P : graph -> Prop) `{!forall g, Decision (P g)} : pos_counts ss -> (0 <= wt ss P)%Z.
Proof. intros Hp. apply (weight_nonneg ss P); [done|]. apply wt_weight. Qed.
Lemma wt_mono ss (P Q : graph -> Prop) `{!forall g, Decision (P g)} `{!forall g, Decision (Q g)} :
  pos_counts ss -> (forall g, contains ss g -> P g -> Q g) -> (wt ss P <= wt ss Q)%Z.
Proof. intros Hp Hpq. apply (weight_le ss P Q); [done|done|apply wt_weight|apply wt_weight]. Qed.

(** ** The rules *)
Lemma total_probability o o0 (o' : Val -> oracle) sp v w y m m0 d (ev : Val -> sample) (cg : Val -> cgraph) (mc : Val -> gmap Var (gmap Val Qc)) :
  one_valued (sp_out sp) -> pos_counts (sp_out sp) -> all_wf (sp_cp sp) (sp_out sp) ->
  (forall w, ~ occurs (sp_out sp) (w, val_u)) -> y <> val_u -> everywhere (sp_out sp) v ->
  marginal_variables_probability o sp None true = Ok m -> marginal_variables_probability o0 sp None false = Ok m0 -> m0 !! v = Some d ->
  (forall x, x ∈ dom d -> observes (ev x) v x /\ conditional_graph sp (ev x) = Ok (cg x) /\
     marginal_variables_probability (o' x) (cg_space (cg x)) None true = Ok (mc x)) ->
  prob m w y = qsum ((fun '(x, p) => p * prob (mc x) w y)%Qc <$> map_to_list d).
Proof.
  intros H1 H2 H3 Hu Hy He Hm Hm0 Hd Hx. rewrite (prob_full o sp m w y) by done.
  destruct (C26_lemma o0 sp None false H1 H2) as (m' & Hm' & Hs); [done|].
  rewrite Hm0 in Hm'. injection Hm' as <-. specialize (Hs v). rewrite Hd in Hs. destruct Hs as (_ & _ & _ & Hs).
  set (n := ss_length (sp_out sp)).
  assert (wt (sp_out sp) (has w y) = zsum ((fun kp : Val * Qc => wt (sp_out sp) (fun g => has v kp.1 g /\ has w y g)) <$> map_to_list d)) as ->.
  { unfold wt at 1. rewrite (msum_partition (ss_map (sp_out sp)) (has w y) v (map_to_list d).*1).
    - by rewrite <- list_fmap_compose.
    - apply NoDup_fst_map_to_list.
    - intros g c Hg. assert (contains (sp_out sp) g) as Hgc by (by exists c). split; [by apply H1|].
      destruct (He g Hgc) as [x Hin]. exists x. split; [|done]. apply elem_of_list_fmap. specialize (Hs x).
      destruct (d !! x) as [p|] eqn:Hp; [|destruct Hs; by exists g]. exists (x, p). split; [done|]. by apply elem_of_map_to_list. }
  rewrite <- (qsum_q (fun kp : Val * Qc => wt (sp_out sp) (fun g => has v kp.1 g /\ has w y g))).
  f_equal. apply list_fmap_ext. intros i [x p] Hin%elem_of_list_lookup_2. apply elem_of_map_to_list in Hin. cbn [fst].
  specialize (Hs x). rewrite Hin in Hs. destruct Hs as ((g & Hg & Hhas) & a & b & Ha & Hb & ->).
  destruct (Hx x) as (Hob & Hcg & Hmc); [by apply elem_of_dom_2 in Hin|].
  rewrite (prob_full (o' x) (cg_space (cg x)) (mc x) w y); [|by eapply cond_one|by eapply cond_pos|by eapply cond_wf|by eapply cond_no_u|done|done].
  rewrite (cond_wt sp v x (ev x) (cg x) He Hob Hcg), (cond_length sp v x (ev x) (cg x) He Hob Hcg).
  pose proof (weight_pos _ (has v x) a g H2 Ha Hg Hhas). pose proof (weight_pos _ (having v) b g H2 Hb Hg (He g Hg)).
  apply (wt_unique _ (has v x)) in Ha. apply (wt_unique _ (having v)) in Hb. rewrite (everywhere_length _ _ He) in Hb. fold n in Hb.
  rewrite <- Ha, Hb. unfold qdiv. subst b.
  assert (q a <> 0%Qc) by (apply q_neq; lia). assert (q n <> 0%Qc) by (apply q_neq; lia). field. done.
Qed.

Lemma product_rule o o1 sp v w x y m mv ev cg :
  one_valued (sp_out sp) -> pos_counts (sp_out sp) -> all_wf (sp_cp sp) (sp_out sp) ->
  everywhere (sp_out sp) v -> everywhere (sp_out sp) w -> marginal_variables_probability o sp None false = Ok m ->
  observes ev v x -> conditional_graph sp ev = Ok cg -> marginal_variables_probability o1 (cg_space cg) None false = Ok mv ->
  (prob m v x * prob mv w y)%Qc = qdiv (wt (sp_out sp) (fun g => has v x g /\ has w y g)) (ss_length (sp_out sp)).
Proof.
  intros H1 H2 H3 Hv Hw Hm Ho Hcg Hmv. rewrite (prob_observed o sp m v x) by done.
  rewrite (prob_observed o1 (cg_space cg) mv w y); [|by apply (cond_one sp v x ev)|by apply (cond_pos sp v x ev)|by apply (cond_wf sp v x ev)|done].
  rewrite (everywhere_length _ v Hv), (everywhere_length (sp_out (cg_space cg)) w) by (by apply (cond_everywhere sp v x ev)).
  rewrite (cond_wt sp v x ev cg Hv Ho Hcg), (cond_length sp v x ev cg Hv Ho Hcg).
  assert (wt (sp_out sp) (fun g => has v x g /\ has w y g) <= wt (sp_out sp) (has v x))%Z as Hle by (apply wt_mono; [done|tauto]).
  pose proof (wt_nonneg (sp_out sp) (fun g => has v x g /\ has w y g) H2).
  destruct (decide (wt (sp_out sp) (has v x) = 0%Z)) as [Hz|Hnz].
  - rewrite Hz, (qdiv_zero (ss_length (sp_out sp))). replace (wt (sp_out sp) (fun g => has v x g /\ has w y g)) with 0%Z by lia.
    rewrite !qdiv_zero. ring.
  - unfold qdiv, Qcdiv. pose proof (q_neq _ Hnz) as Hq.
    transitivity (q (wt (sp_out sp) (fun g => has v x g /\ has w y g)) * (q (wt (sp_out sp) (has v x)) * / q (wt (sp_out sp) (has v x))) * / q (ss_length (sp_out sp)))%Qc; [ring|].
    rewrite Qcmult_inv_r by done. ring.
Qed.

Lemma bayes_rule o o1 o2 sp v w x y m mv mw evv evw cgv cgw :
  one_valued (sp_out sp) -> pos_counts (sp_out sp) -> all_wf (sp_cp sp) (sp_out sp) ->
  everywhere (sp_out sp) v -> everywhere (sp_out sp) w -> marginal_variables_probability o sp None false = Ok m ->
  observes evv v x -> conditional_graph sp evv = Ok cgv -> marginal_variables_probability o1 (cg_space cgv) None false = Ok mv ->
  observes evw w y -> conditional_graph sp evw = Ok cgw -> marginal_variables_probability o2 (cg_space cgw) None false = Ok mw ->
  (prob m v x * prob mv w y = prob m w y * prob mw v x)%Qc.
Proof.
  intros H1 H2 H3 Hv Hw Hm A1 A2 A3 B1 B2 B3.
  rewrite (product_rule o o1 sp v w x y m mv evv cgv), (product_rule o o2 sp w v y x m mw evw cgw) by done.
  f_equal. apply wt_ext. intros g _. tauto.
Qed.

Lemma chain_rule sp l p : chained sp l p -> one_valued (sp_out sp) -> pos_counts (sp_out sp) -> all_wf (sp_cp sp) (sp_out sp) ->
  (forall v x, (v, x) ∈ l -> everywhere (sp_out sp) v) -> ss_map (sp_out sp) <> ∅ ->
  p = qdiv (wt (sp_out sp) (fun g => (list_to_set l : gset node) ⊆ g_nodes g)) (ss_length (sp_out sp)).
Proof.
  induction 1 as [sp|sp v x l ev cg o m p Hm Ho Hcg Hc IH]; intros H1 H2 H3 He Hne.
  - assert (0 < ss_length (sp_out sp))%Z as Hlen.
    { apply map_choose in Hne as (g & c & Hg). assert (forall g, Decision (anything g)) as Hd by (intros; left; done).
      apply (weight_pos (sp_out sp) anything _ g); [done|by apply weight_length|by exists c|done]. }
    replace (wt (sp_out sp) _) with (ss_length (sp_out sp)).
    + rewrite qdiv_1. apply qdiv_eq; lia.
    + symmetry. apply weight_length. apply (weight_ext (sp_out sp) (fun g => (list_to_set [] : gset node) ⊆ g_nodes g)); [|apply wt_weight].
      intros g _. split; [done|]. intros _ n Hn. by apply elem_of_empty in Hn.
  - assert (everywhere (sp_out sp) v) as Hv by (apply (He v x); left).
    rewrite (prob_observed o sp m v x) by done. rewrite (everywhere_length _ v Hv).
    match goal with |- _ = qdiv ?a _ => assert (a = wt (sp_out sp) (fun g => has v x g /\ (list_to_set l : gset node) ⊆ g_nodes g)) as -> end.
    { apply wt_ext. intros g _. unfold has. rewrite list_to_set_cons. set_solver +. }
    cbn [sp_relation_graph sp_out sp_cp] in IH.
    destruct (decide (ss_map (sp_out (cg_space cg)) = ∅)) as [Hz|Hnz].
    + assert (wt (sp_out sp) (has v x) = 0%Z) as Hz'.
      { rewrite <- (cond_length sp v x ev cg Hv Ho Hcg), ss_length_msum, Hz. apply msum_empty. }
      assert (wt (sp_out sp) (fun g => has v x g /\ (list_to_set l : gset node) ⊆ g_nodes g) <= wt (sp_out sp) (has v x))%Z as Hle
        by (apply wt_mono; [done|tauto]).
      pose proof (wt_nonneg (sp_out sp) (fun g => has v x g /\ (list_to_set l : gset node) ⊆ g_nodes g) H2).
      rewrite Hz'. replace (wt (sp_out sp) (fun g => has v x g /\ _)) with 0%Z by lia. rewrite !qdiv_zero. ring.
    + rewrite IH; [|by apply (cond_one sp v x ev)|by apply (cond_pos sp v x ev)|by apply (cond_wf sp v x ev)| |done].
      2:{ intros w y Hw. apply (cond_everywhere sp v x ev cg); [done..|]. apply (He w y). by right. }
      rewrite (cond_wt sp v x ev cg Hv Ho Hcg), (cond_length sp v x ev cg Hv Ho Hcg).
      assert (wt (sp_out sp) (has v x) <> 0%Z) as Hq%q_neq.
      { rewrite <- (cond_length sp v x ev cg Hv Ho Hcg). apply map_choose in Hnz as (g & c & Hg).
        assert (forall g, Decision (anything g)) as Hd by (intros; left; done).
        assert (pos_counts (sp_out (cg_space cg))) as Hp by (by apply (cond_pos sp v x ev)).
        pose proof (weight_pos (sp_out (cg_space cg)) anything _ g Hp (proj2 (weight_length _ _) eq_refl)) as H.
        assert (0 < ss_length (sp_out (cg_space cg)))%Z; [|lia]. apply H; [by exists c|done]. }
      unfold qdiv, Qcdiv.
      transitivity (q (wt (sp_out sp) (fun g => has v x g /\ (list_to_set l : gset node) ⊆ g_nodes g)) *
        (q (wt (sp_out sp) (has v x)) * / q (wt (sp_out sp) (has v x))) * / q (ss_length (sp_out sp)))%Qc; [ring|].
      rewrite Qcmult_inv_r by done. ring.
Qed.

Lemma chain_find o sp l p r : chained sp l p -> one_valued (sp_out sp) -> pos_counts (sp_out sp) -> all_wf (sp_cp sp) (sp_out sp) ->
  ss_cp (sp_out sp) = sp_cp sp ->
  (forall v x, (v, x) ∈ l -> everywhere (sp_out sp) v) -> ss_map (sp_out sp) <> ∅ ->
  find_for_values o sp (list_to_set l) = Ok r -> p = qdiv (ss_length r) (ss_length (sp_out sp)).
Proof.
  intros Hc H1 H2 H3 Hcp He Hne Hr. rewrite (chain_rule sp l p) by done. f_equal. symmetry.
  destruct (C29_lemma o sp (list_to_set l)) as (r' & Hr' & _ & Hs); [by rewrite Hcp|]. rewrite Hr in Hr'. injection Hr' as <-.
  assert (forall g, Decision (anything g)) as Hd by (intros; left; done).
  apply (wt_unique (sp_out sp) (fun g => (list_to_set l : gset node) ⊆ g_nodes g)). intros k Hnd Hk.
  assert (weight r anything (ss_length r)) as Hw by (by apply weight_length). rewrite (Hw k Hnd).
  - f_equal. apply list_fmap_ext. intros i g Hg%elem_of_list_lookup_2. apply Hk in Hg as ([c Hg] & Hs').
    unfold times_in. rewrite Hg. assert (ss_map r !! g = Some c) as ->; [|done].
    apply count_of_lookup. apply Hs. split; [by apply count_of_lookup|]. intros n Hn. by apply Hs'.
  - intros g. rewrite Hk. unfold anything. split.
    + intros [[c Hg] Hs']. split; [|done]. exists c. apply count_of_lookup. apply Hs. split; [by apply count_of_lookup|]. intros n Hn. by apply Hs'.
    + intros [[c Hg] _]. apply count_of_lookup, Hs in Hg as [Hg Hs']. apply count_of_lookup in Hg. split; [by exists c|]. intros n Hn. by apply Hs'.
Qed.

(** What [make_joined] returns. *)
Lemma joined_rules (o : oracle) (sp r : space) (v : Var) :
  joinable sp -> pos_counts (sp_out sp) -> make_joined o sp = Ok r -> occurs_var (sp_out sp) v ->
  one_valued (sp_out r) /\ pos_counts (sp_out r) /\ all_wf (sp_cp r) (sp_out r) /\ ss_cp (sp_out r) = sp_cp r /\ everywhere (sp_out r) v.
Proof.
  intros Hj Hp Hr Hv. destruct (joined_joinable o sp r Hj Hr) as [Hj' _]. split_and!.
  - apply Hj'.
  - exact (joined_pos o sp r Hj Hr Hp).
  - apply Hj'.
  - apply Hj'.
  - intros G HG. by apply (joined_covers o sp r G Hj Hr HG).
Qed.
End probfacts.
