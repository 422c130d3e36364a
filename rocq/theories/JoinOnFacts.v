(** * JoinOnFacts: joining a factorized space on several variables. *)

From Verif Require Export ClusterFacts.

Section join_on_facts.
Context {U : Universe}.

Implicit Types (F D : gmap graph Z) (Fs Ds : list (gmap graph Z)) (sel J : list (graph * Z)) (G g h : graph).

(** ** The factors of a sample set *)

Record factors_of (cp : provider) (acc : samples) Ds : Prop := {
  fo_cp : ss_cp acc = cp;
  fo_lookup : forall G c, ss_map acc !! G = Some c <-> exists D, D ∈ Ds /\ D !! G = Some c;
  fo_list : factor_list cp Ds
}.

Lemma factors_contains cp acc Ds g : factors_of cp acc Ds -> contains acc g <-> exists D, D ∈ Ds /\ is_Some (D !! g).
Proof.
  intros H. unfold contains, is_Some. setoid_rewrite (fo_lookup _ _ _ H). naive_solver.
Qed.

Lemma space_factors o sp :
  ss_cp (sp_out sp) = sp_cp sp -> all_wf (sp_cp sp) (sp_out sp) -> one_valued (sp_out sp) -> all_simple (sp_out sp) ->
  factorable (sp_out sp) ->
  exists S, factorized o sp = Ok S /\ factors_of (sp_cp sp) (sp_out sp) (elements S).
Proof.
  intros Hcp Hwf Hov Hsi Hfa. assert (cp_id (ss_cp (sp_out sp)) = cp_id (sp_cp sp)) as Hid by by rewrite Hcp.
  pose proof (C30_lemma o sp Hwf Hid) as H30. destruct (factorized o sp) as [S|x] eqn:HS; [|by destruct H30].
  exists S. split; [done|]. destruct H30 as [_ HSm].
  destruct (factors_partition o sp S Hwf Hid HS) as (P1 & P2 & P3 & P4). clear HS.
  assert (forall G c, ss_map (sp_out sp) !! G = Some c <-> exists D, D ∈ elements S /\ D !! G = Some c) as Hl.
  { intros G c. rewrite <- count_of_lookup, P1. by setoid_rewrite elem_of_elements. }
  assert (forall D g, D ∈ elements S -> is_Some (D !! g) -> contains (sp_out sp) g) as Hin.
  { intros D g HD [c Hc]. exists c. apply Hl. eauto. }
  assert (forall D g h, D ∈ elements S -> is_Some (D !! g) -> is_Some (D !! h) -> same_pairs g h) as Hhom.
  { intros D g h HD [c Hc] [d Hd]. apply elem_of_elements, HSm in HD as (k & _ & Hk). apply Hk in Hc as [_ Hc], Hd as [_ Hd].
    intros p. by rewrite <- (Hc p). }
  assert (forall D g, D ∈ elements S -> is_Some (D !! g) -> good_graph (sp_cp sp) g) as Hgg.
  { intros D g HD Hg. pose proof (Hin D g HD Hg) as Hc. split; [by apply Hwf|by apply Hfa|by apply Hsi]. }
  split; [done|done|]. split.
  - intros i j D D' Hi Hj Hij g h [c Hg] [d Hh]. eapply (P4 D D' g h c d).
    + by eapply elem_of_elements, elem_of_list_lookup_2.
    + by eapply elem_of_elements, elem_of_list_lookup_2.
    + done.
    + done.
    + intros ->. apply Hij. apply (NoDup_lookup (elements S) i j D' (NoDup_elements S) Hi Hj).
  - intros D HD. split; [by intros g; apply Hgg|]. intros g h Hg Hh _ _. apply (same_overlap (sp_cp sp)); [by eapply Hgg|by eapply Hhom].
  - done.
  - intros D HD. apply P2. by apply elem_of_elements.
  - intros D g HD Hg. apply Hov. by eapply Hin.
Qed.

Lemma have_var_spec cp D v : ss_have_variable (Samples cp D) v = true <-> fvar D v.
Proof.
  unfold ss_have_variable, ss_samples. cbn [ss_map]. rewrite existsb_exists. unfold fvar. split.
  - intros (g & Hg & Hv). apply elem_of_list_In, elem_of_elements, elem_of_dom in Hg. exists g. split; [done|].
    by apply have_variable_spec.
  - intros (g & Hg & Hv). exists g. split.
    + apply elem_of_list_In, elem_of_elements. by apply elem_of_dom.
    + by apply have_variable_spec.
Qed.

Lemma list_split {A} (P : A -> bool) (l : list A) : exists l1 l2, l ≡ₚ l1 ++ l2 /\
  (forall x, x ∈ l1 -> P x = true) /\ (forall x, x ∈ l2 -> P x = false).
Proof.
  induction l as [|x l (l1 & l2 & Hp & H1 & H2)].
  - exists [], []. split_and!; [done|by intros x ?%elem_of_nil..].
  - destruct (P x) eqn:Hx.
    + exists (x :: l1), l2. split_and!; [by rewrite Hp| |done]. intros y [->|Hy]%elem_of_cons; auto.
    + exists l1, (x :: l2). split_and!; [by rewrite Hp, Permutation_middle|done|]. intros y [->|Hy]%elem_of_cons; auto.
Qed.

Lemma split_var Ds v : exists Dv Dr, Ds ≡ₚ Dv ++ Dr /\ (forall D, D ∈ Dv -> fvar D v) /\ (forall D, D ∈ Dr -> ~ fvar D v).
Proof.
  pose (cp0 := Provider 0 ∅ ∅).
  destruct (list_split (fun D => ss_have_variable (Samples cp0 D) v) Ds) as (Dv & Dr & Hp & H1 & H2).
  exists Dv, Dr. split_and!; [done| |].
  - intros D HD. apply (have_var_spec cp0). by apply H1.
  - intros D HD Hv. apply (have_var_spec cp0) in Hv. rewrite H2 in Hv; done.
Qed.

(** ** One variable *)

Lemma join_on_factors cp o acc Ds v :
  factors_of cp acc Ds -> feasible Ds ->
  (forall g, contains acc g -> g_edges g = ∅ -> having v g -> var_iter v = Some [v]) ->
  match join_on o cp acc v with
  | Ok r => exists Dv Dr, Ds ≡ₚ Dv ++ Dr /\ (forall D, D ∈ Dv -> fvar D v) /\ (forall D, D ∈ Dr -> ~ fvar D v) /\
      if decide (Dv = []) then factors_of cp r Dr
      else exists D', (forall G c, D' !! G = Some c <-> prod_of Dv G c) /\ factors_of cp r (D' :: Dr)
  | Err x => x = AssertionError /\ exists D D' g g', D ∈ Ds /\ D' ∈ Ds /\ D <> D' /\ is_Some (D !! g) /\ is_Some (D' !! g') /\
      forall w, having w g <-> having w g'
  end.
Proof.
  intros Hfo Hfe Hself. destruct (split_var Ds v) as (Dv & Dr & Hp & HDv & HDr).
  pose proof (fo_list _ _ _ Hfo) as Hfl. pose proof (factors_contains cp acc Ds) as Hcon.
  specialize (Hcon) with (1 := Hfo).
  assert (factor_list cp (Dv ++ Dr)) as Hfl' by by rewrite <- Hp.
  pose proof (factor_list_app_l _ _ _ Hfl') as HflV.
  assert (forall D g, D ∈ Ds -> is_Some (D !! g) -> good_graph cp g) as Hgg by (intros; by apply (fl_graph cp Ds D g)).
  pose proof (fl_hom _ _ Hfl) as Hhom.
  assert (forall D, D ∈ Ds <-> D ∈ Dv \/ D ∈ Dr) as HDs by (intros D; by rewrite Hp, elem_of_app).
  assert (forall g D, D ∈ Ds -> is_Some (D !! g) -> having v g <-> D ∈ Dv) as Hvg.
  { intros g D HD Hg. rewrite <- (fvar_all cp Ds D v g Hfl HD Hg). split; [|apply HDv].
    intros Hv. apply HDs in HD as [HD|HD]; [done|]. by destruct (HDr D HD). }
  assert (forall D D' g h, D ∈ Ds -> is_Some (D !! g) -> D' ∈ Ds -> is_Some (D' !! h) -> overlap g h -> D = D') as Hsame.
  { intros. by eapply (fl_same cp Ds D D' g h). }
  pose proof (join_on_spec cp o acc v (fo_cp _ _ _ Hfo)) as Hj.
  assert (all_wf cp acc) as Hwf.
  { intros g Hg. apply Hcon in Hg as (D & HD & Hg). by eapply gg_wf, Hgg. }
  assert (all_simple acc) as Hsi.
  { intros g Hg. apply Hcon in Hg as (D & HD & Hg). by eapply gg_simple, Hgg. }
  assert (no_collision_on acc v) as Hnc.
  { intros A B HA HB HAB Hpp. apply set_choose_L in HA as [a Ha].
    destruct (HAB a) as [Hca _]; [apply elem_of_union; by left|].
    apply Hcon in Hca as (D & HD & Hga). destruct (overlap_refl cp a) as (p & Hpa & _); [by eapply Hgg|].
    destruct (proj1 (Hpp p)) as (b & Hb & Hpb); [eauto|]. exists a, b. split_and!; [done|done|].
    destruct (HAB b) as [Hcb _]; [apply elem_of_union; by right|]. apply Hcon in Hcb as (D' & HD' & Hgb).
    assert (D = D') as <- by (apply (Hsame D D' a b); [done..|by exists p]). by eapply Hhom. }
  specialize (Hj Hwf Hsi Hnc Hself).
  assert (forall D g h, D ∈ Dv -> is_Some (D !! g) -> linked_on acc v g h -> is_Some (D !! h)) as Hclosed.
  { intros D g h HD Hg Hlk. unfold linked_on in Hlk. induction Hlk as [|x y z ((Hx & Hvx) & (Hy & Hvy) & Ho) _ IH]; [done|].
    apply IH. apply Hcon in Hy as (D' & HD' & Hy').
    assert (D = D') as <-; [|done]. apply (Hsame D D' x y); [apply HDs; by left|done..]. }
  assert (forall D g h, D ∈ Dv -> is_Some (D !! g) -> is_Some (D !! h) -> linked_on acc v g h) as Hlinked.
  { intros D g h HD Hg Hh. assert (D ∈ Ds) as HD' by (apply HDs; by left). apply rtc_once. split_and!.
    - apply Hcon. eauto.
    - by apply (Hvg g D).
    - apply Hcon. eauto.
    - by apply (Hvg h D).
    - apply (same_overlap cp); [by eapply Hgg|by eapply Hhom]. }
  assert (forall G c, joint (linked_on acc v) (having v) acc G c <-> prod_of Dv G c) as Hjoint.
  { apply selection_picked.
    - intros D HD. assert (D ∈ Ds) as HD' by (apply HDs; by left). split; [by apply (fl_ne cp Ds)|]. intros g Hg h c. split.
      + intros Hh. split_and!; [apply (fo_lookup _ _ _ Hfo); eauto|apply (Hvg h D); [done|by eexists|done]|].
        eapply Hlinked; [done|done|by eexists].
      + intros (Hh & Hv & Hlk). destruct (Hclosed D g h HD Hg Hlk) as [d Hd]. rewrite Hd. f_equal.
        assert (ss_map acc !! h = Some d) as Hh' by (apply (fo_lookup _ _ _ Hfo); eauto). congruence.
    - intros g Hg Hv. apply Hcon in Hg as (D & HD & Hg). exists D. split; [|done]. by apply (Hvg g D).
    - by apply (fl_NoDup cp). }
  destruct (join_on o cp acc v) as [r|x].
  2:{ destruct Hj as (-> & g & g' & Hg & Hg' & Hv & Hv' & Hnl & Hvars). split; [done|].
      apply Hcon in Hg as (D & HD & Hg), Hg' as (D' & HD' & Hg').
      assert (D ∈ Dv) as HDD by by apply (Hvg g D). assert (D' ∈ Dv) as HDD' by by apply (Hvg g' D').
      assert (forall E k, E ∈ Dv -> is_Some (E !! k) -> forall w, linked_vars acc v k w <-> having w k) as Hlv.
      { intros E k HE Hk w. assert (E ∈ Ds) as HE' by (apply HDs; by left). rewrite <- (fvar_all cp Ds E w k Hfl HE' Hk).
        unfold linked_vars, fvar. split.
        - intros (h & Hh & Hvh & Hlk & Hw). exists h. split; [|done]. by eapply Hclosed.
        - intros (h & Hh & Hw). exists h. split_and!; [apply Hcon; eauto|by apply (Hvg h E)|by eapply Hlinked|done]. }
      exists D, D', g, g'. split_and!; [done|done| |done|done|].
      - intros ->. apply Hnl. by eapply Hlinked.
      - intros w. rewrite <- (Hlv D g), <- (Hlv D' g') by done. apply Hvars. }
  destruct Hj as [Hrc Hr]. exists Dv, Dr. split_and!; [done|done|done|].
  assert (forall G c, ss_map acc !! G = Some c /\ lacking v G <-> exists D, D ∈ Dr /\ D !! G = Some c) as Hlack.
  { intros G c. rewrite (fo_lookup _ _ _ Hfo). split.
    - intros [(D & HD & HG) Hl]. exists D. split; [|done]. apply HDs in HD as [HD|HD]; [|done]. destruct Hl.
      apply (Hvg G D); [apply HDs; by left|by eexists|done].
    - intros (D & HD & HG). split; [exists D; split; [apply HDs; by right|done]|]. intros Hv. apply (HDr D HD).
      exists G. split; [by eexists|done]. }
  case_decide as Hnil.
  - subst Dv. split; [done| |by apply (factor_list_app_r _ [])].
    intros G c. rewrite Hr, Hlack. split; [|tauto]. intros [H|[(h & Hh & Hv) _]]; [done|].
    apply Hcon in Hh as (D & HD & Hh). apply (Hvg h D HD Hh) in Hv. by apply elem_of_nil in Hv.
  - assert (exists h, contains acc h /\ having v h) as Hex.
    { destruct Dv as [|D Dv]; [done|]. assert (D ∈ Ds) as HD by (apply HDs; left; left).
      destruct (map_choose D (fl_ne _ _ Hfl D HD)) as (h & c & Hh). exists h. split; [apply Hcon; exists D; split; [done|by eexists]|].
      apply (Hvg h D); [done|by eexists|left]. }
    set (D' := filter (fun kv => v ∈ included_variables kv.1) (ss_map r)).
    assert (forall G c, D' !! G = Some c <-> prod_of Dv G c) as HD'.
    { intros G c. unfold D'. rewrite map_filter_lookup_Some, Hr, Hjoint. cbn [fst].
      rewrite included_variables_spec. change (has_var (g_nodes G) v) with (having v G). split.
      - intros [[[_ Hl]|[_ H]] Hv]; [by destruct Hl|done].
      - intros H. split; [by right|]. destruct H as (sel & Hs & -> & _). cbn [app] in *.
        destruct Dv as [|D Dv]; [done|]. apply Forall2_cons_inv_l in Hs as ([g d] & s & Hg & Hs & ->). simpl in Hg.
        apply having_merge. exists g. split; [left|]. apply (Hvg g D); [apply HDs; left; left|by eexists|left]. }
    exists D'. split; [done|]. split; [done| |].
    + intros G c. rewrite Hr, Hlack, Hjoint. setoid_rewrite elem_of_cons. split.
      * intros [(D & HD & HG)|[_ H]]; [eauto|]. exists D'. split; [by left|]. by apply HD'.
      * intros (D & [->|HD] & HG); [right|left; eauto]. split; [done|]. by apply HD'.
    + apply (joined_factor_list cp Dv Dr v D'); [done|done|done| |done].
      apply (feasible_app_l Dv Dr). by rewrite <- Hp.
Qed.


(** ** Several variables *)

Lemma Forall2_perm {A B} (R : A -> B -> Prop) l l' (k : list B) : l ≡ₚ l' -> Forall2 R l k -> exists k', Forall2 R l' k' /\ k ≡ₚ k'.
Proof.
  intros Hp. revert k. induction Hp as [|x l l' Hp IH|x y l|l l' l'' _ IH1 _ IH2]; intros k Hs.
  - by exists k.
  - apply Forall2_cons_inv_l in Hs as (a & k0 & Hx & Hs & ->). destruct (IH k0 Hs) as (k' & Hs' & Hp').
    exists (a :: k'). split; [by constructor|by rewrite Hp'].
  - apply Forall2_cons_inv_l in Hs as (a & k0 & Hx & Hs & ->). apply Forall2_cons_inv_l in Hs as (b & k1 & Hy & Hs & ->).
    exists (b :: a :: k1). split; [by repeat constructor|by apply perm_swap].
  - destruct (IH1 k Hs) as (s1 & Hs1 & Hp1). destruct (IH2 s1 Hs1) as (s2 & Hs2 & Hp2). exists s2. split; [done|]. by rewrite Hp1.
Qed.

Lemma concat_perm {A} (l l' : list (list A)) : l ≡ₚ l' -> concat l ≡ₚ concat l'.
Proof.
  intros Hp. induction Hp as [|x l l' Hp IH|x y l|l l' l'' _ IH1 _ IH2]; cbn [concat]; [done|by rewrite IH| |by rewrite IH1].
  rewrite !app_assoc. by rewrite (Permutation_app_comm x y).
Qed.

Lemma elem_of_concat {A} (l : list (list A)) x : x ∈ concat l <-> exists k, k ∈ l /\ x ∈ k.
Proof.
  induction l as [|k l IH]; cbn [concat].
  - split; [by intros ?%elem_of_nil|by intros (? & ?%elem_of_nil & _)].
  - rewrite elem_of_app, IH. setoid_rewrite elem_of_cons. naive_solver.
Qed.

Definition represents Ds (P : list (list (gmap graph Z))) : Prop :=
  Forall2 (fun D Fs => forall G c, D !! G = Some c <-> prod_of Fs G c) Ds P.

Lemma represents_elem Ds P D : represents Ds P -> D ∈ Ds -> exists Fs, Fs ∈ P /\ forall G c, D !! G = Some c <-> prod_of Fs G c.
Proof.
  intros HR HD. apply elem_of_list_lookup in HD as [i Hi]. destruct (Forall2_lookup_l _ _ _ _ _ HR Hi) as (Fs & Hj & H).
  exists Fs. split; [by eapply elem_of_list_lookup_2|done].
Qed.

Lemma represents_elem_r Ds P Fs : represents Ds P -> Fs ∈ P -> exists D, D ∈ Ds /\ forall G c, D !! G = Some c <-> prod_of Fs G c.
Proof.
  intros HR HF. apply elem_of_list_lookup in HF as [i Hi]. destruct (Forall2_lookup_r _ _ _ _ _ HR Hi) as (D & Hj & H).
  exists D. split; [by eapply elem_of_list_lookup_2|done].
Qed.

(** A represented factor has the variables of its parts. *)
Lemma represents_var cp Fs0 Ds P D Fs v :
  factor_list cp Fs0 -> factor_list cp Ds -> concat P ≡ₚ Fs0 -> D ∈ Ds -> Fs ∈ P -> (forall G c, D !! G = Some c <-> prod_of Fs G c) ->
  fvar D v <-> exists F, F ∈ Fs /\ fvar F v.
Proof.
  intros Hf0 HfD Hc HD HFs HR.
  assert (forall F, F ∈ Fs -> F ∈ Fs0) as Hin.
  { intros F HF. rewrite <- Hc. apply elem_of_concat. eauto. }
  split.
  - intros (G & [c HG] & Hv). apply HR in HG as (sel & Hs & -> & _). cbn [app] in *. apply having_merge in Hv as (g & Hg & Hv).
    destruct (picked_lookup _ _ _ _ Hs Hs Hg) as (F & _ & HF & HFg & _). exists F. split; [done|]. by exists g.
  - intros (F & HF & HFv). destruct (map_choose D (fl_ne _ _ HfD D HD)) as (G & c & HG). exists G. split; [by eexists|].
    apply HR in HG as (sel & Hs & -> & _). cbn [app] in *. apply elem_of_list_lookup in HF as [i Hi].
    destruct (Forall2_lookup_l _ _ _ _ _ Hs Hi) as ([g d] & Hj & Hg). simpl in Hg. apply having_merge. exists g. split.
    + apply elem_of_list_fmap. exists (g, d). split; [done|]. by eapply elem_of_list_lookup_2.
    + apply (fvar_all cp Fs0 F v g); [done| |by eexists|done]. apply Hin. by eapply elem_of_list_lookup_2.
Qed.

Record joined_to (cp : provider) (ss : samples) Fs0 (V Y : gset Var) (acc : samples) Ds P : Prop := {
  jt_factors : factors_of cp acc Ds;
  jt_rep : represents Ds P;
  jt_concat : concat P ≡ₚ Fs0;
  jt_ne : forall Fs, Fs ∈ P -> Fs <> [];
  jt_linked : forall Fs F F' g g', Fs ∈ P -> F ∈ Fs -> F' ∈ Fs -> is_Some (F !! g) -> is_Some (F' !! g') -> cluster ss V g g';
  jt_unique : forall v D D', v ∈ Y -> D ∈ Ds -> D' ∈ Ds -> fvar D v -> fvar D' v -> D = D'
}.

Lemma joined_to_feasible cp ss Fs0 V Y acc Ds P : joined_to cp ss Fs0 V Y acc Ds P -> feasible Fs0 -> feasible Ds.
Proof.
  intros [H1 H2 H3 _ _ _] Hf. rewrite <- H3 in Hf. apply feasible_prod in Hf as (G & c & HG). apply feasible_prod.
  exists G, c. by apply (prod_of_concat Ds P).
Qed.

Lemma cluster_sym ss V g h : cluster ss V g h -> cluster ss V h g.
Proof.
  intros H. unfold cluster in *. induction H as [|x y z [[Hx Hy] Hxy] _ IH]; [done|]. eapply rtc_r; [done|]. split; [done|].
  destruct Hxy as [Hxy|(w & H1 & H2 & H3)]; [left; intros p; by rewrite (Hxy p)|right; eauto].
Qed.

(** Replacing the factors that have [v] by their product. *)
Lemma joined_merge cp ss Fs0 V Y acc r Ds P v Dv Dr D' :
  factors_of cp ss Fs0 -> v ∈ V -> joined_to cp ss Fs0 V Y acc Ds P ->
  Ds ≡ₚ Dv ++ Dr -> (forall D, D ∈ Dv -> fvar D v) -> (forall D, D ∈ Dr -> ~ fvar D v) -> Dv <> [] ->
  (forall G c, D' !! G = Some c <-> prod_of Dv G c) -> factors_of cp r (D' :: Dr) ->
  exists P', joined_to cp ss Fs0 V ({[v]} ∪ Y) r (D' :: Dr) P'.
Proof.
  intros Hss HvV [J1 J2 J3 J4 J5 J6] Hp HDv HDr Hnil HD' Hfr.
  pose proof (fo_list _ _ _ Hss) as Hf0. pose proof (fo_list _ _ _ J1) as HfD.
  pose proof (factors_contains cp ss Fs0) as Hcon. specialize (Hcon) with (1 := Hss).
  assert (forall Fs F, Fs ∈ P -> F ∈ Fs -> F ∈ Fs0) as Hin.
  { intros Fs F HFs HF. rewrite <- J3. apply elem_of_concat. eauto. }
  assert (forall D, D ∈ Ds <-> D ∈ Dv \/ D ∈ Dr) as HDs by (intros D; by rewrite Hp, elem_of_app).
  destruct (Forall2_perm _ _ _ _ Hp J2) as (P1 & HR1 & HpP).
  apply Forall2_app_inv_l in HR1 as (Pv & Pr & HRv & HRr & ->).
  assert (forall Fs, Fs ∈ P <-> Fs ∈ Pv \/ Fs ∈ Pr) as HPs by (intros Fs; by rewrite HpP, elem_of_app).
  assert (forall G c, D' !! G = Some c <-> prod_of (concat Pv) G c) as HD''.
  { intros G c. rewrite HD'. by apply prod_of_concat. }
  exists (concat Pv :: Pr). split; [done|by constructor| | | |].
  * cbn [concat]. rewrite <- J3, (concat_perm _ _ HpP), concat_app. done.
  * intros Fs [->|HFs]%elem_of_cons; [|apply J4; apply HPs; by right].
    destruct Dv as [|D Dv]; [done|]. apply Forall2_cons_inv_l in HRv as (Fs & Pv' & _ & _ & ->). cbn [concat].
    destruct Fs as [|F Fs]; [|done]. by destruct (J4 []); [apply HPs; left; left|].
  * assert (forall Fs F g, Fs ∈ Pv -> F ∈ Fs -> is_Some (F !! g) -> exists k, contains ss k /\ having v k /\ cluster ss V g k) as Hto.
    { intros Fs F g HFs HF Hg. destruct (represents_elem_r Dv Pv Fs HRv HFs) as (D & HD & HR).
      assert (fvar D v) as Hvar by by apply HDv.
      apply (represents_var cp Fs0 Ds P D Fs v Hf0 HfD J3) in Hvar as (F1 & HF1 & k & Hk & Hv).
      - exists k. split_and!; [apply Hcon; exists F1; split; [|done]; eapply Hin; [|done]; apply HPs; by left|done|].
        apply (J5 Fs F F1); [apply HPs; by left|done..].
      - apply HDs. by left.
      - apply HPs. by left.
      - done. }
    pose proof (cluster_sym ss V) as Hsym.
    intros Fs F F' g g' [->|HFs]%elem_of_cons; [|apply J5; apply HPs; by right].
    intros HF HF' Hg Hg'. apply elem_of_concat in HF as (Fs1 & HFs1 & HF), HF' as (Fs2 & HFs2 & HF').
    destruct (Hto Fs1 F g HFs1 HF Hg) as (k & Hk & Hvk & Hgk). destruct (Hto Fs2 F' g' HFs2 HF' Hg') as (k' & Hk' & Hvk' & Hgk').
    transitivity k; [done|]. transitivity k'; [|by apply Hsym]. apply rtc_once. split; [done|]. right. eauto.
  * assert (forall w, fvar D' w -> exists D, D ∈ Dv /\ fvar D w) as HD'v.
    { intros w (G & [c HG'] & Hw). apply HD' in HG' as (sel & Hs & -> & _). cbn [app] in *. apply having_merge in Hw as (g & Hg & Hw).
      destruct (picked_lookup _ _ _ _ Hs Hs Hg) as (D & _ & HD & HDg & _). exists D. split; [done|]. by exists g. }
    assert (forall w D, w ∈ {[v]} ∪ Y -> D ∈ Dr -> fvar D' w -> fvar D w -> False) as Hclash.
    { intros w D [->%elem_of_singleton|Hw]%elem_of_union HD H1 H2; [by apply (HDr D HD)|].
      destruct (HD'v w H1) as (E & HE & HEw). assert (E = D) as ->; [|by apply (HDr D HD), HDv].
      apply (J6 w); [done|apply HDs; by left|apply HDs; by right|done|done]. }
    intros w D E Hw [->|HD]%elem_of_cons [->|HE]%elem_of_cons H1 H2; [done| | |].
    -- by destruct (Hclash w E).
    -- by destruct (Hclash w D).
    -- apply elem_of_union in Hw as [->%elem_of_singleton|Hw]; [by destruct (HDr D HD)|].
       apply (J6 w); [done|apply HDs; by right|apply HDs; by right|done|done].
Qed.

Lemma joined_step cp ss Fs0 V Y o acc Ds P v :
  factors_of cp ss Fs0 -> feasible Fs0 -> self_named ss -> v ∈ V ->
  joined_to cp ss Fs0 V Y acc Ds P ->
  match join_on o cp acc v with
  | Ok r => exists Ds' P', joined_to cp ss Fs0 V ({[v]} ∪ Y) r Ds' P'
  | Err x => x = AssertionError /\ twin_parts ss
  end.
Proof.
  intros Hss Hfe Hself HvV Hjt. destruct Hjt as [J1 J2 J3 J4 J5 J6] eqn:HJ. clear HJ.
  pose proof (fo_list _ _ _ Hss) as Hf0. pose proof (fo_list _ _ _ J1) as HfD.
  pose proof (factors_contains cp ss Fs0) as Hcon. specialize (Hcon) with (1 := Hss).
  pose proof (factors_contains cp acc Ds) as HconA. specialize (HconA) with (1 := J1).
  assert (forall Fs F, Fs ∈ P -> F ∈ Fs -> F ∈ Fs0) as Hin.
  { intros Fs F HFs HF. rewrite <- J3. apply elem_of_concat. eauto. }
  assert (forall g, contains acc g -> exists Fs sel, Fs ∈ P /\ picked Fs sel /\ g = merge sel.*1) as HG.
  { intros g Hg. apply HconA in Hg as (D & HD & [c Hc]). destruct (represents_elem Ds P D J2 HD) as (Fs & HFs & HR).
    apply HR in Hc. destruct Hc as (sel & Hs & Hgm & _). exists Fs, sel. done. }
  assert (forall g, contains acc g -> g_edges g = ∅ -> having v g -> var_iter v = Some [v]) as Hself'.
  { intros g Hg He Hv. destruct (HG g Hg) as (Fs & sel & HFs & Hs & ->). apply having_merge in Hv as (k & Hk & Hv).
    rewrite edges_merge_empty in He. destruct (picked_lookup _ _ _ _ Hs Hs Hk) as (F & _ & HF & HFk & _).
    apply (Hself k v); [apply Hcon; eauto|by apply He|done]. }
  pose proof (join_on_factors cp o acc Ds v J1 (joined_to_feasible _ _ _ _ _ _ _ _ Hjt Hfe) Hself') as Hj.
  destruct (join_on o cp acc v) as [r|x].
  - destruct Hj as (Dv & Dr & Hp & HDv & HDr & Hj).
    assert (forall D, D ∈ Ds <-> D ∈ Dv \/ D ∈ Dr) as HDs by (intros D; by rewrite Hp, elem_of_app).
    destruct (Forall2_perm _ _ _ _ Hp J2) as (P1 & HR1 & HpP).
    apply Forall2_app_inv_l in HR1 as (Pv & Pr & HRv & HRr & ->).
    assert (forall Fs, Fs ∈ P <-> Fs ∈ Pv \/ Fs ∈ Pr) as HPs by (intros Fs; by rewrite HpP, elem_of_app).
    case_decide as Hnil.
    + subst Dv. cbn [app] in *. apply Forall2_nil_inv_l in HRv as ->. cbn [app] in *. exists Dr, Pr. split; [done|done| | | |].
      * by rewrite <- (concat_perm _ _ HpP).
      * intros Fs HFs. apply J4. apply HPs. by right.
      * intros Fs F F' g g' HFs. apply J5. apply HPs. by right.
      * intros w D D' [->%elem_of_singleton|Hw]%elem_of_union HD HD' Hw1 Hw2; [by destruct (HDr D HD)|].
        apply (J6 w); [done|apply HDs; by right|apply HDs; by right|done|done].
    + destruct Hj as (D' & HD' & Hfr). exists (D' :: Dr). by apply (joined_merge cp ss Fs0 V Y acc r Ds P v Dv Dr D').
  - destruct Hj as (-> & D & D' & g & g' & HD & HD' & Hne & Hg & Hg' & Hvars). split; [done|].
    destruct (represents_elem Ds P D J2 HD) as (Fs & HFs & HR). destruct (represents_elem Ds P D' J2 HD') as (Fs' & HFs' & HR').
    destruct Hg as [c Hc], Hg' as [c' Hc']. pose proof Hc as Hc1. pose proof Hc' as Hc1'.
    apply HR in Hc1 as (sel & Hs & HGe & _). apply HR' in Hc1' as (sel' & Hs' & HGe' & _). cbn [app] in *. subst g g'.
    assert (forall k, k ∈ sel.*1 -> exists F, F ∈ Fs /\ is_Some (F !! k)) as Hk.
    { intros k Hk. destruct (picked_lookup _ _ _ _ Hs Hs Hk) as (F & _ & HF & HFk & _). eauto. }
    assert (forall k, k ∈ sel'.*1 -> exists F, F ∈ Fs' /\ is_Some (F !! k)) as Hk'.
    { intros k Hk0. destruct (picked_lookup _ _ _ _ Hs' Hs' Hk0) as (F & _ & HF & HFk & _). eauto. }
    assert (forall Fs sel, Fs ∈ P -> picked Fs sel -> (list_to_set sel.*1 : gset graph) <> ∅) as Hnemp.
    { clear Hs Hs' Hk Hk'. intros Fs0' sel0 HFs0 Hs He. destruct sel0 as [|x sel1]; [apply Forall2_nil_inv_r in Hs; by apply (J4 Fs0')|].
      cbn [fmap list_fmap list_to_set] in He. apply (not_elem_of_empty (C:=gset graph) x.1). rewrite <- He.
      apply elem_of_union. left. by apply elem_of_singleton. }
    exists (list_to_set sel.*1), (list_to_set sel'.*1). split_and!.
    + by apply (Hnemp Fs).
    + by apply (Hnemp Fs').
    + intros k [Hk0|Hk0]%elem_of_union; apply elem_of_list_to_set in Hk0; apply Hcon.
      * destruct (Hk k Hk0) as (F & HF & HFk). eauto.
      * destruct (Hk' k Hk0) as (F & HF & HFk). eauto.
    + intros a b Ha Hb Hab. apply elem_of_list_to_set in Ha, Hb. destruct (Hk a Ha) as (F & HF & HFa). destruct (Hk' b Hb) as (F' & HF' & HFb).
      assert (F = F') as <-.
      { apply (fl_same cp Fs0 F F' a b); [done|by apply (Hin Fs)|by apply (Hin Fs')|done|done|].
        apply (same_overlap cp); [|done]. apply (fl_graph cp Fs0 F); [done|by apply (Hin Fs)|done]. }
      (* the same factor in two parts *)
      assert (Fs = Fs') as <-.
      { assert (NoDup (concat P)) as Hnd by (rewrite J3; by apply (fl_NoDup cp)).
        apply elem_of_list_split in HFs as (P1 & P2 & ->). apply elem_of_app in HFs' as [H|[->|H]%elem_of_cons]; [|done|]; exfalso.
        - rewrite concat_app in Hnd. cbn [concat] in Hnd. apply NoDup_app in Hnd as (_ & Hd & _). apply (Hd F).
          + apply elem_of_concat. eauto.
          + apply elem_of_app. by left.
        - rewrite concat_app in Hnd. cbn [concat] in Hnd. apply NoDup_app in Hnd as (_ & _ & Hnd).
          apply NoDup_app in Hnd as (_ & Hd & _). apply (Hd F HF). apply elem_of_concat. eauto. }
      apply Hne. apply map_eq. intros k. apply option_eq. intros d. by rewrite HR, HR'.
    + intros w. specialize (Hvars w). rewrite !having_merge in Hvars. setoid_rewrite elem_of_list_to_set. done.
Qed.


Lemma joined_init cp ss Fs0 V : factors_of cp ss Fs0 -> joined_to cp ss Fs0 V ∅ ss Fs0 ((fun F => [F]) <$> Fs0).
Proof.
  intros Hss. pose proof (fo_list _ _ _ Hss) as Hf. split; [done| | | | |].
  - apply Forall2_fmap_r, Forall_Forall2_diag, Forall_forall. intros F HF G c. rewrite prod_of_single. split; [|tauto].
    intros HG. split; [done|]. eapply fl_sv; [done|done|by eexists].
  - clear. induction Fs0 as [|F Fs IH]; [done|]. cbn [fmap list_fmap concat app]. by rewrite IH.
  - intros Fs HFs. apply elem_of_list_fmap in HFs as (F & -> & _). done.
  - intros Fs F F' g g' HFs. apply elem_of_list_fmap in HFs as (F0 & -> & HF0). intros HF HF' Hg Hg'.
    apply elem_of_list_singleton in HF, HF'. subst F F'. apply rtc_once. split.
    + split; apply (factors_contains cp ss Fs0); eauto.
    + left. by eapply fl_hom.
  - intros v D D' Hv. by apply elem_of_empty in Hv.
Qed.

Lemma joined_closed cp ss Fs0 V acc Ds P : factors_of cp ss Fs0 -> joined_to cp ss Fs0 V V acc Ds P ->
  forall Fs F h k, Fs ∈ P -> F ∈ Fs -> is_Some (F !! h) -> cluster ss V h k -> exists F', F' ∈ Fs /\ is_Some (F' !! k).
Proof.
  intros Hss [J1 J2 J3 J4 J5 J6].
  pose proof (fo_list _ _ _ Hss) as Hf0. pose proof (fo_list _ _ _ J1) as HfD.
  pose proof (factors_contains cp ss Fs0) as Hcon. specialize (Hcon) with (1 := Hss).
  assert (forall Fs F, Fs ∈ P -> F ∈ Fs -> F ∈ Fs0) as Hin.
  { intros Fs F HFs HF. rewrite <- J3. apply elem_of_concat. eauto. }
  assert (NoDup (concat P)) as Hnd by (rewrite J3; by apply (fl_NoDup cp)).
  assert (forall Fs Fs' F, Fs ∈ P -> Fs' ∈ P -> F ∈ Fs -> F ∈ Fs' -> Fs = Fs') as Hpart.
  { intros Fs Fs' F HFs HFs' HF HF'. apply elem_of_list_split in HFs as (P1 & P2 & ->).
    rewrite concat_app in Hnd. cbn [concat] in Hnd. apply NoDup_app in Hnd as (_ & Hd & Hnd).
    apply NoDup_app in Hnd as (_ & Hd' & _).
    apply elem_of_app in HFs' as [H|[->|H]%elem_of_cons]; [|done|]; exfalso.
    - apply (Hd F); [apply elem_of_concat; eauto|]. apply elem_of_app. by left.
    - apply (Hd' F HF). apply elem_of_concat. eauto. }
  intros Fs F h k HFs HF Hh Hc. unfold cluster in Hc. revert F HF Hh.
    induction Hc as [h|x y z [[Hx Hy] Hxy] _ IH]; intros F HF Hh; [by exists F|].
    apply Hcon in Hy as (F' & HF' & Hy').
    assert (exists Fs', Fs' ∈ P /\ F' ∈ Fs') as (Fs' & HFs' & HF1) by (apply elem_of_concat; by rewrite J3).
    destruct Hxy as [Hsp|(v & HvV & Hvx & Hvy)].
    - assert (F = F') as <-.
      { apply (fl_same cp Fs0 F F' x y); [done|by apply (Hin Fs)|done|done|done|]. apply (same_overlap cp); [|done].
        apply (fl_graph cp Fs0 F); [done|by apply (Hin Fs)|done]. }
      by apply (IH F).
    - destruct (represents_elem_r Ds P Fs J2 HFs) as (D & HD & HR). destruct (represents_elem_r Ds P Fs' J2 HFs') as (D' & HD' & HR').
      assert (D = D') as <-.
      { apply (J6 v); [done..| |].
        - apply (represents_var cp Fs0 Ds P D Fs v Hf0 HfD J3 HD HFs HR). exists F. split; [done|]. by exists x.
        - apply (represents_var cp Fs0 Ds P D' Fs' v Hf0 HfD J3 HD' HFs' HR'). exists F'. split; [done|]. by exists y. }
      assert (Fs = Fs') as <-; [|by apply (IH F')].
      (* both represent the same nonempty factor *)
      destruct (map_choose D (fl_ne _ _ HfD D HD)) as (G0 & d & HG0).
      apply elem_of_list_lookup in HFs as [i Hi], HFs' as [j Hj].
      destruct (Forall2_lookup_r _ _ _ _ _ J2 Hi) as (D1 & HD1 & HR1). destruct (Forall2_lookup_r _ _ _ _ _ J2 Hj) as (D2 & HD2 & HR2).
      assert (D1 = D) as -> by (apply map_eq; intros q; apply option_eq; intros e; by rewrite HR1, HR).
      assert (D2 = D) as -> by (apply map_eq; intros q; apply option_eq; intros e; by rewrite HR2, HR').
      assert (i = j) as -> by (eapply NoDup_lookup; [by apply (fl_NoDup cp Ds)|done|done]). congruence.
Qed.

Lemma joined_final cp ss Fs0 V acc Ds P : factors_of cp ss Fs0 -> joined_to cp ss Fs0 V V acc Ds P ->
  forall G c, ss_map acc !! G = Some c <-> exists h, contains ss h /\ joint same_pairs (cluster ss V h) ss G c.
Proof.
  intros Hss [J1 J2 J3 J4 J5 J6] G c.
  pose proof (fo_list _ _ _ Hss) as Hf0. pose proof (fo_list _ _ _ J1) as HfD.
  pose proof (factors_contains cp ss Fs0) as Hcon. specialize (Hcon) with (1 := Hss).
  assert (forall Fs F, Fs ∈ P -> F ∈ Fs -> F ∈ Fs0) as Hin.
  { intros Fs F HFs HF. rewrite <- J3. apply elem_of_concat. eauto. }
  assert (NoDup (concat P)) as Hnd by (rewrite J3; by apply (fl_NoDup cp)).
  assert (forall Fs Fs' F, Fs ∈ P -> Fs' ∈ P -> F ∈ Fs -> F ∈ Fs' -> Fs = Fs') as Hpart.
  { intros Fs Fs' F HFs HFs' HF HF'. apply elem_of_list_split in HFs as (P1 & P2 & ->).
    rewrite concat_app in Hnd. cbn [concat] in Hnd. apply NoDup_app in Hnd as (_ & Hd & Hnd).
    apply NoDup_app in Hnd as (_ & Hd' & _).
    apply elem_of_app in HFs' as [H|[->|H]%elem_of_cons]; [|done|]; exfalso.
    - apply (Hd F); [apply elem_of_concat; eauto|]. apply elem_of_app. by left.
    - apply (Hd' F HF). apply elem_of_concat. eauto. }
  assert (forall Fs F h k, Fs ∈ P -> F ∈ Fs -> is_Some (F !! h) -> cluster ss V h k -> exists F', F' ∈ Fs /\ is_Some (F' !! k)) as Hclosed
    by by apply (joined_closed cp ss Fs0 V acc Ds P).
  assert (forall Fs F h, Fs ∈ P -> F ∈ Fs -> is_Some (F !! h) -> joint same_pairs (cluster ss V h) ss G c <-> prod_of Fs G c) as Hj.
  { intros Fs F h HFs HF Hh. apply selection_picked.
    - intros E HE. split; [apply (fl_ne _ _ Hf0); by apply (Hin Fs)|]. intros g Hg k d. split.
      + intros Hk. split_and!; [apply (fo_lookup _ _ _ Hss); exists E; split; [by apply (Hin Fs)|done]| |].
        * apply (J5 Fs F E); [done..|by eexists].
        * eapply (fl_hom _ _ Hf0); [by apply (Hin Fs)|done|by eexists].
      + intros (Hk & Hcl & Hsp). pose proof Hk as Hk1. apply (fo_lookup _ _ _ Hss) in Hk1 as (E' & HE' & Hk').
        assert (E = E') as <-; [|done]. apply (fl_same cp Fs0 E E' g k); [done|by apply (Hin Fs)|done|done|by eexists|].
        apply (same_overlap cp); [|done]. apply (fl_graph cp Fs0 E); [done|by apply (Hin Fs)|done].
    - intros g Hg Hcl. by apply (Hclosed Fs F h g).
    - apply elem_of_list_split in HFs as (P1 & P2 & ->). rewrite concat_app in Hnd. cbn [concat] in Hnd.
      apply NoDup_app in Hnd as (_ & _ & Hnd). by apply NoDup_app in Hnd as (Hnd & _). }
  rewrite (fo_lookup _ _ _ J1). split.
  - intros (D & HD & HG). destruct (represents_elem Ds P D J2 HD) as (Fs & HFs & HR). apply HR in HG.
    destruct Fs as [|F Fs]; [by destruct (J4 [] HFs)|].
    assert (F ∈ Fs0) as HF by (apply (Hin (F :: Fs)); [done|left]).
    destruct (map_choose F (fl_ne _ _ Hf0 F HF)) as (h & d & Hh). exists h. split; [apply Hcon; exists F; split; [done|by eexists]|].
    apply (Hj (F :: Fs) F h); [done|left|by eexists|done].
  - intros (h & Hh & HG). apply Hcon in Hh as (F & HF & Hh).
    assert (exists Fs, Fs ∈ P /\ F ∈ Fs) as (Fs & HFs & HF1) by (apply elem_of_concat; by rewrite J3).
    apply (Hj Fs F h HFs HF1 Hh) in HG. destruct (represents_elem_r Ds P Fs J2 HFs) as (D & HD & HR).
    exists D. split; [done|]. by apply HR.
Qed.

Lemma feasible_joint cp ss Fs0 : factors_of cp ss Fs0 ->
  forall G c, joint same_pairs anything ss G c <-> prod_of Fs0 G c.
Proof.
  intros Hss. pose proof (fo_list _ _ _ Hss) as Hf0. apply selection_picked.
  - intros F HF. split; [by eapply fl_ne|]. intros g Hg h c. split.
    + intros Hh. split_and!; [apply (fo_lookup _ _ _ Hss); eauto|done|]. eapply fl_hom; [done|done|done|by eexists].
    + intros (Hh & _ & Hsp). apply (fo_lookup _ _ _ Hss) in Hh as (F' & HF' & Hh).
      assert (F = F') as <-; [|done]. apply (fl_same cp Fs0 F F' g h); [done..|by eexists|]. apply (same_overlap cp); [|done].
      by apply (fl_graph cp Fs0 F).
  - intros g Hg _. by apply (factors_contains cp ss Fs0).
  - by eapply fl_NoDup.
Qed.

Lemma C38_lemma o sp variables (V : gset Var) :
  ss_cp (sp_out sp) = sp_cp sp -> all_wf (sp_cp sp) (sp_out sp) -> one_valued (sp_out sp) -> all_simple (sp_out sp) ->
  factorable (sp_out sp) -> self_named (sp_out sp) -> compatible_choice (sp_out sp) ->
  match variables with Some X => V = X | None => forall v, v ∈ V <-> occurs_var (sp_out sp) v end ->
  match joined_on_variables o sp variables with
  | Ok sp' => sp_cp sp' = sp_cp sp /\ ss_cp (sp_out sp') = sp_cp sp /\
      forall G c, count_of (sp_out sp') G = Ok c <->
        exists h, contains (sp_out sp) h /\ joint same_pairs (cluster (sp_out sp) V h) (sp_out sp) G c
  | Err x => x = AssertionError /\ twin_parts (sp_out sp)
  end.
Proof.
  intros Hcp Hwf Hov Hsi Hfa Hself Hcc HV.
  destruct (space_factors o sp Hcp Hwf Hov Hsi Hfa) as (S & _ & Hss). set (Fs0 := elements S) in *.
  assert (feasible Fs0) as Hfe.
  { apply feasible_prod. destruct Hcc as (G & c & H). exists G, c. by apply (feasible_joint _ _ _ Hss). }
  unfold joined_on_variables.
  assert (match variables with Some X => X | None => dom (sp_included_variables (sub o 0) sp) end = V) as ->.
  { destruct variables as [X|]; [done|]. apply set_eq. intros v. rewrite HV, elem_of_dom.
    pose proof (included_lemma (sub o 0) sp v) as H. destruct (sp_included_variables (sub o 0) sp !! v) as [X|].
    - destruct H as [Hne H]. split; [|intros _; by eexists]. intros _.
      apply set_choose_L in Hne as [x Hx]. exists x. by apply H.
    - split; [intros [? [=]]|]. intros Hn. by destruct (H Hn). }
  match goal with |- context [for_res ?f ?o1 _ _] => set (fn := f); generalize o1; intros o1' end.
  pose proof (for_res_set_ind (fun Y acc => exists Ds P, joined_to (sp_cp sp) (sp_out sp) Fs0 V Y acc Ds P)
    (fun x => x = AssertionError /\ twin_parts (sp_out sp)) fn o1' (sub o 2) (sp_out sp) V) as H.
  assert (exists Ds P, joined_to (sp_cp sp) (sp_out sp) Fs0 V ∅ (sp_out sp) Ds P) as H0.
  { exists Fs0, ((fun F => [F]) <$> Fs0). by apply joined_init. }
  specialize (H H0).
  assert (forall Y v acc o', v ∈ V -> v ∉ Y -> Y ⊆ V -> (exists Ds P, joined_to (sp_cp sp) (sp_out sp) Fs0 V Y acc Ds P) ->
    match fn o' acc v with
    | Ok r => exists Ds P, joined_to (sp_cp sp) (sp_out sp) Fs0 V ({[v]} ∪ Y) r Ds P
    | Err x => x = AssertionError /\ twin_parts (sp_out sp)
    end) as Hstep.
  { intros Y v acc o' Hv _ _ (Ds & P & Hj). by apply (joined_step _ _ Fs0 V Y o' acc Ds P v). }
  specialize (H Hstep). destruct (for_res fn o1' (sp_out sp) (iter_set (sub o 2) V)) as [r|x]; [|done].
  cbn [mbind res_bind sp_cp sp_out]. destruct H as (Ds & P & Hj). split_and!; [done|by eapply fo_cp, jt_factors|].
  intros G c. rewrite count_of_lookup. by eapply joined_final.
Qed.

End join_on_facts.
