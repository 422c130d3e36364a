(** * ElimFacts: joining the factors of any factorized space ([make_joined] without full support). *)

From Verif Require Export SpecElim JoinedFacts.

Section elim_facts.
Context {U : Universe}.

Implicit Types (F D E : gmap graph Z) (Fs Ds : list (gmap graph Z)) (S : gset (gmap graph Z)) (sel J : list (graph * Z)) (G g h : graph).

(** ** Failing joins *)

Lemma unnoticed_clash l : unnoticed l <-> hidden_clash l.
Proof.
  unfold unnoticed, hidden_clash, has. setoid_rewrite (proj1 (merge_spec l)). split.
  - intros [H (w & x & y & (g & Hg & Hx) & (h & Hh & Hy) & Hne)]. split; [by exists w, x, y, g, h|].
    intros w' x' y' g' h' Hall Hg' Hh' Hx' Hy'. apply (H w'); eauto.
  - intros [(w & x & y & g & h & Hg & Hh & Hx & Hy & Hne) H]. split; [|by exists w, x, y; eauto 10].
    intros w' x' y' Hall (g' & Hg' & Hx') (h' & Hh' & Hy'). by apply (H w' x' y' g' h').
Qed.

Lemma clash_perm l l' : l ≡ₚ l' -> hidden_clash l -> hidden_clash l'.
Proof. intros Hp. unfold hidden_clash. by setoid_rewrite Hp. Qed.

Lemma map_res_raises {A B} (f : oracle -> A -> res B) o l x :
  x ∈ l -> (forall o, is_ok (f o x) = false) -> is_ok (map_res f o l) = false.
Proof.
  intros Hx Hf. revert o. induction l as [|y l IH]; intros o; [by apply elem_of_nil in Hx|]. cbn [map_res].
  apply elem_of_cons in Hx as [<-|Hx].
  - specialize (Hf (sub o 1)). destruct (f (sub o 1) x); done.
  - destruct (f (sub o 1) y); [|done]. cbn [mbind res_bind]. specialize (IH Hx (sub o 0)). by destruct (map_res f (sub o 0) l).
Qed.

Lemma join_factors_raises cp v Fs : forall o Ds J sel,
  separate (Ds ++ Fs) -> (forall F, F ∈ Ds ++ Fs -> good_factor cp F) ->
  (forall F g, F ∈ Ds ++ Fs -> is_Some (F !! g) -> having v g /\ single_valued (g_nodes g)) ->
  picked Ds J -> picked Fs sel -> unnoticed (J ++ sel).*1 ->
  is_ok (join_factors o cp Fs (Samples cp (list_to_map J))) = false.
Proof.
  induction Fs as [|F0 Fs IH]; intros o Ds J sel Hs Hg Hv HJ Hsel Hu.
  - apply Forall2_nil_inv_l in Hsel as ->. rewrite (right_id_L [] (++)) in Hs, Hg, Hv. rewrite (right_id_L [] (++)) in Hu. cbn [join_factors].
    set (ss := Samples cp (list_to_map J)).
    pose proof (picked_contains cp Ds J Hs Hg HJ cp) as Hin. fold ss in Hin.
    assert (forall g, g ∈ J.*1 -> having v g /\ single_valued (g_nodes g) /\ wf_graph cp g) as HvJ.
    { intros g Hin'. apply elem_of_list_fmap in Hin' as ([g' c] & -> & Hin').
      destruct (picked_elem _ _ _ HJ Hin') as (F & HF & Hl). split_and!; [eapply Hv; [done|by eexists]..|].
      eapply gg_wf, gf_graph; [by apply Hg|by eexists]. }
    assert (forall n, occurs ss n <-> n ∈ g_nodes (merge J.*1)) as Ho.
    { intros n. rewrite (proj1 (merge_spec J.*1) n). unfold occurs. by setoid_rewrite Hin. }
    pose proof (can_join_samples_spec (sub o 0) ss) as Hc. destruct (can_join_samples (sub o 0) ss) as [can|e]; [|done].
    destruct Hc as [_ Hc]; [intros g Hcg; apply Hin in Hcg; by apply HvJ|]. cbn [mbind res_bind].
    destruct Hu as [Hu1 (w & x & y & Hx & Hy & Hne)].
    destruct can.
    2:{ assert (false = true); [|done]. apply Hc. intros w' x' y' Hw Hx' Hy'. apply (Hu1 w'); [|by apply Ho..].
        intros g Hg'. apply Hw. by apply Hin. }
    pose proof (make_joined_spec (sub o 1) ss) as Hmj. destruct (make_joined_sample (sub o 1) ss) as [[s cs]|e]; [|done].
    destruct Hmj as (_ & _ & _ & _ & Hvm & _).
    { intros g Hcg. apply Hin in Hcg. by apply HvJ. }
    destruct Hne. apply (Hvm w); by apply Ho.
  - apply Forall2_cons_inv_l in Hsel as ([g d] & sel' & Hgd & Hsel & ->). cbn [fst snd] in Hgd. cbn [join_factors].
    match goal with |- context [map_res ?f ?o1 ?l] => set (fn := f);
      pose proof (map_res_raises fn o1 l (g, d)) as H end.
    match type of H with ?A -> ?B -> _ => assert A as HA; [by apply elem_of_iter_map|assert B as HB; [|specialize (H HA HB)]] end.
    2:{ destruct (map_res fn (sub o 0) (iter_map (sub o 1) F0)); done. }
    assert (separate ((Ds ++ [F0]) ++ Fs)) as Hs' by (by rewrite <- app_assoc).
    assert (forall F, F ∈ Ds ++ F0 :: Fs <-> F ∈ (Ds ++ [F0]) ++ Fs) as Hmem by (intros F; by rewrite <- app_assoc).
    assert (g ∉ J.*1) as Hfresh.
    { intros Hin. apply elem_of_list_fmap in Hin as ([g' c] & Heq & Hin). simpl in Heq. subst g'.
      destruct (picked_elem _ _ _ HJ Hin) as (F & HF & Hl). simpl in Hl.
      assert (separate (F0 :: Ds)) as Hs0.
      { apply (separate_app_l _ Fs). rewrite <- (Permutation_cons_append Ds) in Hs'. done. }
      apply separate_cons in Hs0 as [Ha _]. destruct (Ha F HF) as [Ha1 _]. apply (Ha1 g g); [by eexists|by eexists|].
      apply (overlap_refl cp). eapply gf_graph; [apply Hg|by eexists]. rewrite elem_of_app, elem_of_cons. auto. }
    intros o'. unfold fn. rewrite add_fresh; cbn [s_cp s_g ss_cp ss_map]; [|done|by apply not_elem_of_list_to_map].
    rewrite <- NoDup_fst_lookup; [| |done].
    2:{ apply (picked_NoDup cp Ds); [by eapply separate_app_l| |done]. intros F HF. apply Hg. rewrite elem_of_app. auto. }
    apply (IH o' (Ds ++ [F0]) (J ++ [(g, d)]) sel'); [done|intros F; rewrite <- Hmem; apply Hg|intros F k; rewrite <- Hmem; apply Hv| |done|by rewrite <- app_assoc].
    apply picked_app; [done|]. by constructor.
Qed.

(** ** One variable *)

(** Factors of any step: their outcomes are good, have one value per variable and share no variable pair with those of
    other factors.  The outcomes of one factor need not be over the same variables. *)
Record loose (cp : provider) S : Prop := {
  lo_sep : forall D E, D ∈ S -> E ∈ S -> D <> E -> apart D E;
  lo_good : forall D, D ∈ S -> good_factor cp D;
  lo_sv : forall D g, D ∈ S -> is_Some (D !! g) -> single_valued (g_nodes g)
}.

Lemma loose_separate cp S Ds : loose cp S -> NoDup Ds -> (forall D, D ∈ Ds -> D ∈ S) -> separate Ds.
Proof.
  intros [Hs _ _] Hnd Hin i j D E Hi Hj Hij. apply Hs; [by eapply Hin, elem_of_list_lookup_2..|]. intros ->. apply Hij.
  by eapply NoDup_lookup.
Qed.

(** The outcomes with a value, by factor. *)
Definition sliced v x Ds : list (gmap graph Z) := filter (fun m : gmap graph Z => m ≠ ∅) (at_value v x <$> Ds).

Lemma at_value_offers v x D : at_value v x D ≠ ∅ <-> offers D v x.
Proof.
  unfold offers. setoid_rewrite <- at_value_some. split.
  - intros Hne. apply map_choose in Hne as (g & c & Hg). exists g. by eexists.
  - intros (g & c & Hg) He. by rewrite He, lookup_empty in Hg.
Qed.

Lemma sliced_alt v x Ds : sliced v x Ds = at_value v x <$> filter (fun D => at_value v x D ≠ ∅) Ds.
Proof.
  unfold sliced. induction Ds as [|D Ds IH]; [done|]. rewrite fmap_cons. destruct (decide (at_value v x D ≠ ∅)) as [H|H].
  - rewrite !filter_cons_True by done. by rewrite fmap_cons, IH.
  - by rewrite !filter_cons_False by done.
Qed.

Lemma sliced_perm v x Ds Ds' : Ds ≡ₚ Ds' -> sliced v x Ds ≡ₚ sliced v x Ds'.
Proof. intros Hp. unfold sliced. by rewrite Hp. Qed.

(** The variable's factors of a set, in any order. *)
Definition parts_of S v Ds : Prop := NoDup Ds /\ forall D, D ∈ Ds <-> D ∈ S /\ covers D v.

Lemma offers_covers D v x : offers D v x -> covers D v.
Proof. intros (g & Hg & Hx). exists g. split; [done|]. by exists x. Qed.

Lemma sliced_selection S v x Ds sel : parts_of S v Ds ->
  (exists sel', sel ≡ₚ sel' /\ selection_at S v x sel') <-> exists sel', sel ≡ₚ sel' /\ picked (sliced v x Ds) sel'.
Proof.
  intros [Hnd HDs]. rewrite sliced_alt. set (L := filter (fun D => at_value v x D ≠ ∅) Ds).
  assert (NoDup L) as HndL by by apply NoDup_filter.
  assert (forall D, D ∈ L <-> D ∈ S /\ offers D v x) as HL.
  { intros D. unfold L. rewrite elem_of_list_filter, at_value_offers, HDs. split; [tauto|]. intros [H1 H2]. split_and!; [done|done|by eapply offers_covers]. }
  clearbody L. clear HDs. split.
  - intros (sel' & Hp & l & Hl & HlS & HF).
    assert (l ≡ₚ L) as HlL by (apply NoDup_Permutation; [done|done|]; intros D; by rewrite HlS, HL).
    destruct (picked_perm (at_value v x <$> l) (at_value v x <$> L) sel') as (sel2 & H2 & H2p).
    + by rewrite HlL.
    + unfold picked. rewrite Forall2_fmap_l. eapply Forall2_impl; [exact HF|]. intros D gc Hgc. by apply at_value_lookup.
    + exists sel2. split; [by rewrite Hp|done].
  - intros (sel' & Hp & Hpk). exists sel'. split; [done|]. exists L. split_and!; [done|done|].
    unfold picked in Hpk. rewrite Forall2_fmap_l in Hpk. eapply Forall2_impl; [exact Hpk|]. intros D gc Hgc. by apply at_value_lookup.
Qed.

Lemma sliced_prod S v x Ds G c : parts_of S v Ds ->
  prod_of (sliced v x Ds) G c <-> exists sel, selection_at S v x sel /\ merged sel.*1 G /\ single_valued (g_nodes G) /\ c = product sel.*2.
Proof.
  intros Hd. rewrite prod_of_unfold. split.
  - intros (sel & Hp & -> & Hsv & ->). destruct (proj2 (sliced_selection S v x Ds sel Hd)) as (sel' & Hp' & Hs); [by exists sel|].
    exists sel'. split_and!; [done| |done|by rewrite Hp']. apply merged_merge, merge_perm. by rewrite Hp'.
  - intros (sel & Hs & HG & Hsv & ->). destruct (proj1 (sliced_selection S v x Ds sel Hd)) as (sel' & Hp' & Hs'); [by exists sel|].
    exists sel'. split_and!; [done| |done|by rewrite Hp']. apply merged_merge in HG as ->. apply merge_perm. by rewrite Hp'.
Qed.

Lemma sliced_nil S v x Ds : parts_of S v Ds -> sliced v x Ds <> [] <-> exists D, D ∈ S /\ offers D v x.
Proof.
  intros [Hnd HDs]. rewrite sliced_alt. split.
  - intros Hne. destruct (filter (fun D => at_value v x D ≠ ∅) Ds) as [|D l] eqn:Hf; [done|].
    assert (D ∈ filter (fun D => at_value v x D ≠ ∅) Ds) as HD by (rewrite Hf; left).
    apply elem_of_list_filter in HD as [Ho HD]. apply at_value_offers in Ho. exists D. split; [by apply HDs|done].
  - intros (D & HD & Ho) He. apply fmap_nil_inv in He.
    assert (D ∈ filter (fun D => at_value v x D ≠ ∅) Ds) as HD'; [|rewrite He in HD'; by apply elem_of_nil in HD'].
    apply elem_of_list_filter. split; [by apply at_value_offers|]. apply HDs. split; [done|by eapply offers_covers].
Qed.

(** The value makes the join raise. *)
Definition blocked v x Ds : Prop := sliced v x Ds = [] \/ exists sel, picked (sliced v x Ds) sel /\ unnoticed sel.*1.

Section parts.
Context (cp : provider) (S : gset (gmap graph Z)) (v : Var) (Ds : list (gmap graph Z)).
Hypothesis (HS : loose cp S) (HDs : parts_of S v Ds).

Lemma sliced_separate x : separate (sliced v x Ds).
Proof.
  rewrite sliced_alt. apply separate_at, (loose_separate cp S); [done|apply NoDup_filter, HDs|].
  intros D HD. apply elem_of_list_filter in HD as [_ HD]. by apply HDs.
Qed.

Lemma sliced_elem x F : F ∈ sliced v x Ds -> F ≠ ∅ /\ exists D, D ∈ S /\ F = at_value v x D.
Proof.
  unfold sliced. intros HF. apply elem_of_list_filter in HF as [Hne HF]. apply elem_of_at_value in HF as (D & HD & ->).
  split; [done|]. exists D. split; [by apply HDs|done].
Qed.

Lemma sliced_good x F : F ∈ sliced v x Ds -> good_factor cp F.
Proof. intros (_ & D & HD & ->)%sliced_elem. by apply good_at, (lo_good cp S). Qed.

Lemma sliced_graph x F g : F ∈ sliced v x Ds -> is_Some (F !! g) -> has v x g /\ single_valued (g_nodes g) /\ exists D, D ∈ S /\ is_Some (D !! g).
Proof.
  intros (_ & D & HD & ->)%sliced_elem Hg. apply at_value_some in Hg as [Hg Hx]. split_and!; [done|by apply (lo_sv cp S HS D)|eauto].
Qed.

Lemma sliced_has x G c : sliced v x Ds <> [] -> prod_of (sliced v x Ds) G c -> has v x G.
Proof.
  intros Hne (sel & Hp & -> & _). cbn [app]. destruct (sliced v x Ds) as [|F Fs] eqn:Hs; [done|].
  destruct sel as [|[g d] sel]; [by apply Forall2_nil_inv_r in Hp|]. apply Forall2_cons in Hp as [Hg _]. cbn [fst snd] in Hg.
  apply nodes_merge. exists g. split; [left|]. apply (sliced_graph x F); [rewrite Hs; left|by eexists].
Qed.

Lemma join_value o x :
  match join_factors o cp (sliced v x Ds) (ssb_new cp) with
  | Ok r => ss_cp r = cp /\ ~ blocked v x Ds /\ forall G c, ss_map r !! G = Some c <-> prod_of (sliced v x Ds) G c
  | Err _ => blocked v x Ds
  end.
Proof.
  destruct (decide (sliced v x Ds = [])) as [He|Hne].
  - rewrite He. cbn [join_factors]. pose proof (can_join_samples_spec (sub o 0) (ssb_new cp)) as Hc.
    destruct (can_join_samples (sub o 0) (ssb_new cp)) as [b|e]; cbn [mbind res_bind]; [|by left].
    destruct Hc as [Hc _]; [|done]. intros g [c Hg]. cbn [ssb_new ss_map] in Hg. by rewrite lookup_empty in Hg.
  - pose proof (join_factors_spec cp v (sliced v x Ds) o [] []) as H. cbn [app] in H.
    change (Samples cp (list_to_map [])) with (ssb_new cp) in H.
    specialize (H (sliced_separate x) (sliced_good x)).
    assert (forall F g, F ∈ sliced v x Ds -> is_Some (F !! g) -> having v g /\ single_valued (g_nodes g)) as Hv.
    { intros F g HF Hg. destruct (sliced_graph x F g HF Hg) as (H1 & H2 & _). split; [by exists x|done]. }
    specialize (H Hv (fun F HF => proj1 (sliced_elem x F HF)) ltac:(constructor) (or_intror Hne)).
    destruct (join_factors o cp (sliced v x Ds) (ssb_new cp)) as [r|e] eqn:Hj.
    + destruct H as [Hcp Hr]. split_and!; [done| |done]. intros [He|(sel & Hsel & Hu)]; [done|].
      pose proof (join_factors_raises cp v (sliced v x Ds) o [] [] sel (sliced_separate x) (sliced_good x) Hv ltac:(constructor) Hsel Hu) as Hr'.
      change (Samples cp (list_to_map [])) with (ssb_new cp) in Hr'. by rewrite Hj in Hr'.
    + destruct H as (_ & sel & Hsel & Hu). right. by exists sel.
Qed.

End parts.

(** The loop over the values of a variable. *)
Definition join_values (o : oracle) (cp : provider) Ds v (vals : list Val) : res samples :=
  for_res (fun o' jf x =>
    let ofv := (fun f : gmap graph Z => filter (fun kv => have_value kv.1 v x = true) f) <$> Ds in
    r ← join_factors (sub o' 0) cp (filter (fun m : gmap graph Z => m ≠ ∅) ofv) (ssb_new cp);
    match ssb_add_all (sub o' 1) jf r with
    | (b, Ok _) => Ok b
    | (_, Err e) => Err e
    end) o (ssb_new cp) vals.

Lemma join_values_loose cp o o' S v (vals : gset Val) Dv : loose cp S -> parts_of S v Dv ->
  match join_values o cp Dv v (iter_set o' vals) with
  | Ok jf => (forall x, x ∈ vals -> ~ blocked v x Dv) /\
      forall G c, ss_map jf !! G = Some c <-> exists x, x ∈ vals /\ prod_of (sliced v x Dv) G c
  | Err _ => exists x, x ∈ vals /\ blocked v x Dv
  end.
Proof.
  intros HS HDv. unfold join_values. generalize o. clear o. intros o1'.
  match goal with |- context [for_res ?f _ _ _] => set (fn := f) end.
  pose proof (for_res_set_ind (fun Y jf => ss_cp jf = cp /\ (forall x, x ∈ Y -> ~ blocked v x Dv) /\
      forall G c, ss_map jf !! G = Some c <-> exists x, x ∈ Y /\ prod_of (sliced v x Dv) G c)
    (fun _ => exists x, x ∈ vals /\ blocked v x Dv) fn o1' o' (ssb_new cp) vals) as H.
  match type of H with ?A -> ?B -> _ => assert A as HA; [|assert B as HB; [|specialize (H HA HB)]] end.
  { split_and!; [done|by intros x Hx%elem_of_empty|]. intros G c. cbn [ssb_new ss_map]. rewrite lookup_empty. split; [done|].
    by intros (x & Hx%elem_of_empty & _). }
  { intros Y x jf o2 Hx HxY HY (Hcp & Hnb & Hjf). unfold fn.
    change (filter (fun m : gmap graph Z => m ≠ ∅) ((fun f : gmap graph Z => filter (fun kv => have_value kv.1 v x = true) f) <$> Dv)) with (sliced v x Dv).
    pose proof (join_value cp S v Dv HS HDv (sub o2 0) x) as Hj.
    destruct (join_factors (sub o2 0) cp (sliced v x Dv) (ssb_new cp)) as [r|e]; cbn [mbind res_bind]; [|by exists x].
    destruct Hj as (Hrc & Hnbx & Hr).
    assert (forall y G c, ~ blocked v y Dv -> prod_of (sliced v y Dv) G c -> has v y G) as Hhas.
    { intros y G c Hb. apply (sliced_has cp S); [done|done|]. intros He. apply Hb. by left. }
    assert (ss_map jf ##ₘ ss_map r) as Hdisj.
    { apply map_disjoint_spec. intros G c1 c2 H1 H2. apply Hjf in H1 as (y & Hy & HG1). apply Hr in H2.
      assert (x = y) as ->; [|done]. pose proof H2 as (_ & _ & _ & Hsv & _). apply (Hsv v); [by apply (Hhas x G c2)|].
      apply (Hhas y G c1); [by apply Hnb|done]. }
    rewrite add_all_fresh; [|congruence|done]. split_and!; [done| |].
    - intros y [->%elem_of_singleton|Hy]%elem_of_union; [done|by apply Hnb].
    - intros G c. cbn [ss_map]. rewrite lookup_union_Some by done. rewrite Hjf, Hr. split.
      + intros [(y & Hy & HG)|HG]; [exists y|exists x]; (split; [|done]); apply elem_of_union; [by right|left; by apply elem_of_singleton].
      + intros (y & [->%elem_of_singleton|Hy]%elem_of_union & HG); [by right|left; eauto]. }
  destruct (for_res fn o1' (ssb_new cp) (iter_set o' vals)) as [jf|e]; [tauto|done].
Qed.

Lemma join_variable_loose cp o S v (vals : gset Val) Ds : loose cp S -> parts_of S v Ds ->
  match join_variable o cp S v vals with
  | Ok S' => (forall x, x ∈ vals -> ~ blocked v x Ds) /\ exists D', (forall D, D ∈ S' <-> D ∈ S /\ ~ covers D v \/ D = D') /\
      forall G c, D' !! G = Some c <-> exists x, x ∈ vals /\ prod_of (sliced v x Ds) G c
  | Err _ => exists x, x ∈ vals /\ blocked v x Ds
  end.
Proof.
  intros HS HDs. unfold join_variable.
  set (ffv := filter (fun f => ss_have_variable (Samples cp f) v = true) S).
  assert (forall D, D ∈ ffv <-> D ∈ S /\ covers D v) as Hffv.
  { intros D. unfold ffv. rewrite elem_of_filter, have_var_spec. change (fvar D v) with (covers D v). naive_solver. }
  set (Dv := iter_set (sub o 0) ffv).
  assert (parts_of S v Dv) as HDv.
  { split; [apply NoDup_iter_set|]. intros D. unfold Dv. by rewrite elem_of_iter_set, Hffv. }
  assert (Dv ≡ₚ Ds) as Hperm.
  { apply NoDup_Permutation; [apply HDv|apply HDs|]. intros D. rewrite (proj2 HDv D). symmetry. apply HDs. }
  assert (forall x, sliced v x Dv ≡ₚ sliced v x Ds) as Hsl by (intros x; by apply sliced_perm).
  assert (forall x, blocked v x Dv -> blocked v x Ds) as Hbl.
  { intros x [He|(sel & Hsel & Hu)]; [left|right].
    - specialize (Hsl x). rewrite He in Hsl. by apply Permutation_nil_l in Hsl.
    - destruct (picked_perm _ _ _ (Hsl x) Hsel) as (sel' & Hs' & Hp). exists sel'. split; [done|]. apply unnoticed_clash.
      apply unnoticed_clash in Hu. eapply clash_perm; [|done]. by rewrite Hp. }
  assert (forall x, blocked v x Ds -> blocked v x Dv) as Hbl'.
  { intros x [He|(sel & Hsel & Hu)]; [left|right].
    - specialize (Hsl x). rewrite He in Hsl. by apply Permutation_nil_r in Hsl.
    - destruct (picked_perm _ _ _ (symmetry (Hsl x)) Hsel) as (sel' & Hs' & Hp). exists sel'. split; [done|]. apply unnoticed_clash.
      apply unnoticed_clash in Hu. eapply clash_perm; [|done]. by rewrite Hp. }
  match goal with |- context [for_res ?f ?o1 (ssb_new cp) ?l] => change (for_res f o1 (ssb_new cp) l) with (join_values o1 cp Dv v l) end.
  pose proof (join_values_loose cp (sub o 1) (sub o 2) S v vals Dv HS HDv) as H.
  destruct (join_values (sub o 1) cp Dv v (iter_set (sub o 2) vals)) as [jf|e]; cbn [mbind res_bind].
  2:{ destruct H as (x & Hx & Hb). exists x. split; [done|by apply Hbl]. }
  destruct H as (Hnb & Hjf). split; [intros x Hx Hb; by apply (Hnb x Hx), Hbl'|]. exists (ss_map jf). split.
  - intros D. rewrite elem_of_union, elem_of_difference, elem_of_singleton, Hffv. split; [|tauto]. intros [[H1 H2]|H1]; [left; tauto|by right].
  - intros G c. rewrite Hjf. by setoid_rewrite Hsl.
Qed.

Lemma eliminates_fun occ S v S1 S2 : eliminates occ S v S1 -> eliminates occ S v S2 -> S1 = S2.
Proof.
  intros (_ & D1 & H1 & G1) (_ & D2 & H2 & G2). assert (D1 = D2) as <-.
  { apply map_eq. intros G. apply option_eq. intros c. by rewrite G1, G2. }
  apply set_eq. intros D. by rewrite H1, H2.
Qed.

Lemma parts_exist (cp : provider) S v : exists Ds, parts_of S v Ds.
Proof.
  exists (elements (filter (fun f => ss_have_variable (Samples cp f) v = true) S)). split; [apply NoDup_elements|].
  intros D. rewrite elem_of_elements, elem_of_filter, have_var_spec. change (fvar D v) with (covers D v). naive_solver.
Qed.

Lemma not_blocked S v x Ds : parts_of S v Ds ->
  ~ blocked v x Ds <-> (exists D, D ∈ S /\ offers D v x) /\ forall sel, selection_at S v x sel -> ~ hidden_clash sel.*1.
Proof.
  intros HDs. rewrite <- (sliced_nil S v x Ds HDs). split.
  - intros Hb. split; [intros He; apply Hb; by left|]. intros sel Hs Hc. apply Hb. right.
    destruct (proj1 (sliced_selection S v x Ds sel HDs)) as (sel' & Hp & Hs'); [by exists sel|]. exists sel'. split; [done|].
    apply unnoticed_clash. eapply clash_perm; [|done]. by rewrite Hp.
  - intros [Hne Hn] [He|(sel & Hs & Hu)]; [done|].
    destruct (proj2 (sliced_selection S v x Ds sel HDs)) as (sel' & Hp & Hs'); [by exists sel|]. apply (Hn sel' Hs').
    apply unnoticed_clash in Hu. eapply clash_perm; [|done]. by rewrite Hp.
Qed.

Lemma join_variable_elim cp o S v (vals : gset Val) occ : loose cp S -> (forall x, x ∈ vals <-> occ v x) ->
  forall S', join_variable o cp S v vals = Ok S' <-> eliminates occ S v S'.
Proof.
  intros HS Hocc. destruct (parts_exist cp S v) as [Ds HDs]. pose proof (join_variable_loose cp o S v vals Ds HS HDs) as H.
  pose proof (fun x => not_blocked S v x Ds HDs) as Hb.
  assert (forall S', join_variable o cp S v vals = Ok S' -> eliminates occ S v S') as Hok.
  { intros S' He. rewrite He in H. destruct H as (Hnb & D' & HS' & HD'). split; [intros x Hx; by apply Hb, Hnb, Hocc|].
    exists D'. split; [done|]. intros G c. rewrite HD'. setoid_rewrite Hocc. setoid_rewrite (sliced_prod S v _ Ds G c HDs). naive_solver. }
  intros S'. split; [apply Hok|]. intros He. destruct (join_variable o cp S v vals) as [S1|e].
  - f_equal. eapply eliminates_fun; [|done]. by apply Hok.
  - destruct H as (x & Hx & Hbx). destruct He as [He _]. by destruct (proj2 (Hb x) (He x (proj1 (Hocc x) Hx))).
Qed.

(** ** The factors after a variable *)

Lemma merged_apart_loose Fs E sel g : (forall F, F ∈ Fs -> apart F E) -> picked Fs sel -> is_Some (E !! g) -> ~ overlap (merge sel.*1) g.
Proof.
  intros Ha Hp Hg (p & H1 & H2).
  assert (forall h, h ∈ sel.*1 -> ~ overlap h g) as Hno.
  { intros h Hh. destruct (picked_lookup _ _ _ _ Hp Hp Hh) as (F & _ & HF & HFh & _). by apply (Ha F). }
  destruct p as [v|X].
  - destruct H1 as [He Hv], H2 as [He' Hv']. apply having_merge in Hv as (h & Hh & Hv). apply (Hno h Hh).
    exists (inl v). rewrite edges_merge_empty in He. split; (split; [auto|done]).
  - apply pairs_merge_inr in H1 as (h & Hh & Hv). apply (Hno h Hh). by exists (inr X).
Qed.

Lemma loose_step cp S v S' occ : loose cp S -> eliminates occ S v S' -> loose cp S'.
Proof.
  intros HS (Hnb & D' & HS' & HD'). destruct (parts_exist cp S v) as [Ds HDs].
  assert (forall G, is_Some (D' !! G) -> exists x sel, picked (sliced v x Ds) sel /\ sliced v x Ds <> [] /\ G = merge sel.*1 /\ single_valued (g_nodes G)) as HD1.
  { intros G [c Hc]. apply HD' in Hc as (x & sel & Hx & Hs & HG & Hsv & ->).
    destruct (proj1 (sliced_selection S v x Ds sel HDs)) as (sel' & Hp & Hs'); [by exists sel|]. exists x, sel'.
    split_and!; [done|apply (sliced_nil S v x Ds HDs); by apply Hnb| |done]. apply merged_merge in HG as ->. apply merge_perm. by rewrite Hp. }
  assert (forall x sel, picked (sliced v x Ds) sel -> sliced v x Ds <> [] -> sel <> []) as Hsne.
  { intros x sel Hs Hne ->. apply Forall2_nil_inv_r in Hs. done. }
  assert (forall x sel g, picked (sliced v x Ds) sel -> g ∈ sel.*1 -> having v g /\ wf_graph cp g) as Hsv.
  { intros x sel g Hs Hg. destruct (picked_lookup _ _ _ _ Hs Hs Hg) as (F & _ & HF & HFg & _ & _). split.
    - exists x. by apply (sliced_graph cp S v Ds HS HDs x F g).
    - eapply gg_wf, gf_graph; [by eapply (sliced_good cp S v Ds)|done]. }
  assert (good_factor cp D') as Hgood.
  { split.
    - intros G HG. destruct (HD1 G HG) as (x & sel & Hs & Hne & -> & Hsvl). set (o := (fun _ => []) : oracle).
      pose proof (sliced_separate cp S v Ds HS HDs x) as Hsep. pose proof (sliced_good cp S v Ds HS HDs x) as Hgd.
      destruct (join_picked cp o (sliced v x Ds) sel v Hsep Hgd Hs (Hsne x sel Hs Hne) (fun g Hg => proj1 (Hsv x sel g Hs Hg)) Hsvl)
        as (s & cs & Hj & _ & Hsg & _).
      pose proof (picked_contains cp _ sel Hsep Hgd Hs cp) as Hin.
      assert (forall g, contains (Samples cp (list_to_map sel)) g -> wf_graph cp g) as Hwf.
      { intros g Hg. apply Hin in Hg. by eapply Hsv. }
      pose proof (make_joined_spec o (Samples cp (list_to_map sel)) Hwf) as Hspec. rewrite Hj in Hspec.
      destruct Hspec as (_ & _ & Hu & Hw & _ & Hem & _). rewrite Hsg in Hw, Hu. split; [done| |].
      + destruct sel as [|[g c] sel]; [by destruct (Hsne x [] Hs)|]. intros Hn. destruct (Hsv x _ g Hs ltac:(left)) as [[y Hy] _].
        assert ((v, y) ∈ g_nodes (merge ((g, c) :: sel).*1)) as Hy'.
        { eapply merged_sub; [apply merge_spec| |exact Hy]. left. }
        rewrite Hn in Hy'. by apply elem_of_empty in Hy'.
      + intros e e' He He'. apply Hu in He, He'. by apply Hem.
    - assert (forall G, is_Some (D' !! G) -> having v G) as Hhv.
      { intros G HG. destruct (HD1 G HG) as (x & sel & Hs & Hne & -> & _). apply having_merge.
        destruct sel as [|[g c] sel]; [by destruct (Hsne x [] Hs)|]. exists g. split; [left|]. by apply (Hsv x _ g Hs); left. }
      intros G G' HG HG' He He'. exists (inl v). split; (split; [done|]); by apply Hhv. }
  assert (forall E, E ∈ S -> ~ covers E v -> apart D' E) as Hap.
  { intros E HE Hn G g HG Hg. destruct (HD1 G HG) as (x & sel & Hs & _ & -> & _). eapply merged_apart_loose; [|done|done].
    intros F HF. apply (sliced_elem S v Ds HDs) in HF as (Hne & D & HD & ->). intros k h Hk Hh. apply at_value_some in Hk as [Hk Hkx].
    apply (lo_sep cp S HS D E HD HE); [|done|done]. intros ->. apply Hn. exists k. split; [done|by exists x]. }
  split.
  - intros D E HD HE Hne. apply HS' in HD as [[HD HDv]| ->], HE as [[HE HEv]| ->].
    + by apply (lo_sep cp S).
    + by apply apart_sym, Hap.
    + by apply Hap.
    + done.
  - intros D [[HD _]| ->]%HS'; [by apply (lo_good cp S)|done].
  - intros D g [[HD _]| ->]%HS' Hg; [by apply (lo_sv cp S HS D)|]. by destruct (HD1 g Hg) as (x & sel & _ & _ & -> & Hsvl).
Qed.

(** ** All variables *)

Lemma run_elim cp occ (l : list (Var * gset Val)) : (forall v X, (v, X) ∈ l -> forall x, x ∈ X <-> occ v x) -> forall o S S', loose cp S ->
  for_res (fun o' fs '(v, vals) => join_variable o' cp fs v vals) o S l = Ok S' <-> elimination occ S l.*1 S'.
Proof.
  intros Hl o S S' HS. revert o S HS. induction l as [|[v X] l IH]; intros o S HS; cbn [for_res fmap list_fmap fst].
  - split; [intros [= <-]; constructor|]. intros He. by inversion He; subst.
  - assert (forall x, x ∈ X <-> occ v x) as HX by (apply Hl; left). specialize (IH (fun v' X' H => Hl v' X' (elem_of_list_further _ _ _ H))).
    pose proof (join_variable_elim cp (sub o 1) S v X occ HS HX) as Hv. split.
    + destruct (join_variable (sub o 1) cp S v X) as [S1|e]; [|done]. intros He. assert (eliminates occ S v S1) as Hj by by apply Hv.
      econstructor; [done|].
      apply (IH (sub o 0)); [by eapply loose_step|done].
    + intros He. inversion He; subst. rewrite (proj2 (Hv S1)) by done. apply IH; [by eapply loose_step|done].
Qed.

Lemma elimination_fun occ S vs S1 S2 : elimination occ S vs S1 -> elimination occ S vs S2 -> S1 = S2.
Proof.
  intros H. revert S2. induction H as [S|S v S' vs S1 Hv _ IH]; intros S2 H2; inversion H2; subst; [done|]. apply IH.
  rewrite (eliminates_fun occ S v S' S3); done.
Qed.

(** The order in which the variables are visited. *)
Definition visited (o : oracle) (sp : space) : list Var := (iter_map (sub o 2) (sp_included_variables (sub o 3) sp)).*1.

Lemma visited_spec o sp : NoDup (visited o sp) /\ forall v, v ∈ visited o sp <-> occurs_var (sp_out sp) v.
Proof.
  unfold visited. split.
  - apply NoDup_fst_iter_map.
  - intros v. rewrite elem_of_list_fmap. pose proof (included_lemma (sub o 3) sp v) as H. split.
    + intros ([w X] & -> & HX). apply elem_of_iter_map in HX. cbn [fst] in *. rewrite HX in H. destruct H as [Hne HX'].
      apply set_choose_L in Hne as [x Hx]. apply HX' in Hx as (g & Hg & Hx). by exists x, g.
    + intros Hv. destruct (sp_included_variables (sub o 3) sp !! v) as [X|] eqn:HX; [|done]. exists (v, X). split; [done|]. by apply elem_of_iter_map.
Qed.

Lemma visited_complete sp vs : NoDup vs -> (forall v, v ∈ vs <-> occurs_var (sp_out sp) v) -> exists o, visited o sp = vs.
Proof.
  intros Hnd Hvs. set (m := sp_included_variables (fun _ => []) sp).
  assert (forall o, sp_included_variables o sp = m) as Hm.
  { intros o. apply map_eq. intros v. pose proof (included_lemma o sp v) as H1. pose proof (included_lemma (fun _ => []) sp v) as H2. fold m in H2.
    destruct (sp_included_variables o sp !! v) as [X|], (m !! v) as [Y|]; [| | |done].
    - f_equal. apply set_eq. intros x. by rewrite (proj2 H1), (proj2 H2).
    - destruct H2, H1 as [Hne HX]. apply set_choose_L in Hne as [x Hx]. apply HX in Hx as (g & Hg & Hx). by exists x, g.
    - destruct H1, H2 as [Hne HX]. apply set_choose_L in Hne as [x Hx]. apply HX in Hx as (g & Hg & Hx). by exists x, g. }
  set (l := (fun v => (v, default ∅ (m !! v))) <$> vs).
  assert (l.*1 = vs) as Hl1.
  { unfold l. rewrite <- list_fmap_compose. rewrite <- (list_fmap_id vs) at 2. by apply list_fmap_ext. }
  assert (l ≡ₚ map_to_list m) as Hp.
  { apply NoDup_Permutation; [apply (NoDup_fmap_1 fst); by rewrite Hl1|apply NoDup_map_to_list|]. intros [v X].
    rewrite elem_of_map_to_list. unfold l. rewrite elem_of_list_fmap.
    pose proof (included_lemma (fun _ => []) sp v) as H. fold m in H. split.
    - intros (w & [= -> ->] & Hw). apply Hvs in Hw. pose proof (included_lemma (fun _ => []) sp w) as H'. fold m in H'. by destruct (m !! w).
    - intros HX. exists v. rewrite HX in H |- *. split; [done|]. apply Hvs. destruct H as [Hne HX'].
      apply set_choose_L in Hne as [x Hx]. apply HX' in Hx as (g & Hg & Hx). by exists x, g. }
  destruct (perm_by_complete _ _ Hp) as [c Hc]. exists (fun _ => c). unfold visited. rewrite Hm. unfold iter_map, iter_list, sub. by rewrite Hc.
Qed.

Lemma factors_loose cp ss S : factors_of cp ss (elements S) -> loose cp S.
Proof.
  intros Hf. pose proof (fo_list _ _ _ Hf) as Hfl. split.
  - intros D E HD HE Hne g h Hg Hh Ho. apply Hne. apply (fl_same cp (elements S) D E g h); [done|by apply elem_of_elements..|done|done|done].
  - intros D HD. apply (fl_good cp (elements S)); [done|by apply elem_of_elements].
  - intros D g HD. apply (fl_sv cp (elements S)); [done|by apply elem_of_elements].
Qed.

Lemma make_joined_elim o sp r :
  ss_cp (sp_out sp) = sp_cp sp -> all_wf (sp_cp sp) (sp_out sp) -> one_valued (sp_out sp) -> all_simple (sp_out sp) ->
  factorable (sp_out sp) ->
  make_joined o sp = Ok r <->
  exists S S' D, (forall m, m ∈ S <-> exists g, contains (sp_out sp) g /\ factor_of (sp_out sp) g m) /\
    elimination (fun v x => occurs (sp_out sp) (v, x)) S (visited o sp) S' /\ (S' = ∅ /\ D = ∅ \/ S' = {[D]}) /\
    r = Space (sp_cp sp) (Samples (sp_cp sp) D).
Proof.
  intros Hcp Hwf Hov Hsi Hfa. destruct (space_factors (sub o 0) sp Hcp Hwf Hov Hsi Hfa) as (S0 & HS0 & Hss).
  assert (cp_id (ss_cp (sp_out sp)) = cp_id (sp_cp sp)) as Hid by by rewrite Hcp.
  pose proof (C30_lemma (sub o 0) sp Hwf Hid) as H30. rewrite HS0 in H30. destruct H30 as [_ HSm].
  unfold make_joined. rewrite HS0. cbn [mbind res_bind].
  pose proof (run_elim (sp_cp sp) (fun v x => occurs (sp_out sp) (v, x)) (iter_map (sub o 2) (sp_included_variables (sub o 3) sp))) as Hrun.
  assert (forall v X, (v, X) ∈ iter_map (sub o 2) (sp_included_variables (sub o 3) sp) -> forall x, x ∈ X <-> occurs (sp_out sp) (v, x)) as Hl.
  { intros v X HX. apply elem_of_iter_map in HX. pose proof (included_lemma (sub o 3) sp v) as H. rewrite HX in H. apply H. }
  specialize (Hrun Hl (sub o 1) S0). clear Hl. change ((iter_map (sub o 2) (sp_included_variables (sub o 3) sp)).*1) with (visited o sp) in Hrun.
  match goal with |- context [for_res ?f ?o1 ?s ?l] => destruct (for_res f o1 s l) as [S'|e] eqn:Hr end; cbn [mbind res_bind].
  - assert (elimination (fun v x => occurs (sp_out sp) (v, x)) S0 (visited o sp) S') as He by (apply Hrun; [by eapply factors_loose|done]).
    unfold passert. assert (size S' = length (elements S')) as Hsz by done. split.
    + destruct (decide (size S' <= 1)%nat) as [Hs|Hs]; [rewrite bool_decide_eq_true_2 by done|rewrite bool_decide_eq_false_2 by done; done].
      cbn [mbind res_bind]. intros [= <-]. exists S0, S', (match elements S' with f :: _ => f | [] => ∅ end).
      split_and!; [done|done| |done]. destruct (elements S') as [|D [|D2 l]] eqn:Hel.
      * left. split; [|done]. apply leibniz_equiv. by apply elements_empty_inv.
      * right. apply set_eq. intros E. rewrite elem_of_singleton, <- elem_of_elements, Hel. apply elem_of_list_singleton.
      * cbn [length] in Hsz. lia.
    + intros (S1 & S2 & D & HS1 & He2 & HD & ->). assert (S1 = S0) as -> by (apply set_eq; intros m; by rewrite HS1, HSm).
      rewrite (elimination_fun _ _ _ _ _ He2 He) in HD. destruct HD as [[-> ->]| ->].
      * rewrite bool_decide_eq_true_2 by (rewrite size_empty; lia). done.
      * rewrite bool_decide_eq_true_2 by (rewrite size_singleton; lia). cbn [mbind res_bind]. by rewrite elements_singleton.
  - split; [done|]. intros (S1 & S2 & D & HS1 & He2 & HD & ->). assert (S1 = S0) as -> by (apply set_eq; intros m; by rewrite HS1, HSm).
    apply Hrun in He2; [done|by eapply factors_loose].
Qed.

Lemma visited_order o o' sp r :
  ss_cp (sp_out sp) = sp_cp sp -> all_wf (sp_cp sp) (sp_out sp) -> one_valued (sp_out sp) -> all_simple (sp_out sp) ->
  factorable (sp_out sp) -> visited o sp = visited o' sp -> make_joined o sp = Ok r -> make_joined o' sp = Ok r.
Proof. intros H1 H2 H3 H4 H5 Hv. rewrite !make_joined_elim by done. by rewrite Hv. Qed.

(** ** Running the elimination on lists of factors *)

Definition coverb (v : Var) D : bool := existsb (fun g => have_variable g v) (map_to_list D).*1.
Lemma coverb_spec v D : coverb v D = true <-> covers D v.
Proof.
  unfold coverb, covers. rewrite existsb_exists. split.
  - intros (g & Hg & Hv). apply elem_of_list_In, elem_of_list_fmap in Hg as ([g' c] & -> & Hg). apply elem_of_map_to_list in Hg.
    exists g'. split; [by eexists|]. by apply have_variable_spec.
  - intros (g & [c Hg] & Hv). exists g. split; [|by apply have_variable_spec]. apply elem_of_list_In, elem_of_list_fmap.
    exists (g, c). split; [done|]. by apply elem_of_map_to_list.
Qed.

Definition step_list (cp : provider) (vals : gset Val) Ds v : option (list (gmap graph Z)) :=
  match join_values (fun _ => []) cp (filter (fun D => coverb v D = true) Ds) v (iter_set (fun _ => []) vals) with
  | Ok jf => let Ds' := filter (fun D => coverb v D <> true) Ds ++ [ss_map jf] in if bool_decide (NoDup Ds') then Some Ds' else None
  | Err _ => None
  end.

Lemma step_list_spec cp occ vals Ds v Ds' : loose cp (list_to_set Ds) -> NoDup Ds -> (forall x, x ∈ vals <-> occ v x) ->
  step_list cp vals Ds v = Some Ds' -> NoDup Ds' /\ eliminates occ (list_to_set Ds) v (list_to_set Ds').
Proof.
  intros HS Hnd Hocc. unfold step_list. set (Dv := filter (fun D => coverb v D = true) Ds).
  assert (parts_of (list_to_set Ds) v Dv) as HDv.
  { split; [by apply NoDup_filter|]. intros D. unfold Dv. rewrite elem_of_list_filter, elem_of_list_to_set, coverb_spec. tauto. }
  pose proof (join_values_loose cp (fun _ => []) (fun _ => []) (list_to_set Ds) v vals Dv HS HDv) as H.
  destruct (join_values _ _ _ _ _) as [jf|e]; [|done]. case_bool_decide as Hn; [|done]. intros [= <-]. split; [done|].
  destruct H as [Hnb Hjf]. split; [intros x Hx; apply (not_blocked _ v x Dv HDv), Hnb; by apply Hocc|].
  exists (ss_map jf). split.
  - intros D. rewrite !elem_of_list_to_set, elem_of_app, elem_of_list_singleton, elem_of_list_filter, coverb_spec. tauto.
  - intros G c. rewrite Hjf. setoid_rewrite Hocc. setoid_rewrite (sliced_prod (list_to_set Ds) v _ Dv G c HDv). naive_solver.
Qed.

Fixpoint run_list (cp : provider) (m : gmap Var (gset Val)) Ds (vs : list Var) : option (list (gmap graph Z)) :=
  match vs with
  | [] => Some Ds
  | v :: vs => match step_list cp (default ∅ (m !! v)) Ds v with Some Ds' => run_list cp m Ds' vs | None => None end
  end.

Lemma run_list_spec cp occ m vs : (forall v x, v ∈ vs -> x ∈ (default ∅ (m !! v) : gset Val) <-> occ v x) -> forall Ds Ds',
  loose cp (list_to_set Ds) -> NoDup Ds -> run_list cp m Ds vs = Some Ds' -> elimination occ (list_to_set Ds) vs (list_to_set Ds').
Proof.
  intros Hm. induction vs as [|v vs IH]; intros Ds Ds' HS Hnd; cbn [run_list].
  - intros [= <-]. constructor.
  - destruct (step_list cp (default ∅ (m !! v)) Ds v) as [Ds1|] eqn:Hs; [|done]. intros Hr.
    destruct (step_list_spec cp occ _ _ _ _ HS Hnd (fun x => Hm v x (elem_of_list_here _ _)) Hs) as [Hnd1 He].
    econstructor; [done|]. apply IH; [|by eapply loose_step|done|done]. intros w x Hw. apply Hm. by right.
Qed.

Lemma run_joined sp (t : gmap graph Z) : 
  ss_cp (sp_out sp) = sp_cp sp -> all_wf (sp_cp sp) (sp_out sp) -> one_valued (sp_out sp) -> all_simple (sp_out sp) ->
  factorable (sp_out sp) ->
  match factorized (fun _ => []) sp with
  | Ok X => forallb (fun vs => bool_decide (run_list (sp_cp sp) (sp_included_variables (fun _ => []) sp) (elements X) vs = Some [t]))
              (permutations (visited (fun _ => []) sp))
  | Err _ => false
  end = true -> forall o, make_joined o sp = Ok (Space (sp_cp sp) (Samples (sp_cp sp) t)).
Proof.
  intros Hcp Hwf Hov Hsi Hfa Hb o. destruct (space_factors (fun _ => []) sp Hcp Hwf Hov Hsi Hfa) as (S0 & HS0 & Hss). rewrite HS0 in Hb.
  assert (visited o sp ∈ permutations (visited (fun _ => []) sp)) as Hv.
  { apply permutations_Permutation. symmetry. destruct (visited_spec o sp) as [N1 V1], (visited_spec (fun _ => []) sp) as [N2 V2].
    apply NoDup_Permutation; [done|done|]. intros v. by rewrite V1, V2. }
  rewrite forallb_forall in Hb. apply elem_of_list_In, Hb, bool_decide_eq_true in Hv. clear Hb.
  assert (cp_id (ss_cp (sp_out sp)) = cp_id (sp_cp sp)) as Hid by by rewrite Hcp.
  pose proof (C30_lemma (fun _ => []) sp Hwf Hid) as H30. rewrite HS0 in H30. destruct H30 as [_ HSm].
  assert (list_to_set (elements S0) = S0) as Hset by apply list_to_set_elements_L.
  apply make_joined_elim; [done..|]. exists S0, (list_to_set [t]), t. split_and!; [done| | |done].
  - rewrite <- Hset at 1. eapply run_list_spec; [|rewrite Hset; by eapply factors_loose|apply NoDup_elements|exact Hv].
    intros v x Hvv. apply visited_spec in Hvv as (y & Hy).
    pose proof (included_lemma (fun _ => []) sp v) as H. destruct (sp_included_variables (fun _ => []) sp !! v) as [X|]; [apply H|].
    destruct H. by exists y.
  - right. apply set_eq. intros D. by rewrite elem_of_list_to_set, elem_of_list_singleton, elem_of_singleton.
Qed.

End elim_facts.
