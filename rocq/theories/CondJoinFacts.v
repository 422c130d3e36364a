(** * CondJoinFacts: consequences of joining all factors; conditioning and joining. *)

From Verif Require Export BuildFacts JoinedFacts.

Section cond_join_facts.
Context {U : Universe}.

Implicit Types (G g h : graph) (sp : space) (ss : samples).

Lemma joined_on_one o sp v : joined_on_variables o sp (Some {[v]}) =
  match join_on (sub (sub o 1) 1) (sp_cp sp) (sp_out sp) v with Ok r => Ok (Space (sp_cp sp) r) | Err x => Err x end.
Proof.
  unfold joined_on_variables, iter_set. rewrite elements_singleton. unfold iter_list. cbn [perm_by].
  rewrite take_nil, drop_nil. cbn [app for_res]. by destruct (join_on _ _ _ _).
Qed.

Lemma C38_one_lemma o sp v :
  ss_cp (sp_out sp) = sp_cp sp -> all_wf (sp_cp sp) (sp_out sp) -> all_simple (sp_out sp) -> no_collision_on (sp_out sp) v ->
  self_named (sp_out sp) ->
  match joined_on_variables o sp (Some {[v]}) with
  | Ok r => sp_cp r = sp_cp sp /\ ss_cp (sp_out r) = sp_cp sp /\ forall G c, count_of (sp_out r) G = Ok c <->
      (count_of (sp_out sp) G = Ok c /\ lacking v G) \/
      ((exists h, contains (sp_out sp) h /\ having v h) /\ joint (linked_on (sp_out sp) v) (having v) (sp_out sp) G c)
  | Err x => x = AssertionError /\ exists g g', contains (sp_out sp) g /\ contains (sp_out sp) g' /\ having v g /\ having v g' /\
      ~ linked_on (sp_out sp) v g g' /\ forall w, linked_vars (sp_out sp) v g w <-> linked_vars (sp_out sp) v g' w
  end.
Proof.
  intros Hcp Hwf Hsi Hnc Hself. rewrite joined_on_one.
  pose proof (join_on_spec (sp_cp sp) (sub (sub o 1) 1) (sp_out sp) v Hcp Hwf Hsi Hnc) as H.
  destruct (join_on _ _ _ _) as [r|x]; cbn [sp_cp sp_out].
  - destruct H as [H1 H2]; [intros g; by apply Hself|]. split_and!; [done|done|]. intros G c. rewrite !count_of_lookup. apply H2.
  - apply H. intros g; by apply Hself.
Qed.

Lemma joined_spec o sp : joinable sp ->
  match make_joined o sp with
  | Ok sp' => sp_cp sp' = sp_cp sp /\ ss_cp (sp_out sp') = sp_cp sp /\ ~ disconnected (sp_out sp) /\
      forall G c, count_of (sp_out sp') G = Ok c <->
        (exists h, contains (sp_out sp) h) /\ joint same_pairs anything (sp_out sp) G c
  | Err x => x = AssertionError /\ (disconnected (sp_out sp) \/ cyclic (sp_out sp) /\ crowded (sp_out sp))
  end.
Proof. intros [H1 H2 H3 H4 H5 H6]. by apply C39_lemma. Qed.

Lemma joined_order o o' sp r r' : joinable sp -> make_joined o sp = Ok r -> make_joined o' sp = Ok r' -> r = r'.
Proof.
  intros Hj Hr Hr'. pose proof (joined_spec o sp Hj) as H. pose proof (joined_spec o' sp Hj) as H'. rewrite Hr in H. rewrite Hr' in H'.
  destruct H as (H1 & H2 & _ & H3), H' as (H1' & H2' & _ & H3'). destruct r as [c1 [c2 m]], r' as [c1' [c2' m']]. simpl in *. subst. f_equal. f_equal.
  apply map_eq. intros G. apply option_eq. intros c. specialize (H3 G c). specialize (H3' G c). rewrite count_of_lookup in H3, H3'.
  simpl in *. by rewrite H3, H3'.
Qed.

Lemma joined_total o sp : joinable sp -> ~ disconnected (sp_out sp) -> ~ cyclic (sp_out sp) -> is_ok (make_joined o sp) = true.
Proof.
  intros Hj Hd Hc. pose proof (joined_spec o sp Hj) as H. destruct (make_joined o sp); [done|]. by destruct H as [_ [?|[? _]]].
Qed.

Lemma joined_total_two o sp : joinable sp -> ~ disconnected (sp_out sp) -> ~ crowded (sp_out sp) -> is_ok (make_joined o sp) = true.
Proof.
  intros Hj Hd Hc. pose proof (joined_spec o sp Hj) as H. destruct (make_joined o sp); [done|]. by destruct H as [_ [?|[_ ?]]].
Qed.

(** Every joined outcome takes one value for every variable. *)
Lemma joint_covers cp ss G c v : all_wf cp ss -> joint same_pairs anything ss G c -> (having v G <-> occurs_var ss v).
Proof.
  intros Hwf (sel & (Hnd & Hin & Hcov & _) & HG & _). apply merged_merge in HG as ->. rewrite having_merge. split.
  - intros (g & Hg & x & Hx). apply elem_of_list_fmap in Hg as ([g' d] & -> & Hg). destruct (Hin g' d Hg) as [Hl _]. exists x, g'.
    split; [by eexists|done].
  - intros (x & g & Hg & Hx). destruct (Hcov g Hg I) as (h & Hh & Hsp). exists h. split; [done|].
    apply (same_pairs_vars cp g h v); [by apply Hwf| |done|by exists x]. apply Hwf.
    apply elem_of_list_fmap in Hh as ([h' d] & -> & Hh). destruct (Hin h' d Hh) as [Hl _]. by eexists.
Qed.

Lemma joint_sv ss G c : joint same_pairs anything ss G c -> single_valued (g_nodes G).
Proof. by intros (sel & _ & _ & Hsv & _). Qed.

Lemma joined_covers o sp r G : joinable sp -> make_joined o sp = Ok r -> contains (sp_out r) G ->
  single_valued (g_nodes G) /\ forall v, having v G <-> occurs_var (sp_out sp) v.
Proof.
  intros Hj Hr [c Hc]. pose proof (joined_spec o sp Hj) as H. rewrite Hr in H. destruct H as (_ & _ & _ & H).
  apply count_of_lookup, H in Hc as [_ Hc]. split; [by eapply joint_sv|]. intros v. eapply joint_covers; [by apply jn_wf|done].
Qed.

Lemma is_joined_spec o sp : is_joined o sp = true <->
  forall g h, contains (sp_out sp) g -> contains (sp_out sp) h -> forall v, having v g <-> having v h.
Proof.
  unfold is_joined. rewrite forallb_forall. setoid_rewrite bool_decide_eq_true. setoid_rewrite <- elem_of_list_In.
  setoid_rewrite elem_of_iter_set.
  assert (forall g, g ∈ ss_samples (sp_out sp) <-> contains (sp_out sp) g) as Hs by (intros g; apply elem_of_dom).
  setoid_rewrite Hs. destruct (iter_set (sub o 0) (ss_samples (sp_out sp))) as [|g0 l] eqn:Hl.
  - assert (forall g, ~ contains (sp_out sp) g) as Hno.
    { intros g Hg. apply Hs, (elem_of_iter_set (sub o 0)) in Hg. rewrite Hl in Hg. by apply elem_of_nil in Hg. }
    split; [intros _ g h Hg; by destruct (Hno g)|intros _ g Hg; by destruct (Hno g)].
  - assert (contains (sp_out sp) g0) as Hg0 by (apply Hs, (elem_of_iter_set (sub o 0)); rewrite Hl; left).
    assert (forall g h, included_variables g = included_variables h <-> forall v, having v g <-> having v h) as Hv.
    { intros g h. split.
      - intros Heq v. unfold having. by rewrite <- !included_variables_spec, Heq.
      - intros Heq. apply set_eq. intros v. rewrite !included_variables_spec. apply Heq. }
    split.
    + intros H g h Hg Hh v. transitivity (having v g0); [symmetry|]; by apply Hv, H.
    + intros H g Hg. by apply Hv, H.
Qed.

Lemma joined_is_joined o o' sp r : joinable sp -> make_joined o sp = Ok r -> is_joined o' r = true.
Proof.
  intros Hj Hr. apply is_joined_spec. intros g h Hg Hh v.
  destruct (joined_covers o sp r g Hj Hr Hg) as [_ H1]. destruct (joined_covers o sp r h Hj Hr Hh) as [_ H2]. by rewrite H1, H2.
Qed.

Lemma joinable_choice sp : joinable sp -> compatible_choice (sp_out sp).
Proof.
  intros [H1 H2 H3 H4 H5 H6]. destruct (space_factors (fun _ => []) sp H1 H2 H3 H4 H5) as (S & _ & Hss).
  pose proof (full_feasible _ _ _ Hss H6) as Hf. apply feasible_prod in Hf as Hp. destruct Hp as (G & c & HG). exists G, c.
  by apply (feasible_joint _ _ _ Hss).
Qed.

Lemma single_no_collision cp ss v : all_wf cp ss -> factorable ss -> no_collision_on ss v.
Proof.
  intros Hwf [Hne Hfa] A B HA HB HAB Hpp. apply set_choose_L in HA as [a Ha].
  destruct (HAB a) as [Hca _]; [apply elem_of_union; by left|].
  assert (exists p, var_pairs a p) as [p Hp].
  { destruct (decide (group_key a = ∅)) as [Hk|Hk].
    - apply group_key_empty in Hk. destruct (Hne a Hca). by rewrite Hk.
    - apply set_choose_L in Hk as [p Hp]. apply elem_of_group_key in Hp. by exists p. }
  destruct (proj1 (Hpp p)) as (b & Hb & Hpb); [eauto|]. exists a, b. split_and!; [done|done|].
  destruct (HAB b) as [Hcb _]; [apply elem_of_union; by right|]. apply Hfa; [done|done|by exists p].
Qed.

(** ** Conditioning on one value *)

Section conditioned.
Context (cp : provider) (ss ss' : samples) (v : Var) (x : Val).
Context (Hwf : all_wf cp ss) (Hov : one_valued ss) (Hfa : factorable ss) (Hfs : full_support ss) (Hocc : occurs ss (v, x)).
Context (Hss' : forall g c, ss_map ss' !! g = Some c <-> ss_map ss !! g = Some c /\ (has v x g \/ lacking v g)).

Lemma cd_contains g : contains ss' g <-> contains ss g /\ (has v x g \/ lacking v g).
Proof. unfold contains, is_Some. setoid_rewrite Hss'. naive_solver. Qed.

(** Every kind of outcomes survives. *)
Lemma cd_kind g : contains ss g -> exists h, contains ss' h /\ same_pairs g h.
Proof.
  intros Hg. destruct (space_values ss) as [m Hm]. pose (a := fun w => if decide (w = v) then x else default x (m !! w)).
  destruct (Hfs g a Hg) as (h & Hh & Hsp & Ha).
  { intros w [y Hy]. unfold a. destruct (decide (w = v)) as [->|_]; [done|]. assert (occurs ss (w, y)) as Ho by by exists g.
    destruct (Hm w) as [H H']. destruct (m !! w) as [z|] eqn:Hz; [by apply H|]. destruct (H' eq_refl y Ho). }
  exists h. split; [|done]. apply cd_contains. split; [done|]. destruct (decide (v ∈ included_variables h)) as [Hv|Hv]; rewrite included_variables_spec in Hv.
  - left. specialize (Ha v Hv). unfold a in Ha. by rewrite decide_True in Ha.
  - by right.
Qed.

Lemma cd_wf : all_wf cp ss'. Proof. intros g Hg. apply cd_contains in Hg as [Hg _]. by apply Hwf. Qed.
Lemma cd_ov : one_valued ss'. Proof. intros g Hg. apply cd_contains in Hg as [Hg _]. by apply Hov. Qed.
Lemma cd_simple : all_simple ss -> all_simple ss'. Proof. intros Hsi g Hg. apply cd_contains in Hg as [Hg _]. by apply Hsi. Qed.
Lemma cd_factorable : factorable ss'.
Proof.
  destruct Hfa as [H1 H2]. split.
  - intros g Hg. apply cd_contains in Hg as [Hg _]. by apply H1.
  - intros g h Hg Hh. apply cd_contains in Hg as [Hg _], Hh as [Hh _]. by apply H2.
Qed.

Lemma cd_full : full_support ss'.
Proof.
  intros g a Hg Ha. pose proof Hg as Hg'. apply cd_contains in Hg as [Hg Hgv].
  destruct (Hfs g a Hg) as (h & Hh & Hsp & Hav).
  { intros w Hw. destruct (Ha w Hw) as (k & Hk & Hkw). apply cd_contains in Hk as [Hk _]. by exists k. }
  exists h. split; [|done]. apply cd_contains. split; [done|].
  destruct (decide (v ∈ included_variables h)) as [Hv|Hv]; rewrite included_variables_spec in Hv; [left|by right].
  assert (having v g) as Hvg by (apply (same_pairs_vars cp g h v); [by apply Hwf|by apply Hwf|done|done]).
  destruct (Ha v Hvg) as (k & Hk & Hkv). apply cd_contains in Hk as [Hk [Hkx|Hkx]].
  - assert (x = a v) as -> by by apply (Hov k Hk v). by apply Hav.
  - destruct Hkx. by exists (a v).
Qed.

Lemma cd_disconnected : disconnected ss' -> disconnected ss.
Proof.
  intros (g & h & Hg & Hh & Hn). pose proof Hg as Hg1. pose proof Hh as Hh1. apply cd_contains in Hg1 as [Hg1 _], Hh1 as [Hh1 _].
  exists g, h. split_and!; [done|done|]. intros V Hc. apply (Hn V). clear Hn.
  assert (forall a b, cluster ss V a b -> forall a', contains ss' a' -> same_pairs a' a -> contains ss b -> exists b', contains ss' b' /\ same_pairs b' b /\ cluster ss' V a' b') as H.
  { clear -Hwf Hfs Hocc Hss'. intros a b Hc. unfold cluster in Hc. induction Hc as [a|a k b [[Ha Hk] Hak] _ IH]; intros a' Ha' Hsp Hb.
    - exists a'. split_and!; [done|done|]. apply rtc_refl.
    - destruct (cd_kind k Hk) as (k' & Hk' & Hkk'). destruct (IH k' Hk') as (b' & Hb' & Hbb & Hcb); [intros p; by rewrite (Hkk' p)|done|].
      exists b'. split_and!; [done|done|]. eapply rtc_l; [|exact Hcb]. split; [done|]. destruct Hak as [Hak|(w & Hw & Hwa & Hwk)].
      + left. intros p. by rewrite (Hsp p), (Hak p), (Hkk' p).
      + right. exists w. split_and!; [done| |].
        * apply (same_pairs_vars cp a' a w); [by apply cd_wf|by apply Hwf|done|done].
        * apply (same_pairs_vars cp k k' w); [by apply Hwf|by apply cd_wf|done|done]. }
  destruct (H g h Hc g Hg) as (h' & Hh' & Hhh & Hch); [done|done|]. eapply rtc_r; [exact Hch|]. split; [done|]. by left.
Qed.

Lemma cd_cyclic : cyclic ss' -> cyclic ss.
Proof.
  intros (w & V & g & h & Hw & Hg & Hh & Hwg & Hwh & Hn & Hc). apply cd_contains in Hg as [Hg _], Hh as [Hh _].
  exists w, V, g, h. split_and!; try done. unfold cluster in *. eapply rtc_subrel; [|exact Hc]. intros a b [[Ha Hb] Hab].
  apply cd_contains in Ha as [Ha _], Hb as [Hb _]. done.
Qed.

Lemma cd_crowded : crowded ss' -> crowded ss.
Proof.
  intros (w & g1 & g2 & g3 & [H1 ?] & [H2 ?] & [H3 ?] & ? & ? & ?). apply cd_contains in H1 as [? _], H2 as [? _], H3 as [? _].
  by exists w, g1, g2, g3.
Qed.

Lemma cd_joint G c : joint same_pairs anything ss' G c <-> joint same_pairs anything ss G c /\ has v x G.
Proof.
  split.
  - intros (sel & (Hnd & Hin & Hcov & Huni) & HG & Hsv & Hc).
    assert (forall g, g ∈ sel.*1 -> contains ss' g) as Hsel.
    { intros g Hg. apply elem_of_list_fmap in Hg as ([g' d] & -> & Hg). destruct (Hin g' d Hg) as [Hl _]. by eexists. }
    split.
    + exists sel. split_and!; [|done..]. split_and!; [done| | |done].
      * intros g d Hg. destruct (Hin g d Hg) as [Hl _]. split; [|done]. by apply Hss' in Hl as [Hl _].
      * intros h Hh _. destruct (cd_kind h Hh) as (h' & Hh' & Hsp). destruct (Hcov h' Hh' I) as (g & Hg & Hsp').
        exists g. split; [done|]. intros p. by rewrite (Hsp p).
    + destruct Hocc as (g & Hg & Hx). destruct (cd_kind g Hg) as (h & Hh & Hsp). destruct (Hcov h Hh I) as (k & Hk & Hsp').
      pose proof (Hsel k Hk) as Hck. apply cd_contains in Hck as [Hck Hkv].
      assert (having v k) as Hvk.
      { apply (same_pairs_vars cp g k v); [by apply Hwf|by apply Hwf| |by exists x]. intros p. by rewrite (Hsp p). }
      destruct Hkv as [Hkv|Hkv]; [|by destruct Hkv]. apply merged_merge in HG as ->. apply nodes_merge. eauto.
  - intros [(sel & (Hnd & Hin & Hcov & Huni) & HG & Hsv & Hc) Hx]. exists sel. split_and!; [|done..]. split_and!; [done| | |done].
    + intros g d Hg. destruct (Hin g d Hg) as [Hl _]. split; [|done]. apply Hss'. split; [done|].
      destruct (decide (v ∈ included_variables g)) as [Hv|Hv]; rewrite included_variables_spec in Hv; [left|by right].
      destruct Hv as [y Hy]. assert (x = y) as ->; [|done]. apply (Hsv v); [done|]. apply merged_merge in HG as ->. apply nodes_merge.
      exists g. split; [|done]. apply elem_of_list_fmap. by exists (g, d).
    + intros h Hh _. apply cd_contains in Hh as [Hh _]. by apply Hcov.
Qed.

End conditioned.

Lemma conditioned_lookup sp ev cg v x : conditional_graph sp ev = Ok cg -> g_nodes (s_g ev) = {[(v, x)]} -> g_edges (s_g ev) = ∅ ->
  sp_cp (cg_space cg) = sp_cp sp /\ ss_cp (sp_out (cg_space cg)) = sp_cp sp /\
  forall g c, ss_map (sp_out (cg_space cg)) !! g = Some c <-> ss_map (sp_out sp) !! g = Some c /\ (has v x g \/ lacking v g).
Proof.
  intros Hcg Hn He. pose proof (C36_lemma sp ev) as H. rewrite Hcg in H. destruct H as (_ & _ & H1 & H2 & H). split_and!; [done|done|].
  intros g c. rewrite <- !count_of_lookup, H. f_equiv. unfold consistent_or_unrelated. rewrite Hn, He.
  split.
  - intros [[Hs _]|Hl].
    + left. apply Hs. by apply elem_of_singleton.
    + right. apply Hl. exists x. by apply elem_of_singleton.
  - intros [Hx|Hl].
    + left. split; [|intros e Hf; by apply elem_of_empty in Hf]. intros n Hin. apply elem_of_singleton in Hin as ->. done.
    + right. intros w [y Hy]. apply elem_of_singleton in Hy. by injection Hy as -> ->.
Qed.

Lemma conditioned_joinable sp ev cg v x : joinable sp -> conditional_graph sp ev = Ok cg ->
  g_nodes (s_g ev) = {[(v, x)]} -> g_edges (s_g ev) = ∅ -> occurs (sp_out sp) (v, x) ->
  joinable (sp_relation_graph (cg_space cg)) /\
  (disconnected (sp_out (cg_space cg)) -> disconnected (sp_out sp)) /\ (cyclic (sp_out (cg_space cg)) -> cyclic (sp_out sp)) /\
  (crowded (sp_out (cg_space cg)) -> crowded (sp_out sp)).
Proof.
  intros [H1 H2 H3 H4 H5 H6] Hcg Hn He Ho. destruct (conditioned_lookup sp ev cg v x Hcg Hn He) as (C1 & C2 & C3).
  split; [split|split_and!].
  - cbn [sp_relation_graph sp_out sp_cp]. by rewrite C1.
  - cbn [sp_relation_graph sp_out sp_cp]. rewrite C1. by eapply cd_wf.
  - by eapply cd_ov.
  - by eapply cd_simple.
  - by eapply cd_factorable.
  - by eapply cd_full.
  - by eapply cd_disconnected.
  - by eapply cd_cyclic.
  - by eapply cd_crowded.
Qed.

Lemma C44_lemma o o' sp ev cg v x r r' : joinable sp -> conditional_graph sp ev = Ok cg ->
  g_nodes (s_g ev) = {[(v, x)]} -> g_edges (s_g ev) = ∅ -> occurs (sp_out sp) (v, x) ->
  make_joined o sp = Ok r -> make_joined o' (sp_relation_graph (cg_space cg)) = Ok r' ->
  sp_cp r' = sp_cp r /\ forall G c, count_of (sp_out r') G = Ok c <-> count_of (sp_out r) G = Ok c /\ has v x G.
Proof.
  intros Hj Hcg Hn He Ho Hr Hr'. destruct (conditioned_joinable sp ev cg v x Hj Hcg Hn He Ho) as (Hj' & _).
  destruct (conditioned_lookup sp ev cg v x Hcg Hn He) as (C1 & C2 & C3).
  pose proof (joined_spec o sp Hj) as H. pose proof (joined_spec o' _ Hj') as H'. rewrite Hr in H. rewrite Hr' in H'.
  destruct H as (H1 & _ & _ & H3), H' as (H1' & _ & _ & H3'). split.
  { rewrite H1, H1'. apply C1. }
  intros G c. rewrite H3, H3'. change (sp_out (sp_relation_graph (cg_space cg))) with (sp_out (cg_space cg)).
  destruct Hj as [_ Hwf Hov _ Hfa Hfs]. rewrite (cd_joint _ _ _ v x Hwf Hfs Ho C3). split.
  - intros [(h & Hh) [HG Hx]]. split_and!; [|done..]. exists h. destruct Hh as [d Hd]. apply C3 in Hd as [Hd _]. by eexists.
  - intros [[(h & Hh) HG] Hx]. split; [|done]. destruct (cd_kind _ _ v x Hfs Ho C3 h Hh) as (h' & Hh' & _). eauto.
Qed.

(** The two routes commute as programs. *)
Lemma C44_commute o o' sp ev cg cg2 v x r r' : joinable sp -> conditional_graph sp ev = Ok cg ->
  g_nodes (s_g ev) = {[(v, x)]} -> g_edges (s_g ev) = ∅ -> occurs (sp_out sp) (v, x) ->
  make_joined o sp = Ok r -> make_joined o' (sp_relation_graph (cg_space cg)) = Ok r' -> conditional_graph r ev = Ok cg2 ->
  sp_relation_graph (cg_space cg2) = r'.
Proof.
  intros Hj Hcg Hn He Ho Hr Hr' Hcg2. destruct (C44_lemma o o' sp ev cg v x r r' Hj Hcg Hn He Ho Hr Hr') as [Hcp HG].
  destruct (conditioned_lookup r ev cg2 v x Hcg2 Hn He) as (C1 & C2 & C3).
  destruct (conditioned_joinable sp ev cg v x Hj Hcg Hn He Ho) as (Hj' & _).
  pose proof (joined_spec o' _ Hj') as H'. rewrite Hr' in H'. destruct H' as (H1 & H2 & _).
  destruct r' as [c1 [c2 m']]. unfold sp_relation_graph. destruct (cg_space cg2) as [c3 [c4 m]]. simpl in *. subst. f_equal. f_equal; [congruence|].
  apply map_eq. intros G. apply option_eq. intros c. specialize (HG G c). rewrite !count_of_lookup in HG. simpl in HG. rewrite HG, C3.
  split; [|tauto]. intros [Hc [Hx|Hl]]; [done|]. destruct Hl.
  assert (contains (sp_out r) G) as HcG by by eexists.
  apply (joined_covers o sp r G Hj Hr HcG). by exists x.
Qed.

End cond_join_facts.
