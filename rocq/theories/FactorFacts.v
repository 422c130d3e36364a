(** * FactorFacts: search, factorisation, joint coverage, outcome views *)

From Verif Require Export FoldFacts.
From Verif Require Import RelationGraph.

Section factor_facts.
Context {U : Universe}.
Implicit Types (g : graph) (ss : samples) (sp : space).

(** ** C29 *)

Lemma find_eq o sp vals :
  cp_id (ss_cp (sp_out sp)) = cp_id (sp_cp sp) ->
  find_for_values o sp vals =
  Ok (Samples (sp_cp sp) (filter (fun kv => vals ⊆ g_nodes kv.1) (ss_map (sp_out sp)))).
Proof.
  intros Hid. unfold find_for_values, ss_items.
  match goal with |- context [for_mut ?f _ _ _] => set (F := f) end.
  pose proof (for_mut_map_ind (fun D b => b = Samples (sp_cp sp) (filter (fun kv => vals ⊆ g_nodes kv.1) D))
    (fun _ _ => False) F (sub o 0) o (ssb_new (sp_cp sp)) (ss_map (sp_out sp))) as Hi.
  cbv beta in Hi.
  destruct (for_mut F (sub o 0) _ _) as [b [[]|e]]; [f_equal; apply Hi|exfalso; apply Hi].
  1,3: unfold ssb_new; by rewrite map_filter_empty.
  all: intros D g c b' o' Hg HD _ ->; unfold F; case_bool_decide as Hs; unfold values in Hs.
  1,3: unfold ssb_add, is_compatible; cbn [ss_cp s_cp sample_of ss_map s_g];
       rewrite bool_decide_true by done;
       rewrite map_filter_lookup_None_2 by (by left); by rewrite map_filter_insert_True by done.
  all: rewrite map_filter_insert_False by done; by rewrite delete_notin by done.
Qed.

Lemma C29_lemma o sp vals :
  cp_id (ss_cp (sp_out sp)) = cp_id (sp_cp sp) ->
  exists r, find_for_values o sp vals = Ok r /\ ss_cp r = sp_cp sp /\
    forall g c, count_of r g = Ok c <-> count_of (sp_out sp) g = Ok c /\ forall n, n ∈ vals -> n ∈ g_nodes g.
Proof.
  intros Hid. rewrite (find_eq o sp vals Hid). eexists. split; [done|]. split; [done|].
  intros g c. rewrite !count_of_lookup. cbn [ss_map]. rewrite map_filter_lookup_Some. done.
Qed.

Lemma find_twice o o' o'' cp ss A B r :
  ss_cp ss = cp -> find_for_values o (Space cp ss) A = Ok r ->
  find_for_values o' (Space cp r) B = find_for_values o'' (Space cp ss) (A ∪ B).
Proof.
  intros <- Hr. rewrite find_eq in Hr by done. injection Hr as <-. rewrite !find_eq by done.
  cbn [sp_cp sp_out ss_map]. f_equal. f_equal. apply map_eq. intros g. apply option_eq. intros c.
  rewrite !map_filter_lookup_Some. cbn [fst]. set_solver.
Qed.

Lemma find_nothing o sp : ss_cp (sp_out sp) = sp_cp sp -> find_for_values o sp ∅ = Ok (sp_out sp).
Proof.
  intros Hcp. rewrite find_eq by congruence. rewrite <- Hcp. destruct (sp_out sp) as [cp m]. cbn [ss_cp ss_map].
  f_equal. f_equal. apply map_eq. intros g. apply option_eq. intros c. rewrite map_filter_lookup_Some. set_solver.
Qed.

Lemma find_mono o o' sp A B r r' :
  cp_id (ss_cp (sp_out sp)) = cp_id (sp_cp sp) -> A ⊆ B ->
  find_for_values o sp A = Ok r -> find_for_values o' sp B = Ok r' -> ss_map r' ⊆ ss_map r.
Proof.
  intros Hid HAB. rewrite !find_eq by done. intros [= <-] [= <-]. cbn [ss_map].
  apply map_subseteq_spec. intros g c. rewrite !map_filter_lookup_Some. cbn [fst]. set_solver.
Qed.

(** ** C31 *)

Lemma C31_lemma o sp :
  is_joined o sp = true <->
  forall g h v, contains (sp_out sp) g -> contains (sp_out sp) h ->
    has_var (g_nodes g) v -> has_var (g_nodes h) v.
Proof.
  unfold is_joined. rewrite forallb_forall. setoid_rewrite <- elem_of_list_In.
  setoid_rewrite elem_of_iter_set. unfold ss_samples. setoid_rewrite elem_of_dom.
  setoid_rewrite bool_decide_eq_true. split.
  - intros Hall g h v Hg Hh. rewrite <- !included_variables_spec. by rewrite <- (Hall g Hg), <- (Hall h Hh).
  - intros Hall g Hg. destruct (iter_set _ _) as [|h l] eqn:Hi.
    + apply iter_set_nil in Hi. exfalso. assert (g ∈ dom (ss_map (sp_out sp))) as Hd by (by apply elem_of_dom).
      rewrite Hi in Hd. by apply elem_of_empty in Hd.
    + assert (contains (sp_out sp) h) as Hh.
      { apply elem_of_dom. apply (elem_of_iter_set (sub o 0)). rewrite Hi. left. }
      apply set_eq. intros v. rewrite !included_variables_spec. split; by apply Hall.
Qed.

(** ** C30 *)

Lemma wf_single_node cp g : wf_graph cp g -> g_edges g = ∅ -> g_nodes g <> ∅ -> exists n, g_nodes g = {[n]}.
Proof.
  intros Hwf He Hne. apply set_choose_L in Hne as [n Hn]. exists n. apply set_eq. intros m.
  rewrite elem_of_singleton. split; [|by intros ->]. intros Hm. pose proof (wf_conn _ _ Hwf n m Hn Hm) as Hr.
  inversion Hr as [|? x ? (e & Hx & _) _]; [done|]. rewrite He in Hx. by apply elem_of_empty in Hx.
Qed.

Lemma wf_k0 cp g : wf_graph cp g -> is_k_0 g = true <-> g_nodes g = ∅.
Proof.
  intros Hwf. unfold is_k_0. rewrite andb_true_iff, !bool_decide_eq_true. split; [tauto|]. intros Hn.
  split; [done|]. apply set_eq. intros e. split; [|by intros ?%elem_of_empty]. intros He. exfalso.
  pose proof (wf_inside _ _ Hwf e He) as Hi. destruct (wf_edges _ _ Hwf e He) as ((x & y & Hxy & _) & _).
  rewrite Hn, Hxy in Hi. set_solver.
Qed.

Lemma factor_key_eq cp o g : wf_graph cp g -> g_nodes g <> ∅ -> factor_key o g = Ok (group_key g).
Proof.
  intros Hwf Hne. unfold factor_key, is_single_node, group_key. destruct (decide (g_edges g = ∅)) as [He|He].
  - rewrite (bool_decide_true (g_edges g = ∅)) by done.
    rewrite (bool_decide_false (g_edges g ≠ ∅)) by (intros H; by apply H).
    destruct (wf_single_node cp g Hwf He Hne) as [n Hn].
    unfold single_node_variable, is_single_node. rewrite bool_decide_true by done. cbn [passert mbind res_bind].
    rewrite Hn, iter_set_singleton. cbn [mbind res_bind]. f_equal. unfold included_variables, vars_of.
    rewrite Hn, set_map_singleton_L. by rewrite set_map_singleton_L.
  - rewrite (bool_decide_false (g_edges g = ∅)) by done. by rewrite (bool_decide_true (g_edges g ≠ ∅)).
Qed.

Definition fact_inv sp (D : gmap graph Z) (acc : gmap gkey samples) : Prop :=
  (forall g c, D !! g = Some c -> g_nodes g <> ∅) /\
  (forall g h c d, D !! g = Some c -> D !! h = Some d -> group_key g ∩ group_key h <> ∅ -> group_key g = group_key h) /\
  (forall k b, acc !! k = Some b -> ss_cp b = sp_cp sp /\ exists g c, D !! g = Some c /\ group_key g = k) /\
  (forall g c, D !! g = Some c -> exists b, acc !! group_key g = Some b) /\
  (forall k b h c, acc !! k = Some b -> ss_map b !! h = Some c <-> D !! h = Some c /\ group_key h = k).

Lemma group_key_inter g h : group_key g ∩ group_key h <> ∅ <-> overlap g h.
Proof. symmetry. apply overlap_key. Qed.

Lemma factorized_acc_spec o sp :
  all_wf (sp_cp sp) (sp_out sp) -> cp_id (ss_cp (sp_out sp)) = cp_id (sp_cp sp) ->
  match factorized_acc o sp with
  | Ok acc => fact_inv sp (ss_map (sp_out sp)) acc
  | Err x => x = AssertionError /\ ~ factorable (sp_out sp)
  end.
Proof.
  intros Hwf Hid. unfold factorized_acc, ss_items.
  match goal with |- context [for_res ?f _ _ _] => set (F := f) end.
  apply (for_res_map_ind (fact_inv sp) (fun x => x = AssertionError /\ ~ factorable (sp_out sp))).
  - split_and!; intros; rewrite ?lookup_empty in *; done.
  - intros D g c acc o' Hg HD Hsub (I1 & I2 & I3 & I4 & I5). unfold F.
    assert (contains (sp_out sp) g) as Hcg by (by exists c). pose proof (Hwf g Hcg) as Hwfg.
    destruct (decide (g_nodes g = ∅)) as [Hn|Hn].
    { rewrite (proj2 (wf_k0 _ _ Hwfg) Hn). cbn [negb passert mbind res_bind]. split; [done|].
      intros [Hf _]. by apply (Hf g). }
    destruct (is_k_0 g) eqn:Hk0; [by apply (wf_k0 _ _ Hwfg) in Hk0|]. cbn [negb passert mbind res_bind].
    rewrite (factor_key_eq _ _ _ Hwfg Hn). cbn [mbind res_bind].
    assert (forall h d, D !! h = Some d -> contains (sp_out sp) h) as HDc.
    { intros h d Hh. exists d. by eapply lookup_weaken. }
    destruct (acc !! group_key g) as [b|] eqn:Hb.
    + destruct (I3 _ _ Hb) as [Hcp (g1 & c1 & Hg1 & Hk1)].
      unfold ssb_add, is_compatible. cbn [s_cp sample_of s_g]. rewrite Hcp, bool_decide_true by done.
      assert (ss_map b !! g = None) as Hbg.
      { destruct (ss_map b !! g) as [z|] eqn:Hz; [|done]. apply (I5 _ _ _ _ Hb) in Hz as [Hz _]. congruence. }
      rewrite Hbg. split_and!.
      * intros h d [[<- <-]|[_ Hh]]%lookup_insert_Some; [done|by apply (I1 h d)].
      * intros h1 h2 d1 d2 [[<- <-]|[_ H1]]%lookup_insert_Some [[<- <-]|[_ H2]]%lookup_insert_Some; [done|..].
        -- rewrite <- Hk1. by apply (I2 g1 h2 c1 d2).
        -- rewrite <- Hk1. by apply (I2 h1 g1 d1 c1).
        -- by apply (I2 h1 h2 d1 d2).
      * intros k b' [[<- <-]|[_ Hk]]%lookup_insert_Some.
        -- split; [done|]. exists g, c. split; [apply lookup_insert|done].
        -- destruct (I3 _ _ Hk) as [H1 (h & d & Hh & <-)]. split; [done|]. exists h, d. split; [|done].
           rewrite lookup_insert_ne; [done|]. intros <-. congruence.
      * intros h d Hh. destruct (decide (group_key h = group_key g)) as [->|Hne].
        -- rewrite lookup_insert. by eexists.
        -- rewrite lookup_insert_ne by done. apply lookup_insert_Some in Hh as [[<- _]|[_ Hh]]; [done|].
           by apply (I4 h d).
      * intros k b' h d [[<- <-]|[Hne Hk]]%lookup_insert_Some; cbn [ss_map].
        -- rewrite !lookup_insert_Some. rewrite (I5 _ _ _ _ Hb). naive_solver.
        -- rewrite (I5 _ _ _ _ Hk), lookup_insert_Some. naive_solver.
    + case_bool_decide as Hdis; cbn [passert mbind res_bind].
      * assert (forall h d, D !! h = Some d -> group_key g ∩ group_key h = ∅) as Hgd.
        { intros h d Hh. destruct (I4 h d Hh) as [b Hb']. rewrite intersection_comm_L. apply Hdis. by eapply elem_of_dom_2. }
        split_and!.
        -- intros h d [[<- <-]|[_ Hh]]%lookup_insert_Some; [done|by apply (I1 h d)].
        -- intros h1 h2 d1 d2 [[<- <-]|[_ H1]]%lookup_insert_Some [[<- <-]|[_ H2]]%lookup_insert_Some Hne; [done|..].
           ++ exfalso. apply Hne. by apply (Hgd h2 d2).
           ++ exfalso. apply Hne. rewrite intersection_comm_L. by apply (Hgd h1 d1).
           ++ by apply (I2 h1 h2 d1 d2).
        -- intros k b' [[<- <-]|[_ Hk]]%lookup_insert_Some.
           ++ split; [done|]. exists g, c. split; [apply lookup_insert|done].
           ++ destruct (I3 _ _ Hk) as [H1 (h & d & Hh & <-)]. split; [done|]. exists h, d. split; [|done].
              rewrite lookup_insert_ne; [done|]. intros <-. congruence.
        -- intros h d Hh. destruct (decide (group_key h = group_key g)) as [->|Hne].
           ++ rewrite lookup_insert. by eexists.
           ++ rewrite lookup_insert_ne by done. apply lookup_insert_Some in Hh as [[<- _]|[_ Hh]]; [done|].
              by apply (I4 h d).
        -- intros k b' h d [[<- <-]|[Hne Hk]]%lookup_insert_Some; cbn [ss_map].
           ++ rewrite lookup_singleton_Some, lookup_insert_Some. split.
              ** intros [<- <-]. auto.
              ** intros [[[<- <-]|[Hne Hh]] Hkk]; [done|]. exfalso. destruct (I4 h d Hh) as [b Hb'].
                 rewrite Hkk in Hb'. congruence.
           ++ rewrite (I5 _ _ _ _ Hk), lookup_insert_Some. naive_solver.
      * split; [done|]. intros [_ Hf]. apply Hdis. intros k Hk%elem_of_dom. destruct Hk as [b Hk].
        destruct (I3 _ _ Hk) as [_ (h & d & Hh & <-)].
        destruct (decide (group_key h ∩ group_key g = ∅)) as [|Hne]; [done|]. exfalso.
        apply group_key_inter in Hne.
        assert (same_pairs h g) as Hsp by (apply Hf; [by apply (HDc h d)|done|done]).
        apply same_pairs_key in Hsp. destruct (I4 h d Hh) as [b' Hb']. rewrite Hsp in Hb'. congruence.
Qed.

Lemma C30_lemma o sp :
  all_wf (sp_cp sp) (sp_out sp) -> cp_id (ss_cp (sp_out sp)) = cp_id (sp_cp sp) ->
  match factorized o sp with
  | Ok F => factorable (sp_out sp) /\
      (forall m, m ∈ F <-> exists g, contains (sp_out sp) g /\ factor_of (sp_out sp) g m)
  | Err x => x = AssertionError /\ ~ factorable (sp_out sp)
  end.
Proof.
  intros Hwf Hid. unfold factorized. pose proof (factorized_acc_spec o sp Hwf Hid) as Hs.
  destruct (factorized_acc o sp) as [acc|x]; [|done]. cbn [mbind res_bind].
  destruct Hs as (I1 & I2 & I3 & I4 & I5). split.
  - split.
    + intros g [c Hg]. by apply (I1 g c).
    + intros g h [c Hg] [d Hh] Hov. apply same_pairs_key. apply (I2 g h c d Hg Hh). by apply group_key_inter.
  - intros m. rewrite elem_of_list_to_set, elem_of_list_fmap. split.
    + intros ([k b] & -> & Hin). apply elem_of_map_to_list in Hin. destruct (I3 _ _ Hin) as [_ (g & c & Hg & <-)].
      exists g. split; [by exists c|]. intros h d. cbn [snd]. rewrite (I5 _ _ _ _ Hin).
      rewrite same_pairs_key. naive_solver.
    + intros (g & [c Hg] & Hm). destruct (I4 g c Hg) as [b Hb]. exists (group_key g, b). split.
      * cbn [snd]. apply map_eq. intros h. apply option_eq. intros d. rewrite (Hm h d), (I5 _ _ _ _ Hb).
        rewrite same_pairs_key. naive_solver.
      * by apply elem_of_map_to_list.
Qed.

Lemma gk_edges g : g_edges g <> ∅ -> group_key g = set_map inr (edges_endpoint_variables g).
Proof. intros He. unfold group_key. by rewrite bool_decide_true. Qed.

Lemma gk_single g : g_edges g = ∅ -> group_key g = set_map inl (included_variables g).
Proof. intros He. unfold group_key. rewrite bool_decide_false; [done|]. tauto. Qed.

Lemma factorable_ep ss cp :
  all_wf cp ss ->
  factorable ss <->
  (forall g, contains ss g -> g_nodes g <> ∅) /\
  (forall g h, contains ss g -> contains ss h ->
    edges_endpoint_variables g = edges_endpoint_variables h \/
    edges_endpoint_variables g ∩ edges_endpoint_variables h = ∅).
Proof.
  intros Hwf. assert (forall g, contains ss g -> g_edges g = ∅ -> edges_endpoint_variables g = ∅) as He0.
  { intros g _ He. unfold edges_endpoint_variables. rewrite He. apply set_eq. set_solver +. }
  split; intros [H1 H2]; (split; [done|]); intros g h Hg Hh.
  - destruct (decide (g_edges g = ∅)) as [Heg|Heg]; [right; rewrite (He0 g Hg Heg); set_solver +|].
    destruct (decide (g_edges h = ∅)) as [Heh|Heh]; [right; rewrite (He0 h Hh Heh); set_solver +|].
    destruct (decide (edges_endpoint_variables g ∩ edges_endpoint_variables h = ∅)) as [|Hne]; [by right|left].
    assert (group_key g = group_key h) as Hk.
    { apply same_pairs_key, H2; [done|done|]. apply overlap_key. unfold group_key. rewrite !bool_decide_true by done.
      apply set_choose_L in Hne as [x Hx]. intros Hk.
      apply elem_of_intersection in Hx as [Hx1 Hx2]. eapply (not_elem_of_empty (C:=gkey) (inr x)). rewrite <- Hk.
      apply elem_of_intersection. split; by apply elem_of_map_2. }
    unfold group_key in Hk. rewrite !bool_decide_true in Hk by done.
    apply set_eq. intros x. split; intros Hx.
    + apply (elem_of_map_2 (D:=gkey) inr) in Hx. rewrite Hk in Hx.
      apply elem_of_map in Hx as (y & [= ->] & Hy). done.
    + apply (elem_of_map_2 (D:=gkey) inr) in Hx. rewrite <- Hk in Hx.
      apply elem_of_map in Hx as (y & [= ->] & Hy). done.
  - intros Hov. apply same_pairs_key. apply overlap_key in Hov.
    apply set_choose_L in Hov as [k Hk]. apply elem_of_intersection in Hk as [Hkg Hkh].
    destruct (decide (g_edges g = ∅)) as [Heg|Heg], (decide (g_edges h = ∅)) as [Heh|Heh].
    + rewrite (gk_single g Heg) in *. rewrite (gk_single h Heh) in *.
      destruct (wf_single_node cp g (Hwf g Hg) Heg (H1 g Hg)) as [n Hn].
      destruct (wf_single_node cp h (Hwf h Hh) Heh (H1 h Hh)) as [n' Hn'].
      unfold included_variables, vars_of in *. rewrite Hn, Hn' in *. rewrite !set_map_singleton_L in *.
      apply elem_of_singleton in Hkg, Hkh. congruence.
    + exfalso. rewrite (gk_single g Heg) in Hkg. rewrite (gk_edges h Heh) in Hkh.
      apply elem_of_map in Hkg as (? & -> & _). by apply elem_of_map in Hkh as (? & ? & _).
    + exfalso. rewrite (gk_edges g Heg) in Hkg. rewrite (gk_single h Heh) in Hkh.
      apply elem_of_map in Hkg as (? & -> & _). by apply elem_of_map in Hkh as (? & ? & _).
    + rewrite (gk_edges g Heg) in *. rewrite (gk_edges h Heh) in *.
      destruct (H2 g h Hg Hh) as [->|Hd]; [done|]. exfalso.
      apply elem_of_map in Hkg as (x & -> & Hx). apply elem_of_map in Hkh as (? & [= <-] & Hx').
      apply (not_elem_of_empty (C:=gset (gset Var)) x). rewrite <- Hd. by apply elem_of_intersection.
Qed.

Lemma is_factorized_lemma o sp :
  all_wf (sp_cp sp) (sp_out sp) -> is_factorized o sp = true <-> factorable (sp_out sp).
Proof.
  intros Hwf. rewrite (factorable_ep _ _ Hwf). unfold is_factorized.
  match goal with |- context [for_each ?f _ _ _] => set (F := f) end.
  pose proof (for_each_set_ind (fun Y (acc : option (gset (gset (gset Var)))) =>
    match acc with
    | Some A => (forall g, g ∈ Y -> g_nodes g <> ∅) /\ (forall x, x ∈ A <-> exists g, g ∈ Y /\ edges_endpoint_variables g = x) /\
        (forall x y, x ∈ A -> y ∈ A -> x = y \/ x ∩ y = ∅)
    | None => ~ ((forall g, g ∈ ss_samples (sp_out sp) -> g_nodes g <> ∅) /\
        (forall g h, g ∈ ss_samples (sp_out sp) -> h ∈ ss_samples (sp_out sp) ->
         edges_endpoint_variables g = edges_endpoint_variables h \/
         edges_endpoint_variables g ∩ edges_endpoint_variables h = ∅))
    end) F (sub o 0) o (Some ∅) (ss_samples (sp_out sp))) as Hi. cbv beta in Hi.
  assert (forall g, contains (sp_out sp) g <-> g ∈ ss_samples (sp_out sp)) as Hc.
  { intros g. symmetry. apply elem_of_dom. }
  setoid_rewrite Hc. match type of Hi with ?X -> ?Y -> ?Z => assert Z as Hz; [apply Hi; clear Hi|clear Hi] end.
  - split_and!; [set_solver +|set_solver +|set_solver +].
  - intros Y g acc o' Hg HY Hsub. destruct acc as [A|]; [|done]. intros (I1 & I2 & I3). unfold F. cbv beta zeta.
    assert (wf_graph (sp_cp sp) g) as Hwfg by (by apply Hwf, Hc).
    destruct (is_k_0 g) eqn:Hk.
    { intros [H1 _]. apply (H1 g Hg). by apply (wf_k0 _ _ Hwfg). }
    assert (g_nodes g <> ∅) as Hn. { intros Hn. apply (wf_k0 _ _ Hwfg) in Hn. congruence. }
    case_bool_decide as Hin; [|case_bool_decide as Hdis].
    + split_and!; [|intros x; rewrite I2|done].
      * intros h [->%elem_of_singleton|Hh]%elem_of_union; auto.
      * apply I2 in Hin as (h & Hh & Hhg). split.
        -- intros (g' & ? & ?). exists g'. split; [by apply elem_of_union_r|done].
        -- intros (g' & [->%elem_of_singleton|Hg']%elem_of_union & <-); eauto.
    + split_and!.
      * intros h [->%elem_of_singleton|Hh]%elem_of_union; auto.
      * intros x. rewrite elem_of_union, elem_of_singleton, I2. split.
        -- intros [->|(g' & ? & ?)]; [exists g|exists g']; (split; [|done]);
             [by apply elem_of_union_l, elem_of_singleton|by apply elem_of_union_r].
        -- intros (g' & [->%elem_of_singleton|Hg']%elem_of_union & <-); eauto.
      * intros x y [->%elem_of_singleton|Hx]%elem_of_union [->%elem_of_singleton|Hy]%elem_of_union.
        -- by left.
        -- right. rewrite intersection_comm_L. by apply Hdis.
        -- right. by apply Hdis.
        -- by apply I3.
    + intros [_ H2]. apply Hdis. intros a Ha. pose proof Ha as Ha'. apply I2 in Ha' as (h & Hh & <-).
      destruct (H2 h g (Hsub _ Hh) Hg) as [He|He]; [|done]. rewrite He in Ha. done.
  - destruct (for_each F _ _ _) as [A|].
    + split; [intros _|done]. destruct Hz as (I1 & I2 & I3). split; [done|]. intros g h Hg Hh.
      apply I3; apply I2; eauto.
    + split; done.
Qed.

Lemma is_factorized_agrees o o' sp :
  all_wf (sp_cp sp) (sp_out sp) -> cp_id (ss_cp (sp_out sp)) = cp_id (sp_cp sp) ->
  is_factorized o sp = true <-> exists F, factorized o' sp = Ok F.
Proof.
  intros Hwf Hid. rewrite (is_factorized_lemma o sp Hwf). pose proof (C30_lemma o' sp Hwf Hid) as Hf.
  destruct (factorized o' sp) as [F|x].
  - split; [by exists F|intros _; apply Hf].
  - split; [intros Hfa; exfalso; by apply (proj2 Hf)|by intros [? ?]].
Qed.

(** The factors partition the outcomes. *)
Lemma factors_partition o sp F :
  all_wf (sp_cp sp) (sp_out sp) -> cp_id (ss_cp (sp_out sp)) = cp_id (sp_cp sp) -> factorized o sp = Ok F ->
  (forall g c, count_of (sp_out sp) g = Ok c <-> exists m, m ∈ F /\ m !! g = Some c) /\
  (forall m, m ∈ F -> m <> ∅) /\
  (forall m m' g c c', m ∈ F -> m' ∈ F -> m !! g = Some c -> m' !! g = Some c' -> m = m') /\
  (forall m m' g h c c', m ∈ F -> m' ∈ F -> m !! g = Some c -> m' !! h = Some c' -> m <> m' -> ~ overlap g h).
Proof.
  intros Hwf Hid HF. pose proof (C30_lemma o sp Hwf Hid) as Hs. rewrite HF in Hs. destruct Hs as [[Hne Hov] HF'].
  assert (forall m m' g g', factor_of (sp_out sp) g m -> factor_of (sp_out sp) g' m' -> same_pairs g g' -> m = m') as Heq.
  { intros m m' g g' H1 H2 Hs. apply map_eq. intros h. apply option_eq. intros c. rewrite (H1 h c), (H2 h c).
    apply same_pairs_key in Hs. by rewrite !same_pairs_key, Hs. }
  split_and!.
  - intros g c. rewrite count_of_lookup. split.
    + intros Hg. pose (m := filter (fun kv => group_key kv.1 = group_key g) (ss_map (sp_out sp))).
      assert (factor_of (sp_out sp) g m) as Hm.
      { intros h d. unfold m. rewrite map_filter_lookup_Some, same_pairs_key. cbn [fst]. naive_solver. }
      exists m. split; [apply HF'; exists g; split; [by exists c|done]|]. apply Hm. split; [done|]. by apply same_pairs_key.
    + intros (m & Hm & Hg). apply HF' in Hm as (h & _ & Hm). by apply Hm in Hg as [Hg _].
  - intros m Hm. apply HF' in Hm as (g & [c Hg] & Hm). intros ->.
    assert ((∅ : gmap graph Z) !! g = Some c) as Hc by (apply Hm; split; [done|by apply same_pairs_key]).
    by rewrite lookup_empty in Hc.
  - intros m m' g c c' Hm Hm' Hg Hg'. apply HF' in Hm as (h & _ & Hm). apply HF' in Hm' as (h' & _ & Hm').
    apply (Heq m m' h h' Hm Hm'). apply Hm in Hg as [_ Hg]. apply Hm' in Hg' as [_ Hg'].
    apply same_pairs_key in Hg, Hg'. apply same_pairs_key. congruence.
  - intros m m' g h c c' Hm Hm' Hg Hh Hmm Ho. apply Hmm. apply HF' in Hm as (g1 & Hg1 & Hm).
    apply HF' in Hm' as (h1 & Hh1 & Hm'). apply (Heq m m' g1 h1 Hm Hm').
    apply Hm in Hg as [Hg Hg2]. apply Hm' in Hh as [Hh Hh2].
    assert (same_pairs g h) as Hgh by (apply Hov; [by exists c|by exists c'|done]).
    apply same_pairs_key in Hg2, Hh2, Hgh. apply same_pairs_key. congruence.
Qed.

(** ** C10: the view of all outcomes *)

Lemma view_det cp o o' g : wf_graph cp g -> edges_set_view o g = edges_set_view o' g.
Proof.
  intros Hwf. unfold edges_set_view. case_bool_decide as He; [done|].
  assert (g_edges g = ∅) as He' by (destruct (decide (g_edges g = ∅)); tauto).
  destruct (decide (g_nodes g = ∅)) as [->|Hne].
  - by rewrite !iter_set_empty.
  - destruct (wf_single_node cp g Hwf He' Hne) as [n ->]. by rewrite !iter_set_singleton.
Qed.

Lemma outcomes_view_lemma o o' sp sp' cp :
  all_wf cp (sp_out sp) -> all_wf cp (sp_out sp') ->
  (forall x, x ∈ outcomes_as_edges_sets o sp <-> x ∈ outcomes_as_edges_sets o' sp') <->
  ss_map (sp_out sp) = ss_map (sp_out sp').
Proof.
  intros Hwf Hwf'. unfold outcomes_as_edges_sets, ss_items.
  assert (forall o o' sp sp' g c, all_wf cp (sp_out sp) -> all_wf cp (sp_out sp') ->
    (forall x : view * Z, x ∈ ((fun kv : graph * Z => (edges_set_view (sub o 0) kv.1, kv.2)) <$> iter_map o (ss_map (sp_out sp))) ->
          x ∈ ((fun kv : graph * Z => (edges_set_view (sub o' 0) kv.1, kv.2)) <$> iter_map o' (ss_map (sp_out sp')))) ->
    ss_map (sp_out sp) !! g = Some c -> ss_map (sp_out sp') !! g = Some c) as Hdir.
  { clear. intros o o' sp sp' g c Hwf Hwf' Hx Hg. specialize (Hx (edges_set_view (sub o 0) g, c)).
    rewrite !elem_of_list_fmap in Hx. destruct Hx as ([h d] & [= Hv ->] & Hin).
    - exists (g, c). split; [done|]. by apply elem_of_iter_map.
    - apply elem_of_iter_map in Hin. rewrite (C10_inj_lemma (sub o 0) (sub o' 0) cp g h); [done|..|done].
      + apply Hwf. by exists d.
      + apply Hwf'. by exists d. }
  split.
  - intros Hx. apply map_eq. intros g. apply option_eq. intros c. split; eapply Hdir; try done; intros; by apply Hx.
  - intros Hm x. rewrite !elem_of_list_fmap. split; intros ([g c] & -> & Hg); apply elem_of_iter_map in Hg;
      (exists (g, c); split; [|apply elem_of_iter_map; congruence]); cbn [fst snd]; f_equal; apply (view_det cp).
    + apply Hwf. by exists c.
    + apply Hwf'. by exists c.
Qed.

End factor_facts.
