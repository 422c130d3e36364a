(** * NetBuild: building a relation graph that holds a network, factor by factor. *)

From Verif Require Import BaseFacts BuilderFacts BuildFacts.
From Verif Require Export NetFacts.

Section net_build.
Context {U : Universe}.

Lemma add_outcome_ok b s c : ss_cp (rb_out b) = rb_cp b -> s_cp s = cp_id (rb_cp b) -> (1 <= c)%Z ->
  exists b', add_outcome b s c = (b', Ok tt) /\ grown b [(s_g s, c)] b'.
Proof.
  intros Hcp Hs Hc. destruct (add_outcome_spec b s c Hcp) as (r & h & Hr & Hst & Hg & _).
  apply rg_add_inv in Hst as [(_ & -> & ->)|(Hno & _)].
  - exists (add_outcome b s c).1. split; [|done]. destruct (add_outcome b s c) as [b' r']. simpl in *. by subst.
  - exfalso. apply Hno. by split.
Qed.

(** A loop whose rounds each accept some outcomes. *)
Lemma for_res_grown {A} (f : oracle -> rgbuilder -> A -> res rgbuilder) (R : A -> list (graph * Z) -> Prop) cp l :
  (forall o b x, x ∈ l -> rb_cp b = cp -> ss_cp (rb_out b) = cp -> exists b' h, f o b x = Ok b' /\ grown b h b' /\ R x h) ->
  forall o b, rb_cp b = cp -> ss_cp (rb_out b) = cp ->
  exists b' hs, for_res f o b l = Ok b' /\ Forall2 R l hs /\ grown b (concat hs) b'.
Proof.
  induction l as [|x l IH]; intros Hf o b H1 H2.
  - exists b, []. split_and!; [done|constructor|apply grown_refl].
  - simpl. destruct (Hf (sub o 1) b x) as (b1 & h & Hfx & Hg & HR); [by left|done|done|]. rewrite Hfx.
    assert (rb_cp b1 = cp) as H1' by (destruct Hg as (-> & _); done).
    assert (ss_cp (rb_out b1) = cp) as H2' by (destruct Hg as (_ & -> & _); done).
    destruct (IH (fun o b y Hy => Hf o b y (elem_of_list_further _ _ _ Hy)) (sub o 0) b1 H1' H2') as (b' & hs & Hr & HF & Hg').
    exists b', (h :: hs). split_and!; [done|by constructor|]. simpl. by eapply grown_trans.
Qed.

(** The accepted outcomes of a factor: all its assignments, each once. *)
Definition factor_hist (cp : provider) (f : factor) (h : list (graph * Z)) : Prop :=
  NoDup h.*1 /\ forall g c, (g, c) ∈ h <-> exists a, admissible cp (f_vars f) a /\ g = f_graph f a /\ c = f_table f a.

Lemma accepted_once h g c : NoDup h.*1 -> (g, c) ∈ h -> accepted_count h g = c.
Proof.
  intros Hnd Hin. apply elem_of_list_split in Hin as (l1 & l2 & ->).
  rewrite fmap_app in Hnd. simpl in Hnd. apply NoDup_app in Hnd as (_ & Hd & Hnd). apply NoDup_cons in Hnd as [Hn2 _].
  assert (forall l : list (graph * Z), g ∉ l.*1 -> accepted_count l g = 0%Z) as H0.
  { intros l. unfold accepted_count. induction l as [|[g' z] l IHl]; [done|]. simpl. rewrite not_elem_of_cons. intros [Hne Hl].
    rewrite decide_False by congruence. by apply IHl. }
  rewrite accepted_app. change ((g, c) :: l2) with ([(g, c)] ++ l2). rewrite accepted_app, (H0 l1), (H0 l2); [|done|].
  - unfold accepted_count. simpl. rewrite decide_True by done. simpl. lia.
  - intros H. apply (Hd _ H). by left.
Qed.

Lemma concat_NoDup {A} (hs : list (list (graph * A))) : (forall h, h ∈ hs -> NoDup h.*1) ->
  (forall i j h h' g, hs !! i = Some h -> hs !! j = Some h' -> g ∈ h.*1 -> g ∈ h'.*1 -> i = j) -> NoDup (concat hs).*1.
Proof.
  induction hs as [|h hs IH]; intros Hn Hd; simpl; [constructor|].
  rewrite fmap_app. apply NoDup_app. split_and!.
  - apply Hn. by left.
  - intros g Hg Hg'. apply elem_of_list_fmap in Hg' as ([g' c] & -> & Hg').
    rewrite elem_of_list_In, in_concat in Hg'. destruct Hg' as (h' & Hh' & Hin).
    apply elem_of_list_In in Hh', Hin. apply elem_of_list_lookup in Hh' as [k Hk].
    assert (0 = S k); [|done]. apply (Hd 0 (S k) h h' g'); [done|done|done|]. apply elem_of_list_fmap. by exists (g', c).
  - apply IH; [intros h' Hh'; apply Hn; by right|]. intros i j h1 h2 g Hi Hj H1 H2.
    assert (S i = S j); [|congruence]. by apply (Hd (S i) (S j) h1 h2 g).
Qed.

Lemma holds_built cp fs hs b : fs <> [] -> net_ok cp fs -> Forall2 (factor_hist cp) fs hs ->
  grown (RGBuilder cp (ssb_new cp)) (concat hs) b ->
  exists sp, rgb_build b = Ok sp /\ sp_cp sp = cp /\ holds_net sp fs.
Proof.
  intros Hne Hok HF (H1 & H2 & H3 & H4). simpl in *.
  assert (NoDup (concat hs).*1) as Hnd.
  { apply concat_NoDup.
    - intros h Hh. apply elem_of_list_lookup in Hh as [i Hi]. destruct (Forall2_lookup_r _ _ _ _ _ HF Hi) as (f & _ & Hf). apply Hf.
    - intros i j h h' g Hi Hj Hg Hg'.
      destruct (Forall2_lookup_r _ _ _ _ _ HF Hi) as (f & Hfi & _ & Hf). destruct (Forall2_lookup_r _ _ _ _ _ HF Hj) as (f' & Hfj & _ & Hf').
      apply elem_of_list_fmap in Hg as ([g1 c] & -> & Hg). apply elem_of_list_fmap in Hg' as ([g2 c'] & Hgg & Hg'). simpl in Hgg. subst g2.
      apply Hf in Hg as (a & _ & Hga & _). apply Hf' in Hg' as (a' & _ & He & _). rewrite Hga in He.
      apply (nt_clash _ _ Hok i j f f' Hfi Hfj). apply (same_pairs_clash cp f f' a a'); [|intros p; by rewrite He].
      apply (nt_factors _ _ Hok). by eapply elem_of_list_lookup_2. }
  assert (forall g c, ss_map (rb_out b) !! g = Some c <-> (g, c) ∈ concat hs) as Hmap.
  { intros g c.
    assert (forall z, (g, z) ∈ concat hs -> ss_map (rb_out b) !! g = Some z) as Hin.
    { intros z Hz. pose proof (H3 g) as Ht. rewrite (accepted_once _ g z Hnd Hz) in Ht. unfold times_in in Ht. simpl in Ht.
      assert (contains (rb_out b) g) as [z' Hz'] by (apply H4; right; apply elem_of_list_fmap; by exists (g, z)).
      rewrite Hz' in Ht |- *. simpl in Ht. f_equal. rewrite lookup_empty in Ht. simpl in Ht. lia. }
    split; [|apply Hin]. intros Hc. destruct (proj1 (H4 g)) as [[? He]|Hg].
    - by exists c.
    - simpl in He. by rewrite lookup_empty in He.
    - apply elem_of_list_fmap in Hg as ([g' z] & -> & Hz). simpl in *. pose proof (Hin z Hz). by simplify_eq. }
  assert (forall g c, count_of (rb_out b) g = Ok c <-> exists f a, f ∈ fs /\ admissible cp (f_vars f) a /\ g = f_graph f a /\ c = f_table f a) as Hcount.
  { intros g c. transitivity (ss_map (rb_out b) !! g = Some c).
    { unfold count_of. destruct (ss_map (rb_out b) !! g); split; intros; by simplify_eq. }
    rewrite Hmap, elem_of_list_In, in_concat. split.
    - intros (h & Hh & Hin). apply elem_of_list_In in Hh, Hin. destruct (elem_of_list_lookup_1 _ _ Hh) as [i Hi].
      destruct (Forall2_lookup_r _ _ _ _ _ HF Hi) as (f & Hfi & _ & Hf). apply Hf in Hin as (a & Ha & -> & ->). exists f, a.
      split_and!; [by eapply elem_of_list_lookup_2|done..].
    - intros (f & a & Hf & Ha & -> & ->). apply elem_of_list_lookup in Hf as [i Hi].
      destruct (Forall2_lookup_l _ _ _ _ _ HF Hi) as (h & Hhi & _ & Hh). exists h. split; apply elem_of_list_In.
      + by eapply elem_of_list_lookup_2.
      + apply Hh. by exists a. }
  exists (Space cp (rb_out b)).
  assert (ss_bool (rb_out b) = true) as Hb.
  { unfold ss_bool. apply bool_decide_eq_true. intros He.
    assert (exists f, f ∈ fs) as [f Hf] by (destruct fs as [|f l]; [done|exists f; by left]).
    pose proof (nt_factors _ _ Hok f Hf) as Hfk.
    assert (exists a, admissible cp (f_vars f) a) as [a Ha].
    { exists (fun v => match cp_vars cp !! v with Some X => match elements X with x :: _ => x | [] => val_u end | None => val_u end).
      intros v Hv. destruct (fk_values _ _ Hfk v Hv) as (x & X & HX & Hx). exists X. simpl in *. split; [done|]. rewrite HX.
      destruct (elements X) as [|y l] eqn:Hel; [apply elem_of_elements in Hx; rewrite Hel in Hx; by apply elem_of_nil in Hx|].
      apply elem_of_elements. rewrite Hel. by left. }
    assert (count_of (rb_out b) (f_graph f a) = Ok (f_table f a)) as Hc by (apply Hcount; by exists f, a).
    unfold count_of in Hc. by rewrite He, lookup_empty in Hc. }
  unfold rgb_build. rewrite Hb, H1. simpl. split_and!; [done|done|]. split; [done|]. exact Hcount.
Qed.

End net_build.

(** A fresh sample builder with one added relation. *)
Section new_edge.
Context `{U : Universe}.

Lemma index_ok_new cp : index_ok (new_builder cp).
Proof.
  split.
  - intros k e H. simpl in H. by rewrite lookup_empty in H.
  - intros e H. simpl in H. by apply not_elem_of_empty in H.
Qed.

Lemma new_edge_built cp eps r : edge_legal cp (eps, r) ->
  exists b, add_relation (new_builder cp) eps r = (b, Ok tt) /\ build b = Ok (Sample (cp_id cp) (Graph eps {[(eps, r)]})).
Proof.
  intros Hl. pose proof (add_relation_spec (new_builder cp) eps r (index_ok_new cp)) as Hspec.
  destruct (add_relation _ _ _) as [b [[]|err]].
  - destruct Hspec as (_ & Hcp & Hn & He). exists b. split; [done|]. unfold build. rewrite Hcp, Hn, He. simpl.
    rewrite !(left_id_L ∅ (∪)). rewrite bool_decide_true; [done|].
    intros ->. destruct Hl as [(n & m & H) _]. simpl in H.
    assert (n ∈ (∅ : gset node)) as Hin; [|by apply not_elem_of_empty in Hin]. destruct H as [-> _]. by apply elem_of_union_l, elem_of_singleton.
  - exfalso. destruct Hspec as (_ & Hno & _). apply Hno. split_and!; [done|by left|]. intros e H. simpl in H. by apply not_elem_of_empty in H.
Qed.

Lemma f_graph_inj f a b v : f_graph f a = f_graph f b -> v ∈ f_vars f -> a v = b v.
Proof.
  intros H Hv. assert ((v, a v) ∈ g_nodes (f_graph f b)) as Hin by (rewrite <- H; by apply f_nodes).
  by apply f_nodes in Hin as [_ Hin].
Qed.

End new_edge.
