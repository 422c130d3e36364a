(** * SetFacts: proofs about sample sets (C18-C23) *)

From Verif Require Export SpecSets BfsFacts.

Section set_facts.
Context {U : Universe}.

(** ** Histories *)

Lemma live_app h h' g : live (h ++ h') g =
  foldl (fun acc ev =>
      match ev with
      | Added g' c => if decide (g' = g) then acc ++ [c] else acc
      | Removed g' => if decide (g' = g) then [] else acc
      end) (live h g) h'.
Proof. unfold live. by rewrite foldl_app. Qed.

Lemma live_added h g c g' : live (h ++ [Added g c]) g' = if decide (g = g') then live h g' ++ [c] else live h g'.
Proof. by rewrite live_app. Qed.

Lemma live_removed h g g' : live (h ++ [Removed g]) g' = if decide (g = g') then [] else live h g'.
Proof. by rewrite live_app. Qed.

Lemma live_removed_list h gs g : g ∉ gs -> live (h ++ (Removed <$> gs)) g = live h g.
Proof.
  intros Hg. rewrite live_app. generalize (live h g). induction gs as [|g' gs IH]; intros l; [done|].
  rewrite not_elem_of_cons in Hg. destruct Hg as [Hne Hg]. simpl. rewrite decide_False by done. by apply IH.
Qed.

Lemma zsum_snoc l c : zsum (l ++ [c]) = (zsum l + c)%Z.
Proof. rewrite zsum_app. unfold zsum at 2. simpl. lia. Qed.

Lemma shows_lookup b h g : shows b h ->
  ss_map b !! g = match live h g with [] => None | l => Some (zsum l) end.
Proof. intros Hs. specialize (Hs g). by destruct (live h g). Qed.

Lemma shows_none b h g : shows b h -> ss_map b !! g = None <-> live h g = [].
Proof. intros Hs. rewrite (shows_lookup _ _ _ Hs). destruct (live h g); naive_solver. Qed.

Lemma shows_some b h g c : shows b h -> ss_map b !! g = Some c <-> live h g <> [] /\ c = zsum (live h g).
Proof. intros Hs. rewrite (shows_lookup _ _ _ Hs). destruct (live h g); naive_solver. Qed.

Lemma shows_add b h s c : shows b h -> s_cp s = cp_id (ss_cp b) ->
  ssb_add b s c = ((ssb_add b s c).1, Ok tt) /\ ss_cp (ssb_add b s c).1 = ss_cp b /\
  shows (ssb_add b s c).1 (h ++ [Added (s_g s) c]).
Proof.
  intros Hs Hcp. unfold ssb_add. rewrite (proj2 (is_compatible_spec s _)) by done.
  split_and!; [done..|]. intros g. rewrite live_added. simpl.
  pose proof (Hs g) as Hg. case_decide as He.
  - subst g. destruct (live h (s_g s)) as [|c0 l] eqn:Hl.
    + rewrite Hg. simpl. rewrite lookup_insert. f_equal. unfold zsum; simpl; lia.
    + rewrite Hg. simpl. rewrite lookup_insert.
      exact (f_equal Some (eq_sym (zsum_snoc (c0 :: l) c))).
  - destruct (live h g); destruct (ss_map b !! s_g s); by rewrite lookup_insert_ne.
Qed.

Lemma shows_remove b h s : shows b h ->
  match ssb_remove b s with
  | (b', Ok (g, c)) => live h (s_g s) <> [] /\ g = s_g s /\ c = zsum (live h (s_g s)) /\
      ss_cp b' = ss_cp b /\ shows b' (h ++ [Removed (s_g s)])
  | (b', Err x) => b' = b /\ x = AssertionError /\ live h (s_g s) = []
  end.
Proof.
  intros Hs. unfold ssb_remove. destruct (ss_map b !! s_g s) as [c|] eqn:Hl.
  - apply (shows_some _ _ _ _ Hs) in Hl as [Hl ->]. split_and!; [done..|].
    intros g. rewrite live_removed. simpl. case_decide as He; [subst; apply lookup_delete|].
    pose proof (Hs g) as Hg. by destruct (live h g); rewrite lookup_delete_ne.
  - split_and!; [done..|]. by apply (shows_none _ _ _ Hs).
Qed.

Lemma set_step_sound b h op : shows b h ->
  exists h', set_step (cp_id (ss_cp b)) h op (run_set_op b op).2 h' /\
    shows (run_set_op b op).1 h' /\ ss_cp (run_set_op b op).1 = ss_cp b.
Proof.
  intros Hs. destruct op as [s c|o ss|s|o ss]; unfold run_set_op.
  - destruct (decide (s_cp s = cp_id (ss_cp b))) as [Hc|Hc].
    + destruct (shows_add b h s c Hs Hc) as (He & Hcp & Hs'). rewrite He.
      exists (h ++ [Added (s_g s) c]). split_and!; [by constructor|done..].
    + exists h. unfold ssb_add. destruct (is_compatible s (ss_cp b)) eqn:Hi.
      { by apply is_compatible_spec in Hi. }
      split_and!; [by constructor|done..].
  - destruct (decide (cp_id (ss_cp ss) = cp_id (ss_cp b))) as [Hc|Hc].
    + assert (match ssb_add_all o b ss with
        | (b', Ok _) => shows b' (h ++ ((fun '(g, c) => Added g c) <$> ss_items o ss)) /\ ss_cp b' = ss_cp b
        | (b', Err x) => False end) as Hi.
      { apply (for_mut_ind (fun l b' => shows b' (h ++ ((fun '(g, c) => Added g c) <$> l)) /\ ss_cp b' = ss_cp b)
          (fun _ _ => False)).
        - by rewrite app_nil_r.
        - intros done [g c] rest b' o' Hl [Hb Hcp].
          destruct (shows_add b' _ (sample_of ss g) c Hb) as (He & Hcp' & Hs'); [by simpl; rewrite Hcp|].
          rewrite He. rewrite fmap_app, app_assoc. split; [done|congruence]. }
      destruct (ssb_add_all o b ss) as [b' [[]|x]]; [|done]. destruct Hi as [Hi ?].
      eexists. split_and!; [|exact Hi|done]. simpl. constructor; [by left|].
      unfold ss_items. by rewrite iter_map_perm.
    + exists h. unfold ssb_add_all, ss_items.
      destruct (iter_map o (ss_map ss)) as [|[g c] l] eqn:Hl.
      * apply iter_map_nil in Hl. simpl. split_and!; [|done..].
        rewrite <- (app_nil_r h) at 2. apply st_add_all; [by right|]. by rewrite Hl, map_to_list_empty.
      * simpl. unfold ssb_add. destruct (is_compatible (sample_of ss g) (ss_cp b)) eqn:Hi.
        { by apply is_compatible_spec in Hi. }
        simpl. split_and!; [|done..]. constructor; [done|]. intros He.
        rewrite He, iter_map_empty in Hl. done.
  - pose proof (shows_remove b h s Hs) as Hr. destruct (ssb_remove b s) as [b' [[g c]|x]].
    + destruct Hr as (Hl & -> & -> & Hcp & Hb). eexists. split_and!; [|exact Hb|done]. by constructor.
    + destruct Hr as (-> & -> & Hl). exists h. split_and!; [by constructor|done..].
  - assert (match ssb_remove_all o b ss with
      | (b', Ok _) => ss_cp b' = ss_cp b /\ shows b' (h ++ (Removed <$> iter_set o (ss_samples ss))) /\
          forall g, g ∈ iter_set o (ss_samples ss) -> live h g <> []
      | (b', Err x) => x = AssertionError /\ ss_cp b' = ss_cp b /\
          exists gs g rest, iter_set o (ss_samples ss) = gs ++ g :: rest /\
            shows b' (h ++ (Removed <$> gs)) /\ live h g = [] /\ forall g', g' ∈ gs -> live h g' <> [] end) as Hi.
    { apply (for_mut_ind (fun l b' => ss_cp b' = ss_cp b /\ shows b' (h ++ (Removed <$> l)) /\
          (forall g, g ∈ l -> live h g <> []))
          (fun b' x => x = AssertionError /\ ss_cp b' = ss_cp b /\
          exists gs g rest, iter_set o (ss_samples ss) = gs ++ g :: rest /\
            shows b' (h ++ (Removed <$> gs)) /\ live h g = [] /\ forall g', g' ∈ gs -> live h g' <> [])).
      - split_and!; [done|by rewrite app_nil_r|]. intros g Hg. by apply elem_of_nil in Hg.
      - intros done g rest b' o' Hl (Hcp & Hb & Hd).
        assert (live (h ++ (Removed <$> done)) g = live h g) as Hlive.
        { assert (g ∉ done) as Hg.
          { pose proof (NoDup_iter_set o (ss_samples ss)) as Hnd. rewrite Hl in Hnd.
            apply NoDup_app in Hnd as (_ & Hnd & _). intros Hg. destruct (Hnd _ Hg). left. }
          by apply live_removed_list. }
        pose proof (shows_remove b' _ (sample_of ss g) Hb) as Hr.
        destruct (ssb_remove b' (sample_of ss g)) as [b'' [[g' c]|x]]; simpl in Hr.
        + destruct Hr as (Hne & -> & -> & Hcp' & Hb''). rewrite Hlive in Hne.
          rewrite fmap_app, app_assoc. split_and!; [congruence|exact Hb''|].
          intros g'. rewrite elem_of_app, elem_of_list_singleton. intros [?| ->]; auto.
        + destruct Hr as (-> & -> & Hn). rewrite Hlive in Hn. split_and!; [done..|].
          exists done, g, rest. auto. }
    destruct (ssb_remove_all o b ss) as [b' [[]|x]].
    + destruct Hi as (Hcp & Hb & Hall). eexists. split_and!; [|exact Hb|done]. simpl. constructor.
      * intros g Hg. apply Hall, elem_of_iter_set. by apply elem_of_dom.
      * rewrite iter_set_perm. unfold ss_samples.
        rewrite (NoDup_Permutation (elements (dom (ss_map ss))) (map_to_list (ss_map ss)).*1); [done|..].
        -- apply NoDup_elements.
        -- apply NoDup_fst_map_to_list.
        -- intros g. rewrite elem_of_elements, elem_of_dom, elem_of_list_fmap. split.
           ++ intros [c Hc]. exists (g, c). by rewrite elem_of_map_to_list.
           ++ intros ([? c] & -> & Hc). exists c. by apply elem_of_map_to_list in Hc.
    + destruct Hi as (-> & Hcp & gs & g & rest & Hl & Hb & Hg & Hgs).
      eexists. split_and!; [|exact Hb|done]. simpl.
      assert (forall g', g' ∈ gs ++ g :: rest -> is_Some (ss_map ss !! g')) as Hin.
      { intros g' Hg'. rewrite <- Hl in Hg'. apply elem_of_iter_set in Hg'. by apply elem_of_dom. }
      apply st_remove_all_err with g; [|done|..].
      * apply Hin. set_solver.
      * pose proof (NoDup_iter_set o (ss_samples ss)) as Hnd. rewrite Hl in Hnd.
        by apply NoDup_app in Hnd as [? _].
      * intros g' Hg'. split; [apply Hin; set_solver|auto].
Qed.

Lemma shows_new cp : shows (ssb_new cp) [].
Proof. intros g. apply lookup_empty. Qed.

Lemma set_steps_sound b h ops : shows b h ->
  exists h', set_steps (cp_id (ss_cp b)) h ops (run_set_ops b ops).2 h' /\ shows (run_set_ops b ops).1 h' /\
    ss_cp (run_set_ops b ops).1 = ss_cp b.
Proof.
  revert b h. induction ops as [|op ops IH]; intros b h Hs; simpl.
  - exists h. split_and!; [constructor|done..].
  - destruct (set_step_sound b h op Hs) as (h' & Hst & Hs' & Hcp).
    destruct (run_set_op b op) as [b' r]. simpl in *.
    destruct (IH b' h' Hs') as (h'' & Hst' & Hs'' & Hcp').
    destruct (run_set_ops b' ops) as [b'' rs]. simpl in *. rewrite Hcp in Hst'.
    exists h''. split_and!; [by econstructor|done|congruence].
Qed.

Lemma count_of_shows b h g : shows b h ->
  count_of b g = match live h g with [] => Err AssertionError | l => Ok (zsum l) end.
Proof. intros Hs. unfold count_of. rewrite (shows_lookup _ _ _ Hs). by destruct (live h g). Qed.

Lemma C18_lemma cp ops :
  exists h, set_steps (cp_id cp) [] ops (run_set_ops (ssb_new cp) ops).2 h /\
    (forall g, count_of (run_set_ops (ssb_new cp) ops).1 g =
       match live h g with [] => Err AssertionError | l => Ok (zsum l) end) /\
    (forall g, g ∈ ss_samples (run_set_ops (ssb_new cp) ops).1 <-> live h g <> []) /\
    ss_cp (run_set_ops (ssb_new cp) ops).1 = cp.
Proof.
  destruct (set_steps_sound (ssb_new cp) [] ops (shows_new cp)) as (h & Hst & Hs & Hcp).
  exists h. split_and!; [done| | |done].
  - intros g. by apply count_of_shows.
  - intros g. unfold ss_samples. rewrite elem_of_dom.
    rewrite (shows_lookup _ _ _ Hs). destruct (live h g).
    + split; [by intros [??]|done].
    + split; [done|]. intros _. by eexists.
Qed.

(** The declarative reading of [live]. *)
Lemma live_since h1 h2 g :
  (h1 = [] \/ last h1 = Some (Removed g)) -> Removed g ∉ h2 ->
  live (h1 ++ h2) g = omap (fun ev => match ev with
                                      | Added g' c => if decide (g' = g) then Some c else None
                                      | Removed _ => None
                                      end) h2.
Proof.
  intros H1 H2.
  assert (live h1 g = []) as He.
  { destruct H1 as [->|Hl]; [done|]. apply last_Some in Hl as [h ->].
    rewrite live_removed. by rewrite decide_True. }
  rewrite live_app, He. clear H1 He.
  assert (forall l0, foldl (fun acc ev =>
      match ev with
      | Added g' c => if decide (g' = g) then acc ++ [c] else acc
      | Removed g' => if decide (g' = g) then [] else acc
      end) l0 h2 = l0 ++ omap (fun ev => match ev with
                                      | Added g' c => if decide (g' = g) then Some c else None
                                      | Removed _ => None
                                      end) h2) as Hgen; [|apply (Hgen [])].
  induction h2 as [|[g' c|g'] h2 IH]; intros l0.
  - by rewrite app_nil_r.
  - rewrite not_elem_of_cons in H2. destruct H2 as [_ H2]. specialize (IH H2).
    cbn [foldl omap list_omap]. rewrite IH. case_decide; [by rewrite <- app_assoc|done].
  - rewrite not_elem_of_cons in H2. destruct H2 as [Hne H2]. specialize (IH H2).
    cbn [foldl omap list_omap]. rewrite IH. case_decide; [by subst|done].
Qed.

(** Items and length. *)
Lemma items_lemma o ss :
  NoDup (ss_items o ss).*1 /\
  (forall g c, (g, c) ∈ ss_items o ss <-> ss_map ss !! g = Some c) /\
  (forall g, g ∈ ss_samples ss <-> contains ss g) /\
  total_count ss (ss_length ss) /\ zsum (ss_items o ss).*2 = ss_length ss.
Proof.
  split_and!.
  - apply NoDup_fst_iter_map.
  - intros. apply elem_of_iter_map.
  - intros g. apply elem_of_dom.
  - intros l Hnd Hl. unfold ss_length, map_total.
    assert ((map_to_list (ss_map ss)).*2 = times_in ss <$> (map_to_list (ss_map ss)).*1) as ->.
    { rewrite <- list_fmap_compose. apply Forall_fmap_ext, Forall_forall.
      intros [g c] Hg%elem_of_map_to_list. simpl. unfold times_in. by rewrite Hg. }
    assert ((map_to_list (ss_map ss)).*1 ≡ₚ l) as ->; [|done].
    apply NoDup_Permutation; [apply NoDup_fst_map_to_list|done|].
    intros g. rewrite Hl, elem_of_list_fmap. split.
    + intros ([? c] & -> & Hc). exists c. by apply elem_of_map_to_list in Hc.
    + intros [c Hc]. exists (g, c). by rewrite elem_of_map_to_list.
  - unfold ss_items, ss_length, map_total. by rewrite iter_map_perm.
Qed.

Lemma ss_length_msum ss : ss_length ss = msum (fun _ c => c) (ss_map ss).
Proof. apply zsum_snd_msum. Qed.

End set_facts.
