(** * MatchFacts: matching values and joining the samples of a set (C22-C24) *)

From Verif Require Export MultiFacts.

Section match_facts.
Context {U : Universe}.
Implicit Types (ss : samples) (g : graph).

(** ** C22 *)

(** Accumulator of [is_all_values_match] after the nodes satisfying [P]. *)
Definition vm_inv (P : node -> Prop) (acc : option (gmap Var Val)) : Prop :=
  match acc with
  | Some m => forall v x, m !! v = Some x <-> P (v, x)
  | None => exists v x y, P (v, x) /\ P (v, y) /\ x <> y
  end.

Lemma vm_inv_ext (P Q : node -> Prop) acc : (forall n, P n <-> Q n) -> vm_inv P acc -> vm_inv Q acc.
Proof.
  intros HPQ. destruct acc as [m|]; simpl.
  - intros H v x. by rewrite H.
  - intros (v & x & y & H1 & H2 & H3). exists v, x, y. by rewrite <- !HPQ.
Qed.

Lemma is_all_values_match_spec o ss : is_all_values_match o ss = true <-> values_match ss.
Proof.
  unfold is_all_values_match.
  match goal with |- context [for_each ?f ?o1 ?s ?l] => set (F := f); set (acc := for_each F o1 s l) end.
  assert (vm_inv (occurs ss) acc) as Hi.
  { subst acc. unfold ss_items.
    apply (for_each_map_ind (fun (m : gmap graph Z) acc => vm_inv (occurs (Samples (ss_cp ss) m)) acc)).
    - simpl. intros v x. rewrite lookup_empty. split; [done|]. intros (g & [c Hc] & _). simpl in Hc. by rewrite lookup_empty in Hc.
    - intros m' g c acc o' Hg Hm' Hsub Hacc. unfold F.
      eapply vm_inv_ext.
      2:{ apply (for_each_set_ind (fun (Y : gset node) acc =>
            vm_inv (fun n => occurs (Samples (ss_cp ss) m') n \/ n ∈ Y) acc)).
          - eapply vm_inv_ext; [|exact Hacc]. intros n. set_solver.
          - intros Y n acc' o'' Hn HY _ Ha. destruct acc' as [m|]; simpl in Ha |- *.
            + destruct (m !! n.1) as [x|] eqn:Hx.
              * pose proof (proj1 (Ha _ _) Hx) as HxP. case_bool_decide as Hne.
                -- exists n.1, x, n.2. destruct n as [v y]. split_and!; [|set_solver|done].
                   destruct HxP; [by left|right; set_solver].
                -- subst x. intros v y. rewrite Ha. destruct n as [w z]. simpl in *.
                   split; [set_solver|]. intros [?|[Heq%elem_of_singleton|?]%elem_of_union]; [by left| |by right].
                   inversion Heq; subst. done.
              * intros v y. destruct n as [w z]. simpl in *. destruct (decide (v = w)) as [->|Hvw].
                -- rewrite lookup_insert. split.
                   ++ intros [= ->]. set_solver.
                   ++ intros [Ho|[Heq%elem_of_singleton|Hy]%elem_of_union].
                      ** assert (m !! w = Some y) by (apply Ha; by left). congruence.
                      ** by inversion Heq.
                      ** assert (m !! w = Some y) by (apply Ha; by right). congruence.
                -- rewrite lookup_insert_ne by done. rewrite Ha. split; [set_solver|].
                   intros [?|[Heq%elem_of_singleton|?]%elem_of_union]; [by left| |by right].
                   inversion Heq; subst. done.
            + destruct Ha as (v & x & y & H1 & H2 & H3). exists v, x, y. split_and!; [set_solver +H1|set_solver +H2|done]. }
      intros n. unfold occurs, contains. simpl. setoid_rewrite lookup_insert_is_Some'. set_solver. }
  clearbody acc. clear F. destruct acc as [m|]; simpl in Hi.
  - split; [|done]. intros _ v x y Hx Hy. apply Hi in Hx, Hy. congruence.
  - split; [done|]. intros Hv. destruct Hi as (v & x & y & H1 & H2 & H3). destruct H3. by eapply Hv.
Qed.

(** ** C23 *)

Lemma common_fold g gs v :
  v ∈ foldr (fun g X => included_variables g ∩ X) (included_variables g) gs <->
  forall g', g' ∈ g :: gs -> has_var (g_nodes g') v.
Proof.
  induction gs as [|h gs IH]; simpl.
  - rewrite included_variables_spec. set_solver.
  - rewrite elem_of_intersection, IH, included_variables_spec. set_solver.
Qed.

Lemma can_join_samples_spec o ss :
  (forall g, contains ss g -> single_valued (g_nodes g)) ->
  match can_join_samples o ss with
  | Ok r => ss_map ss <> ∅ /\
      (r = true <-> forall v x y, common_var ss v -> occurs ss (v, x) -> occurs ss (v, y) -> x = y)
  | Err e => e = TypeError /\ ss_map ss = ∅
  end.
Proof.
  intros Hsv. unfold can_join_samples. destruct (elements (ss_samples ss)) as [|g gs] eqn:Hel.
  - split; [done|]. apply elements_empty_inv in Hel. apply leibniz_equiv in Hel. by apply (dom_empty_inv_L (ss_map ss)).
  - assert (forall h, h ∈ g :: gs <-> contains ss h) as Hin.
    { intros h. rewrite <- Hel, elem_of_elements. apply elem_of_dom. }
    split.
    { intros He. assert (contains ss g) as [c Hc] by (apply Hin; left). by rewrite He, lookup_empty in Hc. }
    set (common := foldr _ _ _).
    match goal with |- context [for_each ?f ?o1 ?s ?l] => set (F := f); set (acc := for_each F o1 s l) end.
    assert (acc = true <-> forall v, v ∈ common -> forall x y, occurs ss (v, x) -> occurs ss (v, y) -> x = y) as Hi.
    { subst acc.
      apply (for_each_set_ind (fun (Y : gset Var) acc => acc = true <->
        forall v, v ∈ Y -> forall x y, occurs ss (v, x) -> occurs ss (v, y) -> x = y)).
      - split; [|done]. intros _ v Hv. by apply elem_of_empty in Hv.
      - intros Y v acc o' Hv HY _ Hacc. unfold F. rewrite andb_true_iff, bool_decide_eq_true, Hacc.
        set (vals := for_each _ _ _ _).
        assert (forall w, w ∈ vals <-> exists x, w = Some x /\ occurs ss (v, x)) as Hvals.
        { assert (vals = vals) as Hv' by done.
          cut (forall w, w ∈ vals <-> exists h x, h ∈ ss_samples ss /\ w = Some x /\ (v, x) ∈ g_nodes h).
          { intros Hc w. rewrite Hc. unfold occurs. split.
            - intros (h & x & Hh & -> & Hx). exists x. split; [done|]. exists h. split; [|done]. by apply elem_of_dom.
            - intros (x & -> & h & Hh & Hx). exists h, x. split_and!; [|done|done]. by apply elem_of_dom. }
          unfold vals. apply (for_each_set_ind (fun (Z : gset graph) X => forall w, w ∈ X <->
            exists h x, h ∈ Z /\ w = Some x /\ (v, x) ∈ g_nodes h)).
          - intros w. set_solver.
          - intros Z h X o'' Hh HZ _ HX w. rewrite elem_of_union, HX, elem_of_singleton.
            assert (contains ss h) as Hch by (by apply elem_of_dom).
            pose proof (value_for_variable_spec o'' h v) as Hval.
            destruct (value_for_variable o'' h v) as [x|].
            + split.
              * intros [->|(h' & x' & ? & ? & ?)]; [exists h, x|exists h', x']; set_solver.
              * intros (h' & x' & [->%elem_of_singleton|Hh']%elem_of_union & -> & Hx').
                -- left. f_equal. by apply (Hsv h Hch v).
                -- right. by exists h', x'.
            + exfalso. apply Hval. unfold common in Hv. rewrite common_fold in Hv. apply Hv. by apply Hin. }
        clearbody vals. split.
        + intros [HY' Hsz] w [->%elem_of_singleton|Hw]%elem_of_union; [|by apply HY'].
          intros x y Hx Hy.
          assert (Some x ∈ vals) as Hxv by (apply Hvals; eauto). assert (Some y ∈ vals) as Hyv by (apply Hvals; eauto).
          assert ((Some x : option Val) = Some y) as Heq; [|by injection Heq].
          destruct (decide (size vals = 1)) as [H1|H1].
          * apply size_1_elem_of in H1 as [z H1]. set_solver +Hxv Hyv H1.
          * assert (size vals = 0) as H0 by lia. apply size_empty_inv in H0. set_solver +H0 Hxv.
        + intros Hall. split; [intros w Hw; apply Hall; set_solver +Hw|].
          destruct (decide (vals = ∅)) as [->|Hne]; [rewrite size_empty; lia|].
          apply set_choose_L in Hne as [w Hw].
          assert (vals = {[w]}) as ->; [|by rewrite size_singleton].
          apply set_eq. intros w'. rewrite elem_of_singleton. split; [|by intros ->].
          intros Hw'. apply Hvals in Hw as (x & -> & Hx). apply Hvals in Hw' as (y & -> & Hy).
          f_equal. assert (v ∈ {[v]} ∪ Y) as Hvy by set_solver +. by apply (Hall v Hvy). }
    rewrite Hi. unfold common. setoid_rewrite common_fold. unfold common_var. setoid_rewrite Hin. naive_solver.
Qed.

Lemma can_join_of_match o ss : ss_map ss <> ∅ -> values_match ss -> can_join_samples o ss = Ok true.
Proof.
  intros Hne Hv. pose proof (can_join_samples_spec o ss) as Hc.
  destruct (can_join_samples o ss) as [r|e].
  - destruct Hc as [_ Hc]; [|f_equal; apply Hc; naive_solver].
    intros g Hg v x y Hx Hy. apply (Hv v); by exists g.
  - destruct Hc as [_ Hc]; [|done]. intros g Hg v x y Hx Hy. apply (Hv v); by exists g.
Qed.

(** ** C24 *)

(** Joining a well-formed sample to a builder of the library. *)
Lemma join_wf o cp b (s : sample) : hinv cp b -> builder_state b -> wf_graph cp (s_g s) -> s_cp s = cp_id cp ->
  match join_sample o b s with
  | (b', Ok _) => hinv cp b' /\ builder_state b' /\ g_nodes (s_g s) <> ∅ /\
      b_nodes b' = b_nodes b ∪ g_nodes (s_g s) /\ b_edges b' = b_edges b ∪ g_edges (s_g s) /\
      (b_nodes b = ∅ \/ exists n, n ∈ b_nodes b /\ n ∈ g_nodes (s_g s)) /\
      (forall n n', n ∈ g_nodes (s_g s) -> n ∉ b_nodes b -> n' ∈ b_nodes b \/ n' ∈ g_nodes (s_g s) -> n.1 = n'.1 -> n = n')
  | (b', Err x) => x = AssertionError /\
      ~ (g_nodes (s_g s) <> ∅ /\ (b_nodes b = ∅ \/ exists n, n ∈ b_nodes b /\ n ∈ g_nodes (s_g s)) /\
         join_no_conflict (b_edges b) (g_edges (s_g s)) /\
         (forall n n', n ∈ g_nodes (s_g s) -> n ∉ b_nodes b -> n' ∈ b_nodes b \/ n' ∈ g_nodes (s_g s) -> n.1 = n'.1 -> n = n'))
  end.
Proof.
  intros Hh Hb Hw Hcp.
  assert (b_cp b = cp) as Hbcp by apply Hh.
  pose proof (C07_lemma o b s Hb (hi_simple _ _ Hh)) as H7.
  pose proof (C07_union_lemma o b s Hb (hi_simple _ _ Hh)) as HU. rewrite Hbcp in HU. specialize (HU Hw).
  pose proof (hinv_join cp b o s) as HJ. pose proof (bs_join o b s Hb) as HB.
  destruct (join_sample o b s) as [b' [[]|x]]; simpl in *.
  - destruct H7 as (Hl & _). { intros e He. by apply (wf_edges _ _ Hw). }
    destruct HU as [HN HE]; [done|].
    split; [|split; [done|]].
    { apply HJ; [|done]. intros _. split; [apply (wf_edges _ _ Hw)|apply (wf_nodes _ _ Hw)]. }
    destruct Hl as [_ Hl]. destruct (decide _) as [He|He].
    + destruct Hl as (n & Hn & Hor). rewrite Hn. split_and!; [set_solver +|by rewrite <- Hn|done| |].
      * destruct Hor as [|Hin]; [by left|]. right. exists n. split; [done|set_solver +].
      * intros m m' ->%elem_of_singleton Hnot Hm' _. destruct Hor as [Hemp|]; [|done].
        rewrite Hemp in Hm'. set_solver +Hm'.
    + destruct Hl as (Hr & Hc & Hv).
      assert (forall n, n ∈ g_nodes (s_g s) <-> touches (g_edges (s_g s)) n) as Ht
        by (intros n; by apply (connected_touches cp)).
      apply set_choose_L in He as [e He]. destruct (wf_edges _ _ Hw e He) as ((x & y & Hxy & _) & _ & _).
      assert (x ∈ e.1) as Hx by (rewrite Hxy; set_solver +).
      split_and!; [|done|done| |].
      * assert (x ∈ g_nodes (s_g s)) by (apply Ht; by exists e). set_solver.
      * destruct (decide (b_nodes b = ∅)) as [|Hne]; [by left|]. right.
        destruct (proj2 Hr Hne e He) as (n & m & Hn & Hm & Hnm).
        exists n. split; [done|].
        apply Ht. inversion Hnm as [|? z ? (e' & He' & Hne' & _)]; subst; [by exists e|by exists e'].
      * intros n n' Hn Hnn Hn'. rewrite Ht in *. by apply Hv.
  - destruct H7 as [-> Hl]. { intros e He. by apply (wf_edges _ _ Hw). }
    split; [done|]. intros (Hne & Hmeet & Hc & Hv). apply Hl. split; [congruence|].
    destruct (decide _) as [He|He].
    + apply set_choose_L in Hne as [n Hn]. exists n. split; [by apply (wf_no_edges cp)|].
      destruct Hmeet as [|(m & Hm & Hmg)]; [by left|]. right.
      rewrite (wf_no_edges cp (s_g s) n Hw He Hn) in Hmg. apply elem_of_singleton in Hmg. by subst.
    + assert (forall n, n ∈ g_nodes (s_g s) <-> touches (g_edges (s_g s)) n) as Ht
        by (intros n; by apply (connected_touches cp)).
      split_and!; [|done|].
      * split.
        -- intros _ n m Hn Hm. apply Ht in Hn, Hm. by apply (wf_conn _ _ Hw).
        -- intros HN e Hee. destruct Hmeet as [|(n & Hn & Hng)]; [done|].
           destruct (wf_edges _ _ Hw e Hee) as ((x & y & Hxy & _) & _ & _).
           exists n, x. split_and!; [done|rewrite Hxy; set_solver +|].
           apply (wf_conn _ _ Hw); [done|]. apply (wf_inside _ _ Hw e Hee). rewrite Hxy. set_solver +.
      * intros n n' Hn Hnn Hn'. rewrite <- Ht in *. by apply Hv.
Qed.

(** Joining the samples of a list, in this order. *)
Definition join_list (cp : provider) (o : oracle) (b : builder) (l : list (graph * Z)) :=
  for_mut (fun o' b '(g, _) => join_sample o' b (Sample (cp_id cp) g)) o b l.

Lemma simple_sub X Y : X ⊆ Y -> simple Y -> simple X.
Proof. intros Hs HY e e' He He'. apply HY; auto. Qed.

Lemma join_list_spec cp o (l : list (graph * Z)) :
  (forall g, g ∈ l.*1 -> wf_graph cp g) ->
  match join_list cp o (new_builder cp) l with
  | (b, Ok _) => hinv cp b /\ builder_state b /\ single_valued (b_nodes b) /\
      (forall n, n ∈ b_nodes b <-> exists g, g ∈ l.*1 /\ n ∈ g_nodes g) /\
      (forall e, e ∈ b_edges b <-> exists g, g ∈ l.*1 /\ e ∈ g_edges g) /\
      (forall g, g ∈ l.*1 -> g_nodes g <> ∅) /\ linked_order l.*1
  | (b, Err x) => x = AssertionError /\
      ~ ((forall g, g ∈ l.*1 -> g_nodes g <> ∅) /\ linked_order l.*1 /\
         (forall g g' v x y, g ∈ l.*1 -> g' ∈ l.*1 -> (v, x) ∈ g_nodes g -> (v, y) ∈ g_nodes g' -> x = y) /\
         (forall g g' e e', g ∈ l.*1 -> g' ∈ l.*1 -> e ∈ g_edges g -> e' ∈ g_edges g' -> e.1 = e'.1 -> e = e'))
  end.
Proof.
  intros Hwf.
  apply (for_mut_ind (fun l' b => hinv cp b /\ builder_state b /\ single_valued (b_nodes b) /\
      (forall n, n ∈ b_nodes b <-> exists g, g ∈ l'.*1 /\ n ∈ g_nodes g) /\
      (forall e, e ∈ b_edges b <-> exists g, g ∈ l'.*1 /\ e ∈ g_edges g) /\
      (forall g, g ∈ l'.*1 -> g_nodes g <> ∅) /\ linked_order l'.*1)
    (fun b x => x = AssertionError /\
      ~ ((forall g, g ∈ l.*1 -> g_nodes g <> ∅) /\ linked_order l.*1 /\
         (forall g g' v x y, g ∈ l.*1 -> g' ∈ l.*1 -> (v, x) ∈ g_nodes g -> (v, y) ∈ g_nodes g' -> x = y) /\
         (forall g g' e e', g ∈ l.*1 -> g' ∈ l.*1 -> e ∈ g_edges g -> e' ∈ g_edges g' -> e.1 = e'.1 -> e = e')))).
  - split_and!; [apply hinv_new|apply builder_state_new|done|set_solver|set_solver|set_solver|].
    intros [|??] ? ? [=].
  - intros done [g c] rest b o' Hl (Hh & Hb & Hsv & HN & HE & Hne & Hord).
    assert (l.*1 = done.*1 ++ g :: rest.*1) as Hl1 by (by rewrite Hl, fmap_app).
    assert (wf_graph cp g) as Hw by (apply Hwf; rewrite Hl1; set_solver +).
    pose proof (join_wf o' cp b (Sample (cp_id cp) g) Hh Hb Hw eq_refl) as HJ.
    destruct (join_sample o' b (Sample (cp_id cp) g)) as [b' [[]|x]]; cbn [s_g] in HJ.
    + destruct HJ as (Hh' & Hb' & Hgne & HN' & HE' & Hmeet & Hval).
      rewrite !fmap_app. split_and!; [done|done| | | | |].
      * rewrite HN'. intros v x y Hx Hy.
        destruct (decide ((v, x) ∈ b_nodes b)) as [Hxb|Hxb], (decide ((v, y) ∈ b_nodes b)) as [Hyb|Hyb].
        -- by apply (Hsv v).
        -- assert ((v, y) = (v, x)) as Heq; [|by injection Heq]. apply Hval; [set_solver +Hy Hyb|done|by left|done].
        -- assert ((v, x) = (v, y)) as Heq; [|by injection Heq]. apply Hval; [set_solver +Hx Hxb|done|by left|done].
        -- assert ((v, x) = (v, y)) as Heq; [|by injection Heq].
           apply Hval; [set_solver +Hx Hxb|done|right; set_solver +Hy Hyb|done].
      * intros n. rewrite HN', elem_of_union, HN. set_solver +.
      * intros e. rewrite HE', elem_of_union, HE. set_solver +.
      * intros h [Hd|Hg]%elem_of_app; [by apply Hne|]. apply elem_of_list_singleton in Hg. by subst.
      * intros l1 h l2 Heq. simpl in Heq. destruct (decide (l2 = [])) as [->|Hl2].
        -- apply app_inj_tail in Heq as [<- <-].
           destruct (decide (done.*1 = [])) as [|Hd]; [by left|]. right.
           destruct Hmeet as [Hemp|(n & Hn & Hng)].
           ++ destruct (done.*1) as [|h0 d] eqn:Hd'; [done|]. exfalso. destruct (Hne h0); [left|].
              apply set_eq. intros n. split; [|set_solver +]. intros Hn.
              rewrite <- Hemp. apply HN. exists h0. split; [left|done].
           ++ apply HN in Hn as (h & Hh1 & Hh2). by exists h, n.
        -- destruct (exists_last Hl2) as (l3 & z & ->). rewrite app_comm_cons, app_assoc in Heq.
           apply app_inj_tail in Heq as [Heq _]. by apply Hord in Heq.
    + destruct HJ as [-> HJ]. split; [done|]. intros (Hne' & Hord' & Hv' & He'). apply HJ.
      assert (g ∈ l.*1) as Hg by (rewrite Hl1; set_solver +).
      assert (forall h, h ∈ done.*1 -> h ∈ l.*1) as Hd by (intros h; rewrite Hl1; set_solver +).
      split_and!.
      * by apply Hne'.
      * destruct (Hord' _ _ _ Hl1) as [Hnil|(h & n & Hh1 & Hh2 & Hh3)].
        -- left. apply set_eq. intros n. rewrite HN, Hnil. set_solver +.
        -- right. exists n. split; [|done]. apply HN. eauto.
      * intros e e' Hee [(h & Hh1 & Hh2)%HE|Hee']%elem_of_union; eauto.
      * intros [v x] [v' y] Hn _ Hn' Hvv. simpl in Hvv. subst v'. f_equal.
        destruct Hn' as [(h & Hh1 & Hh2)%HN|Hn']; eauto.
Qed.

Lemma elem_of_items o ss g : g ∈ (ss_items o ss).*1 <-> contains ss g.
Proof.
  rewrite elem_of_list_fmap. unfold contains. split.
  - intros ([? c] & -> & Hc). exists c. by apply elem_of_iter_map in Hc.
  - intros [c Hc]. exists (g, c). split; [done|]. by apply elem_of_iter_map.
Qed.

Lemma make_joined_spec o ss :
  (forall g, contains ss g -> wf_graph (ss_cp ss) g) ->
  match make_joined_sample o ss with
  | Ok (s, cs) => ss_map ss <> ∅ /\ s_cp s = cp_id (ss_cp ss) /\ union_graph ss (s_g s) /\
      wf_graph (ss_cp ss) (s_g s) /\ values_match ss /\ edges_match ss /\
      (forall g, contains ss g -> g_nodes g <> ∅) /\ linked_order (ss_items (sub o 0) ss).*1 /\
      cs = (ss_items (sub o 0) ss).*2
  | Err x => x = AssertionError /\
      ~ (ss_map ss <> ∅ /\ (forall g, contains ss g -> g_nodes g <> ∅) /\
         linked_order (ss_items (sub o 0) ss).*1 /\ values_match ss /\ edges_match ss)
  end.
Proof.
  intros Hwf. unfold make_joined_sample.
  change (for_mut _ (sub o 1) (new_builder (ss_cp ss)) (ss_items (sub o 0) ss)) with
    (join_list (ss_cp ss) (sub o 1) (new_builder (ss_cp ss)) (ss_items (sub o 0) ss)).
  pose proof (join_list_spec (ss_cp ss) (sub o 1) (ss_items (sub o 0) ss)) as HJ.
  assert (forall g, g ∈ (ss_items (sub o 0) ss).*1 -> wf_graph (ss_cp ss) g) as Hwf'
    by (intros g Hg; apply Hwf; by apply elem_of_items in Hg).
  specialize (HJ Hwf').
  destruct (join_list _ _ _ _) as [b [[]|x]].
  - destruct HJ as (Hh & _ & Hsv & HN & HE & Hne & Hord). unfold build.
    setoid_rewrite elem_of_items in HN. setoid_rewrite elem_of_items in HE. setoid_rewrite elem_of_items in Hne.
    assert (forall n, n ∈ b_nodes b <-> occurs ss n) as HN' by exact HN.
    assert (forall e, e ∈ b_edges b <-> occurs_edge ss e) as HE' by exact HE.
    destruct (passert_cases (b_nodes b <> ∅)) as [[Hbn ->]|[Hbn ->]]; cbn [mbind res_bind].
    + destruct Hh as [H1 H2 H3 H4 H5 H6 H7]. split_and!; try done.
      * intros Hemp. apply Hbn. apply set_eq. intros n. rewrite HN. unfold contains. rewrite Hemp.
        setoid_rewrite lookup_empty. setoid_rewrite is_Some_alt. set_solver +.
      * by rewrite H1.
      * intros v x y Hx Hy. apply HN' in Hx, Hy. by apply (Hsv v).
      * intros e e' He He'. apply HE' in He, He'. by apply H6.
    + split; [done|]. intros (Hss & _). apply Hbn. intros Hemp.
      apply map_choose in Hss as (g & c & Hg).
      destruct (Hne g); [by eexists|]. apply set_eq. intros n. split; [|set_solver +]. intros Hn.
      rewrite <- Hemp. apply HN. exists g. split; [by eexists|done].
  - destruct HJ as [-> HJ]. split; [done|]. intros (Hss & Hne & Hord & Hv & He). apply HJ.
    setoid_rewrite elem_of_items. split_and!; [done|done| |].
    + intros g g' v x y Hg Hg' Hx Hy. apply (Hv v); [by exists g|by exists g'].
    + intros g g' e e' Hg Hg' Hx Hy. apply He; [by exists g|by exists g'].
Qed.

(** Choosing the dictionary order. *)
Lemma items_order_complete ss (l : list (graph * Z)) : l ≡ₚ map_to_list (ss_map ss) ->
  exists o, ss_items (sub o 0) ss = l.
Proof.
  intros Hp. destruct (iter_list_complete _ _ Hp) as [o0 Ho0].
  exists (fun p => match p with [] => [] | _ :: p' => o0 p' end). exact Ho0.
Qed.

Lemma all_orders_lemma ss :
  (forall g, contains ss g -> wf_graph (ss_cp ss) g) ->
  (forall o, is_ok (make_joined_sample o ss) = true) <->
  ss_map ss <> ∅ /\ pairwise_meet ss /\ values_match ss /\ edges_match ss.
Proof.
  intros Hwf. split.
  - intros Hok.
    assert (ss_map ss <> ∅ /\ values_match ss /\ edges_match ss /\ forall g, contains ss g -> g_nodes g <> ∅) as (H1 & H2 & H3 & H4).
    { pose proof (make_joined_spec (fun _ => []) ss Hwf) as Hs. specialize (Hok (fun _ => [])).
      destruct (make_joined_sample (fun _ => []) ss) as [[s cs]|]; [|done]. tauto. }
    split_and!; [done| |done|done].
    intros g g' [c Hc] [c' Hc']. destruct (decide (g = g')) as [<-|Hne].
    { destruct (set_choose_L (g_nodes g)) as [n Hn]; [apply H4; by eexists|]. by exists n. }
    destruct (items_order_complete ss ((g, c) :: (g', c') :: map_to_list (delete g' (delete g (ss_map ss))))) as [o Ho].
    { rewrite <- (insert_delete (ss_map ss) g c) at 2 by done.
      rewrite map_to_list_insert by apply lookup_delete. apply perm_skip.
      rewrite <- (insert_delete (delete g (ss_map ss)) g' c') at 2 by (by rewrite lookup_delete_ne).
      by rewrite map_to_list_insert by apply lookup_delete. }
    pose proof (make_joined_spec o ss Hwf) as Hs. specialize (Hok o).
    destruct (make_joined_sample o ss) as [[s cs]|]; [|done].
    destruct Hs as (_ & _ & _ & _ & _ & _ & _ & Hord & _). rewrite Ho in Hord. simpl in Hord.
    destruct (Hord [g] g' _ eq_refl) as [|(h & n & Hh & Hn & Hn')]; [done|].
    apply elem_of_list_singleton in Hh as ->. by exists n.
  - intros (H1 & H2 & H3 & H4) o. pose proof (make_joined_spec o ss Hwf) as Hs.
    destruct (make_joined_sample o ss) as [[s cs]|]; [done|]. destruct Hs as [_ Hs]. destruct Hs.
    split_and!; [done| | |done|done].
    + intros g Hg Hemp. destruct (H2 g g Hg Hg) as (n & Hn & _). rewrite Hemp in Hn. set_solver +Hn.
    + intros l1 g l2 Heq. destruct l1 as [|h l1]; [by left|]. right.
      assert (forall k, k ∈ h :: l1 ++ g :: l2 -> contains ss k) as Hin.
      { intros k Hk. apply (elem_of_items (sub o 0)). by rewrite Heq. }
      destruct (H2 h g) as (n & Hn & Hn'); [apply Hin; set_solver +|apply Hin; set_solver +|].
      exists h, n. split; [left|done].
Qed.

(** The next sample to join exists as long as the union is connected. *)
Lemma next_sample ss G (d r : list (graph * Z)) :
  (forall g, contains ss g -> wf_graph (ss_cp ss) g) -> (forall g, contains ss g -> g_nodes g <> ∅) ->
  union_graph ss G -> connected G ->
  d ++ r ≡ₚ map_to_list (ss_map ss) -> d <> [] -> r <> [] ->
  exists r1 kv r2, r = r1 ++ kv :: r2 /\ exists h n, h ∈ d.*1 /\ n ∈ g_nodes h /\ n ∈ g_nodes kv.1.
Proof.
  intros Hwf Hne [HGn HGe] Hconn Hp Hd Hr.
  assert (forall g, contains ss g <-> g ∈ d.*1 \/ g ∈ r.*1) as Hin.
  { intros g. rewrite <- elem_of_app, <- fmap_app, Hp. unfold contains. rewrite elem_of_list_fmap. split.
    - intros [c Hc]. exists (g, c). by rewrite elem_of_map_to_list.
    - intros ([? c] & -> & Hc%elem_of_map_to_list). by eexists. }
  assert (forall g n h, g ∈ r.*1 -> h ∈ d.*1 -> n ∈ g_nodes h -> n ∈ g_nodes g ->
    exists r1 kv r2, r = r1 ++ kv :: r2 /\ exists h n, h ∈ d.*1 /\ n ∈ g_nodes h /\ n ∈ g_nodes kv.1) as Hdone.
  { intros g n h Hg Hh Hn Hn'. apply elem_of_list_fmap in Hg as (kv & -> & Hkv).
    apply elem_of_list_split in Hkv as (r1 & r2 & ->). exists r1, kv, r2. split; [done|]. by exists h, n. }
  destruct d as [|[g0 c0] d]; [done|]. destruct r as [|[h0 c1] r]; [done|].
  assert (contains ss g0) as Hg0 by (apply Hin; left; left).
  assert (contains ss h0) as Hh0 by (apply Hin; right; left).
  destruct (set_choose_L _ (Hne g0 Hg0)) as [x Hx]. destruct (set_choose_L _ (Hne h0 Hh0)) as [y Hy].
  assert (rtc (link (g_edges G)) x y) as Hxy.
  { apply Hconn; apply HGn; [by exists g0|by exists h0]. }
  assert (exists h, h ∈ ((g0, c0) :: d).*1 /\ x ∈ g_nodes h) as Hstart by (exists g0; split; [left|done]).
  revert Hstart Hy. clear Hx. induction Hxy as [x|x z y Hxz Hzy IH]; intros (h & Hh & Hxh) Hy.
  - apply (Hdone h0 x h); [left|done..].
  - destruct Hxz as (e & He & Hxe & Hze). apply HGe in He as (k & Hk & Hek).
    pose proof (wf_inside _ _ (Hwf k Hk) e Hek) as Hsub.
    destruct (proj1 (Hin k) Hk) as [Hkd|Hkr].
    + apply IH; [|done]. exists k. split; [done|]. by apply Hsub.
    + apply (Hdone k x h); [done..|]. by apply Hsub.
Qed.

Lemma linked_order_snoc l g : linked_order l ->
  (l = [] \/ exists h n, h ∈ l /\ n ∈ g_nodes h /\ n ∈ g_nodes g) -> linked_order (l ++ [g]).
Proof.
  intros Hl Hg l1 k l2 Heq. destruct (decide (l2 = [])) as [->|Hl2].
  - apply app_inj_tail in Heq as [<- <-]. done.
  - destruct (exists_last Hl2) as (l3 & z & ->). rewrite app_comm_cons, app_assoc in Heq.
    apply app_inj_tail in Heq as [Heq _]. by apply Hl in Heq.
Qed.

Lemma good_order_exists ss G :
  (forall g, contains ss g -> wf_graph (ss_cp ss) g) -> (forall g, contains ss g -> g_nodes g <> ∅) ->
  union_graph ss G -> connected G ->
  exists l, l ≡ₚ map_to_list (ss_map ss) /\ linked_order l.*1.
Proof.
  intros Hwf Hne HG Hconn.
  assert (forall n d r, length r = n -> d ++ r ≡ₚ map_to_list (ss_map ss) -> linked_order d.*1 ->
    exists l, l ≡ₚ map_to_list (ss_map ss) /\ linked_order l.*1) as Hgen.
  { induction n as [|n IH]; intros d r Hlen Hp Hord.
    - destruct r; [|done]. rewrite app_nil_r in Hp. by exists d.
    - destruct d as [|kv0 d].
      + destruct r as [|kv r]; [done|]. apply (IH [kv] r); [simpl in Hlen; congruence|done|].
        simpl. intros [|? [|??]] k l2 Heq; simplify_eq/=. by left.
      + destruct (next_sample ss G (kv0 :: d) r) as (r1 & kv & r2 & -> & Hmeet); [done..| |].
        { by destruct r. }
        apply (IH ((kv0 :: d) ++ [kv]) (r1 ++ r2)).
        * rewrite app_length in *. simpl in Hlen. lia.
        * rewrite <- Hp, <- app_assoc. f_equiv. simpl. by rewrite Permutation_middle.
        * rewrite fmap_app. apply linked_order_snoc; [done|]. by right. }
  apply (Hgen _ [] (map_to_list (ss_map ss)) eq_refl); [done|].
  intros [|??] ? ? [=].
Qed.

Lemma some_order_lemma ss :
  (forall g, contains ss g -> wf_graph (ss_cp ss) g) ->
  (exists o, is_ok (make_joined_sample o ss) = true) <->
  ss_map ss <> ∅ /\ (forall g, contains ss g -> g_nodes g <> ∅) /\ values_match ss /\ edges_match ss /\
  exists G, union_graph ss G /\ connected G.
Proof.
  intros Hwf. split.
  - intros [o Ho]. pose proof (make_joined_spec o ss Hwf) as Hs.
    destruct (make_joined_sample o ss) as [[s cs]|]; [|done].
    destruct Hs as (H1 & H2 & H3 & H4 & H5 & H6 & H7 & H8 & H9). split_and!; [done..|].
    exists (s_g s). split; [done|]. apply (wf_conn _ _ H4).
  - intros (H1 & H2 & H3 & H4 & G & HG & Hc).
    destruct (good_order_exists ss G Hwf H2 HG Hc) as (l & Hl & Hord).
    destruct (items_order_complete ss l Hl) as [o Ho]. exists o.
    pose proof (make_joined_spec o ss Hwf) as Hs.
    destruct (make_joined_sample o ss) as [[s cs]|]; [done|]. destruct Hs as [_ Hs]. destruct Hs.
    rewrite Ho. done.
Qed.

(** A joined sample set has no conflict that [can_join_samples] sees. *)
Lemma can_join_necessary o o' ss r :
  (forall g, contains ss g -> wf_graph (ss_cp ss) g) ->
  make_joined_sample o ss = Ok r -> can_join_samples o' ss = Ok true.
Proof.
  intros Hwf Hr. pose proof (make_joined_spec o ss Hwf) as Hs. rewrite Hr in Hs. destruct r as [s cs].
  destruct Hs as (H1 & H2 & H3 & H4 & H5 & _). by apply can_join_of_match.
Qed.

End match_facts.
