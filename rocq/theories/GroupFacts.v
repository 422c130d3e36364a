(** * GroupFacts: group_intersecting (C25) *)

From Verif Require Export MatchFacts.

Section group_facts.
Context {U : Universe}.
Implicit Types (ss : samples) (g : graph) (k : gkey) (acc : gmap gkey (gmap graph Z)).

Lemma elem_of_group_key g p : p ∈ group_key g <-> var_pairs g p.
Proof.
  unfold group_key. case_bool_decide as He.
  - rewrite elem_of_map. destruct p as [v|X]; simpl.
    + split; [by intros (? & ? & _)|]. by intros [? _].
    + unfold edges_endpoint_variables. setoid_rewrite elem_of_map. split.
      * intros (? & [= <-] & e & -> & Hin). exists e. split; [done|]. intros v. apply elem_of_vars_of.
      * intros (e & Hin & HX). exists X. split; [done|]. exists e. split; [|done].
        apply set_eq. intros v. by rewrite HX, elem_of_vars_of.
  - rewrite elem_of_map. destruct p as [v|X]; simpl.
    + split.
      * intros (? & [= <-] & Hv). by rewrite <- included_variables_spec.
      * intros [_ Hv]. exists v. split; [done|]. by apply included_variables_spec.
    + split; [by intros (? & ? & _)|]. intros (e & Hin & _). rewrite He in Hin. set_solver +Hin.
Qed.

Lemma same_pairs_key g g' : same_pairs g g' <-> group_key g = group_key g'.
Proof.
  unfold same_pairs. setoid_rewrite <- elem_of_group_key. split; [intros; by apply set_eq|by intros ->].
Qed.

Lemma overlap_key g g' : overlap g g' <-> group_key g ∩ group_key g' <> ∅.
Proof.
  unfold overlap. setoid_rewrite <- elem_of_group_key. split.
  - intros (p & H1 & H2). set_solver.
  - intros Hne. apply set_choose_L in Hne as [p Hp]. exists p. set_solver +Hp.
Qed.

Lemma group_key_empty g : group_key g = ∅ -> g = Graph ∅ ∅.
Proof.
  intros Hk. assert (forall p, ~ var_pairs g p) as Hp.
  { intros p. rewrite <- elem_of_group_key, Hk. set_solver +. }
  assert (g_edges g = ∅) as He.
  { apply set_eq. intros e. split; [|set_solver +]. intros He. destruct (Hp (inr (vars_of e.1))).
    exists e. split; [done|]. intros v. apply elem_of_vars_of. }
  destruct g as [ns es]. simpl in *. f_equal; [|done].
  apply set_eq. intros [v x]. split; [|set_solver +]. intros Hn. destruct (Hp (inl v)).
  split; [done|]. by exists x.
Qed.

(** ** The accumulator *)

Record ginv ss acc : Prop := {
  gi_sub : forall k grp, acc !! k = Some grp -> grp <> ∅ /\ grp ⊆ ss_map ss;
  gi_cover : forall g, contains ss g -> exists k grp, acc !! k = Some grp /\ is_Some (grp !! g);
  gi_same : forall k k' grp grp' g g', acc !! k = Some grp -> acc !! k' = Some grp' ->
    is_Some (grp !! g) -> is_Some (grp' !! g') -> group_key g = group_key g' -> k = k';
  gi_key : forall k grp p, acc !! k = Some grp -> p ∈ k <-> exists g, is_Some (grp !! g) /\ p ∈ group_key g;
  gi_chain : forall k grp g g', acc !! k = Some grp -> is_Some (grp !! g) -> is_Some (grp !! g') -> chain ss g g'
}.

Lemma group_init_lookup o ss :
  (forall k grp, group_init o ss !! k = Some grp -> grp <> ∅) /\
  (forall k g c, (exists grp, group_init o ss !! k = Some grp /\ grp !! g = Some c) <->
     ss_map ss !! g = Some c /\ group_key g = k).
Proof.
  unfold group_init, ss_items.
  apply (for_each_map_ind (fun (m : gmap graph Z) acc =>
    (forall k grp, acc !! k = Some grp -> grp <> ∅) /\
    (forall k g c, (exists grp, acc !! k = Some grp /\ grp !! g = Some c) <-> m !! g = Some c /\ group_key g = k))).
  - split; [intros k grp Hk; by rewrite lookup_empty in Hk|].
    intros k g c. rewrite lookup_empty. setoid_rewrite lookup_empty. naive_solver.
  - intros m g c acc o' Hg Hm Hsub [Hne Hl].
    assert (exists grp0, (match acc !! group_key g with
        | Some m => <[group_key g := <[g := c]> m]> acc
        | None => <[group_key g := {[g := c]}]> acc
        end) = <[group_key g := <[g := c]> grp0]> acc /\
        forall h d, grp0 !! h = Some d <-> m !! h = Some d /\ group_key h = group_key g) as (grp0 & -> & H0).
    { destruct (acc !! group_key g) as [grp|] eqn:Hk.
      - exists grp. split; [done|]. intros h d. rewrite <- Hl. rewrite Hk. naive_solver.
      - exists ∅. split; [done|]. intros h d. rewrite <- Hl, Hk, lookup_empty. naive_solver. }
    split.
    + intros k grp. rewrite lookup_insert_Some. intros [[<- <-]|[_ Hk]]; [apply insert_non_empty|by eapply Hne].
    + intros k h d. destruct (decide (k = group_key g)) as [->|Hkne].
      * rewrite lookup_insert. setoid_rewrite (lookup_insert_Some m). split.
        -- intros (grp & [= <-] & Hd). apply lookup_insert_Some in Hd as [[<- <-]|[Hne' Hd]].
           ++ split; [by left|done].
           ++ apply H0 in Hd as [? ?]. auto.
        -- intros [[[<- <-]|[Hgh Hd]] Hkey]; (eexists; split; [done|]).
           ++ apply lookup_insert.
           ++ rewrite lookup_insert_ne by done. by apply H0.
      * rewrite lookup_insert_ne by done. rewrite Hl. split.
        -- intros [Hd Hk]. split; [|done]. rewrite lookup_insert_ne; [done|]. intros ->. congruence.
        -- intros [Hd Hk]. split; [|done]. rewrite lookup_insert_ne in Hd; [done|]. intros ->. congruence.
Qed.

Lemma chain_key ss g g' : contains ss g -> contains ss g' -> group_key g = group_key g' -> chain ss g g'.
Proof.
  intros Hg Hg' Hk. destruct (decide (group_key g = ∅)) as [He|He].
  - assert (g = g') as ->; [|done]. rewrite (group_key_empty g He). rewrite Hk in He. by rewrite (group_key_empty g' He).
  - apply rtc_once. split_and!; [done|done|]. apply overlap_key. rewrite <- Hk. set_solver +He.
Qed.

Lemma ginv_init o ss : ginv ss (group_init o ss).
Proof.
  destruct (group_init_lookup o ss) as [Hne Hl].
  assert (forall k grp g c, group_init o ss !! k = Some grp -> grp !! g = Some c ->
    ss_map ss !! g = Some c /\ group_key g = k) as Hin by (intros; apply Hl; eauto).
  split.
  - intros k grp Hk. split; [by eapply Hne|]. apply map_subseteq_spec. intros g c Hg. by eapply Hin.
  - intros g [c Hc]. destruct (proj2 (Hl (group_key g) g c) (conj Hc eq_refl)) as (grp & H1 & H2). eauto.
  - intros k k' grp grp' g g' Hk Hk' [c Hc] [c' Hc'] Heq.
    destruct (Hin _ _ _ _ Hk Hc) as [_ <-]. by destruct (Hin _ _ _ _ Hk' Hc') as [_ <-].
  - intros k grp p Hk. split.
    + intros Hp. destruct (map_choose grp (Hne _ _ Hk)) as (g & c & Hc).
      exists g. split; [by eexists|]. by destruct (Hin _ _ _ _ Hk Hc) as [_ ->].
    + intros (g & [c Hc] & Hp). by destruct (Hin _ _ _ _ Hk Hc) as [_ <-].
  - intros k grp g g' Hk [c Hc] [c' Hc'].
    destruct (Hin _ _ _ _ Hk Hc) as [H1 H2]. destruct (Hin _ _ _ _ Hk Hc') as [H3 H4].
    apply chain_key; [by eexists|by eexists|congruence].
Qed.

Lemma chain_sym ss g g' : chain ss g g' -> chain ss g' g.
Proof.
  intros Hc. unfold chain in *. induction Hc as [|x y z (Hx & Hy & p & Hp & Hq) _ IH]; [done|].
  eapply rtc_r; [done|]. split_and!; [done|done|]. by exists p.
Qed.

Lemma is_Some_union_map `{Countable K} {A} (m1 m2 : gmap K A) i :
  is_Some ((m1 ∪ m2) !! i) <-> is_Some (m1 !! i) \/ is_Some (m2 !! i).
Proof. rewrite lookup_union_is_Some. done. Qed.

Lemma ginv_merge ss acc ka kb : no_collision ss -> ginv ss acc ->
  is_Some (acc !! ka) -> is_Some (acc !! kb) -> ka <> kb -> ka ∩ kb <> ∅ ->
  ginv ss (merge_groups acc ka kb) /\ delete kb (delete ka acc) !! (ka ∪ kb) = None.
Proof.
  intros Hnc Hi [ga Ha] [gb Hb] Hne Hmeet.
  destruct Hi as [H1 H2 H3 H4 H5].
  assert (delete kb (delete ka acc) !! (ka ∪ kb) = None) as Hfree.
  { destruct (delete kb (delete ka acc) !! (ka ∪ kb)) as [gc|] eqn:Hc; [|done]. exfalso.
    apply lookup_delete_Some in Hc as [Hkb Hc]. apply lookup_delete_Some in Hc as [Hka Hc].
    destruct (Hnc (dom ga ∪ dom gb) (dom gc)) as (x & y & Hx & Hy & Hxy).
    - destruct (H1 _ _ Ha) as [Hgane _]. apply map_choose in Hgane as (g & c & Hg).
      assert (g ∈ dom ga) as Hgd by (apply elem_of_dom; by eexists). set_solver +Hgd.
    - destruct (H1 _ _ Hc) as [Hgcne _]. intros He. apply Hgcne. by apply dom_empty_inv_L.
    - assert (forall k grp g, acc !! k = Some grp -> g ∈ dom grp -> contains ss g) as Hsub.
      { intros k grp g Hk Hg. apply elem_of_dom in Hg as [c Hg]. exists c.
        eapply lookup_weaken; [done|]. by apply (H1 _ _ Hk). }
      intros g. rewrite !elem_of_union. intros [[?|?]|?]; eauto.
    - intros p. setoid_rewrite <- elem_of_group_key. trans (p ∈ ka ∪ kb).
      + rewrite elem_of_union, (H4 _ _ _ Ha), (H4 _ _ _ Hb). setoid_rewrite elem_of_union. setoid_rewrite elem_of_dom.
        naive_solver.
      + rewrite (H4 _ _ _ Hc). setoid_rewrite elem_of_dom. done.
    - apply same_pairs_key in Hxy. apply elem_of_dom in Hy. apply elem_of_union in Hx.
      setoid_rewrite elem_of_dom in Hx. destruct Hx as [Hx|Hx].
      + apply Hka. by apply (H3 _ _ _ _ x y Ha Hc).
      + apply Hkb. by apply (H3 _ _ _ _ x y Hb Hc). }
  split; [|done]. unfold merge_groups. rewrite Ha, Hb. simpl.
  assert (forall k grp, <[ka ∪ kb := gb ∪ ga]> (delete kb (delete ka acc)) !! k = Some grp ->
    (k = ka ∪ kb /\ grp = gb ∪ ga) \/ (k <> ka ∪ kb /\ k <> ka /\ k <> kb /\ acc !! k = Some grp)) as Hcase.
  { intros k grp. rewrite lookup_insert_Some. intros [[<- <-]|[Hk Hl]]; [by left|right].
    apply lookup_delete_Some in Hl as [? Hl]. apply lookup_delete_Some in Hl as [? Hl]. auto. }
  split.
  - intros k grp [[-> ->]|(_ & _ & _ & Hk)]%Hcase; [|by apply (H1 k)]. split.
    + destruct (H1 _ _ Hb) as [Hgb _]. intros He. apply Hgb. by apply map_positive_l in He.
    + destruct (H1 _ _ Ha) as [_ ?], (H1 _ _ Hb) as [_ ?]. by apply map_union_least.
  - intros g Hg. destruct (H2 g Hg) as (k & grp & Hk & Hin).
    destruct (decide (k = ka)) as [->|Hka].
    { exists (ka ∪ kb), (gb ∪ ga). rewrite lookup_insert. split; [done|]. apply is_Some_union_map. right. congruence. }
    destruct (decide (k = kb)) as [->|Hkb].
    { exists (ka ∪ kb), (gb ∪ ga). rewrite lookup_insert. split; [done|]. apply is_Some_union_map. left. congruence. }
    assert (ka ∪ kb <> k) as Hku.
    { intros <-. rewrite !lookup_delete_ne in Hfree by done. congruence. }
    exists k, grp. split; [|done]. by rewrite lookup_insert_ne, !lookup_delete_ne by done.
  - intros k k' grp grp' g g' Hk Hk' Hg Hg' Heq.
    apply Hcase in Hk as [[-> ->]|(Hk1 & Hk2 & Hk3 & Hk)], Hk' as [[-> ->]|(Hk1' & Hk2' & Hk3' & Hk')].
    + done.
    + exfalso. apply is_Some_union_map in Hg as [Hg|Hg]; eauto using eq_sym.
    + exfalso. apply is_Some_union_map in Hg' as [Hg'|Hg']; eauto using eq_sym.
    + by apply (H3 k k' grp grp' g g').
  - intros k grp p [[-> ->]|(_ & _ & _ & Hk)]%Hcase; [|by apply H4].
    rewrite elem_of_union, (H4 _ _ _ Ha), (H4 _ _ _ Hb). setoid_rewrite is_Some_union_map. naive_solver.
  - intros k grp g g' [[-> ->]|(_ & _ & _ & Hk)]%Hcase; [|by apply (H5 k)].
    assert (forall g g', is_Some (ga !! g) -> is_Some (gb !! g') -> chain ss g g') as Hab.
    { intros x y Hx Hy. apply set_choose_L in Hmeet as [p Hp]. apply elem_of_intersection in Hp as [Hpa Hpb].
      apply (H4 _ _ _ Ha) in Hpa as (x' & Hx' & Hpx). apply (H4 _ _ _ Hb) in Hpb as (y' & Hy' & Hpy).
      apply elem_of_group_key in Hpx, Hpy.
      assert (forall k grp h, acc !! k = Some grp -> is_Some (grp !! h) -> contains ss h) as Hsub.
      { intros k grp h Hk [c Hh]. exists c. eapply lookup_weaken; [done|]. by apply (H1 _ _ Hk). }
      trans x'; [by apply (H5 ka ga)|]. trans y'; [|by apply (H5 kb gb)].
      apply rtc_once. split_and!; [eauto|eauto|]. by exists p. }
    intros [Hg|Hg]%is_Some_union_map [Hg'|Hg']%is_Some_union_map.
    + by apply (H5 kb gb).
    + apply chain_sym. by apply Hab.
    + by apply Hab.
    + by apply (H5 ka ga).
Qed.

Lemma find_pair_spec o acc :
  match find_pair (iter_map o acc).*1 with
  | Some (ka, kb) => is_Some (acc !! ka) /\ is_Some (acc !! kb) /\ ka <> kb /\ ka ∩ kb <> ∅
  | None => forall ka kb, is_Some (acc !! ka) -> is_Some (acc !! kb) -> ka ∩ kb <> ∅ -> ka = kb
  end.
Proof.
  assert (forall k, k ∈ (iter_map o acc).*1 <-> is_Some (acc !! k)) as Hin.
  { intros k. rewrite elem_of_list_fmap. split.
    - intros ([? grp] & -> & Hk). apply elem_of_iter_map in Hk. by eexists.
    - intros [grp Hk]. exists (k, grp). split; [done|]. by apply elem_of_iter_map. }
  unfold find_pair. destruct (List.find _ _) as [[ka kb]|] eqn:Hf.
  - apply List.find_some in Hf as [Hel Hp]. apply elem_of_list_In in Hel.
    apply elem_of_list_bind in Hel as (ka' & Hel & Hka). apply elem_of_list_bind in Hel as (kb' & Hel & Hkb).
    apply elem_of_list_singleton in Hel as [= <- <-]. unfold intersecting_pair in Hp. simpl in Hp.
    apply andb_true_iff in Hp as [Hp1 Hp2]. apply bool_decide_eq_true in Hp1. apply negb_true_iff, bool_decide_eq_false in Hp2.
    rewrite <- !Hin. done.
  - intros ka kb Hka Hkb Hmeet. destruct (decide (ka = kb)) as [|Hne]; [done|]. exfalso.
    pose proof (List.find_none _ _ Hf (ka, kb)) as Hn.
    assert (intersecting_pair (ka, kb) = false) as Hfalse.
    { apply Hn, elem_of_list_In. apply elem_of_list_bind. exists ka. split; [|by apply Hin].
      apply elem_of_list_bind. exists kb. split; [set_solver +|by apply Hin]. }
    unfold intersecting_pair in Hfalse. simpl in Hfalse.
    rewrite bool_decide_true, bool_decide_false in Hfalse by done. done.
Qed.

Lemma merge_size acc ka kb : is_Some (acc !! ka) -> is_Some (acc !! kb) -> ka <> kb ->
  size (merge_groups acc ka kb) < size acc.
Proof.
  intros [ga Ha] [gb Hb] Hne. unfold merge_groups.
  assert (delete ka acc !! kb = Some gb) as Hb' by (by rewrite lookup_delete_ne).
  pose proof (map_size_delete_Some ka acc ltac:(by eexists)).
  pose proof (map_size_delete_Some kb (delete ka acc) ltac:(by eexists)).
  assert (0 < size (delete ka acc)).
  { destruct (size (delete ka acc)) eqn:Hsz; [|lia]. apply map_size_empty_inv in Hsz. by rewrite Hsz in Hb'. }
  assert (0 < size acc).
  { destruct (size acc) eqn:Hsz; [|lia]. apply map_size_empty_inv in Hsz. by rewrite Hsz in Ha. }
  rewrite map_size_insert. destruct (_ !! (ka ∪ kb)); simpl; lia.
Qed.

Lemma group_loop_spec ss fuel o acc : no_collision ss -> ginv ss acc -> size acc < fuel ->
  exists acc', group_loop fuel o acc = Ok acc' /\ ginv ss acc' /\
    forall ka kb, is_Some (acc' !! ka) -> is_Some (acc' !! kb) -> ka ∩ kb <> ∅ -> ka = kb.
Proof.
  intros Hnc. revert o acc. induction fuel as [|fuel IH]; intros o acc Hi Hsz; [lia|].
  cbn [group_loop]. pose proof (find_pair_spec o acc) as Hp.
  destruct (find_pair _) as [[ka kb]|].
  - destruct Hp as (Ha & Hb & Hne & Hmeet). apply IH.
    + by apply ginv_merge.
    + pose proof (merge_size acc ka kb Ha Hb Hne). lia.
  - by exists acc.
Qed.

(** The loop always ends. *)
Lemma group_loop_total fuel o acc : size acc < fuel -> exists acc', group_loop fuel o acc = Ok acc'.
Proof.
  revert o acc. induction fuel as [|fuel IH]; intros o acc Hsz; [lia|].
  cbn [group_loop]. pose proof (find_pair_spec o acc) as Hp.
  destruct (find_pair _) as [[ka kb]|]; [|by eexists].
  destruct Hp as (Ha & Hb & Hne & Hmeet). apply IH. pose proof (merge_size acc ka kb Ha Hb Hne). lia.
Qed.

(** ** From keys to variables *)

Definition iter_self (k : gkey) : Prop := forall v, inl v ∈ k -> var_iter v = Some [v].

Lemma key_vars_spec k : iter_self k ->
  exists vs, key_vars k = Ok vs /\ forall v, v ∈ vs <-> inl v ∈ k \/ exists X, inr X ∈ k /\ v ∈ X.
Proof.
  intros Hself. unfold key_vars.
  destruct (map_res_ok (fun (_ : oracle) (x : Var + gset Var) =>
        match x with
        | inr X => Ok (elements X)
        | inl v => match var_iter v with Some l => Ok l | None => Err TypeError end
        end) (fun x l => match x with inr X => l = elements X | inl v => l = [v] end) (fun _ => []) (elements k))
    as (ys & Hys & HF).
  { intros o [v|X] Hx; [|by eexists]. apply elem_of_elements in Hx. rewrite (Hself v Hx). by eexists. }
  rewrite Hys. cbn [mbind res_bind]. eexists. split; [done|].
  intros v. rewrite elem_of_list_to_set, elem_of_list_In, List.in_concat. split.
  - intros (l & Hl & Hv). apply elem_of_list_In in Hl, Hv.
    apply elem_of_list_lookup in Hl as [i Hl]. destruct (Forall2_lookup_r _ _ _ _ _ HF Hl) as (x & Hx & Hxl).
    apply elem_of_list_lookup_2, elem_of_elements in Hx. destruct x as [w|X]; subst l.
    + apply elem_of_list_singleton in Hv as ->. by left.
    + right. exists X. split; [done|]. by apply elem_of_elements.
  - assert (forall x, x ∈ k -> exists l, l ∈ ys /\ match x with inr X => l = elements X | inl v => l = [v] end) as Hex.
    { intros x Hx. apply elem_of_elements, elem_of_list_lookup in Hx as [i Hx].
      destruct (Forall2_lookup_l _ _ _ _ _ HF Hx) as (l & Hl & Hxl). exists l. split; [|done].
      by eapply elem_of_list_lookup_2. }
    intros [Hv|(X & HX & Hv)].
    + destruct (Hex _ Hv) as (l & Hl & ->). exists [v]. rewrite <- !elem_of_list_In. split; [done|left].
    + destruct (Hex _ HX) as (l & Hl & ->). exists (elements X). rewrite <- !elem_of_list_In.
      split; [done|]. by apply elem_of_elements.
Qed.

(** Number of distinct images. *)
Lemma size_list_to_set_NoDup `{Countable A} (l : list A) : size (list_to_set l : gset A) = length l <-> NoDup l.
Proof.
  split; [|by intros; apply size_list_to_set].
  assert (forall l : list A, size (list_to_set l : gset A) <= length l) as Hle.
  { intros l'. induction l' as [|x l' IH]; [done|]. cbn [list_to_set length].
    destruct (decide (x ∈ (list_to_set l' : gset A))).
    - assert ({[x]} ∪ list_to_set l' = (list_to_set l' : gset A)) as -> by set_solver. lia.
    - rewrite size_union by set_solver. rewrite size_singleton. lia. }
  induction l as [|x l IH]; intros Hs; [constructor|].
  cbn [list_to_set length] in Hs. specialize (Hle l).
  destruct (decide (x ∈ (list_to_set l : gset A))) as [Hx|Hx].
  - assert ({[x]} ∪ list_to_set l = (list_to_set l : gset A)) as Heq by set_solver. rewrite Heq in Hs. lia.
  - rewrite size_union, size_singleton in Hs by set_solver. constructor; [|apply IH; lia].
    by rewrite elem_of_list_to_set in Hx.
Qed.

Lemma chain_contains ss g g' : chain ss g g' -> contains ss g -> contains ss g'.
Proof. intros Hc. induction Hc as [|x y z (_ & Hy & _) _ IH]; auto. Qed.

Lemma ginv_final ss acc : ginv ss acc ->
  (forall ka kb, is_Some (acc !! ka) -> is_Some (acc !! kb) -> ka ∩ kb <> ∅ -> ka = kb) ->
  forall k grp g, acc !! k = Some grp -> is_Some (grp !! g) -> class_of ss g grp.
Proof.
  intros [H1 H2 H3 H4 H5] Hfin k grp g Hk Hg.
  assert (forall h, chain ss g h -> is_Some (grp !! h)) as Hclosed.
  { intros h Hc. unfold chain in Hc. revert Hg. induction Hc as [|x y z (Hx & Hy & p & Hp & Hq) _ IH]; [done|].
    intros Hgx. apply IH. destruct (H2 y Hy) as (k' & grp' & Hk' & Hy').
    apply elem_of_group_key in Hp, Hq.
    assert (k = k') as <-; [|congruence].
    apply Hfin; [by eexists|by eexists|].
    assert (p ∈ k) as Hp1 by (apply (H4 _ _ _ Hk); eauto). assert (p ∈ k') as Hp2 by (apply (H4 _ _ _ Hk'); eauto).
    set_solver +Hp1 Hp2. }
  intros h c. split.
  - intros Hh. split; [eapply lookup_weaken; [done|]; by apply (H1 _ _ Hk)|]. apply (H5 k grp); [done..|by eexists].
  - intros [Hc Hch]. destruct (Hclosed h Hch) as [c' Hc']. rewrite Hc'. f_equal.
    assert (ss_map ss !! h = Some c') by (eapply lookup_weaken; [done|]; by apply (H1 _ _ Hk)). congruence.
Qed.

Lemma wf_vars cp g v : wf_graph cp g ->
  has_var (g_nodes g) v <-> var_pairs g (inl v) \/ exists X, var_pairs g (inr X) /\ v ∈ X.
Proof.
  intros Hw. simpl. split.
  - intros Hv. destruct (decide (g_edges g = ∅)) as [He|He]; [by left|right].
    destruct Hv as [x Hx]. apply (connected_touches cp) in Hx as (e & Hin & Hxe); [|done..].
    exists (vars_of e.1). split; [|apply elem_of_vars_of; by exists x].
    exists e. split; [done|]. intros w. apply elem_of_vars_of.
  - intros [[_ Hv]|(X & (e & He & HX) & Hv)]; [done|]. apply HX in Hv as [x Hx].
    exists x. by apply (wf_inside _ _ Hw e He).
Qed.

Lemma group_spec o ss :
  (forall g, contains ss g -> wf_graph (ss_cp ss) g) -> no_collision ss ->
  (forall g v, contains ss g -> g_edges g = ∅ -> has_var (g_nodes g) v -> var_iter v = Some [v]) ->
  match group_intersecting o ss with
  | Ok m =>
      (forall vs grp, m !! vs = Some grp -> ss_cp grp = ss_cp ss /\
         exists g, contains ss g /\ class_of ss g (ss_map grp) /\ (forall v, v ∈ vs <-> class_vars ss g v)) /\
      (forall g, contains ss g -> exists vs grp, m !! vs = Some grp /\ contains grp g)
  | Err x => x = AssertionError /\ exists g g', contains ss g /\ contains ss g' /\ ~ chain ss g g' /\
      forall v, class_vars ss g v <-> class_vars ss g' v
  end.
Proof.
  intros Hwf Hnc Hself. unfold group_intersecting.
  destruct (group_loop_spec ss (S (size (group_init (sub o 0) ss))) (sub o 1) (group_init (sub o 0) ss) Hnc
    (ginv_init _ _) ltac:(lia)) as (acc & -> & Hi & Hfin).
  cbn [mbind res_bind].
  assert (forall k, is_Some (acc !! k) -> iter_self k) as Hks.
  { intros k [grp Hk] v Hv. apply (gi_key _ _ Hi _ _ _ Hk) in Hv as (g & [c Hg] & Hv).
    apply elem_of_group_key in Hv as [He Hv]. apply (Hself g v); [|done..].
    exists c. eapply lookup_weaken; [done|]. by apply (gi_sub _ _ Hi k). }
  assert (forall k grp vs g, acc !! k = Some grp -> key_vars k = Ok vs -> is_Some (grp !! g) ->
    forall v, v ∈ vs <-> class_vars ss g v) as Hvars.
  { intros k grp vs g Hk Hvs Hg v. destruct (key_vars_spec k) as (vs' & Hvs' & Hv); [apply Hks; by eexists|].
    rewrite Hvs in Hvs'. injection Hvs' as <-. rewrite Hv.
    setoid_rewrite (gi_key _ _ Hi _ _ _ Hk).
    assert (forall h, is_Some (grp !! h) <-> contains ss h /\ chain ss g h) as Hmem.
    { intros h. pose proof (ginv_final ss acc Hi Hfin k grp g Hk Hg h) as Hc. unfold contains, is_Some. naive_solver. }
    unfold class_vars. setoid_rewrite Hmem. setoid_rewrite elem_of_group_key. split.
    - intros [(h & [Hh Hch] & Hp)|(X & (h & [Hh Hch] & Hp) & HX)]; exists h; (split_and!; [done..|]);
        apply (wf_vars (ss_cp ss)); eauto.
    - intros (h & Hh & Hch & Hp). apply (wf_vars (ss_cp ss)) in Hp as [Hp|(X & Hp & HX)]; [| |by apply Hwf].
      + left. eauto.
      + right. exists X. eauto. }
  match goal with |- context [for_res ?f ?o1 ?s ?l] => set (F := f) end.
  assert (exists m, for_res F (sub o 2) ∅ (iter_map (sub o 3) acc) = Ok m /\
    (forall vs s, m !! vs = Some s -> exists k sm, acc !! k = Some sm /\ key_vars k = Ok vs /\ s = Samples (ss_cp ss) sm) /\
    (forall k, is_Some (acc !! k) -> exists vs, key_vars k = Ok vs /\ is_Some (m !! vs))) as (m & Hm & Hm1 & Hm2).
  { pose proof (for_res_map_ind (fun (a : gmap gkey (gmap graph Z)) (m : gmap (gset Var) samples) =>
      (forall vs s, m !! vs = Some s -> exists k sm, a !! k = Some sm /\ key_vars k = Ok vs /\ s = Samples (ss_cp ss) sm) /\
      (forall k, is_Some (a !! k) -> exists vs, key_vars k = Ok vs /\ is_Some (m !! vs)))
      (fun _ => False) F (sub o 2) (sub o 3) ∅ acc) as Hind. cbv beta in Hind.
    destruct (for_res F _ _ _) as [m|x].
    - exists m. split; [done|]. apply Hind.
      + split; [intros ?? H; by rewrite lookup_empty in H|]. intros k [? H]. by rewrite lookup_empty in H.
      + intros a k sm m' o' Hk Ha Hsub [Hx Hy]. unfold F.
        destruct (key_vars_spec k) as (vs & Hvs & _); [apply Hks; by eexists|]. rewrite Hvs. cbn [mbind res_bind].
        split.
        * intros vs' s. rewrite lookup_insert_Some. intros [[<- <-]|[Hne Hs]].
          -- exists k, sm. split_and!; [apply lookup_insert|done|done].
          -- destruct (Hx _ _ Hs) as (k' & sm' & Hk' & ? & ?). exists k', sm'. split_and!; [|done|done].
             rewrite lookup_insert_ne; [done|]. by intros ->; simplify_eq.
        * intros k'. rewrite lookup_insert_is_Some'. intros [<-|Hk'].
          -- exists vs. split; [done|]. rewrite lookup_insert. by eexists.
          -- destruct (Hy _ Hk') as (vs' & ? & ?). exists vs'. split; [done|].
             rewrite lookup_insert_is_Some'. by right.
    - exfalso. apply Hind.
      + split; [intros ?? H; by rewrite lookup_empty in H|]. intros k [? H]. by rewrite lookup_empty in H.
      + intros a k sm m' o' Hk Ha Hsub [Hx Hy]. unfold F.
        destruct (key_vars_spec k) as (vs & Hvs & _); [apply Hks; by eexists|]. rewrite Hvs. cbn [mbind res_bind].
        split.
        * intros vs' s. rewrite lookup_insert_Some. intros [[<- <-]|[Hne Hs]].
          -- exists k, sm. split_and!; [apply lookup_insert|done|done].
          -- destruct (Hx _ _ Hs) as (k' & sm' & Hk' & ? & ?). exists k', sm'. split_and!; [|done|done].
             rewrite lookup_insert_ne; [done|]. by intros ->; simplify_eq.
        * intros k'. rewrite lookup_insert_is_Some'. intros [<-|Hk'].
          -- exists vs. split; [done|]. rewrite lookup_insert. by eexists.
          -- destruct (Hy _ Hk') as (vs' & ? & ?). exists vs'. split; [done|].
             rewrite lookup_insert_is_Some'. by right. }
  rewrite Hm. cbn [mbind res_bind].
  set (kv := fun k => match key_vars k with Ok vs => vs | Err _ => ∅ end).
  assert (forall k, is_Some (acc !! k) -> key_vars k = Ok (kv k)) as Hkv.
  { intros k Hk. destruct (Hm2 k Hk) as (vs & Hvs & _). unfold kv. by rewrite Hvs. }
  assert (dom m = list_to_set (kv <$> (map_to_list acc).*1)) as Hdom.
  { apply set_eq. intros vs. rewrite elem_of_dom, elem_of_list_to_set, elem_of_list_fmap. split.
    - intros [s Hs]. destruct (Hm1 _ _ Hs) as (k & sm & Hk & Hvs & _). exists k. split.
      + assert (key_vars k = Ok (kv k)) as Hk2 by (apply Hkv; by eexists). congruence.
      + apply elem_of_list_fmap. exists (k, sm). by rewrite elem_of_map_to_list.
    - intros (k & -> & Hk). apply elem_of_list_fmap in Hk as ([k1 sm] & Hkk & Hk%elem_of_map_to_list). simpl in Hkk. subst k1.
      destruct (Hm2 k) as (vs & Hvs & Hmv); [by eexists|]. assert (key_vars k = Ok (kv k)) by (apply Hkv; by eexists).
      congruence. }
  assert (size m = size acc <-> NoDup (kv <$> (map_to_list acc).*1)) as Hsize.
  { rewrite <- size_list_to_set_NoDup, <- Hdom, size_dom, !fmap_length. done. }
  destruct (passert_cases (size m = size acc)) as [[Hs ->]|[Hs ->]]; cbn [mbind res_bind].
  - split.
    + intros vs grp Hvs. destruct (Hm1 _ _ Hvs) as (k & sm & Hk & Hkvs & ->). split; [done|].
      destruct (gi_sub _ _ Hi _ _ Hk) as [Hne Hsub]. apply map_choose in Hne as (g & c & Hg).
      exists g. split_and!.
      * exists c. by eapply lookup_weaken.
      * simpl. apply (ginv_final ss acc Hi Hfin k); [done|by eexists].
      * apply (Hvars k sm); [done..|by eexists].
    + intros g Hg. destruct (gi_cover _ _ Hi g Hg) as (k & grp & Hk & Hgg).
      destruct (Hm2 k) as (vs & Hvs & [s Hs']); [by eexists|]. exists vs, s. split; [done|].
      destruct (Hm1 _ _ Hs') as (k' & sm & Hk' & Hvs' & ->).
      assert (k = k') as <-; [|unfold contains; simpl; congruence].
      apply Hsize in Hs.
      assert (kv k = kv k') as Hkk by (unfold kv; by rewrite Hvs, Hvs').
      assert (forall k, is_Some (acc !! k) -> k ∈ (map_to_list acc).*1) as Hel.
      { intros k0 [s0 Hk0]. apply elem_of_list_fmap. exists (k0, s0). by rewrite elem_of_map_to_list. }
      assert (k ∈ (map_to_list acc).*1) as Hin by (apply Hel; by eexists).
      assert (k' ∈ (map_to_list acc).*1) as Hin' by (apply Hel; by eexists).
      apply elem_of_list_lookup in Hin as [i Hin]. apply elem_of_list_lookup in Hin' as [j Hin'].
      assert (i = j) as <-; [|congruence].
      apply (NoDup_lookup _ _ _ (kv k) Hs); rewrite list_lookup_fmap.
      * by rewrite Hin.
      * by rewrite Hin', Hkk.
  - split; [done|].
    assert (exists k k', is_Some (acc !! k) /\ is_Some (acc !! k') /\ k <> k' /\ kv k = kv k') as (k & k' & [ga Hk] & [gb Hk'] & Hne & Hkk).
    { rewrite Hsize in Hs. pose proof (NoDup_fst_map_to_list acc) as Hnd.
      assert (forall k, k ∈ (map_to_list acc).*1 -> is_Some (acc !! k)) as Hel.
      { intros k Hk. apply elem_of_list_fmap in Hk as ([? s] & -> & Hk%elem_of_map_to_list). by eexists. }
      revert Hs Hnd Hel. generalize (map_to_list acc).*1. clear.
      induction l as [|k l IH]; intros Hs Hnd Hel; [destruct Hs; constructor|].
      apply NoDup_cons in Hnd as [Hk Hnd]. cbn [fmap list_fmap] in Hs. rewrite NoDup_cons in Hs.
      destruct (decide (kv k ∈ kv <$> l)) as [Hin|Hin].
      - apply elem_of_list_fmap in Hin as (k' & Hkk & Hk'). exists k, k'. split_and!; [apply Hel; left|apply Hel; by right| |done].
        by intros ->.
      - apply IH; [tauto|done|]. intros k0 Hk0. apply Hel. by right. }
    destruct (gi_sub _ _ Hi _ _ Hk) as [Hgane Hsuba]. apply map_choose in Hgane as (g & c & Hg).
    destruct (gi_sub _ _ Hi _ _ Hk') as [Hgbne Hsubb]. apply map_choose in Hgbne as (g' & c' & Hg').
    exists g, g'. split_and!.
    + exists c. by eapply lookup_weaken.
    + exists c'. by eapply lookup_weaken.
    + intros Hch. apply Hne.
      assert (ga !! g' = Some c') as Hgg.
      { apply (ginv_final ss acc Hi Hfin k ga g Hk ltac:(by eexists)). split; [by eapply lookup_weaken|done]. }
      by apply (gi_same _ _ Hi k k' ga gb g' g' Hk Hk' ltac:(by eexists) ltac:(by eexists)).
    + intros v. rewrite <- (Hvars k ga (kv k) g Hk (Hkv k ltac:(by eexists)) ltac:(by eexists)).
      rewrite Hkk. apply (Hvars k' gb (kv k') g' Hk' (Hkv k' ltac:(by eexists)) ltac:(by eexists)).
Qed.

Lemma group_not_iterable o cp (v : Var) (x : Val) (c : Z) :
  var_iter v = None -> group_intersecting o (Samples cp {[Graph {[(v, x)]} ∅ := c]}) = Err TypeError.
Proof.
  intros Hv. unfold group_intersecting. set (g := Graph {[(v, x)]} ∅).
  assert (group_key g = {[inl v]}) as Hk.
  { apply set_eq. intros p. rewrite elem_of_group_key, elem_of_singleton. destruct p as [w|X]; simpl.
    - split.
      + intros [_ [y Hy]]. by apply elem_of_singleton in Hy as [= -> ->].
      + intros [= ->]. split; [done|]. exists x. by apply elem_of_singleton.
    - split; [|done]. intros (e & He & _). by apply elem_of_empty in He. }
  assert (group_init (sub o 0) (Samples cp {[g := c]}) = {[ {[inl v]} := {[g := c]} ]}) as ->.
  { unfold group_init, ss_items. simpl. rewrite iter_map_singleton. simpl. by rewrite lookup_empty, Hk. }
  destruct (group_loop_total (S (size ({[ {[inl v]} := {[g := c]} ]} : gmap gkey (gmap graph Z)))) (sub o 1)
    {[ {[inl v]} := {[g := c]} ]}) as (acc & Ha); [lia|].
  rewrite Ha. assert (acc = {[ {[inl v]} := {[g := c]} ]}) as ->.
  { cbn [group_loop] in Ha. pose proof (find_pair_spec (sub o 1) {[ {[inl v]} := {[g := c]} ]}) as Hp.
    destruct (find_pair _) as [[ka kb]|]; [|by injection Ha].
    destruct Hp as ([? H1] & [? H2] & Hne & _). apply lookup_singleton_Some in H1 as [<- _], H2 as [<- _]. done. }
  cbn [mbind res_bind]. rewrite iter_map_singleton. cbn [for_res].
  unfold key_vars. rewrite elements_singleton. cbn [map_res]. by rewrite Hv.
Qed.

Lemma key_vars_fuel k : key_vars k <> Err OutOfFuel.
Proof.
  unfold key_vars. generalize (fun _ : list nat => @nil nat). generalize (elements k). intros l.
  intros o. destruct (map_res _ _ _) as [ys|e] eqn:Hm; [done|]. cbn [mbind res_bind]. intros [= ->].
  revert o Hm. induction l as [|x l IH]; intros o Hm; [done|]. cbn [map_res] in Hm.
  destruct x as [v|X]; [destruct (var_iter v); [|done]|];
    (destruct (map_res _ _ l) as [|e'] eqn:Hm'; [done|]); injection Hm as ->; by eapply IH.
Qed.

Lemma group_terminates o ss : group_intersecting o ss <> Err OutOfFuel.
Proof.
  unfold group_intersecting.
  destruct (group_loop_total (S (size (group_init (sub o 0) ss))) (sub o 1) (group_init (sub o 0) ss)) as (acc & ->); [lia|].
  cbn [mbind res_bind]. generalize (sub o 2), (sub o 3). intros o2 o3.
  match goal with |- context [for_res ?f _ _ _] => set (F := f) end.
  assert (forall l s o', for_res F o' s l <> Err OutOfFuel) as HF.
  { induction l as [|[k sm] l IH]; intros s o'; [done|]. cbn [for_res]. unfold F at 1.
    pose proof (key_vars_fuel k) as Hk. destruct (key_vars k) as [vs|e]; cbn [mbind res_bind]; [apply IH|].
    intros [= ->]. done. }
  specialize (HF (iter_map o3 acc) ∅ o2). destruct (for_res F _ _ _) as [m|e]; [|done].
  cbn [mbind res_bind]. destruct (passert_cases (size m = size acc)) as [[_ ->]|[_ ->]]; done.
Qed.

End group_facts.
