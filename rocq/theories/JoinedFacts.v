(** * JoinedFacts: joining all factors of a factorized space ([make_joined]). *)

From Verif Require Export JoinOnFacts.

Section joined_facts.
Context {U : Universe}.

Implicit Types (F D : gmap graph Z) (Fs Ds : list (gmap graph Z)) (sel J : list (graph * Z)) (G g h : graph).

Lemma map_res_case {A B} (f : oracle -> A -> res B) (R : A -> B -> Prop) (Q : exn -> Prop) o l :
  (forall o x, x ∈ l -> match f o x with Ok y => R x y | Err e => Q e end) ->
  match map_res f o l with Ok ys => Forall2 R l ys | Err e => Q e end.
Proof.
  revert o. induction l as [|x l IH]; intros o HR; simpl; [done|].
  pose proof (HR (sub o 1) x ltac:(left)) as Hx. destruct (f (sub o 1) x) as [y|]; [|done].
  specialize (IH (sub o 0)). destruct (map_res f (sub o 0) l) as [ys|].
  - constructor; [done|]. apply IH. intros o' z Hz. apply HR. by right.
  - apply IH. intros o' z Hz. apply HR. by right.
Qed.

Lemma zsum_cons x l : zsum (x :: l) = (x + zsum l)%Z.
Proof. done. Qed.

Lemma zsum_app l l' : zsum (l ++ l') = (zsum l + zsum l')%Z.
Proof. induction l as [|x l IH]; [done|]. cbn [app]. rewrite !zsum_cons, IH. lia. Qed.

(** Joining sample sets without common samples. *)
Lemma join_disjoint o (l : list samples) cp :
  l <> [] -> (forall x, x ∈ l -> ss_cp x = cp) ->
  (forall i j x y g, l !! i = Some x -> l !! j = Some y -> contains x g -> contains y g -> i = j) ->
  exists r, join_sample_set o l = Ok r /\ ss_cp r = cp /\
    forall g c, ss_map r !! g = Some c <-> exists x, x ∈ l /\ ss_map x !! g = Some c.
Proof.
  intros Hne Hcp Hd. pose proof (join_sample_set_spec o l) as Hs. destruct (join_sample_set o l) as [r|e].
  2:{ destruct Hs as [_ [?|(a & b & Ha & Hb & Hab)]]; [done|]. by rewrite (Hcp a), (Hcp b) in Hab. }
  destruct Hs as ((x & l' & -> & Hc) & Hid & Ht & Hk). exists r. split; [done|]. split; [rewrite Hc; apply Hcp; left|].
  set (L := x :: l') in *. clearbody L. clear x l' Hc.
  assert (forall g x c, x ∈ L -> ss_map x !! g = Some c -> zsum ((fun x => times_in x g) <$> L) = c) as Hsum.
  { clear Hk Ht Hid Hne Hcp. intros g x c Hx Hg. apply elem_of_list_split in Hx as (l1 & l2 & ->).
    assert (forall y, y ∈ l1 \/ y ∈ l2 -> times_in y g = 0%Z) as H0.
    { intros y Hy. unfold times_in. destruct (ss_map y !! g) as [d|] eqn:Hy'; [|done]. exfalso. destruct Hy as [Hy|Hy].
      - apply elem_of_list_lookup in Hy as [i Hi]. assert (i = length l1) as ->.
        + apply (Hd _ _ y x g); [by apply lookup_app_l_Some|by apply list_lookup_middle|by eexists|by eexists].
        + apply lookup_lt_Some in Hi. lia.
      - apply elem_of_list_lookup in Hy as [i Hi]. assert (length l1 + S i = length l1) as H; [|lia].
        apply (Hd _ _ y x g); [|by apply list_lookup_middle|by eexists|by eexists].
        rewrite lookup_app_r by lia. by replace (length l1 + S i - length l1) with (S i) by lia. }
    assert (forall l, (forall y, y ∈ l -> times_in y g = 0%Z) -> zsum ((fun x => times_in x g) <$> l) = 0%Z) as Hz.
    { clear. intros l. induction l as [|y l IH]; intros H0; [done|]. rewrite fmap_cons, zsum_cons, (H0 y) by left. rewrite IH; [done|].
      intros z Hz. apply H0. by right. }
    rewrite fmap_app, fmap_cons, zsum_app, zsum_cons, !Hz by (intros y Hy; apply H0; auto).
    unfold times_in. rewrite Hg. simpl. lia. }
  intros g c. split.
  - intros Hg. destruct (proj1 (Hk g)) as (x & Hx & [d Hgx]); [by eexists|]. exists x. split; [done|].
    pose proof (Ht g) as Htg. rewrite (Hsum g x d Hx Hgx) in Htg. unfold times_in in Htg. rewrite Hg in Htg. simpl in Htg. by subst.
  - intros (x & Hx & Hg). destruct (proj2 (Hk g)) as [d Hgd]; [exists x; split; [done|by eexists]|].
    pose proof (Ht g) as Htg. rewrite (Hsum g x c Hx Hg) in Htg. unfold times_in in Htg. rewrite Hgd in Htg. simpl in Htg. by subst.
Qed.

(** The values of the variables common to all graphs agree, those of some other variable do not. *)
Definition unnoticed (l : list graph) : Prop :=
  (forall w x y, (forall g, g ∈ l -> having w g) -> (w, x) ∈ g_nodes (merge l) -> (w, y) ∈ g_nodes (merge l) -> x = y) /\
  exists w x y, (w, x) ∈ g_nodes (merge l) /\ (w, y) ∈ g_nodes (merge l) /\ x <> y.

Lemma not_single_valued (ns : gset node) : ~ single_valued ns -> exists w x y, (w, x) ∈ ns /\ (w, y) ∈ ns /\ x <> y.
Proof.
  intros Hn. destruct (decide (set_Exists (fun a => set_Exists (fun b => a.1 = b.1 /\ a.2 <> b.2) ns) ns)) as [He|He].
  - destruct He as ([w x] & Ha & [w' y] & Hb & Heq & Hne). simpl in *. subst w'. eauto 10.
  - destruct Hn. intros w x y Hx Hy. destruct (decide (x = y)) as [|Hne]; [done|]. exfalso. apply He.
    exists (w, x). split; [done|]. exists (w, y). done.
Qed.

Lemma join_factors_spec cp v Fs : forall o Ds J,
  separate (Ds ++ Fs) -> (forall F, F ∈ Ds ++ Fs -> good_factor cp F) ->
  (forall F g, F ∈ Ds ++ Fs -> is_Some (F !! g) -> having v g /\ single_valued (g_nodes g)) ->
  (forall F, F ∈ Fs -> F <> ∅) -> picked Ds J -> (J <> [] \/ Fs <> []) ->
  match join_factors o cp Fs (Samples cp (list_to_map J)) with
  | Ok r => ss_cp r = cp /\ forall G c, ss_map r !! G = Some c <-> prod_from J Fs G c
  | Err x => x = AssertionError /\ exists sel, picked Fs sel /\ unnoticed (J ++ sel).*1
  end.
Proof.
  induction Fs as [|F0 Fs IH]; intros o Ds J Hs Hg Hv Hfne HJ Hne.
  - destruct Hne as [Hne|Hne]; [|done]. rewrite (right_id_L [] (++)) in Hs, Hg, Hv. cbn [join_factors].
    set (ss := Samples cp (list_to_map J)).
    pose proof (picked_contains cp Ds J Hs Hg HJ cp) as Hin. fold ss in Hin.
    assert (forall g, g ∈ J.*1 -> having v g /\ single_valued (g_nodes g)) as HvJ.
    { intros g Hin'. apply elem_of_list_fmap in Hin' as ([g' c] & -> & Hin').
      destruct (picked_elem _ _ _ HJ Hin') as (F & HF & Hl). eapply Hv; [done|]. by eexists. }
    assert (ss_map ss <> ∅) as Hssne.
    { intros He. destruct J as [|[g c] J]; [done|]. cbn [ss ss_map list_to_map foldr] in He.
      by apply (insert_non_empty (M:=gmap graph)) in He. }
    assert (forall n, occurs ss n <-> n ∈ g_nodes (merge J.*1)) as Ho.
    { intros n. rewrite (proj1 (merge_spec J.*1) n). unfold occurs. by setoid_rewrite Hin. }
    pose proof (can_join_samples_spec (sub o 0) ss) as Hc. destruct (can_join_samples (sub o 0) ss) as [can|e].
    2:{ destruct Hc as [_ Hc]; [|done]. intros g Hcg. apply Hin in Hcg. by apply HvJ. }
    destruct Hc as [_ Hc]; [intros g Hcg; apply Hin in Hcg; by apply HvJ|]. cbn [mbind res_bind]. destruct can.
    + destruct (decide (set_Exists (fun a => set_Exists (fun b => a.1 = b.1 /\ a.2 <> b.2) (g_nodes (merge J.*1))) (g_nodes (merge J.*1)))) as [He|He].
      * destruct He as ([w x] & Ha & [w' y] & Hb & Heq & Hxy). simpl in Heq, Hxy. subst w'.
        assert (~ single_valued (g_nodes (merge J.*1))) as Hnsv by (intros Hsv; by apply Hxy, (Hsv w)).
        assert (make_joined_sample (sub o 1) ss = Err AssertionError) as ->.
        { pose proof (make_joined_spec (sub o 1) ss) as Hmj. destruct (make_joined_sample (sub o 1) ss) as [[s cs]|e].
          - destruct Hmj as (_ & _ & _ & _ & Hvm & _).
            { intros g Hcg. apply Hin, elem_of_list_fmap in Hcg as ([g' c] & -> & Hin').
              destruct (picked_elem _ _ _ HJ Hin') as (F & HF & Hl). eapply gg_wf, gf_graph; [by apply Hg|by eexists]. }
            destruct Hxy. apply (Hvm w); by apply Ho.
          - destruct Hmj as [-> _]; [|done]. intros g Hcg. apply Hin, elem_of_list_fmap in Hcg as ([g' c] & -> & Hin').
            destruct (picked_elem _ _ _ HJ Hin') as (F & HF & Hl). eapply gg_wf, gf_graph; [by apply Hg|by eexists]. }
        cbn [mbind res_bind]. split; [done|]. exists []. rewrite (right_id_L [] (++)). split; [constructor|]. split; [|eauto 10].
        intros w' x' y' Hw Hx Hy. apply (proj1 Hc eq_refl w'); [|by apply Ho|by apply Ho].
        intros g Hcg. apply Hw. by apply Hin.
      * assert (single_valued (g_nodes (merge J.*1))) as Hsv.
        { intros w x y Hx Hy. destruct (decide (x = y)) as [|Hxy]; [done|]. exfalso. apply He. exists (w, x). split; [done|]. by exists (w, y). }
        destruct (join_picked cp (sub o 1) Ds J v Hs Hg HJ Hne (fun g Hg => proj1 (HvJ g Hg)) Hsv) as (s & cs & Hj & Hscp & Hsg & Hz).
        fold ss in Hj. rewrite Hj. cbn [mbind res_bind]. split; [done|]. intros G c. cbn [ss_map]. unfold prod_from. rewrite Hsg, Hz. split.
        -- rewrite lookup_singleton_Some. intros [<- <-]. exists []. rewrite (right_id_L [] (++)). split_and!; [constructor|done..].
        -- intros (sel & Hsel & -> & _ & ->). apply Forall2_nil_inv_l in Hsel as ->. rewrite (right_id_L [] (++)).
           by rewrite lookup_singleton_Some.
    + split; [done|]. intros G c. cbn [ssb_new ss_map]. rewrite lookup_empty. split; [done|].
      intros (sel & Hsel & -> & Hsv & ->). apply Forall2_nil_inv_l in Hsel as ->. rewrite (right_id_L [] (++)) in Hsv.
      assert (false = true) as Hf; [|done]. apply Hc. intros w x y _ Hx Hy. apply (Hsv w); by apply Ho.
  - cbn [join_factors].
    assert (forall (F : gmap graph Z), F ∈ Ds ++ F0 :: Fs <-> F ∈ (Ds ++ [F0]) ++ Fs) as Hmem.
    { intros F. by rewrite <- app_assoc. }
    assert (separate (Ds ++ [F0] ++ Fs)) as Hs' by done. rewrite app_assoc in Hs'.
    assert (forall g d, F0 !! g = Some d -> g ∉ J.*1) as Hfresh.
    { intros g d Hgd Hin. apply elem_of_list_fmap in Hin as ([g' c] & Heq & Hin). simpl in Heq. subst g'.
      destruct (picked_elem _ _ _ HJ Hin) as (F & HF & Hl). simpl in Hl.
      assert (separate (F0 :: Ds)) as Hs0.
      { apply (separate_app_l _ Fs). rewrite <- (Permutation_cons_append Ds) in Hs'. done. }
      apply separate_cons in Hs0 as [Ha _]. destruct (Ha F HF) as [Ha1 _]. apply (Ha1 g g); [by eexists|by eexists|].
      apply (overlap_refl cp). eapply gf_graph; [apply Hg|by eexists]. rewrite elem_of_app, elem_of_cons. auto. }
    assert (forall g d, F0 !! g = Some d -> picked (Ds ++ [F0]) (J ++ [(g, d)])) as HJ'.
    { intros g d Hgd. apply picked_app; [done|]. by constructor. }
    match goal with |- context [map_res ?f ?o1 ?l] => set (fn := f);
      pose proof (map_res_case fn (fun (gc : graph * Z) r => ss_cp r = cp /\ forall G c, ss_map r !! G = Some c <-> prod_from (J ++ [gc]) Fs G c)
        (fun x => x = AssertionError /\ exists sel, picked (F0 :: Fs) sel /\ unnoticed (J ++ sel).*1) o1 l) as H end.
    match type of H with ?A -> _ => assert A as HA end; [|specialize (H HA)].
    { intros o' [g d] Hin. apply elem_of_iter_map in Hin. unfold fn. rewrite add_fresh; cbn [s_cp s_g ss_cp ss_map].
      2:{ done. }
      2:{ apply not_elem_of_list_to_map. by eapply Hfresh. }
      rewrite <- NoDup_fst_lookup; [| |by eapply Hfresh].
      2:{ apply (picked_NoDup cp Ds); [by eapply separate_app_l| |done]. intros F HF. apply Hg. rewrite elem_of_app. auto. }
      specialize (IH o' (Ds ++ [F0]) (J ++ [(g, d)]) Hs').
      match type of IH with context [join_factors ?a ?b ?c ?d] => destruct (join_factors a b c d) as [r|x] end.
      - apply IH; [intros F; rewrite <- Hmem; apply Hg|intros F h; rewrite <- Hmem; apply Hv|intros F HF; apply Hfne; by right|by apply HJ'|].
        left. by destruct J.
      - destruct IH as (-> & sel & Hsel & Hu);
          [intros F; rewrite <- Hmem; apply Hg|intros F h; rewrite <- Hmem; apply Hv|intros F HF; apply Hfne; by right|by apply HJ'|left; by destruct J|].
        split; [done|]. exists ((g, d) :: sel). rewrite <- app_assoc in Hu. split; [by constructor|done]. }
    destruct (map_res fn (sub o 0) (iter_map (sub o 1) F0)) as [l|x]; [|done]. cbn [mbind res_bind].
    assert (forall i j x y G, l !! i = Some x -> l !! j = Some y -> contains x G -> contains y G -> i = j) as Hdis.
    { intros i j x y G Hi Hj [c1 H1] [c2 H2].
      destruct (Forall2_lookup_r _ _ _ _ _ H Hi) as ([g d] & Hi' & _ & Hx). destruct (Forall2_lookup_r _ _ _ _ _ H Hj) as ([g' d'] & Hj' & _ & Hy).
      apply Hx in H1 as (sel & Hp & HG & Hsv & _). apply Hy in H2 as (sel' & Hp' & HG' & _).
      pose proof (elem_of_list_lookup_2 _ _ _ Hi') as Hg1. pose proof (elem_of_list_lookup_2 _ _ _ Hj') as Hg2.
      apply elem_of_iter_map in Hg1, Hg2.
      assert ((J ++ [(g, d)]) ++ sel = (J ++ [(g', d')]) ++ sel') as Heq.
      { apply (picked_determined cp (Ds ++ F0 :: Fs) _ _ G); [done|done| | | | |done].
        - rewrite <- app_assoc. apply picked_app; [done|]. by constructor.
        - rewrite <- app_assoc. apply picked_app; [done|]. by constructor.
        - by apply merged_merge.
        - by apply merged_merge. }
      rewrite <- !app_assoc in Heq. apply app_inv_head in Heq. injection Heq as -> -> _.
      eapply NoDup_lookup; [|done|done]. apply NoDup_iter_map. }
    assert (l <> []) as Hlne.
    { intros ->. apply Forall2_nil_inv_r in H. assert (F0 <> ∅) as Hf by (apply Hfne; left).
      apply map_choose in Hf as (g & d & Hgd). apply (elem_of_iter_map (sub o 1)) in Hgd. rewrite H in Hgd. by apply elem_of_nil in Hgd. }
    destruct (join_disjoint (sub o 2) l cp Hlne) as (r & -> & Hrc & Hr).
    { intros x Hx. apply elem_of_list_lookup in Hx as [i Hi]. destruct (Forall2_lookup_r _ _ _ _ _ H Hi) as (gc & _ & Hcp & _). done. }
    { done. }
    split; [done|]. intros G c. rewrite Hr. unfold prod_from. split.
    + intros (x & Hx & HG). apply elem_of_list_lookup in Hx as [i Hi]. destruct (Forall2_lookup_r _ _ _ _ _ H Hi) as ([g d] & Hgd & _ & Hxs).
      destruct (proj1 (Hxs G c) HG) as (sel & Hp & HG' & Hsv & Hc). clear HG. rename HG' into HG.
      apply elem_of_list_lookup_2, elem_of_iter_map in Hgd. exists ((g, d) :: sel). rewrite <- app_assoc in HG, Hc. split_and!; [by constructor|done..].
    + intros (sel & Hp & HG & Hsv & Hc). apply Forall2_cons_inv_l in Hp as ([g d] & sel' & Hgd & Hp & ->). simpl in Hgd.
      apply (elem_of_iter_map (sub o 1)) in Hgd. apply elem_of_list_lookup in Hgd as [i Hi].
      destruct (Forall2_lookup_l _ _ _ _ _ H Hi) as (x & Hx & _ & Hxs). exists x. split; [by eapply elem_of_list_lookup_2|].
      apply Hxs. exists sel'. rewrite <- app_assoc. done.
Qed.


(** ** One variable *)

Definition at_value (v : Var) (x : Val) F : gmap graph Z := filter (fun kv => have_value kv.1 v x = true) F.

Lemma at_value_lookup v x F g c : at_value v x F !! g = Some c <-> F !! g = Some c /\ has v x g.
Proof. unfold at_value. rewrite map_filter_lookup_Some. cbn [fst]. unfold have_value. by rewrite bool_decide_eq_true. Qed.

Lemma at_value_some v x F g : is_Some (at_value v x F !! g) <-> is_Some (F !! g) /\ has v x g.
Proof. unfold is_Some. setoid_rewrite at_value_lookup. naive_solver. Qed.

Lemma elem_of_at_value v x Fs F : F ∈ (at_value v x <$> Fs) <-> exists E, E ∈ Fs /\ F = at_value v x E.
Proof. rewrite elem_of_list_fmap. naive_solver. Qed.

Lemma separate_at v x Fs : separate Fs -> separate (at_value v x <$> Fs).
Proof.
  intros Hs i j F F' Hi Hj Hij g h Hg Hh. rewrite list_lookup_fmap in Hi, Hj.
  apply fmap_Some in Hi as (E & Hi & ->), Hj as (E' & Hj & ->). apply at_value_some in Hg as [Hg _], Hh as [Hh _].
  by apply (Hs i j E E').
Qed.

Lemma good_at cp v x F : good_factor cp F -> good_factor cp (at_value v x F).
Proof.
  intros [H1 H2]. split; [intros g Hg; apply at_value_some in Hg as [Hg _]; by apply H1|].
  intros g h Hg Hh. apply at_value_some in Hg as [Hg _], Hh as [Hh _]. by apply H2.
Qed.

Lemma picked_at v x Fs sel : picked (at_value v x <$> Fs) sel <-> picked Fs sel /\ forall g, g ∈ sel.*1 -> has v x g.
Proof.
  unfold picked. rewrite Forall2_fmap_l. split.
  - intros H. split.
    + eapply Forall2_impl; [exact H|]. intros F [g c] Hg. cbn [fst snd] in *. by apply at_value_lookup in Hg as [Hg _].
    + intros g Hg. apply elem_of_list_fmap in Hg as ([g' c] & -> & Hg). apply elem_of_list_lookup in Hg as [i Hi].
      destruct (Forall2_lookup_r _ _ _ _ _ H Hi) as (F & _ & HF). cbn [fst snd] in *. by apply at_value_lookup in HF as [_ HF].
  - intros [H Hv]. apply Forall2_same_length_lookup. split; [by eapply Forall2_length|]. intros i F [g c] HF Hg.
    pose proof (Forall2_lookup_lr _ _ _ _ _ _ H HF Hg) as Hl. cbn [fst snd] in *. apply at_value_lookup. split; [done|]. apply Hv.
    apply elem_of_list_fmap. exists (g, c). split; [done|]. by eapply elem_of_list_lookup_2.
Qed.

Lemma nodes_merge l n : n ∈ g_nodes (merge l) <-> exists g, g ∈ l /\ n ∈ g_nodes g.
Proof. apply (proj1 (merge_spec l)). Qed.

Lemma prod_at v x Fs G c : Fs <> [] -> (forall F, F ∈ Fs -> forall g, is_Some (F !! g) -> having v g) ->
  prod_of (at_value v x <$> Fs) G c <-> prod_of Fs G c /\ has v x G.
Proof.
  intros Hne Hv. rewrite !prod_of_unfold. setoid_rewrite picked_at. split.
  - intros (sel & [Hp Hx] & -> & Hsv & Hc). split; [by exists sel|].
    destruct Fs as [|F Fs]; [done|]. destruct sel as [|[g d] sel]; [by apply Forall2_nil_inv_r in Hp|].
    apply nodes_merge. exists g. split; [left|]. apply Hx. left.
  - intros [(sel & Hp & -> & Hsv & Hc) Hx]. exists sel. split_and!; [done| |done..]. intros g Hg.
    destruct (picked_lookup _ _ _ _ Hp Hp Hg) as (F & _ & HF & HFg & _). destruct (Hv F HF g HFg) as [y Hy].
    assert (x = y) as ->; [|done]. apply (Hsv v); [done|]. apply nodes_merge. eauto.
Qed.

Lemma list_filter_all {A} (P : A -> Prop) `{forall x, Decision (P x)} (l : list A) : (forall x, x ∈ l -> P x) -> filter P l = l.
Proof.
  induction l as [|x l IH]; intros HP; [done|]. rewrite filter_cons_True by (apply HP; left). f_equal. apply IH.
  intros y Hy. apply HP. by right.
Qed.

Lemma join_variable_spec cp o (S : gset (gmap graph Z)) v (vals : gset Val) :
  factor_list cp (elements S) -> (exists D, D ∈ S /\ fvar D v) ->
  (forall D x, D ∈ S -> fvar D v -> x ∈ vals -> exists g, is_Some (D !! g) /\ has v x g) ->
  (forall D g x, D ∈ S -> is_Some (D !! g) -> has v x g -> x ∈ vals) ->
  match join_variable o cp S v vals with
  | Ok S' => exists Dv Dr D', elements S ≡ₚ Dv ++ Dr /\ (forall D, D ∈ Dv -> fvar D v) /\ (forall D, D ∈ Dr -> ~ fvar D v) /\
      Dv <> [] /\ (forall G c, D' !! G = Some c <-> prod_of Dv G c) /\ forall D, D ∈ S' <-> D ∈ D' :: Dr
  | Err x => x = AssertionError /\ exists Dv sel, NoDup Dv /\ (forall D, D ∈ Dv -> D ∈ S /\ fvar D v) /\ picked Dv sel /\ unnoticed sel.*1
  end.
Proof.
  intros Hfl Hex Hval Hval'. unfold join_variable.
  set (ffv := filter (fun f => ss_have_variable (Samples cp f) v = true) S).
  assert (forall D, D ∈ ffv <-> D ∈ S /\ fvar D v) as Hffv.
  { intros D. unfold ffv. rewrite elem_of_filter, have_var_spec. naive_solver. }
  set (Dv := iter_set (sub o 0) ffv).
  assert (forall D, D ∈ Dv <-> D ∈ S /\ fvar D v) as HDv.
  { intros D. unfold Dv. by rewrite elem_of_iter_set, Hffv. }
  assert (elements S ≡ₚ Dv ++ elements (S ∖ ffv)) as Hperm.
  { assert (Dv ≡ₚ elements ffv) as ->.
    { apply NoDup_Permutation; [apply NoDup_iter_set|apply NoDup_elements|]. intros D. unfold Dv. by rewrite elem_of_iter_set, elem_of_elements. }
    apply NoDup_Permutation; [apply NoDup_elements| |].
    - apply NoDup_app. split_and!; [apply NoDup_elements| |apply NoDup_elements]. intros D. rewrite !elem_of_elements. rewrite elem_of_difference. tauto.
    - intros D. rewrite elem_of_app, !elem_of_elements, elem_of_difference, Hffv. split.
      + intros HD. destruct (decide (D ∈ ffv)) as [H|H]; [left; by apply Hffv|right; split; [done|]]. intros Hn. apply H, Hffv. done.
      + tauto. }
  assert (factor_list cp (Dv ++ elements (S ∖ ffv))) as Hfl' by by rewrite <- Hperm.
  pose proof (factor_list_app_l _ _ _ Hfl') as HflV.
  assert (Dv <> []) as Hne.
  { destruct Hex as (D & HD & Hv). intros He. assert (D ∈ Dv) as H by (by apply HDv). rewrite He in H. by apply elem_of_nil in H. }
  assert (forall D g, D ∈ Dv -> is_Some (D !! g) -> having v g) as Hhv.
  { intros D g HD Hg. pose proof HD as HD'. apply HDv in HD as [_ HD]. by apply (fvar_all cp Dv D v g). }
  match goal with |- context [for_res ?f ?o1 _ _] => set (fn := f); generalize o1; intros o1' end.
  pose proof (for_res_set_ind (fun Y jf => ss_cp jf = cp /\ forall G c, ss_map jf !! G = Some c <-> prod_of Dv G c /\ exists x, x ∈ Y /\ has v x G)
    (fun x => x = AssertionError /\ exists Dv sel, NoDup Dv /\ (forall D, D ∈ Dv -> D ∈ S /\ fvar D v) /\ picked Dv sel /\ unnoticed sel.*1)
    fn o1' (sub o 2) (ssb_new cp) vals) as H.
  match type of H with ?A -> ?B -> _ => assert A as HA; [|assert B as HB; [|specialize (H HA HB)]] end.
  { split; [done|]. intros G c. cbn [ssb_new ss_map]. rewrite lookup_empty. split; [done|]. by intros [_ (x & Hx%elem_of_empty & _)]. }
  { intros Y x jf o' Hx HxY HY [Hcp Hjf]. unfold fn.
    change ((fun f : gmap graph Z => filter (fun kv => have_value kv.1 v x = true) f) <$> Dv) with (at_value v x <$> Dv).
    rewrite list_filter_all.
    2:{ intros F HF. apply elem_of_at_value in HF as (E & HE & ->). apply HDv in HE as [HE HEv].
        destruct (Hval E x HE HEv Hx) as (g & [c Hg] & Hgx). intros He. assert (at_value v x E !! g = Some c) as Hl by by apply at_value_lookup.
        rewrite He in Hl. by rewrite lookup_empty in Hl. }
    pose proof (join_factors_spec cp v (at_value v x <$> Dv) (sub o' 0) [] []) as Hj. cbn [app] in Hj.
    change (Samples cp (list_to_map [])) with (ssb_new cp) in Hj.
    match type of Hj with ?A1 -> ?A2 -> ?A3 -> ?A4 -> ?A5 -> ?A6 -> _ =>
      assert A1 as G1; [|assert A2 as G2; [|assert A3 as G3; [|assert A4 as G4; [|assert A5 as G5; [constructor|assert A6 as G6;
        [|specialize (Hj G1 G2 G3 G4 G5 G6)]]]]]] end.
    { apply separate_at, (fl_sep cp), HflV. }
    { intros F HF. apply elem_of_at_value in HF as (E & HE & ->). by apply good_at, (fl_good cp Dv). }
    { intros F g HF Hg. apply elem_of_at_value in HF as (E & HE & ->). apply at_value_some in Hg as [Hg _].
      split; [by apply (Hhv E)|by apply (fl_sv cp Dv HflV E)]. }
    { intros F HF. apply elem_of_at_value in HF as (E & HE & ->). apply HDv in HE as [HE HEv].
      destruct (Hval E x HE HEv Hx) as (g & [c Hg] & Hgx). intros He. assert (at_value v x E !! g = Some c) as Hl by by apply at_value_lookup.
      rewrite He in Hl. by rewrite lookup_empty in Hl. }
    { right. by destruct Dv. }
    destruct (join_factors (sub o' 0) cp (at_value v x <$> Dv) (ssb_new cp)) as [r|e]; cbn [mbind res_bind].
    2:{ destruct Hj as (-> & sel & Hp & Hu). split; [done|]. apply picked_at in Hp as [Hp _]. exists Dv, sel.
        split_and!; [by apply (fl_NoDup cp)|intros D; by apply HDv|done|done]. }
    destruct Hj as [Hrc Hr].
    assert (forall G c, ss_map r !! G = Some c <-> prod_of Dv G c /\ has v x G) as Hr'.
    { intros G c. rewrite Hr. apply prod_at; [done|]. intros F HF g Hg. by apply (Hhv F). }
    assert (ss_map jf ##ₘ ss_map r) as Hdisj.
    { apply map_disjoint_spec. intros G c1 c2 H1 H2. apply Hjf in H1 as [HG1 (y & Hy & Hy')]. apply Hr' in H2 as [_ H2].
      assert (x = y) as ->; [|done]. destruct HG1 as (sel & _ & _ & Hsv & _). by apply (Hsv v). }
    rewrite add_all_fresh; [|congruence|done]. split; [done|]. intros G c. cbn [ss_map]. rewrite lookup_union_Some by done. rewrite Hjf, Hr'. split.
    - intros [[HG (y & Hy & Hy')]|[HG Hy]].
      + split; [done|]. exists y. split; [apply elem_of_union; by right|done].
      + split; [done|]. exists x. split; [apply elem_of_union; left; by apply elem_of_singleton|done].
    - intros [HG (y & Hy & Hy')]. apply elem_of_union in Hy as [->%elem_of_singleton|Hy]; [by right|left; eauto]. }
  destruct (for_res fn o1' (ssb_new cp) (iter_set (sub o 2) vals)) as [jf|e]; cbn [mbind res_bind]; [|done].
  destruct H as [Hcp Hjf]. exists Dv, (elements (S ∖ ffv)), (ss_map jf). split_and!; [done| | |done| |].
  - intros D HD. by apply HDv in HD as [_ HD].
  - intros D HD Hv. apply elem_of_elements, elem_of_difference in HD as [HD Hn]. apply Hn, Hffv. done.
  - intros G c. rewrite Hjf. split; [tauto|]. intros HG. split; [done|]. destruct HG as (sel & Hp & -> & _). cbn [app] in *.
    destruct Dv as [|D Ds]; [done|]. destruct sel as [|[g d] sel]; [by apply Forall2_nil_inv_r in Hp|].
    apply Forall2_cons in Hp as [Hg _]. cbn [fst snd] in Hg. destruct (Hhv D g) as [x Hx]; [left|by eexists|].
    exists x. split; [|apply nodes_merge; exists g; split; [left|done]]. apply (Hval' D g x); [apply HDv; left|by eexists|done].
  - intros D. rewrite elem_of_union, elem_of_singleton, elem_of_cons, elem_of_elements. tauto.
Qed.

(** ** Full support *)

Lemma picks_full cp ss Fs0 (a : Var -> Val) Fs : factors_of cp ss Fs0 -> full_support ss -> (forall F, F ∈ Fs -> F ∈ Fs0) ->
  (forall F v, F ∈ Fs -> fvar F v -> occurs ss (v, a v)) ->
  exists sel, picked Fs sel /\ forall g, g ∈ sel.*1 -> forall v, having v g -> has v (a v) g.
Proof.
  intros Hss Hfs. pose proof (fo_list _ _ _ Hss) as Hf0. induction Fs as [|F Fs IH]; intros Hin Ha.
  - exists []. split; [constructor|]. intros g Hg. by apply elem_of_nil in Hg.
  - destruct IH as (sel & Hp & Hv); [intros E HE; apply Hin; by right|intros E v HE; apply Ha; by right|].
    assert (F ∈ Fs0) as HF by (apply Hin; left). destruct (map_choose F (fl_ne _ _ Hf0 F HF)) as (g & c & Hg).
    destruct (Hfs g a) as (h & Hh & Hsp & Hhv).
    { apply (factors_contains cp ss Fs0); [done|]. exists F. split; [done|by eexists]. }
    { intros v Hgv. apply (Ha F v); [left|]. exists g. split; [by eexists|done]. }
    apply (factors_contains cp ss Fs0) in Hh as (F' & HF' & [d Hh]); [|done].
    assert (F = F') as <-.
    { apply (fl_same cp Fs0 F F' g h); [done|done|done|by eexists|by eexists|]. apply (same_overlap cp); [|done].
      apply (fl_graph cp Fs0 F); [done|done|by eexists]. }
    exists ((h, d) :: sel). split; [by constructor|]. cbn [fmap list_fmap fst]. intros k [->|Hk]%elem_of_cons; [done|by apply Hv].
Qed.

Lemma consistent_picks cp Fs0 (a : Var -> Val) Fs sel : factor_list cp Fs0 -> (forall F, F ∈ Fs -> F ∈ Fs0) -> picked Fs sel ->
  (forall g, g ∈ sel.*1 -> forall v, having v g -> has v (a v) g) -> forall v x, (v, x) ∈ g_nodes (merge sel.*1) -> x = a v.
Proof.
  intros Hf0 Hin Hp Ha v x Hx. apply nodes_merge in Hx as (g & Hg & Hx). destruct (picked_lookup _ _ _ _ Hp Hp Hg) as (F & _ & HF & HFg & _).
  apply (fl_sv _ _ Hf0 F g (Hin F HF) HFg v); [done|]. apply Ha; [done|]. by exists x.
Qed.

Lemma space_values ss : exists m : gmap Var Val, forall v,
  (forall y, m !! v = Some y -> occurs ss (v, y)) /\ (m !! v = None -> forall x, ~ occurs ss (v, x)).
Proof.
  set (l := concat ((fun g => elements (g_nodes g)) <$> elements (dom (ss_map ss)))).
  assert (forall n, n ∈ l <-> occurs ss n) as Hl.
  { intros n. unfold l. rewrite elem_of_concat. unfold occurs. split.
    - intros (k & Hk & Hn). apply elem_of_list_fmap in Hk as (g & -> & Hg). exists g. split; [|by apply elem_of_elements].
      by apply elem_of_elements, elem_of_dom in Hg.
    - intros (g & Hg & Hn). exists (elements (g_nodes g)). split; [|by apply elem_of_elements]. apply elem_of_list_fmap. exists g.
      split; [done|]. by apply elem_of_elements, elem_of_dom. }
  exists (list_to_map l). intros v. split.
  - intros y Hy. apply elem_of_list_to_map_2 in Hy. by apply Hl.
  - intros Hn x Hx. apply not_elem_of_list_to_map_2 in Hn. apply Hn, elem_of_list_fmap. exists (v, x). split; [done|]. by apply Hl.
Qed.

Lemma full_feasible cp ss Fs0 : factors_of cp ss Fs0 -> full_support ss -> feasible Fs0.
Proof.
  intros Hss Hfs. pose proof (fo_list _ _ _ Hss) as Hf0. destruct Fs0 as [|F Fs].
  { exists []. split; [constructor|]. intros v x y Hx. apply nodes_merge in Hx as (g & Hg & _). by apply elem_of_nil in Hg. }
  assert (F ∈ F :: Fs) as HF by left. destruct (map_choose F (fl_ne _ _ Hf0 F HF)) as (g & c & Hg).
  pose proof (fl_graph cp (F :: Fs) F g Hf0 HF ltac:(by eexists)) as Hgg. destruct (set_choose_L _ (gg_ne _ _ Hgg)) as [[v0 x0] _].
  destruct (space_values ss) as [m Hm].
  pose (a := fun v => default x0 (m !! v)).
  destruct (picks_full cp ss (F :: Fs) a (F :: Fs) Hss Hfs) as (sel & Hp & Ha); [done| |].
  { intros E v HE (h & Hh & Hv). unfold a. destruct Hv as [x Hx]. assert (occurs ss (v, x)) as Ho.
    { exists h. split; [|done]. apply (factors_contains cp ss (F :: Fs)); [done|]. eauto. }
    destruct (Hm v) as [H _]. destruct (m !! v) as [y|] eqn:Hy; [by apply H|]. exfalso. destruct (Hm v) as [_ H']. apply (H' Hy x Ho). }
  exists sel. split; [done|]. intros v x y Hx Hy.
  rewrite (consistent_picks cp (F :: Fs) a (F :: Fs) sel Hf0 (fun _ H => H) Hp Ha v x Hx).
  by rewrite (consistent_picks cp (F :: Fs) a (F :: Fs) sel Hf0 (fun _ H => H) Hp Ha v y Hy).
Qed.

(** ** All variables *)

Definition all_of (cp : provider) Ds : samples := Samples cp (foldr (∪) ∅ Ds).

Lemma all_of_factors cp Ds : factor_list cp Ds -> factors_of cp (all_of cp Ds) Ds.
Proof.
  intros Hf. split; [done| |done]. intros G c. cbn [all_of ss_map]. induction Ds as [|D Ds IH]; cbn [foldr].
  - rewrite lookup_empty. split; [done|]. by intros (D & HD%elem_of_nil & _).
  - rewrite lookup_union_Some_raw, IH by by apply (factor_list_app_r cp [D] Ds). setoid_rewrite elem_of_cons. split.
    + intros [HG|[HG (E & HE & HEG)]]; [exists D; auto|exists E; auto].
    + intros (E & [->|HE] & HG); [by left|]. destruct (D !! G) as [d|] eqn:Hd; [|right; eauto]. left.
      assert (D = E) as ->; [|congruence]. apply (fl_same cp (D :: Ds) D E G G); [done|left|by right|by eexists|by eexists|].
      apply (overlap_refl cp), (fl_graph cp (D :: Ds) D); [done|left|by eexists].
Qed.

Lemma joined_to_perm cp ss Fs0 V Y acc Ds Ds' P : Ds ≡ₚ Ds' -> joined_to cp ss Fs0 V Y acc Ds P ->
  exists P', joined_to cp ss Fs0 V Y acc Ds' P'.
Proof.
  intros Hp [J1 J2 J3 J4 J5 J6]. destruct (Forall2_perm _ _ _ _ Hp J2) as (P' & HR & HP). exists P'. split; [|done| | | |].
  - destruct J1 as [H1 H2 H3]. split; [done| |by rewrite <- Hp]. intros G c. rewrite H2. by setoid_rewrite Hp.
  - by rewrite <- (concat_perm _ _ HP).
  - intros Fs. rewrite <- HP. apply J4.
  - intros Fs F F' g g'. rewrite <- HP. apply J5.
  - intros v D D' Hv. rewrite <- !Hp. by apply J6.
Qed.

Lemma cluster_mono ss V V' g h : V ⊆ V' -> cluster ss V g h -> cluster ss V' g h.
Proof.
  intros HV H. unfold cluster in *. eapply rtc_subrel; [|exact H]. intros x y [Hc Hxy]. split; [done|].
  destruct Hxy as [Hxy|(v & Hv & H1 & H2)]; [by left|right]. exists v. split_and!; [by apply HV|done|done].
Qed.

Lemma joined_to_mono cp ss Fs0 V V' Y acc Ds P : V ⊆ V' -> joined_to cp ss Fs0 V Y acc Ds P -> joined_to cp ss Fs0 V' Y acc Ds P.
Proof.
  intros HV [J1 J2 J3 J4 J5 J6]. split; [done..| |done]. intros Fs F F' g g' HFs HF HF' Hg Hg'.
  eapply cluster_mono; [done|]. by apply (J5 Fs F F').
Qed.

(** Facts about an intermediate state. *)
Lemma joined_values cp ss Fs0 V Y acc Ds P v x D : factors_of cp ss Fs0 -> full_support ss ->
  joined_to cp ss Fs0 V Y acc Ds P -> D ∈ Ds -> fvar D v -> occurs ss (v, x) -> exists g, is_Some (D !! g) /\ has v x g.
Proof.
  intros Hss Hfs [J1 J2 J3 J4 J5 J6] HD Hv Hx. pose proof (fo_list _ _ _ Hss) as Hf0. pose proof (fo_list _ _ _ J1) as HfD.
  destruct (represents_elem Ds P D J2 HD) as (Fs & HFs & HR).
  assert (forall F, F ∈ Fs -> F ∈ Fs0) as Hin by (intros F HF; rewrite <- J3; apply elem_of_concat; eauto).
  pose proof (represents_var cp Fs0 Ds P D Fs) as Hvar.
  destruct (space_values ss) as [m Hm]. pose (a := fun w => if decide (w = v) then x else default x (m !! w)).
  destruct (picks_full cp ss Fs0 a Fs Hss Hfs Hin) as (sel & Hp & Ha).
  { intros F w HF (g & Hg & [y Hy]). unfold a. destruct (decide (w = v)) as [->|_]; [done|].
    assert (occurs ss (w, y)) as Ho.
    { exists g. split; [|done]. apply (factors_contains cp ss Fs0); [done|]. exists F. split; [by apply Hin|done]. }
    destruct (Hm w) as [H H']. destruct (m !! w) as [z|] eqn:Hz; [by apply H|]. destruct (H' eq_refl y Ho). }
  pose proof (consistent_picks cp Fs0 a Fs sel Hf0 Hin Hp Ha) as Hc.
  assert (prod_of Fs (merge sel.*1) (product sel.*2)) as HG.
  { exists sel. split_and!; [done|done| |done]. intros w y z Hy Hz. by rewrite (Hc w y Hy), (Hc w z Hz). }
  exists (merge sel.*1). apply HR in HG. split; [by eexists|].
  assert (having v (merge sel.*1)) as [y Hy] by (apply (fvar_all cp Ds D v); [done|done|by eexists|done]).
  pose proof (Hc v y Hy) as Heq. unfold a in Heq. rewrite decide_True in Heq by done. by subst y.
Qed.

Lemma joined_occurs cp ss Fs0 V Y acc Ds P D g n : factors_of cp ss Fs0 ->
  joined_to cp ss Fs0 V Y acc Ds P -> D ∈ Ds -> is_Some (D !! g) -> n ∈ g_nodes g -> occurs ss n.
Proof.
  intros Hss [J1 J2 J3 J4 J5 J6] HD [c Hc] Hn. destruct (represents_elem Ds P D J2 HD) as (Fs & HFs & HR).
  apply HR in Hc. destruct Hc as (sel & Hp & -> & _). cbn [app] in *. apply nodes_merge in Hn as (k & Hk & Hn). exists k. split; [|done].
  destruct (picked_lookup _ _ _ _ Hp Hp Hk) as (F & _ & HF & HFk & _). apply (factors_contains cp ss Fs0); [done|]. exists F. split; [|done].
  rewrite <- J3. apply elem_of_concat. eauto.
Qed.

Lemma joined_has_var cp ss Fs0 V Y acc Ds P v x : factors_of cp ss Fs0 ->
  joined_to cp ss Fs0 V Y acc Ds P -> occurs ss (v, x) -> exists D, D ∈ Ds /\ fvar D v.
Proof.
  intros Hss [J1 J2 J3 J4 J5 J6] (g & Hg & Hx). pose proof (fo_list _ _ _ Hss) as Hf0. pose proof (fo_list _ _ _ J1) as HfD.
  apply (factors_contains cp ss Fs0) in Hg as (F & HF & Hg); [|done].
  assert (exists Fs, Fs ∈ P /\ F ∈ Fs) as (Fs & HFs & HF1) by (apply elem_of_concat; by rewrite J3).
  destruct (represents_elem_r Ds P Fs J2 HFs) as (D & HD & HR). exists D. split; [done|].
  apply (represents_var cp Fs0 Ds P D Fs v Hf0 HfD J3 HD HFs HR). exists F. split; [done|]. exists g. split; [done|by exists x].
Qed.

(** A factor of an intermediate state takes its variables from outcomes of the space, different factors from
    different kinds. *)
Definition source Ds (P : list (list (gmap graph Z))) (v : Var) D g : Prop :=
  exists i Fs F, Ds !! i = Some D /\ P !! i = Some Fs /\ F ∈ Fs /\ is_Some (F !! g) /\ having v g.

Lemma source_exists cp ss Fs0 V Y acc Ds P v D : factors_of cp ss Fs0 -> joined_to cp ss Fs0 V Y acc Ds P ->
  D ∈ Ds -> fvar D v -> exists g, source Ds P v D g /\ contains ss g /\ having v g.
Proof.
  intros Hss [J1 J2 J3 J4 J5 J6] HD Hv. pose proof (fo_list _ _ _ Hss) as Hf0. pose proof (fo_list _ _ _ J1) as HfD.
  apply elem_of_list_lookup in HD as [i Hi]. destruct (Forall2_lookup_l _ _ _ _ _ J2 Hi) as (Fs & Hi' & HR).
  pose proof (elem_of_list_lookup_2 _ _ _ Hi) as HD. pose proof (elem_of_list_lookup_2 _ _ _ Hi') as HFs.
  apply (represents_var cp Fs0 Ds P D Fs v Hf0 HfD J3 HD HFs HR) in Hv as (F & HF & g & Hg & Hv).
  exists g. split_and!; [|apply (factors_contains cp ss Fs0); [done|]|done].
  - exists i, Fs, F. done.
  - exists F. split; [|done]. rewrite <- J3. apply elem_of_concat. eauto.
Qed.

Lemma source_differ cp ss Fs0 V Y acc Ds P v w D1 D2 g1 g2 : factors_of cp ss Fs0 -> joined_to cp ss Fs0 V Y acc Ds P ->
  source Ds P v D1 g1 -> source Ds P w D2 g2 -> D1 <> D2 -> ~ same_pairs g1 g2.
Proof.
  intros Hss [J1 J2 J3 J4 J5 J6] (i & Fs1 & F1 & Hi & Hi' & HF1 & Hg1 & _) (j & Fs2 & F2 & Hj & Hj' & HF2 & Hg2 & _) Hne Hsp.
  pose proof (fo_list _ _ _ Hss) as Hf0.
  assert (i <> j) as Hij by (intros ->; congruence).
  assert (forall k Fs F, P !! k = Some Fs -> F ∈ Fs -> F ∈ Fs0) as Hin.
  { intros k Fs F HFs HF. rewrite <- J3. apply elem_of_concat. exists Fs. split; [by eapply elem_of_list_lookup_2|done]. }
  assert (F1 = F2) as <-.
  { apply (fl_same cp Fs0 F1 F2 g1 g2); [done|eapply Hin; [exact Hi'|done]|eapply Hin; [exact Hj'|done]|done|done|]. apply (same_overlap cp); [|done].
    apply (fl_graph cp Fs0 F1); [done|eapply Hin; [exact Hi'|done]|done]. }
  assert (NoDup (concat P)) as Hnd by (rewrite J3; by apply (fl_NoDup cp)).
  clear -Hnd Hi' Hj' Hij HF1 HF2. revert i j Hi' Hj' Hij Hnd. induction P as [|Q P IH]; intros i j Hi Hj Hij Hnd; [done|].
  cbn [concat] in Hnd. apply NoDup_app in Hnd as (_ & Hd & Hnd). destruct i as [|i], j as [|j]; cbn in Hi, Hj; simplify_eq.
  - apply (Hd F1 HF1), elem_of_concat. exists Fs2. split; [by eapply elem_of_list_lookup_2|done].
  - apply (Hd F1 HF2), elem_of_concat. exists Fs1. split; [by eapply elem_of_list_lookup_2|done].
  - apply (IH i j); [done|done|lia|done].
Qed.

Lemma source_linked cp ss Fs0 V Y acc Ds P v w D g h : factors_of cp ss Fs0 -> joined_to cp ss Fs0 V Y acc Ds P -> NoDup Ds ->
  source Ds P v D g -> source Ds P w D h -> cluster ss V g h.
Proof.
  intros Hss [J1 J2 J3 J4 J5 J6] Hnd (i & Fs1 & F1 & Hi & Hi' & HF1 & Hg1 & _) (j & Fs2 & F2 & Hj & Hj' & HF2 & Hg2 & _).
  assert (i = j) as <- by by eapply NoDup_lookup. assert (Fs1 = Fs2) as <- by congruence.
  apply (J5 Fs1 F1 F2); [by eapply elem_of_list_lookup_2|done..].
Qed.

(** Two factors of an intermediate state with two common variables close a cycle. *)
Lemma joined_cycle cp ss Fs0 Y acc Ds P v w D1 D2 : factors_of cp ss Fs0 -> joined_to cp ss Fs0 Y Y acc Ds P ->
  v ∉ Y -> v <> w -> D1 ∈ Ds -> D2 ∈ Ds -> D1 <> D2 -> fvar D1 v -> fvar D2 v -> fvar D1 w -> fvar D2 w -> cyclic ss.
Proof.
  intros Hss HJ HvY Hvw HD1 HD2 Hne Hv1 Hv2 Hw1 Hw2.
  pose proof (fl_NoDup _ _ (fo_list _ _ _ (jt_factors _ _ _ _ _ _ _ _ HJ))) as Hnd.
  destruct (source_exists _ _ _ _ _ _ _ _ v D1 Hss HJ HD1 Hv1) as (gv1 & Sv1 & Cv1 & Gv1).
  destruct (source_exists _ _ _ _ _ _ _ _ v D2 Hss HJ HD2 Hv2) as (gv2 & Sv2 & Cv2 & Gv2).
  destruct (source_exists _ _ _ _ _ _ _ _ w D1 Hss HJ HD1 Hw1) as (gw1 & Sw1 & Cw1 & Gw1).
  destruct (source_exists _ _ _ _ _ _ _ _ w D2 Hss HJ HD2 Hw2) as (gw2 & Sw2 & Cw2 & Gw2).
  exists v, (Y ∪ {[w]}), gv1, gv2. split_and!; [|done|done|done|done| |].
  - intros [Hv|Hv%elem_of_singleton]%elem_of_union; done.
  - by apply (source_differ cp ss Fs0 Y Y acc Ds P v v D1 D2).
  - transitivity gw1; [|transitivity gw2].
    + apply (cluster_mono ss Y); [intros z Hz; apply elem_of_union; by left|]. by apply (source_linked cp ss Fs0 Y Y acc Ds P v w D1).
    + apply rtc_once. split; [done|]. right. exists w. split_and!; [|done|done]. apply elem_of_union. right. by apply elem_of_singleton.
    + apply (cluster_mono ss Y); [intros z Hz; apply elem_of_union; by left|]. by apply (source_linked cp ss Fs0 Y Y acc Ds P w v D2).
Qed.

(** Three factors of an intermediate state with a common variable come from three kinds. *)
Lemma joined_crowded cp ss Fs0 V Y acc Ds P v D1 D2 D3 : factors_of cp ss Fs0 -> joined_to cp ss Fs0 V Y acc Ds P ->
  D1 ∈ Ds -> D2 ∈ Ds -> D3 ∈ Ds -> D1 <> D2 -> D1 <> D3 -> D2 <> D3 -> fvar D1 v -> fvar D2 v -> fvar D3 v -> crowded ss.
Proof.
  intros Hss HJ HD1 HD2 HD3 H12 H13 H23 Hv1 Hv2 Hv3.
  destruct (source_exists _ _ _ _ _ _ _ _ v D1 Hss HJ HD1 Hv1) as (g1 & S1 & C1 & G1).
  destruct (source_exists _ _ _ _ _ _ _ _ v D2 Hss HJ HD2 Hv2) as (g2 & S2 & C2 & G2).
  destruct (source_exists _ _ _ _ _ _ _ _ v D3 Hss HJ HD3 Hv3) as (g3 & S3 & C3 & G3).
  exists v, g1, g2, g3. split_and!; [done|done|done|done|done|done| | |].
  - by apply (source_differ cp ss Fs0 V Y acc Ds P v v D1 D2).
  - by apply (source_differ cp ss Fs0 V Y acc Ds P v v D1 D3).
  - by apply (source_differ cp ss Fs0 V Y acc Ds P v v D2 D3).
Qed.

Lemma joined_variable_step cp ss Fs0 Y o acc S P v vals :
  factors_of cp ss Fs0 -> full_support ss -> joined_to cp ss Fs0 Y Y acc (elements S) P -> v ∉ Y ->
  vals <> ∅ -> (forall x, x ∈ vals <-> occurs ss (v, x)) ->
  match join_variable o cp S v vals with
  | Ok S' => exists acc' P', joined_to cp ss Fs0 ({[v]} ∪ Y) ({[v]} ∪ Y) acc' (elements S') P'
  | Err x => x = AssertionError /\ cyclic ss /\ crowded ss
  end.
Proof.
  intros Hss Hfs Hj HvY Hne Hvals. pose proof (fo_list _ _ _ (jt_factors _ _ _ _ _ _ _ _ Hj)) as HfD.
  pose proof (join_variable_spec cp o S v vals HfD) as H.
  match type of H with ?A1 -> ?A2 -> ?A3 -> _ => assert A1 as G1; [|assert A2 as G2; [|assert A3 as G3; [|specialize (H G1 G2 G3)]]] end.
  { apply set_choose_L in Hne as [x Hx]. apply Hvals in Hx. destruct (joined_has_var _ _ _ _ _ _ _ _ _ _ Hss Hj Hx) as (D & HD & Hv).
    exists D. split; [by apply elem_of_elements|done]. }
  { intros D x HD Hv Hx. apply (joined_values cp ss Fs0 Y Y acc (elements S) P v x D Hss Hfs Hj); [by apply elem_of_elements|done|by apply Hvals]. }
  { intros D g x HD Hg Hx. apply Hvals. apply (joined_occurs cp ss Fs0 Y Y acc (elements S) P D g (v, x) Hss Hj); [by apply elem_of_elements|done|done]. }
  destruct (join_variable o cp S v vals) as [S'|x].
  - destruct H as (Dv & Dr & D' & Hp & HDv & HDr & Hnil & HD' & HS').
    assert (factor_list cp (D' :: Dr)) as Hfl.
    { apply (joined_factor_list cp Dv Dr v D'); [by rewrite <- Hp|done|done| |done]. apply (feasible_app_l Dv Dr). rewrite <- Hp.
      by eapply joined_to_feasible, full_feasible. }
    destruct (joined_merge cp ss Fs0 ({[v]} ∪ Y) Y acc (all_of cp (D' :: Dr)) (elements S) P v Dv Dr D') as (P' & HP').
    + done.
    + apply elem_of_union. left. by apply elem_of_singleton.
    + eapply joined_to_mono; [|done]. intros z Hz. apply elem_of_union. by right.
    + done.
    + done.
    + done.
    + done.
    + done.
    + by apply all_of_factors.
    + assert (D' :: Dr ≡ₚ elements S') as Hp'.
      { apply NoDup_Permutation; [by apply (fl_NoDup cp)|apply NoDup_elements|]. intros D. by rewrite elem_of_elements, HS'. }
      destruct (joined_to_perm _ _ _ _ _ _ _ _ _ Hp' HP') as (P'' & HP''). eauto.
  - destruct H as (-> & Dv & sel & Hnd & HDv & Hp & Hcom & w & x1 & y & Hx & Hy & Hxy). split; [done|].
    apply nodes_merge in Hx as Hx'. apply nodes_merge in Hy as Hy'. destruct Hx' as (g1 & Hg1 & Hx1), Hy' as (g2 & Hg2 & Hy2).
    apply elem_of_list_lookup in Hg1 as [i Hi], Hg2 as [j Hk]. rewrite list_lookup_fmap in Hi, Hk.
    apply fmap_Some in Hi as ([g1' c1] & Hi & Heq1), Hk as ([g2' c2] & Hk & Heq2). cbn [fst] in Heq1, Heq2. subst g1' g2'.
    destruct (Forall2_lookup_r _ _ _ _ _ Hp Hi) as (D1 & HI1 & HDg1'). destruct (Forall2_lookup_r _ _ _ _ _ Hp Hk) as (D2 & HI2 & HDg2').
    cbn [fst snd] in HDg1', HDg2'. assert (is_Some (D1 !! g1)) as HDg1 by by eexists. assert (is_Some (D2 !! g2)) as HDg2 by by eexists.
    pose proof (elem_of_list_lookup_2 _ _ _ HI1) as HD1. pose proof (elem_of_list_lookup_2 _ _ _ HI2) as HD2.
    destruct (HDv D1 HD1) as [HS1 Hv1], (HDv D2 HD2) as [HS2 Hv2]. apply elem_of_elements in HS1, HS2.
    assert (v <> w) as Hvw.
    { intros <-. apply Hxy. apply (Hcom v x1 y); [|done|done]. intros g Hg. destruct (picked_lookup _ _ _ _ Hp Hp Hg) as (D & _ & HD & HDg & _).
      destruct (HDv D HD) as [HS Hv]. apply (fvar_all cp (elements S) D v g); [done|by apply elem_of_elements|done|done]. }
    destruct (decide (D1 = D2)) as [<-|Hn].
    + exfalso. assert (i = j) as -> by by eapply NoDup_lookup. assert (g1 = g2) as -> by congruence.
      apply Hxy. by apply (fl_sv _ _ HfD D1 g2 HS1 HDg2 w).
    + assert (fvar D1 w) as Hw1 by (exists g1; split; [done|by eexists]). assert (fvar D2 w) as Hw2 by (exists g2; split; [done|by eexists]).
      split; [by apply (joined_cycle cp ss Fs0 Y acc (elements S) P v w D1 D2)|].
      (* some selected outcome lacks [w], otherwise [can_join_samples] had looked at it *)
      destruct (decide (Forall (fun g => having w g) sel.*1)) as [Hall|Hno].
      { exfalso. apply Hxy. apply (Hcom w x1 y); [|done|done]. by rewrite <- Forall_forall. }
      apply not_Forall_Exists in Hno; [|intros g; apply _]. apply Exists_exists in Hno as (g3 & Hg3 & Hw3).
      destruct (picked_lookup _ _ _ _ Hp Hp Hg3) as (D3 & _ & HD3 & HDg3 & _). destruct (HDv D3 HD3) as [HS3 Hv3]. apply elem_of_elements in HS3.
      assert (~ fvar D3 w) as Hn3 by (intros Hf; by apply Hw3, (fvar_all cp (elements S) D3 w)).
      apply (joined_crowded cp ss Fs0 Y Y acc (elements S) P v D1 D2 D3); [done..| | |done|done|done]; intros <-; done.
Qed.

Lemma C39_full o sp :
  ss_cp (sp_out sp) = sp_cp sp -> all_wf (sp_cp sp) (sp_out sp) -> one_valued (sp_out sp) -> all_simple (sp_out sp) ->
  factorable (sp_out sp) -> full_support (sp_out sp) ->
  match make_joined o sp with
  | Ok sp' => sp_cp sp' = sp_cp sp /\ ss_cp (sp_out sp') = sp_cp sp /\ ~ disconnected (sp_out sp) /\
      (forall G c, count_of (sp_out sp') G = Ok c <->
        (exists h, contains (sp_out sp) h) /\ joint same_pairs anything (sp_out sp) G c) /\
      exists Ds, length Ds <= 1 /\ factors_of (sp_cp sp) (sp_out sp') Ds
  | Err x => x = AssertionError /\ (disconnected (sp_out sp) \/ cyclic (sp_out sp) /\ crowded (sp_out sp))
  end.
Proof.
  intros Hcp Hwf Hov Hsi Hfa Hfs. unfold make_joined.
  destruct (space_factors (sub o 0) sp Hcp Hwf Hov Hsi Hfa) as (S0 & -> & Hss). cbn [mbind res_bind].
  set (ss := sp_out sp) in *. set (cp := sp_cp sp) in *.
  pose proof (fo_list _ _ _ Hss) as Hf0.
  pose (m := sp_included_variables (sub o 3) sp). fold m.
  assert (forall v X, m !! v = Some X -> X <> ∅ /\ forall x, x ∈ X <-> occurs ss (v, x)) as Hm.
  { intros v X HX. pose proof (included_lemma (sub o 3) sp v) as H. fold m in H. by rewrite HX in H. }
  assert (forall v, occurs_var ss v -> v ∈ dom m) as Hm'.
  { intros v Hv. apply elem_of_dom. pose proof (included_lemma (sub o 3) sp v) as H. fold m in H. destruct (m !! v); [by eexists|done]. }
  match goal with |- context [for_res ?f ?o1 _ _] => set (fn := f); generalize o1; intros o1' end.
  pose proof (for_res_map_ind (fun (m' : gmap Var (gset Val)) S => exists acc P, joined_to cp ss (elements S0) (dom m') (dom m') acc (elements S) P)
    (fun x => x = AssertionError /\ cyclic ss /\ crowded ss) fn o1' (sub o 2) S0 m) as H.
  match type of H with ?A -> ?B -> _ => assert A as HA; [|assert B as HB; [|specialize (H HA HB)]] end.
  { rewrite dom_empty_L. exists ss. eexists. by apply joined_init. }
  { intros m' v X S o' HX Hv Hsub (acc & P & HJ). unfold fn. destruct (Hm v X HX) as [Hne HXs].
    pose proof (joined_variable_step cp ss (elements S0) (dom m') o' acc S P v X Hss Hfs HJ) as Hstep.
    rewrite dom_insert_L. apply Hstep; [|done|done]. by apply not_elem_of_dom. }
  destruct (for_res fn o1' S0 (iter_map (sub o 2) m)) as [S|x]; cbn [mbind res_bind].
  2:{ destruct H as [-> Hc]. auto. }
  destruct H as (acc & P & HJ). pose proof HJ as [J1 J2 J3 J4 J5 J6]. unfold passert.
  pose proof (feasible_joint cp ss (elements S0) Hss) as Hjoint.
  assert (forall g, contains ss g <-> exists F, F ∈ elements S0 /\ is_Some (F !! g)) as Hcon by (intros g; by apply (factors_contains cp)).
  destruct (decide (size S <= 1)%nat) as [Hsz|Hsz].
  - rewrite bool_decide_eq_true_2 by done. cbn [mbind res_bind]. cbn [sp_cp sp_out ss_cp].
    destruct (elements S) as [|D [|D2 Ds]] eqn:HS.
    + apply Forall2_nil_inv_l in J2 as ->. cbn [concat] in J3. apply Permutation_nil_l in J3.
      assert (forall g, ~ contains ss g) as Hno.
      { intros g Hg. apply Hcon in Hg as (F & HF & _). rewrite <- J3 in HF. by apply elem_of_nil in HF. }
      split_and!; [done|done| | |exists []; split; [simpl; lia|]].
      * intros (g & h & Hg & _). by apply (Hno g).
      * intros G c. rewrite count_of_lookup. cbn [ss_map]. rewrite lookup_empty. split; [done|]. intros [(h & Hh) _]. by destruct (Hno h).
      * split; [done| |exact (fo_list _ _ _ J1)]. intros G c. cbn [ss_map]. rewrite lookup_empty. split; [done|].
        by intros (D & HD%elem_of_nil & _).
    + apply Forall2_cons_inv_l in J2 as (Fs & P' & HR & HP' & ->). apply Forall2_nil_inv_l in HP' as ->.
      cbn [concat] in J3. rewrite (right_id_L [] (++)) in J3. split_and!; [done|done| | |exists [D]; split; [simpl; lia|]].
      * intros (g & h & Hg & Hh & Hn). apply (Hn (dom m)). apply Hcon in Hg as (F & HF & Hg), Hh as (F' & HF' & Hh).
        apply (J5 Fs F F'); [left|by rewrite J3|by rewrite J3|done|done].
      * intros G c. rewrite count_of_lookup. cbn [ss_map]. rewrite HR, J3, <- Hjoint. split; [|tauto]. intros HG. split; [|done].
        destruct Fs as [|F Fs]; [by destruct (J4 []); [left|]|]. assert (F ∈ elements S0) as HF by (rewrite <- J3; left).
        destruct (map_choose F (fl_ne _ _ Hf0 F HF)) as (h & d & Hh). exists h. apply Hcon. exists F. split; [done|by eexists].
      * split; [done| |exact (fo_list _ _ _ J1)]. intros G c. cbn [ss_map]. setoid_rewrite elem_of_list_singleton. naive_solver.
    + exfalso. apply (f_equal length) in HS. unfold size, set_size in Hsz. cbn in HS. change (length (elements S) <= 1)%nat in Hsz. lia.
  - rewrite bool_decide_eq_false_2 by done. cbn [mbind res_bind]. split; [done|]. left.
    destruct (elements S) as [|D1 [|D2 Ds]] eqn:HS; [exfalso; apply Hsz; change (length (elements S) <= 1)%nat; rewrite HS; simpl; lia..|].
    pose proof (fo_list _ _ _ J1) as HfD. pose proof (fl_NoDup _ _ HfD) as HndD.
    assert (D1 <> D2) as Hne12 by (apply NoDup_cons in HndD as [Hn _]; intros ->; apply Hn; left).
    apply Forall2_cons_inv_l in J2 as (Fs1 & P' & HR1 & HP' & ->). apply Forall2_cons_inv_l in HP' as (Fs2 & P'' & HR2 & HP'' & ->).
    destruct Fs1 as [|F1 Fs1]; [by destruct (J4 []); [left|]|]. destruct Fs2 as [|F2 Fs2]; [by destruct (J4 []); [right; left|]|].
    assert (F1 ∈ elements S0) as HF1 by (rewrite <- J3; left).
    assert (F2 ∈ elements S0) as HF2 by (rewrite <- J3; cbn [concat]; apply elem_of_app; right; left).
    destruct (map_choose F1 (fl_ne _ _ Hf0 F1 HF1)) as (g & d & Hg). destruct (map_choose F2 (fl_ne _ _ Hf0 F2 HF2)) as (h & e & Hh).
    assert (forall a b, contains ss a -> contains ss b -> forall V, cluster ss V a b -> cluster ss (dom m) a b) as Hall.
    { intros a b Ha Hb V Hc. unfold cluster in *. clear Ha Hb. eapply rtc_subrel; [|exact Hc]. intros x y [[Hx Hy] Hxy]. split; [done|].
      destruct Hxy as [?|(v & _ & Hvx & Hvy)]; [by left|right]. exists v. split_and!; [|done|done]. apply Hm'. destruct Hvx as [z Hz]. exists z, x. done. }
    exists g, h. assert (contains ss g) as Hcg by (apply Hcon; exists F1; split; [done|by eexists]).
    assert (contains ss h) as Hch by (apply Hcon; exists F2; split; [done|by eexists]). split_and!; [done|done|].
    intros V Hc. apply Hall in Hc; [|done|done].
    destruct (joined_closed cp ss (elements S0) (dom m) acc (D1 :: D2 :: Ds) ((F1 :: Fs1) :: (F2 :: Fs2) :: P'') Hss HJ (F1 :: Fs1) F1 g h)
      as (F & HF & HFh); [left|left|by eexists|done|].
    assert (F = F2) as ->.
    { apply (fl_same cp (elements S0) F F2 h h); [done|rewrite <- J3; cbn [concat]; apply elem_of_app; by left|done|done|by eexists|].
      apply (overlap_refl cp), (fl_graph cp (elements S0) F2); [done|done|by eexists]. }
    assert (NoDup (concat ((F1 :: Fs1) :: (F2 :: Fs2) :: P''))) as Hnd by (rewrite J3; by apply (fl_NoDup cp)).
    change (NoDup ((F1 :: Fs1) ++ concat ((F2 :: Fs2) :: P''))) in Hnd. apply NoDup_app in Hnd as (_ & Hd & _). apply (Hd F2 HF). left.
Qed.

Lemma C39_lemma o sp :
  ss_cp (sp_out sp) = sp_cp sp -> all_wf (sp_cp sp) (sp_out sp) -> one_valued (sp_out sp) -> all_simple (sp_out sp) ->
  factorable (sp_out sp) -> full_support (sp_out sp) ->
  match make_joined o sp with
  | Ok sp' => sp_cp sp' = sp_cp sp /\ ss_cp (sp_out sp') = sp_cp sp /\ ~ disconnected (sp_out sp) /\
      forall G c, count_of (sp_out sp') G = Ok c <->
        (exists h, contains (sp_out sp) h) /\ joint same_pairs anything (sp_out sp) G c
  | Err x => x = AssertionError /\ (disconnected (sp_out sp) \/ cyclic (sp_out sp) /\ crowded (sp_out sp))
  end.
Proof.
  intros H1 H2 H3 H4 H5 H6. pose proof (C39_full o sp H1 H2 H3 H4 H5 H6) as H. destruct (make_joined o sp); [|done]. tauto.
Qed.

End joined_facts.
