(** * SepFacts: separated factors are conditionally independent in the joined space. *)

From Verif Require Export CondJoinFacts SpecSep SpaceFacts FoldFacts BfsFacts.

Section sep_facts.
Context {U : Universe}.

Implicit Types (G g h : graph) (sp : space) (ss : samples).

Lemma elem_sel {sel : list (graph * Z)} g : g ∈ sel.*1 <-> exists c, (g, c) ∈ sel.
Proof.
  rewrite elem_of_list_fmap. split; [intros ([h c] & -> & H); by exists c|]. intros [c H]. by exists (g, c).
Qed.

Lemma NoDup_filter_fst (P : graph * Z -> Prop) {HdP : forall p, Decision (P p)} (l : list (graph * Z)) : NoDup l.*1 -> NoDup (filter P l).*1.
Proof.
  induction l as [|[g c] l IH]; [done|]. rewrite filter_cons. cbn [fmap list_fmap fst]. intros [Hn Hl]%NoDup_cons. case_decide; [|by apply IH].
  cbn [fmap list_fmap fst]. apply NoDup_cons. split; [|by apply IH]. intros (d & Hd)%elem_sel. apply elem_of_list_filter in Hd as [_ Hd].
  apply Hn, elem_sel. by exists d.
Qed.

Lemma product_perm l l' : l ≡ₚ l' -> product l = product l'.
Proof. induction 1; simpl; lia. Qed.

Lemma product_pos l : Forall (fun c => 0 < c)%Z l -> (0 < product l)%Z.
Proof. induction 1; simpl; lia. Qed.

Section separated.
Context (cp : provider) (ss : samples) (A : graph -> Prop) {HdA : forall g, Decision (A g)} (S : gset Var).
Context (Hwf : all_wf cp ss) (Hfa : factorable ss) (Hsep : separates ss A S).

Notation joined := (joint same_pairs anything ss).

Definition bnodes (b : bool) : gset node :=
  ⋃ ((fun g => if bool_decide (bool_decide (A g) = b) then g_nodes g else ∅) <$> (map_to_list (ss_map ss)).*1).
Definition bedges (b : bool) : gset edge :=
  ⋃ ((fun g => if bool_decide (bool_decide (A g) = b) then g_edges g else ∅) <$> (map_to_list (ss_map ss)).*1).
Definition part (b : bool) G : graph := Graph (g_nodes G ∩ bnodes b) (g_edges G ∩ bedges b).
Definition mix G H : graph :=
  Graph (g_nodes G ∩ bnodes true ∪ g_nodes H ∩ bnodes false) (g_edges G ∩ bedges true ∪ g_edges H ∩ bedges false).

Lemma in_space g : g ∈ (map_to_list (ss_map ss)).*1 <-> contains ss g.
Proof.
  rewrite elem_of_list_fmap. split.
  - intros ([h c] & -> & H). apply elem_of_map_to_list in H. by exists c.
  - intros [c H]. exists (g, c). split; [done|]. by apply elem_of_map_to_list.
Qed.

Lemma bnodes_spec b n : n ∈ bnodes b <-> exists g, contains ss g /\ bool_decide (A g) = b /\ n ∈ g_nodes g.
Proof.
  unfold bnodes. rewrite elem_of_union_list. split.
  - intros (X & HX & Hn). apply elem_of_list_fmap in HX as (g & -> & Hg). apply in_space in Hg.
    case_bool_decide as Hb; [|by apply elem_of_empty in Hn]. eauto.
  - intros (g & Hg & Hb & Hn). exists (g_nodes g). split; [|done]. apply elem_of_list_fmap. exists g.
    split; [by rewrite (bool_decide_eq_true_2 _ Hb)|by apply in_space].
Qed.
Lemma bedges_spec b e : e ∈ bedges b <-> exists g, contains ss g /\ bool_decide (A g) = b /\ e ∈ g_edges g.
Proof.
  unfold bedges. rewrite elem_of_union_list. split.
  - intros (X & HX & Hn). apply elem_of_list_fmap in HX as (g & -> & Hg). apply in_space in Hg.
    case_bool_decide as Hb; [|by apply elem_of_empty in Hn]. eauto.
  - intros (g & Hg & Hb & Hn). exists (g_edges g). split; [|done]. apply elem_of_list_fmap. exists g.
    split; [by rewrite (bool_decide_eq_true_2 _ Hb)|by apply in_space].
Qed.

Lemma side_kind g h : contains ss g -> contains ss h -> same_pairs g h -> bool_decide (A g) = bool_decide (A h).
Proof.
  intros Hg Hh Hs. apply bool_decide_ext. split; [by apply (sep_kind _ _ _ Hsep)|].
  apply (sep_kind _ _ _ Hsep); [done|done|]. intros p. by rewrite (Hs p).
Qed.

(** An edge belongs to one kind only. *)
Lemma edge_side g h e : contains ss g -> contains ss h -> e ∈ g_edges g -> e ∈ g_edges h -> bool_decide (A g) = bool_decide (A h).
Proof.
  intros Hg Hh Heg Heh. apply side_kind; [done|done|]. apply (proj2 Hfa); [done|done|].
  exists (inr (set_map fst e.1)). assert (forall v, v ∈ (set_map fst e.1 : gset Var) <-> has_var e.1 v) as Hv.
  { intros v. rewrite elem_of_map. split; [intros ([w x] & -> & H); by exists x|intros [x H]; by exists (v, x)]. }
  split; exists e; done.
Qed.

Lemma shared_side g h v : contains ss g -> contains ss h -> bool_decide (A g) <> bool_decide (A h) -> having v g -> having v h -> v ∈ S.
Proof.
  intros Hg Hh Hn Hvg Hvh. case_bool_decide; case_bool_decide; try done.
  - by apply (sep_shared _ _ _ Hsep g h).
  - by apply (sep_shared _ _ _ Hsep h g).
Qed.

Lemma sel_contains sel : selection same_pairs anything ss sel -> forall g, g ∈ sel.*1 -> contains ss g.
Proof. intros (_ & Hin & _) g [c Hg]%elem_sel. destruct (Hin g c Hg) as [Hl _]. by exists c. Qed.

(** Nodes and edges of a joined outcome that belong to a side come from the selected outcomes of that side. *)
Lemma joint_nodes sel G b n : selection same_pairs anything ss sel -> merged sel.*1 G -> single_valued (g_nodes G) ->
  (n ∈ g_nodes G /\ n ∈ bnodes b) <-> exists g, g ∈ sel.*1 /\ bool_decide (A g) = b /\ n ∈ g_nodes g.
Proof.
  intros Hsel HG Hsv. pose proof (sel_contains sel Hsel) as Hcon. destruct Hsel as (_ & _ & Hcov & _). split.
  - intros [Hn Hb]. apply bnodes_spec in Hb as (h & Hh & Hb & Hnh). destruct (Hcov h Hh I) as (k & Hk & Hs).
    exists k. split_and!; [done|by rewrite <- (side_kind h k Hh (Hcon k Hk) Hs)|]. destruct n as [v x].
    assert (having v k) as [y Hy].
    { apply (same_pairs_vars cp h k); [by apply Hwf|by apply Hwf, Hcon|done|by exists x]. }
    assert (x = y) as ->; [|done]. apply (Hsv v); [done|]. apply HG. eauto.
  - intros (g & Hg & Hb & Hn). split; [apply HG; eauto|]. apply bnodes_spec. eauto.
Qed.
Lemma joint_edges sel G b e : selection same_pairs anything ss sel -> merged sel.*1 G ->
  (e ∈ g_edges G /\ e ∈ bedges b) <-> exists g, g ∈ sel.*1 /\ bool_decide (A g) = b /\ e ∈ g_edges g.
Proof.
  intros Hsel HG. pose proof (sel_contains sel Hsel) as Hcon. split.
  - intros [Hn Hb]. apply bedges_spec in Hb as (h & Hh & Hb & Hnh). apply HG in Hn as (g & Hg & Hn).
    exists g. split_and!; [done| |done]. rewrite (edge_side g h e); auto.
  - intros (g & Hg & Hb & Hn). split; [apply HG; eauto|]. apply bedges_spec. eauto.
Qed.

Lemma joint_side G c n : joined G c -> n ∈ g_nodes G -> exists b, n ∈ bnodes b.
Proof.
  intros (sel & Hsel & HG & _) Hn. apply HG in Hn as (g & Hg & Hn). exists (bool_decide (A g)). apply bnodes_spec. exists g.
  split_and!; [by apply (sel_contains sel)|done|done].
Qed.
Lemma joint_edge_side G c e : joined G c -> e ∈ g_edges G -> exists b, e ∈ bedges b.
Proof.
  intros (sel & Hsel & HG & _) Hn. apply HG in Hn as (g & Hg & Hn). exists (bool_decide (A g)). apply bedges_spec. exists g.
  split_and!; [by apply (sel_contains sel)|done|done].
Qed.

Lemma bnodes_both n : n ∈ bnodes true -> n ∈ bnodes false -> n.1 ∈ S.
Proof.
  intros (g & Hg & Ag & Hng)%bnodes_spec (h & Hh & Ah & Hnh)%bnodes_spec. apply (shared_side g h); [done|done|by rewrite Ag, Ah| |];
    exists n.2; by destruct n.
Qed.
Lemma bedges_both e : e ∈ bedges true -> e ∈ bedges false -> False.
Proof.
  intros (g & Hg & Ag & Hng)%bedges_spec (h & Hh & Ah & Hnh)%bedges_spec.
  pose proof (edge_side g h e Hg Hh Hng Hnh) as Hs. rewrite Ag, Ah in Hs. done.
Qed.

(** Combining the [A]-part of one joined outcome with the rest of another. *)
Lemma mix_joint G c H d : joined G c -> joined H d -> agree (fun v => v ∈ S) G H ->
  exists cm cm', joined (mix G H) cm /\ joined (mix H G) cm' /\ (c * d = cm * cm')%Z.
Proof.
  intros (sel & Hs1 & HG & Hsv1 & Hc) (sel' & Hs2 & HH & Hsv2 & Hd) Hag.
  assert (forall G1 H1 sl sl', selection same_pairs anything ss sl -> selection same_pairs anything ss sl' ->
    merged sl.*1 G1 -> merged sl'.*1 H1 -> single_valued (g_nodes G1) -> single_valued (g_nodes H1) ->
    agree (fun v => v ∈ S) G1 H1 ->
    joined (mix G1 H1) (product (filter (fun p => A p.1) sl).*2 * product (filter (fun p => ~ A p.1) sl').*2)) as Hgen.
  { clear sel sel' G H c d Hs1 HG Hsv1 Hc Hs2 HH Hsv2 Hd Hag. intros G H sel sel' Hs1 Hs2 HG HH Hv1 Hv2 Hag.
    set (s := filter (fun p => A p.1) sel ++ filter (fun p => ~ A p.1) sel').
    assert (forall g c, (g, c) ∈ s <-> (g, c) ∈ sel /\ A g \/ (g, c) ∈ sel' /\ ~ A g) as Hs.
    { intros g c. unfold s. rewrite elem_of_app, !elem_of_list_filter. cbn [fst]. tauto. }
    assert (forall g, g ∈ s.*1 <-> g ∈ sel.*1 /\ A g \/ g ∈ sel'.*1 /\ ~ A g) as Hs'.
    { intros g. rewrite !elem_sel. setoid_rewrite Hs. naive_solver. }
    pose proof (sel_contains _ Hs1) as Hc1. pose proof (sel_contains _ Hs2) as Hc2.
    exists s. split_and!.
    - pose proof Hs1 as (Hnd1 & Hin1 & Hcov1 & Hun1). pose proof Hs2 as (Hnd2 & Hin2 & Hcov2 & Hun2). split_and!.
      + unfold s. rewrite fmap_app. apply NoDup_app. split_and!.
        * by apply NoDup_filter_fst.
        * intros g Hg Hg'. apply elem_sel in Hg as [x Hg], Hg' as [y Hg']. apply elem_of_list_filter in Hg as [? _], Hg' as [? _]. done.
        * by apply NoDup_filter_fst.
      + intros g c [[Hg _]|[Hg _]]%Hs; [by apply Hin1|by apply Hin2].
      + intros h Hh _. destruct (decide (A h)) as [HA|HA].
        * destruct (Hcov1 h Hh I) as (g & Hg & Hsp). exists g. split; [|done]. apply Hs'. left. split; [done|].
          by apply (sep_kind _ _ _ Hsep h g Hh (Hc1 g Hg) Hsp).
        * destruct (Hcov2 h Hh I) as (g & Hg & Hsp). exists g. split; [|done]. apply Hs'. right. split; [done|].
          intros HA'. apply HA. apply (sep_kind _ _ _ Hsep g h (Hc2 g Hg) Hh); [|done]. intros p. by rewrite (Hsp p).
      + intros g g' [[Hg Ag]|[Hg Ag]]%Hs' [[Hg' Ag']|[Hg' Ag']]%Hs' Hsp.
        * by apply Hun1.
        * destruct Ag'. by apply (sep_kind _ _ _ Hsep g g' (Hc1 g Hg) (Hc2 g' Hg') Hsp).
        * destruct Ag. apply (sep_kind _ _ _ Hsep g' g (Hc1 g' Hg') (Hc2 g Hg)); [|done]. intros p. by rewrite (Hsp p).
        * by apply Hun2.
    - split.
      + intros n. unfold mix. cbn [g_nodes]. rewrite elem_of_union, !elem_of_intersection.
        rewrite (joint_nodes sel G true n Hs1 HG Hv1), (joint_nodes sel' H false n Hs2 HH Hv2). setoid_rewrite Hs'.
        setoid_rewrite bool_decide_eq_true. setoid_rewrite bool_decide_eq_false. naive_solver.
      + intros e. unfold mix. cbn [g_edges]. rewrite elem_of_union, !elem_of_intersection.
        rewrite (joint_edges sel G true e Hs1 HG), (joint_edges sel' H false e Hs2 HH). setoid_rewrite Hs'.
        setoid_rewrite bool_decide_eq_true. setoid_rewrite bool_decide_eq_false. naive_solver.
    - intros v x y. unfold mix. cbn [g_nodes]. rewrite !elem_of_union, !elem_of_intersection.
      assert (forall x y, (v, x) ∈ g_nodes G /\ (v, x) ∈ bnodes true -> (v, y) ∈ g_nodes H /\ (v, y) ∈ bnodes false -> x = y) as Hxy.
      { clear x y. intros x y [Hx Hbx] [Hy Hby]. assert (v ∈ S) as HvS.
        { apply bnodes_spec in Hbx as (g & Hg & Ag & Hgx), Hby as (h & Hh & Ah & Hhy).
          apply (shared_side g h); [done|done|by rewrite Ag, Ah|by exists x|by exists y]. }
        apply (Hv1 v); [done|]. by apply (Hag v y HvS). }
      intros [Hx|Hx] [Hy|Hy].
      + by apply (Hv1 v x y (proj1 Hx) (proj1 Hy)).
      + by apply Hxy.
      + symmetry. by apply Hxy.
      + by apply (Hv2 v x y (proj1 Hx) (proj1 Hy)).
    - unfold s. by rewrite fmap_app, product_app. }
  assert (forall sl : list (graph * Z), product sl.*2 = (product (filter (fun p => A p.1) sl).*2 * product (filter (fun p => ~ A p.1) sl).*2)%Z) as Hp.
  { clear. induction sl as [|[g c] sl IH]; [done|]. rewrite !filter_cons. cbn [fst]. destruct (decide (A g)) as [HA|HA].
    - rewrite decide_False by tauto. cbn [fmap list_fmap snd product]. lia.
    - rewrite decide_True by done. cbn [fmap list_fmap snd product]. lia. }
  exists (product (filter (fun p => A p.1) sel).*2 * product (filter (fun p => ~ A p.1) sel').*2)%Z,
    (product (filter (fun p => A p.1) sel').*2 * product (filter (fun p => ~ A p.1) sel).*2)%Z. split_and!.
  - by apply Hgen.
  - apply Hgen; try done. intros v x Hv. symmetry. by apply Hag.
  - subst c d. rewrite (Hp sel), (Hp sel'). lia.
Qed.

Lemma mix_part G H : agree (fun v => v ∈ S) G H -> part true (mix G H) = part true G /\ part false (mix G H) = part false H.
Proof.
  intros Hag. assert (forall n, n.1 ∈ S -> n ∈ g_nodes G <-> n ∈ g_nodes H) as Hn.
  { intros [v x] Hv. by apply (Hag v x). }
  pose proof bnodes_both as Hb. pose proof bedges_both as He.
  unfold part, mix. cbn [g_nodes g_edges]. split; f_equal; apply set_eq; intros z; rewrite !elem_of_intersection, !elem_of_union, !elem_of_intersection;
    naive_solver.
Qed.

Lemma mix_parts G H : mix G H =
  Graph (g_nodes (part true G) ∪ g_nodes (part false H)) (g_edges (part true G) ∪ g_edges (part false H)).
Proof. done. Qed.

Lemma mix_back G H c d : joined G c -> joined H d -> agree (fun v => v ∈ S) G H -> mix (mix G H) (mix H G) = G.
Proof.
  intros HG HH Hag. assert (agree (fun v => v ∈ S) H G) as Hag' by (intros v x Hv; symmetry; by apply Hag).
  destruct (mix_part G H Hag) as [M1 M2]. destruct (mix_part H G Hag') as [M3 M4].
  assert (mix (mix G H) (mix H G) = mix G G) as ->.
  { rewrite (mix_parts (mix G H)), M1, M4. done. }
  unfold mix. destruct G as [N E]. cbn [g_nodes g_edges]. f_equal; apply set_eq; intros z; rewrite elem_of_union, !elem_of_intersection.
  - split; [tauto|]. intros Hz. destruct (joint_side _ _ z HG Hz) as [[] Hb]; auto.
  - split; [tauto|]. intros Hz. destruct (joint_edge_side _ _ z HG Hz) as [[] Hb]; auto.
Qed.

(** A mixed outcome agrees with its parts. *)
Lemma side_var v (b : bool) : (exists x, (v, x) ∈ bnodes b) <-> var_of ss (if b then A else outside A) v.
Proof.
  setoid_rewrite bnodes_spec. unfold var_of, outside. split.
  - intros (x & g & Hg & Hb & Hx). exists g. split_and!; [done| |by exists x]. destruct b.
    + by apply bool_decide_eq_true in Hb.
    + by apply bool_decide_eq_false in Hb.
  - intros (g & Hg & Hb & x & Hx). exists x, g. split_and!; [done| |done]. destruct b.
    + by apply bool_decide_eq_true.
    + by apply bool_decide_eq_false.
Qed.

Lemma part_agree G H c d (b : bool) : joined G c -> joined H d -> agree (fun v => v ∈ S) G H -> part b G = part b H ->
  agree (var_of ss (if b then A else outside A)) G H.
Proof.
  intros HG HH Hag Hp v x Hv. assert (forall K e, joined K e -> forall y, has v y K -> (v, y) ∈ bnodes b) as Hk.
  { intros K e (sel & Hsel & HK & Hsv & _) y Hy. destruct Hv as (g & Hg & Ag & Hvg).
    pose proof (sel_contains sel Hsel) as Hcon. pose proof Hsel as (_ & _ & Hcov & _). destruct (Hcov g Hg I) as (k & Hk & Hs).
    assert (having v k) as [z Hz] by (apply (same_pairs_vars cp g k); [by apply Hwf|by apply Hwf, Hcon|done|done]).
    assert (y = z) as -> by (apply (Hsv v); [done|apply HK; eauto]). apply bnodes_spec. exists k. split_and!; [by apply Hcon| |done].
    rewrite <- (side_kind g k Hg (Hcon k Hk) Hs). destruct b; [by apply bool_decide_eq_true|by apply bool_decide_eq_false]. }
  injection Hp as Hn _. unfold has. split; intros Hx.
  - assert ((v, x) ∈ g_nodes G ∩ bnodes b) as Hi by (apply elem_of_intersection; split; [done|by apply (Hk G c HG)]).
    rewrite Hn in Hi. by apply elem_of_intersection in Hi as [? _].
  - assert ((v, x) ∈ g_nodes H ∩ bnodes b) as Hi by (apply elem_of_intersection; split; [done|by apply (Hk H d HH)]).
    rewrite <- Hn in Hi. by apply elem_of_intersection in Hi as [? _].
Qed.

(** ** Sums over pairs of outcomes *)

Lemma zsum_prod {B C} (f : B -> Z) (h : C -> Z) (l : list B) (k : list C) :
  zsum ((fun p => f p.1 * h p.2)%Z <$> list_prod l k) = (zsum (f <$> l) * zsum (h <$> k))%Z.
Proof.
  induction l as [|x l IH]; [done|]. cbn [list_prod]. rewrite fmap_app, zsum_app, IH. cbn [fmap list_fmap]. rewrite zsum_cons.
  assert (zsum ((fun p : B * C => f p.1 * h p.2)%Z <$> map (fun y => (x, y)) k) = (f x * zsum (h <$> k))%Z) as ->; [|lia].
  clear. induction k as [|y k IH]; [simpl; lia|]. change (zsum ((f x * h y)%Z :: ((fun p : B * C => f p.1 * h p.2)%Z <$> map (fun y => (x, y)) k)) = (f x * zsum (h y :: (h <$> k)))%Z).
  rewrite !zsum_cons, IH. lia.
Qed.

Lemma zsum_perm l l' : l ≡ₚ l' -> zsum l = zsum l'.
Proof. induction 1; rewrite ?zsum_cons in *; lia. Qed.

Lemma NoDup_prod {B C} (l : list B) (k : list C) : NoDup l -> NoDup k -> NoDup (list_prod l k).
Proof.
  intros Hl Hk. induction Hl as [|x l Hx Hl IH]; [apply NoDup_nil_2|]. cbn [list_prod]. apply NoDup_app. split_and!; [| |done].
  - change (NoDup ((fun y => (x, y)) <$> k)). apply NoDup_fmap_2; [|done]. intros y z Hyz. by injection Hyz.
  - intros [a b] Ha Hb. apply elem_of_list_In, in_map_iff in Ha as (y & Hy & _). injection Hy as -> ->.
    apply elem_of_list_In, in_prod_iff in Hb as [Hb _]. by apply Hx, elem_of_list_In.
Qed.

Lemma elem_of_prod {B C} (l : list B) (k : list C) p : p ∈ list_prod l k <-> p.1 ∈ l /\ p.2 ∈ k.
Proof. destruct p as [x y]. rewrite !elem_of_list_In. apply in_prod_iff. Qed.

Lemma zsum_exchange (f : graph -> Z) (F : graph * graph -> graph * graph) l1 l2 k1 k2 :
  NoDup l1 -> NoDup l2 -> NoDup k1 -> NoDup k2 ->
  (forall p, p.1 ∈ l1 -> p.2 ∈ l2 -> (F p).1 ∈ k1 /\ (F p).2 ∈ k2 /\ F (F p) = p /\ (f p.1 * f p.2 = f (F p).1 * f (F p).2)%Z) ->
  (forall p, p.1 ∈ k1 -> p.2 ∈ k2 -> (F p).1 ∈ l1 /\ (F p).2 ∈ l2 /\ F (F p) = p) ->
  (zsum (f <$> l1) * zsum (f <$> l2) = zsum (f <$> k1) * zsum (f <$> k2))%Z.
Proof.
  intros Hl1 Hl2 Hk1 Hk2 H1 H2. rewrite <- !zsum_prod. trans (zsum ((fun p : graph * graph => f p.1 * f p.2)%Z <$> (F <$> list_prod l1 l2))).
  - rewrite <- list_fmap_compose. f_equal. apply list_fmap_ext. intros i p Hp%elem_of_list_lookup_2. apply elem_of_prod in Hp as [Ha Hb]. unfold compose. by apply H1.
  - apply zsum_perm, fmap_Permutation. apply NoDup_Permutation.
    + apply NoDup_fmap_2_strong; [|by apply NoDup_prod]. intros p q Hp%elem_of_prod Hq%elem_of_prod Heq.
      destruct Hp as [Hp Hp'], Hq as [Hq Hq']. destruct (H1 p Hp Hp') as (_ & _ & <- & _). destruct (H1 q Hq Hq') as (_ & _ & <- & _). by rewrite Heq.
    + by apply NoDup_prod.
    + intros p. rewrite elem_of_list_fmap. setoid_rewrite elem_of_prod. split.
      * intros (q & -> & Hq & Hq'). by destruct (H1 q Hq Hq') as (? & ? & _).
      * intros [Hp Hp']. destruct (H2 p Hp Hp') as (? & ? & Heq). exists (F p). done.
Qed.

(** ** Independence *)

Section independent.
Context (r : samples) (Hr : forall G c, ss_map r !! G = Some c <-> joined G c).

Lemma joined_contains G : contains r G <-> exists c, joined G c.
Proof. unfold contains, is_Some. by setoid_rewrite Hr. Qed.

Lemma joined_times G c : joined G c -> times_in r G = c.
Proof. intros H%Hr. unfold times_in. by rewrite H. Qed.

Lemma mix_agree G H c d cm : joined G c -> joined H d -> agree (fun v => v ∈ S) G H -> joined (mix G H) cm ->
  agree (var_of ss A) (mix G H) G /\ agree (var_of ss (outside A)) (mix G H) H /\ agree (fun v => v ∈ S) (mix G H) G.
Proof.
  intros HG HH Hag Hm. destruct (mix_part G H Hag) as [M1 M2].
  assert (agree (fun v => v ∈ S) (mix G H) G) as HagS.
  { intros v x Hv. unfold has, mix. cbn [g_nodes]. rewrite elem_of_union, !elem_of_intersection. split.
    - intros [[? _]|[? _]]; [done|]. by apply (Hag v x Hv).
    - intros Hx. destruct (joint_side _ _ _ HG Hx) as [[] Hb]; [by left|right]. split; [|done]. by apply (Hag v x Hv). }
  split_and!; [|..|done].
  - by apply (part_agree _ _ cm c true).
  - apply (part_agree _ _ cm d false); [done|done| |done]. intros v x Hv. rewrite (HagS v x Hv). by apply Hag.
Qed.

Lemma independence (a : Var -> Val) (E F : graph -> Prop) {HdE : forall g, Decision (E g)} {HdF : forall g, Decision (F g)} n0 n1 n2 n3 :
  about (var_of ss A) E -> about (var_of ss (outside A)) F ->
  weight r (fun G => at_values S a G /\ E G /\ F G) n0 -> weight r (at_values S a) n1 ->
  weight r (fun G => at_values S a G /\ E G) n2 -> weight r (fun G => at_values S a G /\ F G) n3 ->
  (n0 * n1 = n2 * n3)%Z.
Proof.
  intros HE HF W0 W1 W2 W3.
  assert (forall G, Decision (at_values S a G)) as Hdec.
  { intros G. unfold at_values. assert (forall v, Decision (has v (a v) G)) by (intros v; unfold has; apply _).
    apply (decide (set_Forall (fun v => has v (a v) G) S)). }
  pose (enum := fun (P : graph -> Prop) (D : forall g, Decision (P g)) => filter P (map_to_list (ss_map r)).*1).
  assert (forall P D, NoDup (enum P D) /\ forall g, g ∈ enum P D <-> contains r g /\ P g) as Henum.
  { intros P D. unfold enum. split; [apply NoDup_filter, NoDup_fst_map_to_list|]. intros g. rewrite elem_of_list_filter, elem_of_list_fmap. split.
    - intros [HP ([g' c] & -> & Hc)]. apply elem_of_map_to_list in Hc. split; [by eexists|done].
    - intros [[c Hc] HP]. split; [done|]. exists (g, c). split; [done|]. by apply elem_of_map_to_list. }
  destruct (Henum _ (fun G => and_dec (Hdec G) (and_dec (decide (E G)) (decide (F G))))) as [N0 L0].
  destruct (Henum _ Hdec) as [N1 L1].
  destruct (Henum _ (fun G => and_dec (Hdec G) (decide (E G)))) as [N2 L2].
  destruct (Henum _ (fun G => and_dec (Hdec G) (decide (F G)))) as [N3 L3].
  rewrite (W0 _ N0 L0), (W1 _ N1 L1), (W2 _ N2 L2), (W3 _ N3 L3).
  assert (forall G H, contains r G -> contains r H -> at_values S a G -> at_values S a H -> agree (fun v => v ∈ S) G H) as Hagree.
  { intros G H [c HG]%joined_contains [d HH]%joined_contains Ha Hb v x Hv. apply joint_sv in HG, HH. split; intros Hx.
    - assert (x = a v) as -> by (apply (HG v); [done|by apply Ha]). by apply Hb.
    - assert (x = a v) as -> by (apply (HH v); [done|by apply Hb]). by apply Ha. }
  assert (forall G H, contains r G -> contains r H -> at_values S a G -> at_values S a H ->
    contains r (mix G H) /\ contains r (mix H G) /\ at_values S a (mix G H) /\ at_values S a (mix H G) /\
    agree (var_of ss A) (mix G H) G /\ agree (var_of ss (outside A)) (mix G H) H /\
    agree (var_of ss A) (mix H G) H /\ agree (var_of ss (outside A)) (mix H G) G /\
    mix (mix G H) (mix H G) = G /\ mix (mix H G) (mix G H) = H /\
    (times_in r G * times_in r H = times_in r (mix G H) * times_in r (mix H G))%Z) as Hmix.
  { intros G H HcG HcH HaG HaH. pose proof (Hagree G H HcG HcH HaG HaH) as Hag. pose proof (Hagree H G HcH HcG HaH HaG) as Hag'.
    apply joined_contains in HcG as [c HG], HcH as [d HH]. destruct (mix_joint G c H d HG HH Hag) as (cm & cm' & M1 & M2 & M3).
    destruct (mix_agree G H c d cm HG HH Hag M1) as (A1 & A2 & A3). destruct (mix_agree H G d c cm' HH HG Hag' M2) as (A4 & A5 & A6).
    rewrite (joined_times _ _ HG), (joined_times _ _ HH), (joined_times _ _ M1), (joined_times _ _ M2). split_and!; try done.
    - apply joined_contains. eauto.
    - apply joined_contains. eauto.
    - intros v Hv. apply (A3 v _ Hv). by apply HaG.
    - intros v Hv. apply (A6 v _ Hv). by apply HaH.
    - by apply (mix_back G H c d).
    - by apply (mix_back H G d c). }
  assert (forall (P : Var -> Prop) G H, agree P G H -> agree P H G) as Hsym by (intros P G H HA v x Hv; symmetry; by apply HA).
  apply (zsum_exchange (times_in r) (fun p => (mix p.1 p.2, mix p.2 p.1))); [done..| |].
  - intros [G H] HG HH. cbn [fst snd] in *. apply L0 in HG as (HcG & HaG & HEG & HFG). apply L1 in HH as [HcH HaH].
    destruct (Hmix G H HcG HcH HaG HaH) as (M1 & M2 & M3 & M4 & M5 & M6 & M7 & M8 & M9 & M10 & M11). split_and!; [| |by rewrite M9, M10|done].
    + apply L2. split_and!; [done|done|]. by apply (HE G _ (Hsym _ _ _ M5)).
    + apply L3. split_and!; [done|done|]. by apply (HF G _ (Hsym _ _ _ M8)).
  - intros [G H] HG HH. cbn [fst snd] in *. apply L2 in HG as (HcG & HaG & HEG). apply L3 in HH as (HcH & HaH & HFH).
    destruct (Hmix G H HcG HcH HaG HaH) as (M1 & M2 & M3 & M4 & M5 & M6 & M7 & M8 & M9 & M10 & M11). split_and!; [| |by rewrite M9, M10].
    + apply L0. split_and!; [done|done| |].
      * by apply (HE G _ (Hsym _ _ _ M5)).
      * by apply (HF H _ (Hsym _ _ _ M6)).
    + apply L1. done.
Qed.

End independent.
End separated.

(** ** The joined space of a relation graph *)

Lemma joined_map o sp r : joinable sp -> make_joined o sp = Ok r -> (exists h, contains (sp_out sp) h) ->
  sp_cp r = sp_cp sp /\ forall G c, ss_map (sp_out r) !! G = Some c <-> joint same_pairs anything (sp_out sp) G c.
Proof.
  intros Hj Hr Hne. pose proof (joined_spec o sp Hj) as H. rewrite Hr in H. destruct H as (H1 & _ & _ & H). split; [done|].
  intros G c. rewrite <- count_of_lookup, H. tauto.
Qed.

Lemma joined_pos o sp r : joinable sp -> make_joined o sp = Ok r -> pos_counts (sp_out sp) -> pos_counts (sp_out r).
Proof.
  intros Hj Hr Hp G c HG. pose proof (joined_spec o sp Hj) as H. rewrite Hr in H. destruct H as (_ & _ & _ & H).
  rewrite <- count_of_lookup, H in HG. destruct HG as [_ (sel & (_ & Hin & _) & _ & _ & ->)]. apply product_pos, Forall_forall.
  intros d Hd. apply elem_of_list_fmap in Hd as ([g d'] & -> & Hd). destruct (Hin g d' Hd) as [Hl _]. by apply (Hp g).
Qed.

Lemma C47_independence_lemma o sp r (A : graph -> Prop) {HdA : forall g, Decision (A g)} (S : gset Var) (a : Var -> Val)
    (E F : graph -> Prop) {HdE : forall g, Decision (E g)} {HdF : forall g, Decision (F g)} n0 n1 n2 n3 :
  joinable sp -> make_joined o sp = Ok r -> separates (sp_out sp) A S ->
  about (var_of (sp_out sp) A) E -> about (var_of (sp_out sp) (outside A)) F ->
  weight (sp_out r) (fun G => at_values S a G /\ E G /\ F G) n0 -> weight (sp_out r) (at_values S a) n1 ->
  weight (sp_out r) (fun G => at_values S a G /\ E G) n2 -> weight (sp_out r) (fun G => at_values S a G /\ F G) n3 ->
  (n0 * n1 = n2 * n3)%Z.
Proof.
  intros Hj Hr Hsep HE HF W0 W1 W2 W3. destruct (decide (ss_map (sp_out sp) = ∅)) as [Hemp|Hne].
  - (* nothing to join *)
    assert (forall G, ~ contains (sp_out r) G) as Hno.
    { intros G [c HG]. pose proof (joined_spec o sp Hj) as H. rewrite Hr in H. destruct H as (_ & _ & _ & H).
      rewrite <- count_of_lookup, H in HG. destruct HG as [(h & d & Hd) _]. by rewrite Hemp, lookup_empty in Hd. }
    assert (forall P n, weight (sp_out r) P n -> n = 0%Z) as Hz.
    { intros P n HP. apply (HP []); [apply NoDup_nil_2|]. intros g. split; [by intros ?%elem_of_nil|]. intros [Hg _]. by destruct (Hno g). }
    rewrite (Hz _ _ W0), (Hz _ _ W2). done.
  - apply map_choose in Hne as (h & d & Hh). destruct (joined_map o sp r Hj Hr) as [_ Hm]; [exists h; by eexists|].
    destruct Hj as [_ Hwf _ _ Hfa _]. by apply (independence (sp_cp sp) (sp_out sp) A S Hwf Hfa Hsep (sp_out r) Hm a E F).
Qed.

Lemma C47_exchange_lemma o sp r (A : graph -> Prop) {HdA : forall g, Decision (A g)} (S : gset Var) G H c d :
  joinable sp -> make_joined o sp = Ok r -> separates (sp_out sp) A S ->
  count_of (sp_out r) G = Ok c -> count_of (sp_out r) H = Ok d -> agree (fun v => v ∈ S) G H ->
  exists K L k l, count_of (sp_out r) K = Ok k /\ count_of (sp_out r) L = Ok l /\ (c * d = k * l)%Z /\
    agree (var_of (sp_out sp) A) K G /\ agree (var_of (sp_out sp) (outside A)) K H /\
    agree (var_of (sp_out sp) A) L H /\ agree (var_of (sp_out sp) (outside A)) L G.
Proof.
  intros Hj Hr Hsep HG HH Hag. pose proof (joined_spec o sp Hj) as Hs. rewrite Hr in Hs. destruct Hs as (_ & _ & _ & Hs).
  pose proof HG as [Hne _]%Hs. destruct (joined_map o sp r Hj Hr Hne) as [_ Hm]. rewrite count_of_lookup, Hm in HG, HH.
  destruct Hj as [_ Hwf _ _ Hfa _].
  assert (agree (fun v => v ∈ S) H G) as Hag' by (intros v x Hv; symmetry; by apply Hag).
  destruct (mix_joint (sp_cp sp) (sp_out sp) A S Hwf Hfa Hsep G c H d HG HH Hag) as (k & l & M1 & M2 & M3).
  exists (mix (sp_out sp) A G H), (mix (sp_out sp) A H G), k, l. rewrite !count_of_lookup, !Hm.
  destruct (mix_agree (sp_cp sp) (sp_out sp) A S Hwf Hfa Hsep G H c d k HG HH Hag M1) as (A1 & A2 & _).
  destruct (mix_agree (sp_cp sp) (sp_out sp) A S Hwf Hfa Hsep H G d c l HH HG Hag' M2) as (A4 & A5 & _). done.
Qed.

(** ** Conditioning on values one after the other *)

Lemma conditioned_facts sp l sp' : conditioned sp l sp' -> joinable sp ->
  joinable sp' /\ sp_cp sp' = sp_cp sp /\
  (forall g c, ss_map (sp_out sp') !! g = Some c -> ss_map (sp_out sp) !! g = Some c) /\
  (forall v x g, (v, x) ∈ l -> contains (sp_out sp') g -> has v x g \/ lacking v g) /\
  (disconnected (sp_out sp') -> disconnected (sp_out sp)) /\ (cyclic (sp_out sp') -> cyclic (sp_out sp)) /\
  (crowded (sp_out sp') -> crowded (sp_out sp)) /\
  (forall g, contains (sp_out sp) g -> exists h, contains (sp_out sp') h /\ same_pairs g h).
Proof.
  induction 1 as [sp|sp ev cg v x l sp' Hn He Ho Hcg Hc IH]; intros Hj.
  - split_and!; try done; [intros v x g Hx; by apply elem_of_nil in Hx|]. intros g Hg. by exists g.
  - destruct (conditioned_joinable sp ev cg v x Hj Hcg Hn He Ho) as (Hj' & H1 & H2 & H3).
    destruct (conditioned_lookup sp ev cg v x Hcg Hn He) as (C1 & C2 & C3).
    destruct (IH Hj') as (I1 & I2 & I3 & I4 & I5 & I6 & I7 & I8). split_and!; try tauto.
    + rewrite I2. apply C1.
    + intros g c Hg. by apply I3, C3 in Hg as [? _].
    + intros w y g [Hwy|Hwy]%elem_of_cons Hg; [|by apply I4]. injection Hwy as -> ->. destruct Hg as [c Hg]. by apply I3, C3 in Hg as [_ ?].
    + intros g Hg. destruct (cd_kind _ _ v x (jn_full _ Hj) Ho C3 g Hg) as (h & Hh & Hs). destruct (I8 h Hh) as (k & Hk & Hs').
      exists k. split; [done|]. intros p. by rewrite (Hs p).
Qed.

Lemma conditioned_settled sp l sp' v x : conditioned sp l sp' -> joinable sp -> (v, x) ∈ l -> settled (sp_out sp') v.
Proof.
  intros Hc Hj Hx. destruct (conditioned_facts sp l sp' Hc Hj) as (Hj' & _ & _ & Hv & _).
  assert (forall y, occurs (sp_out sp') (v, y) -> y = x) as H.
  { intros y (g & Hg & Hy). destruct (Hv v x g Hx Hg) as [H|H]; [|destruct H; by exists y]. by apply (jn_ov _ Hj' g Hg v). }
  intros y z Hy Hz. by rewrite (H y Hy), (H z Hz).
Qed.

Lemma separates_sub ss ss' A S : (forall g, contains ss' g -> contains ss g) -> separates ss A S -> separates ss' A S.
Proof.
  intros Hs [H1 H2]. split.
  - intros g h Hg Hh. apply H1; auto.
  - intros g h v Hg Hh. apply H2; auto.
Qed.

(** ** Marginals of separated variables *)

Section marginals.
Context (o o' : oracle) (sp sp2 r r2 : space) (A : graph -> Prop) {HdA : forall g, Decision (A g)} (S : gset Var).
Context (ev : sample) (cg : cgraph) (w : Var) (x : Val).
Context (Hj : joinable sp) (Hpos : pos_counts (sp_out sp)) (Hsep : separates (sp_out sp) A S).
Context (Hset : forall v, v ∈ S -> settled (sp_out sp) v).
Context (Hcg : conditional_graph sp ev = Ok cg) (Hn : g_nodes (s_g ev) = {[(w, x)]}) (He : g_edges (s_g ev) = ∅).
Context (Ho : occurs (sp_out sp) (w, x)) (Hw : var_of (sp_out sp) (outside A) w).
Context (Hr : make_joined o sp = Ok r) (Hr2 : make_joined o' (sp_relation_graph (cg_space cg)) = Ok r2).

Lemma sm_nonempty : exists h, contains (sp_out sp) h.
Proof. destruct Ho as (h & Hh & _). by exists h. Qed.

Lemma sm_r2 : sp_cp r2 = sp_cp r /\ forall G c, ss_map (sp_out r2) !! G = Some c <-> ss_map (sp_out r) !! G = Some c /\ has w x G.
Proof.
  destruct (C44_lemma o o' sp ev cg w x r r2 Hj Hcg Hn He Ho Hr Hr2) as [H1 H2]. split; [done|]. intros G c.
  by rewrite <- !count_of_lookup.
Qed.

Lemma sm_weight (P : graph -> Prop) {HdP : forall g, Decision (P g)} n :
  weight (sp_out r2) P n <-> weight (sp_out r) (fun G => P G /\ has w x G) n.
Proof.
  destruct sm_r2 as [_ H2]. split; intros HW l Hnd Hl.
  - rewrite (HW l Hnd).
    + f_equal. apply list_fmap_ext. intros i G HG%elem_of_list_lookup_2. apply Hl in HG as [[c Hc] [HP Hx]]. unfold times_in.
      rewrite Hc. by rewrite (proj2 (H2 G c)).
    + intros G. rewrite Hl. unfold contains, is_Some. setoid_rewrite H2. naive_solver.
  - rewrite (HW l Hnd).
    + f_equal. apply list_fmap_ext. intros i G HG%elem_of_list_lookup_2. apply Hl in HG as [[c Hc] HP]. unfold times_in.
      rewrite Hc. by apply H2 in Hc as [-> _].
    + intros G. rewrite Hl. unfold contains, is_Some. setoid_rewrite H2. naive_solver.
Qed.

Lemma sm_product (E : graph -> Prop) {HdE : forall g, Decision (E g)} n0 n1 n2 n3 : about (var_of (sp_out sp) A) E ->
  weight (sp_out r) (fun G => E G /\ has w x G) n0 -> weight (sp_out r) anything n1 ->
  weight (sp_out r) E n2 -> weight (sp_out r) (has w x) n3 -> (n0 * n1 = n2 * n3)%Z.
Proof.
  intros HE W0 W1 W2 W3. destruct (space_values (sp_out sp)) as [m Hm]. pose (a := fun v => default x (m !! v)).
  pose (S' := filter (fun v => is_Some (m !! v)) S).
  assert (forall v y, occurs (sp_out sp) (v, y) -> is_Some (m !! v)) as Hocc.
  { intros v y Hy. destruct (m !! v) eqn:Hmv; [by eexists|]. destruct (Hm v) as [_ H]. by destruct (H Hmv y). }
  assert (separates (sp_out sp) A S') as Hsep'.
  { destruct Hsep as [H1 H2]. split; [done|]. intros g h v Hg Hh Ag Ah Hvg Hvh. apply elem_of_filter. split; [|by apply (H2 g h)].
    destruct Hvg as [y Hy]. apply (Hocc v y). by exists g. }
  assert (forall G, contains (sp_out r) G -> at_values S' a G) as Hat.
  { intros G HG v Hv. apply elem_of_filter in Hv as [[y Hy] Hv]. unfold a. rewrite Hy. cbn [default from_option].
    assert (occurs (sp_out sp) (v, y)) as Hoy by by apply Hm.
    destruct (joined_covers o sp r G Hj Hr HG) as [_ Hcov]. assert (having v G) as [z Hz] by (apply Hcov; by exists y).
    assert (z = y) as ->; [|done]. apply (Hset v Hv); [|done].
    destruct HG as [c HG]. destruct (joined_map o sp r Hj Hr sm_nonempty) as [_ Hmm]. apply Hmm in HG as (sel & Hsel & HG & _).
    apply HG in Hz as (g & Hg & Hz). exists g. split; [|done]. by apply (sel_contains (sp_out sp) sel). }
  apply (C47_independence_lemma o sp r A S' a E (has w x)); try done.
  - intros G H Hag. by apply Hag.
  - eapply weight_ext; [|exact W0]. naive_solver.
  - eapply weight_ext; [|exact W1]. naive_solver.
  - eapply weight_ext; [|exact W2]. naive_solver.
  - eapply weight_ext; [|exact W3]. naive_solver.
Qed.

Lemma weight_exists ss (P : graph -> Prop) {HdP : forall g, Decision (P g)} : exists n, weight ss P n.
Proof. exists (msum (fun g c => if decide (P g) then c else 0%Z) (ss_map ss)). by apply (weight_msum ss P). Qed.

Lemma sm_occurs u y : var_of (sp_out sp) A u -> occurs (sp_out r2) (u, y) <-> occurs (sp_out r) (u, y).
Proof.
  intros Hu. destruct sm_r2 as [_ H2]. split.
  - intros (G & [c HG] & Hy). apply H2 in HG as [HG _]. exists G. split; [by eexists|done].
  - intros (G & HG & Hy). pose proof (joined_pos o sp r Hj Hr Hpos) as Hp.
    destruct (weight_exists (sp_out r) (fun G => has u y G /\ has w x G)) as [n0 W0].
    destruct (weight_exists (sp_out r) (has u y)) as [n2 W2]. destruct (weight_exists (sp_out r) (has w x)) as [n3 W3].
    assert (weight (sp_out r) anything (ss_length (sp_out r))) as W1 by by apply weight_length.
    assert (n0 * ss_length (sp_out r) = n2 * n3)%Z as Heq.
    { apply (sm_product (has u y)); try done. intros K L Hag. by apply Hag. }
    assert (0 < n2)%Z by by apply (weight_pos (sp_out r) (has u y) n2 G).
    assert (0 < n3)%Z.
    { destruct (joined_map o sp r Hj Hr sm_nonempty) as [_ Hmm].
      destruct (conditioned_joinable sp ev cg w x Hj Hcg Hn He Ho) as (Hj' & _).
      destruct (joinable_choice _ Hj') as (K & k & HK). destruct (conditioned_lookup sp ev cg w x Hcg Hn He) as (C1 & C2 & C3).
      destruct Hj as [_ Hwf Hov _ Hfa Hfs]. apply (cd_joint _ _ _ w x Hwf Hfs Ho C3) in HK as [HK Hx].
      apply (weight_pos (sp_out r) (has w x) n3 K); [done|done| |done]. exists k. by apply Hmm. }
    destruct (decide (n0 = 0%Z)) as [->|Hn0]; [nia|].
    assert (exists K, contains (sp_out r) K /\ has u y K /\ has w x K) as (K & [k HK] & HKy & HKx).
    { destruct (decide (Exists (fun K => has u y K /\ has w x K) (map_to_list (ss_map (sp_out r))).*1)) as [Hex|Hnex].
      - apply Exists_exists in Hex as (K & HK & ?). apply in_space in HK. eauto.
      - destruct Hn0. apply (weight_zero (sp_out r) (fun G => has u y G /\ has w x G)); [|done]. intros K HK HKP. apply Hnex, Exists_exists.
        exists K. split; [by apply in_space|done]. }
    exists K. split; [|done]. exists k. by apply H2.
Qed.

Lemma C48_lemma o1 o2 variables m1 m2 u : var_of (sp_out sp) A u ->
  marginal_variables_probability o1 r variables false = Ok m1 -> marginal_variables_probability o2 r2 variables false = Ok m2 ->
  m1 !! u = m2 !! u.
Proof.
  intros Hu Hm1 Hm2. pose proof (joined_pos o sp r Hj Hr Hpos) as Hp. destruct sm_r2 as [Hcp H2].
  assert (one_valued (sp_out r)) as Hov1 by (intros G HG; by apply (joined_covers o sp r G Hj Hr HG)).
  assert (one_valued (sp_out r2)) as Hov2 by (intros G [c HG]; apply H2 in HG as [HG _]; apply Hov1; by eexists).
  assert (pos_counts (sp_out r2)) as Hp2 by (intros G c HG; apply H2 in HG as [HG _]; by apply (Hp G)).
  destruct (C26_lemma o1 r variables false Hov1 Hp) as (m & Hm & C1); [done|]. rewrite Hm1 in Hm. injection Hm as <-.
  destruct (C26_lemma o2 r2 variables false Hov2 Hp2) as (m & Hm & C2); [done|]. rewrite Hm2 in Hm. injection Hm as <-.
  specialize (C1 u). specialize (C2 u). cbn beta iota in C1, C2.
  assert (requested r variables u <-> requested r2 variables u) as Hrq by (unfold requested; by rewrite Hcp).
  assert (occurs_var (sp_out r) u <-> occurs_var (sp_out r2) u) as Hoc by (unfold occurs_var; by setoid_rewrite sm_occurs).
  destruct (m1 !! u) as [d1|], (m2 !! u) as [d2|]; [|destruct C2; tauto|destruct C1; tauto|done].
  f_equal. destruct C1 as (_ & Ho1 & _ & D1), C2 as (_ & Ho2 & _ & D2). apply map_eq. intros y. specialize (D1 y). specialize (D2 y).
  pose proof (sm_occurs u y Hu) as Hoy.
  destruct (d1 !! y) as [p1|], (d2 !! y) as [p2|]; [|destruct D2; tauto|destruct D1; tauto|done].
  f_equal. destruct D1 as (Hoy1 & a & b & Wa & Wb & ->), D2 as (Hoy2 & a2 & b2 & Wa2 & Wb2 & ->).
  destruct Hoy1 as (G & HG & HGy), Hoy2 as (K & HK & HKy).
  assert (0 < b)%Z by (apply (weight_pos (sp_out r) (having u) b G); [done|done|done|by exists y]).
  assert (0 < b2)%Z by (apply (weight_pos (sp_out r2) (having u) b2 K); [done|done|done|by exists y]).
  apply qdiv_eq; [done|done|]. apply (sm_weight (has u y)) in Wa2. apply (sm_weight (having u)) in Wb2.
  assert (forall K, contains (sp_out r) K -> having u K) as Hall.
  { intros L HL. destruct (joined_covers o sp r L Hj Hr HL) as [_ Hcov]. apply Hcov. destruct Hu as (g & Hg & _ & z & Hz). exists z, g. done. }
  rewrite <- (sm_product (has u y) a2 b a b2); [lia| |done| |done|].
  - intros L M Hag. by apply Hag.
  - eapply weight_ext; [|exact Wb]. naive_solver.
  - eapply weight_ext; [|exact Wb2]. naive_solver.
Qed.

End marginals.

Lemma conditioned_var_of sp l sp' A S u : conditioned sp l sp' -> joinable sp -> separates (sp_out sp) A S ->
  (var_of (sp_out sp) A u -> var_of (sp_out sp') A u) /\ (var_of (sp_out sp) (outside A) u -> var_of (sp_out sp') (outside A) u).
Proof.
  intros Hc Hj [Hk _]. destruct (conditioned_facts sp l sp' Hc Hj) as (Hj' & Hcp & Hin & _ & _ & _ & _ & Hkind).
  assert (forall g, contains (sp_out sp') g -> contains (sp_out sp) g) as Hin' by (intros g [c Hg]; exists c; auto).
  split; intros (g & Hg & Ag & Hu); destruct (Hkind g Hg) as (h & Hh & Hs); exists h; (split_and!; [done| |]).
  - by apply (Hk g h Hg (Hin' h Hh) Hs).
  - apply (same_pairs_vars (sp_cp sp) g h u); [by apply (jn_wf _ Hj)|apply (jn_wf _ Hj); auto|done|done].
  - intros Ah. apply Ag. apply (Hk h g (Hin' h Hh) Hg); [|done]. intros p. by rewrite (Hs p).
  - apply (same_pairs_vars (sp_cp sp) g h u); [by apply (jn_wf _ Hj)|apply (jn_wf _ Hj); auto|done|done].
Qed.

Lemma C48_chain_lemma o1 o2 o3 o4 sp sp1 sp2 r1 r2 (A : graph -> Prop) {HdA : forall g, Decision (A g)} (S : gset Var)
    (l : list node) w x u variables m1 m2 :
  joinable sp -> pos_counts (sp_out sp) -> separates (sp_out sp) A S ->
  (forall v, v ∈ S -> exists y, (v, y) ∈ l) -> conditioned sp l sp1 -> conditioned sp1 [(w, x)] sp2 ->
  var_of (sp_out sp) A u -> var_of (sp_out sp) (outside A) w ->
  make_joined o1 sp1 = Ok r1 -> make_joined o2 sp2 = Ok r2 ->
  marginal_variables_probability o3 r1 variables false = Ok m1 -> marginal_variables_probability o4 r2 variables false = Ok m2 ->
  m1 !! u = m2 !! u.
Proof.
  intros Hj Hp Hsep HS Hc1 Hc2 Hu Hw Hr1 Hr2 Hm1 Hm2.
  destruct (conditioned_facts sp l sp1 Hc1 Hj) as (Hj1 & _ & Hin & _).
  destruct (conditioned_var_of sp l sp1 A S u Hc1 Hj Hsep) as [Hu1 _]. destruct (conditioned_var_of sp l sp1 A S w Hc1 Hj Hsep) as [_ Hw1].
  inversion Hc2 as [|sp' ev cg v y l' sp'' Hn He Ho Hcg Hc3]; subst. inversion Hc3; subst.
  apply (C48_lemma o1 o2 sp1 r1 r2 A S ev cg w x Hj1) with o3 o4 variables; try done.
  - intros g c Hg. by apply (Hp g c), Hin.
  - apply (separates_sub (sp_out sp)); [|done]. intros g [c Hg]. exists c. auto.
  - intros v [y Hy]%HS. by apply (conditioned_settled sp l sp1 v y).
  - auto.
  - auto.
Qed.

Lemma C46_conditioned_lemma o sp l sp' : joinable sp -> ~ disconnected (sp_out sp) ->
  (~ cyclic (sp_out sp) \/ ~ crowded (sp_out sp)) -> conditioned sp l sp' -> is_ok (make_joined o sp') = true.
Proof.
  intros Hj Hd Hcc Hc. destruct (conditioned_facts sp l sp' Hc Hj) as (Hj' & _ & _ & _ & H1 & H2 & H3 & _).
  destruct Hcc; [apply joined_total|apply joined_total_two]; tauto.
Qed.

End sep_facts.
