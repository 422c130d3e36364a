(** * UniformFacts: values over the complete outcome space (C35) *)

From Verif Require Import GenFacts SpaceFacts FoldFacts.

Section uniform.
Context {U : Universe}.
Implicit Types (cp : provider) (ss : samples) (v : Var) (x y : Val) (g : graph).

Lemma complete_contains cp ss g : complete cp ss -> contains ss g <-> possible cp g.
Proof.
  intros Hc. unfold contains. split.
  - intros [c Hg]. rewrite <- count_of_lookup in Hg. by apply Hc in Hg as [_ ?].
  - intros Hp. exists 1%Z. rewrite <- count_of_lookup. by apply Hc.
Qed.

Lemma complete_times cp ss g : complete cp ss -> possible cp g -> times_in ss g = 1%Z.
Proof.
  intros Hc Hp. unfold times_in. assert (ss_map ss !! g = Some 1%Z) as ->; [|done].
  rewrite <- count_of_lookup. by apply Hc.
Qed.

Lemma zsum_ones ss cp (l : list graph) : complete cp ss -> (forall g, g ∈ l -> possible cp g) ->
  zsum (times_in ss <$> l) = Z.of_nat (length l).
Proof.
  intros Hc. induction l as [|g l IH]; intros Hl; [done|]. rewrite fmap_cons. cbn [zsum foldr length]. fold (zsum (times_in ss <$> l)).
  rewrite IH, (complete_times cp) by (set_solver). lia.
Qed.

Lemma weight_swap cp ss v x y a : complete cp ss -> declared cp (v, x) -> declared cp (v, y) ->
  weight ss (has v x) a -> weight ss (has v y) a.
Proof.
  intros Hc Hx Hy Hw l Hnd Hl.
  assert (forall g, g ∈ l -> possible cp g /\ (v, y) ∈ g_nodes g) as Hin.
  { intros g Hg. apply Hl in Hg as [Hg ?]. split; [|done]. by apply (complete_contains cp ss). }
  rewrite (Hw ((repl_graph ({[v := x]} : gmap Var Val)) <$> l)).
  - rewrite !(zsum_ones ss cp); [by rewrite fmap_length|done|by intros g [? _]%Hin|done|].
    intros g (h & -> & [Hh _]%Hin)%elem_of_list_fmap. by apply possible_repl.
  - clear Hl. induction l as [|g l IH]; [constructor|]. apply NoDup_cons in Hnd as [Hg Hnd]. rewrite fmap_cons. apply NoDup_cons. split.
    + intros (h & Heq & Hh)%elem_of_list_fmap. apply Hg.
      destruct (Hin g) as [Hpg Hyg]; [left|]. destruct (Hin h) as [Hph Hyh]; [by right|].
      assert (g = h) as ->; [|done].
      rewrite <- (repl1_back cp v x y g) by (done || apply Hpg). rewrite Heq. apply (repl1_back cp v x y h); [apply Hph|apply Hph|done].
    + apply IH; [done|]. intros; apply Hin; by right.
  - intros g. rewrite elem_of_list_fmap. rewrite (complete_contains cp) by done. split.
    + intros (h & -> & [Hh Hyh]%Hin). split; [by apply possible_repl|]. apply repl1_mem. right. split; [done|]. by exists y.
    + intros [Hp Hxg]. exists (repl_graph ({[v := y]} : gmap Var Val) g). split.
      * symmetry. apply (repl1_back cp); [apply Hp|apply Hp|done].
      * apply Hl. rewrite (complete_contains cp) by done. split; [by apply possible_repl|].
        apply repl1_mem. right. split; [done|]. by exists x.
Qed.

Lemma point_possible cp n : declared cp n -> possible cp (point n).
Proof.
  intros Hd. split.
  - split; cbn [point g_nodes g_edges].
    + by intros m ->%elem_of_singleton.
    + by intros e ?%elem_of_empty.
    + by intros e ?%elem_of_empty.
    + intros m m'. cbn [point g_nodes]. intros ->%elem_of_singleton ->%elem_of_singleton. constructor.
  - cbn [point g_nodes]. intros He. apply (not_elem_of_empty (C:=gset node) n). rewrite <- He. by apply elem_of_singleton.
  - intros v x y. cbn [point g_nodes]. intros H1%elem_of_singleton H2%elem_of_singleton. congruence.
  - intros e e'. cbn [point g_edges]. by intros ?%elem_of_empty.
  - intros e. cbn [point g_edges]. by intros ?%elem_of_empty.
Qed.

Lemma complete_pos cp ss : complete cp ss -> pos_counts ss.
Proof. intros Hc g c Hg. rewrite <- count_of_lookup in Hg. apply Hc in Hg as [-> _]. lia. Qed.
Lemma complete_one cp ss : complete cp ss -> one_valued ss.
Proof. intros Hc g Hg. apply (complete_contains cp) in Hg; [|done]. apply Hg. Qed.
Lemma complete_wf cp ss : complete cp ss -> all_wf cp ss.
Proof. intros Hc g Hg. apply (complete_contains cp) in Hg; [|done]. apply Hg. Qed.
Lemma complete_occurs cp ss (n : node) : complete cp ss -> occurs ss n <-> declared cp n.
Proof.
  intros Hc. split.
  - intros (g & Hg & Hn). apply (complete_contains cp) in Hg; [|done]. by apply (wf_nodes _ _ (po_wf _ _ Hg)).
  - intros Hd. exists (point n). split; [|by apply elem_of_singleton]. apply (complete_contains cp); [done|]. by apply point_possible.
Qed.

Lemma qsum_same (p : Qc) (l : list Qc) : (forall q, q ∈ l -> q = p) -> qsum l = (Q2Qc (inject_Z (Z.of_nat (length l))) * p)%Qc.
Proof.
  intros Hl. induction l as [|q l IH].
  - cbn [length qsum foldr]. change (Z.of_nat 0) with 0%Z. change (Q2Qc (inject_Z 0)) with (Q2Qc 0). ring.
  - change (qsum (q :: l)) with (q + qsum l)%Qc. rewrite IH by (intros; apply Hl; by right).
    rewrite (Hl q) by left. replace (Q2Qc (inject_Z (Z.of_nat (length (p :: l))))) with (1 + Q2Qc (inject_Z (Z.of_nat (length l))))%Qc; [ring|].
    apply Qc_is_canon. cbn [length]. rewrite Nat2Z.inj_succ. unfold Z.succ. rewrite inject_Z_plus.
    unfold Qcplus. simpl. rewrite !Qred_correct. rewrite Qplus_comm. reflexivity.
Qed.

Lemma uniform_lemma o sp v X :
  complete (sp_cp sp) (sp_out sp) -> cp_vars (sp_cp sp) !! v = Some X -> X <> ∅ ->
  exists m d, marginal_variables_probability o sp None false = Ok m /\ m !! v = Some d /\ uniform_on X d.
Proof.
  intros Hc HX Hne. pose proof (complete_one _ _ Hc) as H1. pose proof (complete_pos _ _ Hc) as H2.
  destruct (C26_lemma o sp None false H1 H2 ltac:(done)) as (m & -> & Hm). specialize (Hm v).
  apply set_choose_L in Hne as [x0 Hx0].
  assert (requested sp None v /\ occurs_var (sp_out sp) v) as Hr.
  { split; [by exists X|]. exists x0. apply (complete_occurs (sp_cp sp)); [done|]. by exists X. }
  destruct (m !! v) as [d|] eqn:Hmv; [|tauto]. exists m, d. split; [done|]; split; [done|]. destruct Hm as (_ & _ & Hsum & Hd).
  assert (forall x, is_Some (d !! x) <-> x ∈ X) as Hdom.
  { intros x. specialize (Hd x). assert (x ∈ X <-> declared (sp_cp sp) (v, x)) as ->.
    { split; [by exists X|]. intros (X' & HX' & ?). simpl in HX'. rewrite HX in HX'. by injection HX' as <-. }
    rewrite <- (complete_occurs _ (sp_out sp)) by done. destruct (d !! x) as [p|].
    - split; [|by eexists]. by destruct Hd as [? _].
    - split; [by intros []|]. by intros ?. }
  assert (is_Some (d !! x0)) as [p0 Hp0] by (by apply Hdom).
  pose proof (Hd x0) as Hd0. rewrite Hp0 in Hd0. destruct Hd0 as (Ho0 & a & b & Ha & Hb & Hpab).
  assert (forall x p, d !! x = Some p -> p = p0) as Hsame.
  { intros x p Hp. pose proof (Hd x) as Hdx. rewrite Hp in Hdx. destruct Hdx as (Ho & a' & b' & Ha' & Hb' & ->).
    rewrite Hpab. assert (a' = a) as ->; [|assert (b' = b) as ->; [|done]].
    - apply (weight_unique (sp_out sp) (has v x) a' a Ha'). apply (weight_swap (sp_cp sp) _ v x0 x); [done| |by apply (complete_occurs _ (sp_out sp))|done].
      by apply (complete_occurs _ (sp_out sp)).
    - by apply (weight_unique (sp_out sp) (having v)). }
  assert (size d = size X) as Hsz.
  { rewrite <- (size_dom d). f_equal. apply set_eq. intros x. rewrite elem_of_dom. apply Hdom. }
  assert (0 < Z.of_nat (size X))%Z as Hpos.
  { assert (size X <> 0)%nat; [|lia]. intros Hz%size_empty_inv. by apply (Hz x0) in Hx0. }
  assert (p0 = qdiv 1 (Z.of_nat (size X))) as Hp.
  { rewrite (qsum_same p0) in Hsum.
    - rewrite fmap_length in Hsum. change (length (map_to_list d)) with (size d) in Hsum. rewrite Hsz in Hsum.
      unfold qdiv. set (q := Q2Qc (inject_Z (Z.of_nat (size X)))) in *.
      assert (q <> 0)%Qc as Hq. { intros He. rewrite He in Hsum. rewrite Qcmult_0_l in Hsum. discriminate. }
      change (Q2Qc (inject_Z 1)) with 1%Qc. rewrite <- Hsum. field. done.
    - intros q (xq & -> & Hq)%elem_of_list_fmap. destruct xq as [x q]. apply elem_of_map_to_list in Hq. by apply (Hsame x). }
  intros x. case_decide as Hx.
  - apply Hdom in Hx as [p Hx]. rewrite Hx. f_equal. rewrite <- Hp. by apply (Hsame x).
  - destruct (d !! x) eqn:He; [|done]. exfalso. apply Hx, Hdom. by eexists.
Qed.

(** ** Outcomes without a variable are fewer than outcomes with any one of its values *)

(** [g] with [(v, x)] attached by [r] to the first of its nodes. *)
Definition attach (v : Var) (x : Val) (r : Rel) (g : graph) : graph :=
  match elements (g_nodes g) with
  | n :: _ => Graph ({[(v, x)]} ∪ g_nodes g) ({[({[(v, x); n]}, Plain r)]} ∪ g_edges g)
  | [] => g
  end.

Lemma attach_spec v x r g : g_nodes g <> ∅ -> exists n, n ∈ g_nodes g /\
  attach v x r g = Graph ({[(v, x)]} ∪ g_nodes g) ({[({[(v, x); n]}, Plain r)]} ∪ g_edges g).
Proof.
  intros Hne. unfold attach. destruct (elements (g_nodes g)) as [|n l] eqn:He.
  - by apply elements_empty_inv, leibniz_equiv in He.
  - exists n. split; [|done]. apply elem_of_elements. rewrite He. left.
Qed.

Lemma attach_possible cp v x r g : possible cp g -> lacking v g -> declared cp (v, x) -> r ∈ cp_rels cp -> possible cp (attach v x r g).
Proof.
  intros Hp Hl Hd Hr. destruct (attach_spec v x r g (po_nonempty _ _ Hp)) as (n & Hn & ->).
  destruct Hp as [[Hw1 Hw2 Hw3 Hw4] Hne Hsv Hs Hpl].
  assert (n.1 <> v) as Hnv. { intros He. apply Hl. exists n.2. rewrite <- He. by destruct n. }
  set (e0 := (({[(v, x); n]} : gset node), Plain r) : edge).
  assert (forall e : edge, e ∈ ({[e0]} ∪ g_edges g : gset edge) <-> e = e0 \/ e ∈ g_edges g) as HE.
  { intros e. by rewrite elem_of_union, elem_of_singleton. }
  assert (forall m : node, m ∈ ({[(v, x)]} ∪ g_nodes g : gset node) <-> m = (v, x) \/ m ∈ g_nodes g) as HN.
  { intros e. by rewrite elem_of_union, elem_of_singleton. }
  assert (forall m : node, m ∈ e0.1 <-> m = (v, x) \/ m = n) as H0.
  { intros m. cbn [e0 fst]. by rewrite elem_of_union, !elem_of_singleton. }
  split; [split|..]; cbn [g_nodes g_edges].
  - intros m [->|Hm]%HN; [done|by apply Hw1].
  - intros e [->|He]%HE; [|by apply Hw2]. split_and!.
    + exists (v, x), n. split; [done|]. simpl. done.
    + intros m [->| ->]%H0; [done|by apply Hw1].
    + done.
  - intros e [->|He]%HE m Hm; apply HN; [|right; by apply (Hw3 e)]. apply H0 in Hm as [->| ->]; [by left|by right].
  - assert (forall a b, rtc (link (g_edges g)) a b -> rtc (link ({[e0]} ∪ g_edges g)) a b) as Hup.
    { intros a b. apply rtc_subrel. intros c c' (e & He & H1 & H2). exists e. split_and!; [apply HE; by right|done|done]. }
    assert (link ({[e0]} ∪ g_edges g) (v, x) n) as L1 by (exists e0; split_and!; [apply HE; by left|apply H0; by left|apply H0; by right]).
    assert (link ({[e0]} ∪ g_edges g) n (v, x)) as L2 by (exists e0; split_and!; [apply HE; by left|apply H0; by right|apply H0; by left]).
    intros a b. cbn [g_nodes g_edges]. intros [->|Ha]%HN [->|Hb]%HN.
    + constructor.
    + eapply rtc_l; [exact L1|]. apply Hup. by apply Hw4.
    + eapply rtc_r; [|exact L2]. apply Hup. by apply Hw4.
    + apply Hup. by apply Hw4.
  - intros He. apply (not_elem_of_empty (C:=gset node) n). rewrite <- He. apply HN. by right.
  - intros w y z Hy Hz. apply HN in Hy, Hz.
    destruct Hy as [Hy|Hy], Hz as [Hz|Hz]; [congruence| | |by apply (Hsv w)]; exfalso; apply Hl.
    + injection Hy as -> _. by exists z.
    + injection Hz as -> _. by exists y.
  - intros e e' He He' Heq. apply HE in He, He'.
    assert (forall e1, e1 ∈ g_edges g -> e1.1 <> e0.1) as Hno.
    { intros e1 He1 Hx. apply Hl. exists x. apply (Hw3 e1 He1). rewrite Hx. apply H0. by left. }
    destruct He as [->|He], He' as [->|He']; [done|..].
    + exfalso. by apply (Hno e').
    + exfalso. by apply (Hno e).
    + by apply Hs.
  - intros e [->|He]%HE; [by eexists|by apply Hpl].
Qed.

Lemma attach_inj cp v x r g h : possible cp g -> possible cp h -> lacking v g -> lacking v h ->
  attach v x r g = attach v x r h -> g = h.
Proof.
  intros Hg Hh Hlg Hlh Heq. destruct (attach_spec v x r g (po_nonempty _ _ Hg)) as (n & Hn & E1).
  destruct (attach_spec v x r h (po_nonempty _ _ Hh)) as (m & Hm & E2). rewrite E1, E2 in Heq. clear E1 E2. injection Heq as HN HE.
  assert (forall g h : graph, lacking v g -> ({[(v, x)]} ∪ g_nodes g : gset node) = {[(v, x)]} ∪ g_nodes h -> g_nodes g ⊆ g_nodes h) as A.
  { intros g' h' Hl Heq k Hk. assert (k ∈ ({[(v, x)]} ∪ g_nodes h' : gset node)) as Hk'. { rewrite <- Heq. by apply elem_of_union_r. }
    apply elem_of_union in Hk' as [->%elem_of_singleton|?]; [|done]. exfalso. apply Hl. by exists x. }
  assert (forall (g h : graph) (n m : node), possible cp g -> lacking v g ->
      ({[({[(v, x); n]}, Plain r)]} ∪ g_edges g : gset edge) = {[({[(v, x); m]}, Plain r)]} ∪ g_edges h -> g_edges g ⊆ g_edges h) as B.
  { intros g' h' n' m' Hp Hl Heq e He. assert (e ∈ ({[({[(v, x); m']}, Plain r)]} ∪ g_edges h' : gset edge)) as Hk'. { rewrite <- Heq. by apply elem_of_union_r. }
    apply elem_of_union in Hk' as [He'%elem_of_singleton|?]; [|done]. exfalso. apply Hl. exists x.
    apply (wf_inside _ _ (po_wf _ _ Hp) e He). rewrite He'. cbn [fst]. apply elem_of_union_l. by apply elem_of_singleton. }
  destruct g as [gn ge], h as [hn he]. cbn [g_nodes g_edges] in *. f_equal.
  - apply (anti_symm (⊆)); [apply (A (Graph gn ge) (Graph hn he))|apply (A (Graph hn he) (Graph gn ge))]; done.
  - apply (anti_symm (⊆)); [apply (B (Graph gn ge) (Graph hn he) n m)|apply (B (Graph hn he) (Graph gn ge) m n)]; done.
Qed.

Global Instance lacking_dec v g : Decision (lacking v g).
Proof.
  refine (cast_if (decide (v ∉ included_variables g))); unfold lacking; by rewrite <- included_variables_spec.
Defined.
Global Instance has_dec v x g : Decision (has v x g).
Proof. unfold has. apply _. Defined.

Lemma lacking_fewer cp ss v x a b : complete cp ss -> cp_rels cp <> ∅ -> declared cp (v, x) ->
  weight ss (lacking v) a -> weight ss (has v x) b -> (a < b)%Z.
Proof.
  intros Hc Hr Hd Ha Hb. apply set_choose_L in Hr as [r Hr].
  set (all := elements (dom (ss_map ss))).
  assert (NoDup all) as Hnd by apply NoDup_elements.
  assert (forall g, g ∈ all <-> contains ss g) as Hall by (intros g; unfold all; rewrite elem_of_elements, elem_of_dom; done).
  set (L := filter (lacking v) all). set (H := filter (has v x) all).
  assert (forall g, g ∈ L <-> contains ss g /\ lacking v g) as HL by (intros g; unfold L; rewrite elem_of_list_filter, Hall; tauto).
  assert (forall g, g ∈ H <-> contains ss g /\ has v x g) as HH by (intros g; unfold H; rewrite elem_of_list_filter, Hall; tauto).
  assert (NoDup L) as HnL by (by apply NoDup_filter). assert (NoDup H) as HnH by (by apply NoDup_filter).
  rewrite (Ha L HnL HL), (Hb H HnH HH). clear Ha Hb. clearbody L H. clear Hnd Hall all.
  assert (forall g, g ∈ L -> possible cp g /\ lacking v g) as HL'.
  { intros g [Hg ?]%HL. split; [|done]. by apply (complete_contains cp ss). }
  rewrite !(zsum_ones ss cp); [|done|by intros g [Hg%(complete_contains cp) _]%HH|done|by intros g [? _]%HL'].
  assert (length (point (v, x) :: (attach v x r <$> L)) <= length H) as Hlen.
  { apply submseteq_length, NoDup_submseteq.
    - apply NoDup_cons. split.
      + intros (g & Heq & [Hg Hl]%HL')%elem_of_list_fmap.
        destruct (attach_spec v x r g (po_nonempty _ _ Hg)) as (n & Hn & E). rewrite E in Heq. injection Heq as _ Heq.
        match type of Heq with _ = ({[?e]} ∪ _) => apply (not_elem_of_empty (C:=gset edge) e) end.
        rewrite Heq. apply elem_of_union_l. by apply elem_of_singleton.
      + assert (forall l, NoDup l -> (forall g, g ∈ l -> g ∈ L) -> NoDup (attach v x r <$> l)) as Hgen; [|by apply Hgen].
        induction l as [|g l IH]; intros Hl Hin; [constructor|]. apply NoDup_cons in Hl as [Hg Hl]. rewrite fmap_cons. apply NoDup_cons.
        split; [|apply IH; [done|]; intros; apply Hin; by right].
        intros (h & Heq & Hh)%elem_of_list_fmap. apply Hg.
        destruct (HL' g) as [Hpg Hlg]; [apply Hin; left|]. destruct (HL' h) as [Hph Hlh]; [apply Hin; by right|].
        by rewrite (attach_inj cp v x r g h).
    - intros g [->|(h & -> & [Hh Hl]%HL')%elem_of_list_fmap]%elem_of_cons; apply HH; (split; [apply (complete_contains cp ss); [done|]|]).
      + by apply point_possible.
      + unfold has. cbn [point g_nodes]. by apply elem_of_singleton.
      + by apply attach_possible.
      + unfold has. destruct (attach_spec v x r h (po_nonempty _ _ Hh)) as (n & Hn & ->). cbn [g_nodes]. apply elem_of_union_l. by apply elem_of_singleton. }
  cbn [length] in Hlen. rewrite fmap_length in Hlen. lia.
Qed.

(** experiments/random_variables_distribution_for_all_outcomes.py:46-63. *)
Lemma experiment_lemma o o' sp v X :
  complete (sp_cp sp) (sp_out sp) -> cp_rels (sp_cp sp) <> ∅ -> cp_vars (sp_cp sp) !! v = Some X -> X <> ∅ -> val_unobserved ∉ X ->
  exists fg fn d p u, folded_graph o sp = Ok fg /\ folded_node fg v = Some fn /\ marginal_distribution o' fn = Ok d /\
    d !! val_unobserved = Some u /\ (u < p)%Qc /\
    forall x, x <> val_unobserved -> d !! x = if decide (x ∈ X) then Some p else None.
Proof.
  intros Hc Hr HX Hne Hno. set (ss := sp_out sp) in *. set (cp := sp_cp sp) in *.
  pose proof (complete_wf _ _ Hc) as Hwf. pose proof (complete_one _ _ Hc) as Hone. pose proof (complete_pos _ _ Hc) as Hpos.
  destruct (C28_lemma o sp Hwf) as (fg & Hfg & Hok).
  apply set_choose_L in Hne as [x0 Hx0].
  assert (forall x, declared cp (v, x) <-> x ∈ X) as Hdec.
  { intros x. split; [|by exists X]. intros (X' & HX' & ?). simpl in HX'. rewrite HX in HX'. by injection HX' as <-. }
  pose proof (fo_nodes _ _ Hok v) as Hn. destruct (fg_nodes fg !! v) as [fn|] eqn:Hfn.
  2:{ exfalso. apply Hn. exists x0. apply (complete_occurs cp); [done|]. by apply Hdec. }
  destruct Hn as (_ & Hv & _). fold cp in Hv. rewrite HX in Hv. injection Hv as Hv.
  destruct (folded_marginal_lemma o o' sp fg v fn Hwf Hone Hpos Hfg Hfn) as (d & Hd & Hsum & Hm).
  { rewrite (complete_occurs cp) by done. by rewrite Hdec. }
  rewrite <- Hv in Hm.
  pose proof (Hm val_unobserved) as Hu. rewrite decide_True in Hu by done. destruct Hu as (u & Hu & a & b & Ha & Hb & ->).
  pose proof (Hm x0) as Hp. rewrite decide_False in Hp by (intros ->; done).
  destruct (d !! x0) as [p|] eqn:Hdx; [|done]. destruct Hp as (_ & a' & b' & Ha' & Hb' & ->).
  assert (b' = b) as -> by (by apply (weight_unique ss anything)).
  exists fg, fn, d, (qdiv a' b), (qdiv a b). split_and!; [done..| |].
  - assert (a < a')%Z as Hlt by (apply (lacking_fewer cp ss v x0); [done|done|by apply Hdec|done|done]).
    assert (0 < b)%Z as Hb0.
    { apply (weight_pos ss anything b (point (v, x0))); [done..| |done]. apply (complete_contains cp ss); [done|].
      apply point_possible. by apply Hdec. }
    apply Qcnot_le_lt. rewrite qdiv_le by lia. nia.
  - intros x Hxu. specialize (Hm x). rewrite decide_False in Hm by done. destruct (d !! x) as [q|].
    + destruct Hm as (Hx & a1 & b1 & Ha1 & Hb1 & ->). rewrite decide_True by done. do 2 f_equal; [|by apply (weight_unique ss anything)].
      apply (weight_unique ss (has v x) a1 a' Ha1). apply (weight_swap cp ss v x0 x); [done| | |done]; by apply Hdec.
    + by rewrite decide_False.
Qed.

Lemma C35_lemma o o' cp :
  (forall v X, cp_vars cp !! v = Some X -> X <> ∅) ->
  exists b, generate_all_possible_outcomes o (RGBuilder cp (ssb_new cp)) = (b, Ok tt) /\
    (forall v x y a, declared cp (v, x) -> declared cp (v, y) ->
       weight (rb_out b) (has v x) a -> weight (rb_out b) (has v y) a) /\
    (cp_vars cp <> ∅ -> exists sp, rgb_build b = Ok sp /\
       forall v X, cp_vars cp !! v = Some X ->
         exists m d, marginal_variables_probability o' sp None false = Ok m /\ m !! v = Some d /\ uniform_on X d).
Proof.
  intros Hne. destruct (C33_lemma o cp Hne) as (b & Hg & H1 & H2 & H3). exists b. split; [done|].
  change (complete cp (rb_out b)) in H3. split; [intros v x y a; by apply (weight_swap cp)|].
  intros Hv. exists (Space cp (rb_out b)). split.
  - unfold rgb_build, ss_bool. rewrite H1. rewrite bool_decide_true; [done|]. intros Hm.
    apply map_choose in Hv as (v & X & HX). pose proof (Hne v X HX) as HXne. apply set_choose_L in HXne as [x Hx].
    assert (contains (rb_out b) (point (v, x))) as [c Hc].
    { apply (complete_contains cp); [done|]. apply point_possible. by exists X. }
    by rewrite Hm, lookup_empty in Hc.
  - intros v X HX. apply (uniform_lemma o' (Space cp (rb_out b)) v X); [done|done|by apply (Hne v)].
Qed.

End uniform.
