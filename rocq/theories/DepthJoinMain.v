(** * DepthJoinMain: what joining needs of the limit, and a graph that is too large for it (C66) *)

From Coq Require Import Lia.
From Verif Require Export DepthJoinFacts.
From Verif Require Import PropsJoin.

Section needs.
Context {U : Universe}.

Lemma for_res_each {S A} (f : oracle -> S -> A -> res S) o s l r x :
  for_res f o s l = Ok r -> x ∈ l -> exists o' s' s'', f o' s' x = Ok s''.
Proof.
  revert o s. induction l as [|y l IH]; intros o s; simpl; [by intros _ ?%elem_of_nil|].
  destruct (f (sub o 1) s y) as [s'|] eqn:E; [|done]. intros Hr [->|Hx]%elem_of_cons; [by eauto|by eapply IH].
Qed.

Lemma pigeon {A B} (R : A -> B -> Prop) (l : list A) : forall (L : list B),
  NoDup l -> (forall a, a ∈ l -> exists b, b ∈ L /\ R a b) ->
  (forall a a' b, a ∈ l -> a' ∈ l -> R a b -> R a' b -> a = a') -> (length l <= length L)%nat.
Proof.
  induction l as [|a l IH]; intros L Hnd Hex Hinj; [simpl; lia|].
  apply NoDup_cons in Hnd as [Ha Hnd]. destruct (Hex a ltac:(left)) as (b & Hb & Hab).
  apply elem_of_Permutation in Hb as [L' HL]. rewrite HL. simpl. apply le_n_S, IH; [done| |].
  - intros c Hc. destruct (Hex c ltac:(by right)) as (d & Hd & Hcd). rewrite HL in Hd.
    apply elem_of_cons in Hd as [->|Hd]; [|by exists d]. exfalso. apply Ha.
    rewrite (Hinj a c b); [done|left|by right|done|done].
  - intros c c' d Hc Hc'. apply Hinj; by right.
Qed.

(** The factors with one value of the first visited variable. *)
Lemma first_variable limit o sp r v rest x g0 :
  all_wf (sp_cp sp) (sp_out sp) -> cp_id (ss_cp (sp_out sp)) = cp_id (sp_cp sp) ->
  make_joined_within limit o sp = Ok r -> visited o sp = v :: rest -> contains (sp_out sp) g0 -> has v x g0 ->
  exists L : list (gmap graph Z), (length L < limit)%nat /\ (forall m, m ∈ L -> size m < limit)%nat /\
    (forall g, contains (sp_out sp) g -> has v x g ->
       exists m, m ∈ L /\ forall h, contains (sp_out sp) h -> has v x h -> same_pairs g h -> is_Some (m !! h)) /\
    (forall m g h, m ∈ L -> is_Some (m !! g) -> is_Some (m !! h) -> same_pairs g h).
Proof.
  intros Hwf Hid. unfold make_joined_within.
  pose proof (C30_lemma (sub o 0) sp Hwf Hid) as HF.
  destruct (factorized (sub o 0) sp) as [F|e]; cbn [mbind res_bind]; [|done]. destruct HF as [_ HF].
  intros Hr Hv Hg0 Hx0. unfold visited in Hv.
  assert (forall v X, (v, X) ∈ iter_map (sub o 2) (sp_included_variables (sub o 3) sp) -> forall x, x ∈ X <-> occurs (sp_out sp) (v, x)) as Hl.
  { intros w X HwX%elem_of_iter_map. pose proof (included_lemma (sub o 3) sp w) as H. rewrite HwX in H. apply H. }
  destruct (iter_map (sub o 2) (sp_included_variables (sub o 3) sp)) as [|[w X] its]; [done|].
  cbn [fmap list_fmap fst] in Hv. injection Hv as -> _.
  assert (x ∈ X) as Hx.
  { apply (Hl v X ltac:(left)). by exists g0. }
  clear Hl. cbn [for_res] in Hr.
  destruct (join_variable_within limit (sub (sub o 1) 1) (sp_cp sp) F v X) as [F'|e] eqn:Ejv; [|done]. clear Hr.
  revert Ejv. unfold join_variable_within. set (ffvl := iter_set _ _).
  assert (forall m, m ∈ ffvl <-> m ∈ F /\ fvar m v) as Hff.
  { intros m. unfold ffvl. rewrite elem_of_iter_set, elem_of_filter, have_var_spec. tauto. }
  destruct (for_res _ _ _ _) as [jf|e] eqn:E; [|done]. intros _.
  apply (for_res_each _ _ _ _ _ x) in E as (o' & s & s' & E); [|by apply elem_of_iter_set].
  change ((fun f : gmap graph Z => filter (fun kv => have_value kv.1 v x = true) f) <$> ffvl) with (at_value v x <$> ffvl) in E.
  set (L := filter (fun m : gmap graph Z => m ≠ ∅) (at_value v x <$> ffvl)) in *.
  destruct (join_factors_within limit (sub o' 0) (sp_cp sp) L (ssb_new (sp_cp sp))) as [r1|] eqn:Ej; [|done].
  apply jf_needs in Ej as [H1 H2]; [|by intros m [? _]%elem_of_list_filter].
  exists L. split_and!; [done|done| |].
  - intros g Hg Hgx.
    assert (exists m, m ∈ F /\ factor_of (sp_out sp) g m) as (m & HmF & Hm).
    { exists (filter (fun kv => group_key g = group_key kv.1) (ss_map (sp_out sp))).
      assert (factor_of (sp_out sp) g (filter (fun kv => group_key g = group_key kv.1) (ss_map (sp_out sp)))) as Hfo.
      { intros h c. rewrite map_filter_lookup_Some. cbn [fst]. by rewrite same_pairs_key. }
      split; [|done]. apply HF. by exists g. }
    assert (forall h, contains (sp_out sp) h -> has v x h -> same_pairs g h -> is_Some (at_value v x m !! h)) as Hat.
    { intros h [c Hc] Hh Hgh. exists c. apply at_value_lookup. split; [|done]. by apply Hm. }
    exists (at_value v x m). split; [|done]. apply elem_of_list_filter. split.
    + intros He. destruct (Hat g Hg Hgx) as [c Hc]; [done|]. rewrite He in Hc. by rewrite lookup_empty in Hc.
    + apply elem_of_list_fmap. exists m. split; [done|]. apply Hff. split; [done|].
      destruct Hg as [c Hg]. exists g. split; [exists c; by apply Hm|by exists x].
  - intros m g h [_ Hm]%elem_of_list_filter Hg Hh. apply elem_of_list_fmap in Hm as (E' & -> & HE).
    apply Hff in HE as [HE _]. apply HF in HE as (g' & _ & Hf).
    destruct (proj1 (at_value_some v x E' g) Hg) as [[c Hc] _].
    destruct (proj1 (at_value_some v x E' h) Hh) as [[d Hd] _].
    destruct (proj1 (Hf g c) Hc) as [_ Hg']. destruct (proj1 (Hf h d) Hd) as [_ Hh'].
    intros p. rewrite <- (Hg' p). apply Hh'.
Qed.

Lemma joined_needs limit o sp r v rest x l :
  all_wf (sp_cp sp) (sp_out sp) -> cp_id (ss_cp (sp_out sp)) = cp_id (sp_cp sp) ->
  make_joined_within limit o sp = Ok r -> visited o sp = v :: rest ->
  NoDup l -> (forall g, g ∈ l -> contains (sp_out sp) g /\ has v x g) ->
  (forall g h, g ∈ l -> h ∈ l -> same_pairs g h) \/ (forall g h, g ∈ l -> h ∈ l -> same_pairs g h -> g = h) ->
  (length l < limit)%nat.
Proof.
  intros Hwf Hid Hr Hv Hnd Hl Hs.
  assert (exists g x', contains (sp_out sp) g /\ has v x' g) as (g1 & y & Hg1 & Hy).
  { destruct (visited_spec o sp) as [_ H]. destruct (proj1 (H v)) as (z & g & Hg & Hz); [rewrite Hv; left|]. by exists g, z. }
  destruct l as [|g0 l'] eqn:El.
  { destruct (first_variable limit o sp r v rest y g1) as (L & H1 & _); [done..|]. simpl. lia. }
  rewrite <- El in *. assert (g0 ∈ l) as Hg0 by (rewrite El; left). clear El l'.
  destruct (Hl g0 Hg0) as [Hc0 Hx0].
  destruct (first_variable limit o sp r v rest x g0) as (L & H1 & H2 & H3 & H4); [done..|].
  destruct Hs as [Hs|Hs].
  - destruct (H3 g0 Hc0 Hx0) as (m & Hm & Hin).
    assert (length l <= size m)%nat; [|specialize (H2 m Hm); lia].
    rewrite <- (size_list_to_set (C := gset graph) l Hnd). rewrite <- (size_dom m).
    apply subseteq_size. intros g Hg. apply elem_of_list_to_set in Hg. apply elem_of_dom.
    destruct (Hl g Hg). apply Hin; [done|done|]. by apply Hs.
  - assert (length l <= length L)%nat; [|lia].
    apply (pigeon (fun g m => m ∈ L /\ is_Some (m !! g))); [done| |].
    + intros g Hg. destruct (Hl g Hg) as [Hc Hx]. destruct (H3 g Hc Hx) as (m & Hm & Hin).
      exists m. split; [done|]. split; [done|]. by apply Hin.
    + intros g h m Hg Hh [Hm Hgm] [_ Hhm]. apply Hs; [done|done|]. by apply (H4 m).
Qed.
(** [roots] has one sample of each group. *)
Definition one_of_each_group (ss : samples) (roots : list graph) : Prop :=
  NoDup roots /\ (forall g, g ∈ roots -> contains ss g) /\ (forall g, contains ss g -> exists h, h ∈ roots /\ chain ss h g) /\
  (forall g h, g ∈ roots -> h ∈ roots -> chain ss g h -> g = h).

Lemma groups_size o ss m roots :
  (forall g, contains ss g -> wf_graph (ss_cp ss) g) -> no_collision ss ->
  (forall g v, contains ss g -> g_edges g = ∅ -> has_var (g_nodes g) v -> var_iter v = Some [v]) ->
  group_intersecting o ss = Ok m -> one_of_each_group ss roots ->
  size m = length roots /\ forall vs grp, m !! vs = Some grp -> ss_map grp <> ∅.
Proof.
  intros Hwf Hnc Hself Hm (Hnd & Hin & Hall & Hone).
  pose proof (group_spec o ss Hwf Hnc Hself) as Hs. rewrite Hm in Hs. destruct Hs as [H1 H2]. split.
  - assert (size m = length (map_to_list m)) as -> by done. apply Nat.le_antisymm.
    + apply (pigeon (fun (p : gset Var * samples) g => contains p.2 g)); [apply NoDup_map_to_list| |].
      * intros [vs grp] Hp%elem_of_map_to_list. destruct (H1 vs grp Hp) as (_ & g & [c Hg] & Hcl & _).
        destruct (Hall g ltac:(by exists c)) as (h & Hh & Hch). exists h. split; [done|]. cbn [snd].
        destruct (Hin h Hh) as [d Hd]. exists d. apply Hcl. split; [done|]. by apply chain_sym.
      * intros [vs grp] [vs' grp'] g Hp%elem_of_map_to_list Hp'%elem_of_map_to_list [c Hg] [c' Hg']. cbn [snd] in *.
        destruct (H1 vs grp Hp) as (_ & a & Ha & Hcl & Hv). destruct (H1 vs' grp' Hp') as (_ & a' & Ha' & Hcl' & Hv').
        apply Hcl in Hg as [_ Hg]. apply Hcl' in Hg' as [_ Hg'].
        assert (chain ss a a') as Hc by (transitivity g; [done|by apply chain_sym]).
        assert (vs = vs') as ->; [|congruence].
        apply set_eq. intros v. rewrite Hv, Hv'. unfold class_vars. split; intros (h & Hh & Hch & Hvh); exists h; (split_and!; [done| |done]).
        -- transitivity a; [by apply chain_sym|done].
        -- by transitivity a'.
    + apply (pigeon (fun g (p : gset Var * samples) => p ∈ map_to_list m /\ contains p.2 g)); [done| |].
      * intros g Hg. destruct (H2 g (Hin g Hg)) as (vs & grp & Hl & Hc). exists (vs, grp).
        split; [by apply elem_of_map_to_list|]. split; [by apply elem_of_map_to_list|done].
      * intros g h [vs grp] Hg Hh [Hp%elem_of_map_to_list [c Hgc]] [_ [d Hhd]]. cbn [snd] in *.
        destruct (H1 vs grp Hp) as (_ & a & Ha & Hcl & _). apply Hcl in Hgc as [_ Hgc]. apply Hcl in Hhd as [_ Hhd].
        apply Hone; [done|done|]. transitivity a; [by apply chain_sym|done].
  - intros vs grp Hp He. destruct (H1 vs grp Hp) as (_ & a & [c Ha] & Hcl & _).
    assert (ss_map grp !! a = Some c) as Hl by (by apply Hcl). rewrite He in Hl. by rewrite lookup_empty in Hl.
Qed.

Lemma joined_on_needs limit o sp X r v rest sel reps roots :
  joined_on_variables_within limit o sp (Some X) = Ok r -> iter_set (sub o 2) X = v :: rest ->
  ss_cp sel = ss_cp (sp_out sp) ->
  (forall g c, ss_map sel !! g = Some c <-> ss_map (sp_out sp) !! g = Some c /\ having v g) ->
  (forall g, contains sel g -> wf_graph (ss_cp sel) g) -> no_collision sel -> self_named sel ->
  one_of_each_kind sel reps -> one_of_each_group sel roots ->
  (length roots < limit /\ length reps < length roots + limit)%nat.
Proof.
  intros Hr Hv Hcp Hsel Hwf Hnc Hself Hreps Hroots. revert Hr. unfold joined_on_variables_within. rewrite Hv. cbn [for_res].
  destruct (join_on_within limit _ _ _ v) as [acc|] eqn:E; [|done]. intros _. revert E. unfold join_on_within.
  assert (filter_samples (fun g => bool_decide (v ∈ included_variables g)) (sp_out sp) = sel) as ->.
  { destruct sel as [cp' m']. cbn [ss_cp ss_map] in *. unfold filter_samples. subst cp'. f_equal. apply map_eq. intros g.
    apply option_eq. intros c. rewrite Hsel, map_filter_lookup_Some. cbn [fst].
    rewrite bool_decide_eq_true, included_variables_spec. done. }
  destruct (group_intersecting_within limit _ sel) as [m|] eqn:E; [|done]. cbn [mbind res_bind].
  destruct (group_cases limit (sub (sub (sub o 1) 1) 0) sel) as [H|H]; [|congruence].
  rewrite E in H. symmetry in H. pose proof (group_exact limit _ sel m reps Hnc Hreps H) as He. rewrite E in He.
  destruct (groups_size (sub (sub (sub o 1) 1) 0) sel m roots Hwf Hnc) as [Hsz Hgne].
  { intros g w Hg Hge Hw. by apply (Hself g w). }
  { done. }
  { done. }
  destruct (cross_join_within limit _ _ _ _) as [j|] eqn:Ej; [|done]. intros _.
  apply cross_needs in Ej.
  - rewrite fmap_length, iter_map_length in Ej. case_bool_decide; [|done]. lia.
  - intros g (p & -> & Hp)%elem_of_list_fmap. destruct p as [vs grp]. apply elem_of_iter_map in Hp. by apply (Hgne vs).
Qed.

End needs.

(** ** Many outcomes of one kind *)

(** Variables, values and relations are numbers. *)
Definition RelU : Universe := {|
  Var := positive; Val := positive; Rel := positive;
  var_iter := fun v => Some [v]; val_u := 3%positive; val_unobserved := 4%positive |}.

Section wide.
#[local] Existing Instance RelU.

Definition wends : gset node := {[ (1%positive : @Var RelU, 1%positive : @Val RelU); (2%positive, 1%positive) ]}.
Definition wgraph (i : nat) : graph := Graph wends {[ (wends, Plain (Pos.of_succ_nat i : @Rel RelU)) ]}.
Definition wmap (n : nat) : gmap graph Z := list_to_map ((fun i => (wgraph i, 1%Z)) <$> seq 0 n).
Definition wcp (n : nat) : provider :=
  Provider 7 {[ (1%positive : @Var RelU) := {[ (1%positive : @Val RelU) ]}; 2%positive := {[ 1%positive ]} ]}
    (list_to_set ((Pos.of_succ_nat : nat -> @Rel RelU) <$> seq 0 n)).
(** One edge between two nodes, with each of [n] relations. *)
Definition wide (n : nat) : space := Space (wcp n) (Samples (wcp n) (wmap n)).

Lemma wgraph_inj i j : wgraph i = wgraph j -> i = j.
Proof.
  intros H. apply (f_equal g_edges) in H. cbn [wgraph g_edges] in H. apply singleton_inj in H. apply SuccNat2Pos.inj.
  injection H as H. done.
Qed.

Lemma wmap_lookup n g c : wmap n !! g = Some c <-> c = 1%Z /\ exists i, (i < n)%nat /\ g = wgraph i.
Proof.
  unfold wmap. rewrite <- elem_of_list_to_map.
  - rewrite elem_of_list_fmap. split.
    + intros (i & [= -> ->] & Hi%elem_of_seq). split; [done|]. exists i. split; [lia|done].
    + intros (-> & i & Hi & ->). exists i. split; [done|]. apply elem_of_seq. lia.
  - rewrite <- list_fmap_compose. apply NoDup_fmap_2_strong; [|apply NoDup_seq].
    intros i j _ _. apply wgraph_inj.
Qed.

Lemma wide_contains n g : contains (sp_out (wide n)) g <-> exists i, (i < n)%nat /\ g = wgraph i.
Proof.
  unfold contains. cbn [wide sp_out ss_map]. split.
  - intros [c [_ H]%wmap_lookup]. done.
  - intros H. exists 1%Z. by apply wmap_lookup.
Qed.

Lemma wends_spec n : n ∈ wends <-> (n.1 = 1%positive \/ n.1 = 2%positive) /\ n.2 = 1%positive.
Proof. destruct n as [v x]. unfold wends. rewrite elem_of_union, !elem_of_singleton. simpl. naive_solver. Qed.

Lemma wgraph_same i j : same_pairs (wgraph i) (wgraph j).
Proof.
  intros [v|X]; cbn [var_pairs wgraph g_edges g_nodes].
  - split; intros [H _]; set_solver.
  - split; intros (e & ->%elem_of_singleton & H); cbn [fst] in H; eexists; (split; [by apply elem_of_singleton|done]).
Qed.

Lemma in_wedges e i : e ∈ g_edges (wgraph i) <-> e = (wends, Plain (Pos.of_succ_nat i : @Rel RelU)).
Proof. apply elem_of_singleton. Qed.

Lemma wide_joinable n : joinable (wide n).
Proof.
  split.
  - done.
  - intros g (i & Hi & ->)%wide_contains.
    assert (forall m, m ∈ wends -> declared (wcp n) m) as Hd.
    { intros [v x] [[Hv|Hv] Hx]%wends_spec; simpl in *; subst.
      - exists {[1%positive]}. split; [|set_solver]. by cbn [wcp cp_vars fst].
      - exists {[1%positive]}. split; [|set_solver]. by cbn [wcp cp_vars fst]. }
    split.
    + exact Hd.
    + intros e ->%in_wedges. split_and!.
      * cbn [fst]. unfold wends. eexists _, _. split; [reflexivity|]. done.
      * exact Hd.
      * cbn [snd rel_legal wcp cp_rels]. apply elem_of_list_to_set, elem_of_list_fmap. exists i. split; [done|].
        apply elem_of_seq. lia.
    + intros e ->%in_wedges. done.
    + intros a b Ha Hb. apply rtc_once. exists (wends, Plain (Pos.of_succ_nat i : @Rel RelU)).
      split; [by apply in_wedges|]. done.
  - intros g (i & Hi & ->)%wide_contains v x y [_ Hx]%wends_spec [_ Hy]%wends_spec. simpl in *. congruence.
  - intros g (i & Hi & ->)%wide_contains e e' ->%in_wedges ->%in_wedges. done.
  - split.
    + intros g (i & Hi & ->)%wide_contains He. assert ((1%positive, 1%positive) ∈ wends) as H; [by apply wends_spec; auto|].
      cbn [wgraph g_nodes] in He. rewrite He in H. by apply elem_of_empty in H.
    + intros g h (i & Hi & ->)%wide_contains (j & Hj & ->)%wide_contains _. apply wgraph_same.
  - intros g a Hg Ha. exists g. split_and!; [done|done|]. intros v Hv.
    destruct (Ha v Hv) as (h & (i & Hi & ->)%wide_contains & Hn). apply wends_spec in Hn as [_ Hn]. simpl in Hn.
    destruct Hv as [x Hx]. pose proof Hg as (j & Hj & ->)%wide_contains. unfold has.
    pose proof Hx as [_ Hx']%wends_spec. simpl in Hx'. by rewrite Hn, <- Hx'.
Qed.

Lemma wide_too_deep (L : nat) : exists sp, joinable sp /\ size (ss_map (sp_out sp)) = S L /\
  forall o, is_ok (make_joined o sp) = true /\ make_joined_within (S L) o sp = Err OutOfFuel.
Proof.
  exists (wide (S L)). pose proof (wide_joinable (S L)) as Hj. split; [done|].
  assert (NoDup (wgraph <$> seq 0 (S L))) as Hnd.
  { apply NoDup_fmap_2_strong; [|apply NoDup_seq]. intros i j _ _. apply wgraph_inj. }
  assert (forall g, g ∈ wgraph <$> seq 0 (S L) <-> contains (sp_out (wide (S L))) g) as Hin.
  { intros g. rewrite wide_contains, elem_of_list_fmap. setoid_rewrite elem_of_seq. split.
    - intros (i & -> & Hi). exists i. split; [lia|done].
    - intros (i & Hi & ->). exists i. split; [done|lia]. }
  assert (length (wgraph <$> seq 0 (S L)) = S L) as Hlen by (by rewrite fmap_length, seq_length).
  split.
  { transitivity (size (list_to_set (wgraph <$> seq 0 (S L)) : gset graph)); [|by rewrite size_list_to_set].
    rewrite <- size_dom. f_equal.
    apply set_eq. intros g. rewrite elem_of_dom, elem_of_list_to_set. symmetry. apply Hin. }
  intros o.
  assert (is_ok (make_joined o (wide (S L))) = true) as Hok.
  { apply C40_acyclic_succeeds; [done| |].
    - intros (g & h & Hg & Hh & Hc). apply (Hc ∅). apply rtc_once. split; [done|]. left.
      apply wide_contains in Hg as (i & _ & ->), Hh as (j & _ & ->). apply wgraph_same.
    - intros (v & V & g & h & _ & Hg & Hh & _ & _ & Hn & _). apply Hn.
      apply wide_contains in Hg as (i & _ & ->), Hh as (j & _ & ->). apply wgraph_same. }
  split; [done|].
  destruct (make_joined_cases (S L) o (wide (S L))) as [H|H]; [exfalso|done].
  destruct (make_joined o (wide (S L))) as [r|e]; [|done].
  assert (occurs_var (sp_out (wide (S L))) (1%positive : @Var RelU)) as Ho.
  { exists 1%positive, (wgraph 0). split; [apply wide_contains; exists 0%nat; split; [lia|done]|]. apply wends_spec. auto. }
  destruct (visited_spec o (wide (S L))) as [_ Hvis].
  destruct (visited o (wide (S L))) as [|v rest] eqn:Hv.
  { apply Hvis in Ho. by apply elem_of_nil in Ho. }
  assert (forall i, has v (1%positive : @Val RelU) (wgraph i)) as Hhas.
  { destruct (proj1 (Hvis v)) as (z & g & (j & _ & ->)%wide_contains & Hz); [left|]. intros i.
    apply wends_spec in Hz as [Hz _]. by apply wends_spec. }
  assert (length (wgraph <$> seq 0 (S L)) < S L)%nat as Hlt; [|lia].
  apply (joined_needs (S L) o (wide (S L)) r v rest (1%positive : @Val RelU)); [apply Hj|done|done|done|done| |].
  - intros g Hg. split; [by apply Hin|]. apply elem_of_list_fmap in Hg as (i & -> & _). apply Hhas.
  - left. intros g h (i & -> & _)%elem_of_list_fmap (j & -> & _)%elem_of_list_fmap. apply wgraph_same.
Qed.
End wide.
