(** * HashVarsFacts: [==] and [hash] between the variable-level classes (C52) *)

From Verif Require Export HashVars HashFacts.
From Verif Require Import SampleSpace.

Section hierarchy.
Context {B F A : Type}.
Variables (gb : B -> Prop) (beq : B -> B -> bool) (bh : B -> Z).
Variables (fb : F -> B) (gf : F -> Prop) (feq : F -> F -> bool) (fh : F -> Z).
Variables (ab : A -> B) (ga : A -> Prop) (aeq : A -> A -> bool) (ah : A -> Z).
Hypothesis Lb : laws gb beq bh.
Hypothesis Lf : laws gf feq fh.
Hypothesis La : laws ga aeq ah.
Notation eqb := (vobj_eqb beq fb feq ab aeq).
Notation good := (vobj_good gb gf ga).
Notation hash := (vobj_hash bh fh ah).

Lemma vobj_eqb_cases (x y : vobj B F A) :
  eqb x y = match x, y with OBase b, OBase c => beq b c | OFold f, OFold g => feq f g | OAct a, OAct b => aeq a b | _, _ => false end.
Proof. by destruct x, y. Qed.

Lemma vobj_laws : laws good eqb hash.
Proof.
  destruct Lb as [r1 s1 t1 h1], Lf as [r2 s2 t2 h2], La as [r3 s3 t3 h3]. split.
  - intros [b|f|a]; rewrite vobj_eqb_cases; cbn; auto.
  - intros [] []; rewrite !vobj_eqb_cases; cbn; auto.
  - intros [] [] []; rewrite !vobj_eqb_cases; cbn; try done; eauto.
  - intros [] []; rewrite !vobj_eqb_cases; cbn; try done; eauto.
Qed.

Lemma vobj_same_class x y : eqb x y = true -> vclass_of x = vclass_of y.
Proof. rewrite vobj_eqb_cases. by destruct x, y. Qed.
End hierarchy.

Section graphs.
Context {N E : Type}.
Variables (gn : N -> Prop) (neq : N -> N -> bool) (nh : N -> Z).
Variables (ge : E -> Prop) (eeq : E -> E -> bool) (eh : E -> Z).
Hypothesis Ln : laws gn neq nh.
Hypothesis Le : laws ge eeq eh.
Notation eqb := (vgraph_eqb neq nh eeq eh).
Notation good := (vgraph_good gn neq ge eeq).

Lemma vgraph_laws : (forall g, good g -> eqb g g = true) /\ (forall g g', good g -> good g' -> eqb g g' = true -> eqb g' g = true) /\
  (forall g g' g'', good g -> good g' -> good g'' -> eqb g g' = true -> eqb g' g'' = true -> eqb g g'' = true).
Proof.
  pose proof (fs_laws (fun _ => 0%Z) (fun _ _ _ => eq_refl) gn neq nh Ln) as [r1 s1 t1 _].
  pose proof (fs_laws (fun _ => 0%Z) (fun _ _ _ => eq_refl) ge eeq eh Le) as [r2 s2 t2 _].
  unfold vgraph_eqb, vgraph_good. split_and!.
  - intros g [H1 H2]. by rewrite r1, r2.
  - intros g g' [H1 H2] [H3 H4] [H5 H6]%andb_prop. by rewrite s1, s2.
  - intros g g' g'' [H1 H2] [H3 H4] [H5 H6] [H7 H8]%andb_prop [H9 H10]%andb_prop.
    by rewrite (t1 _ (vg_nodes g')), (t2 _ (vg_edges g')).
Qed.
End graphs.

Lemma fs_eqb_disjoint {A} (eqb : A -> A -> bool) (h : A -> Z) (l l' : list A) :
  (forall x y, x ∈ l -> y ∈ l' -> eqb x y = false) -> fs_eqb eqb h l l' = true <-> l = [] /\ l' = [].
Proof.
  intros Hd. unfold fs_eqb. rewrite andb_true_iff, Nat.eqb_eq. split; [|by intros [-> ->]].
  intros [Hl Hf]. destruct l as [|x l]; [by destruct l'|]. cbn in Hf. apply andb_prop in Hf as [Hm _].
  unfold mem in Hm. apply existsb_exists in Hm as (y & Hy & Hs). apply andb_prop in Hs as [_ He].
  rewrite Hd in He; [done|left|by apply elem_of_list_In].
Qed.

(** ** The values of the other files *)
Section values.
Variable htuple : list Z -> Z.
Variable hset : list Z -> Z.
Hypothesis hset_perm : forall l l', Permutation l l' -> hset l = hset l'.
Context {U : Universe}.
Variables (hv : Var -> Z) (hx : Val -> Z) (hr : Rel -> Z) (hz : Z -> Z).

(** What a folded graph object says: per node the variable and the counted value nodes, per edge the endpoints and
    the counted relation edges. *)
Definition value_fnode (a : Hash.fnode) : Var * gset (node * Z) := (fn_variable a, list_to_set (fn_value_nodes a)).
Definition value_fedge (a : fedge) : gset Var * gset (edge * Z) :=
  (list_to_set (fe_endpoints a), list_to_set (prod_map value_edge id <$> fe_relation_edges a)).
Definition value_fgraph (g : vgraph Hash.fnode fedge) : gset (Var * gset (node * Z)) * gset (gset Var * gset (edge * Z)) :=
  (list_to_set (value_fnode <$> vg_nodes g), list_to_set (value_fedge <$> vg_edges g)).
(** The same of the model's folded graph. *)
Definition view_fgraph (fg : fgraph) : gset (Var * gset (node * Z)) * gset (gset Var * gset (edge * Z)) :=
  (map_to_set (fun v fn => (v, map_to_set pair (fn_counts fn))) (fg_nodes fg), map_to_set (fun ep m => (ep, map_to_set pair m)) (fg_edges fg)).

Notation neqb := (fnode_eqb htuple is_eqb hv is_eqb hx hz).
Notation nhash := (fnode_hash htuple hset hv hx hz).
Notation ngood := (fnode_good is_eqb is_eqb).
Notation eeqb := (fedge_eqb htuple hset is_eqb hv is_eqb hx is_eqb hr hz).
Notation ehash := (fedge_hash htuple hset hv hx hr hz).
Notation egood := (fedge_good htuple is_eqb hv is_eqb hx is_eqb).

Lemma fnode_value a b : ngood a -> ngood b -> neqb a b = true <-> value_fnode a = value_fnode b.
Proof.
  intros Ha Hb. unfold fnode_eqb, value_fnode, fnode_good in *. rewrite andb_true_iff.
  rewrite (fs_value any _ _ (id : (Var * Val) * Z -> node * Z)); [|..|exact Ha|exact Hb].
  - rewrite !list_fmap_id. unfold is_eqb. rewrite bool_decide_eq_true. split; [intros [H1 H2]; by f_equal|intros H; by injection H].
  - apply (laws_impl _ (fun x : (Var * Val) * Z => any x.1 /\ any x.2)); [done|].
    apply pair_laws; [apply node_laws; apply is_laws|apply Z_laws].
  - intros [x c] [y d] _ _. unfold vcount_eqb, pair_eqb. cbn. rewrite andb_true_iff, neqb_eq, Z.eqb_eq. split; [by intros [-> ->]|by intros [= -> ->]].
Qed.

Lemma fedge_value a b : egood a -> egood b -> eeqb a b = true <-> value_fedge a = value_fedge b.
Proof.
  intros [Ha Ha'] [Hb Hb']. unfold fedge_eqb, value_fedge. rewrite andb_true_iff.
  rewrite (fs_value any is_eqb hv (id : Var -> Var)); [|apply is_laws| |done|done].
  2:{ intros x y _ _. unfold is_eqb. by rewrite bool_decide_eq_true. }
  rewrite (fs_value (ecount_good is_eqb is_eqb) _ _ (prod_map value_edge id : oedge * Z -> edge * Z)); [|..|exact Ha'|exact Hb'].
  - rewrite !list_fmap_id. split; [intros [H1 H2]; by f_equal|intros H; split; [exact (f_equal fst H)|exact (f_equal snd H)]].
  - apply item_laws. apply edge_laws; [done|apply is_laws..].
  - intros [x c] [y d] Hx Hy. unfold ecount_eqb, pair_eqb, prod_map. cbn.
    rewrite andb_true_iff, edge_value, Z.eqb_eq by done. split; [intros [H1 ->]; by f_equal|intros H; split; [exact (f_equal fst H)|exact (f_equal snd H)]].
Qed.

Lemma fgraph_value g g' : vgraph_good ngood neqb egood eeqb g -> vgraph_good ngood neqb egood eeqb g' ->
  vgraph_eqb neqb nhash eeqb ehash g g' = true <-> value_fgraph g = value_fgraph g'.
Proof.
  intros [H1 H2] [H3 H4]. unfold vgraph_eqb, value_fgraph. rewrite andb_true_iff.
  rewrite (fs_value ngood neqb nhash value_fnode); [|apply fnode_laws; [done|apply is_laws..]|apply fnode_value|done|done].
  rewrite (fs_value egood eeqb ehash value_fedge); [|apply fedge_laws; [done|apply is_laws..]|apply fedge_value|done|done].
  split; [intros [H5 H6]; by f_equal|intros H; split; [exact (f_equal fst H)|exact (f_equal snd H)]].
Qed.

Lemma map_to_set_inj {K V} `{Countable K} `{Countable V} (m m' : gmap K V) :
  (map_to_set pair m : gset (K * V)) = map_to_set pair m' -> m = m'.
Proof.
  intros He. apply map_eq. intros k. apply option_eq. intros x.
  rewrite <- !(elem_of_map_to_set_pair (C := gset (K * V))). by rewrite He.
Qed.
Lemma map_to_set_view {K V W} `{Countable K} `{Countable W} (f : V -> W) (m m' : gmap K V) :
  (map_to_set (fun k x => (k, f x)) m : gset (K * W)) = map_to_set (fun k x => (k, f x)) m' <-> f <$> m = f <$> m'.
Proof.
  assert (forall m : gmap K V, (map_to_set (fun k x => (k, f x)) m : gset (K * W)) = map_to_set pair (f <$> m)) as Hm.
  { intros n. apply set_eq. intros [k w]. rewrite elem_of_map_to_set_pair, lookup_fmap, elem_of_map_to_set. split.
    - intros (i & x & Hi & [= -> <-]). by rewrite Hi.
    - intros (x & Hx & ->)%fmap_Some. by exists k, x. }
  rewrite !Hm. split; [apply map_to_set_inj|by intros ->].
Qed.

Lemma view_value fg fg' : view_fgraph fg = view_fgraph fg' <->
  fn_counts <$> fg_nodes fg = fn_counts <$> fg_nodes fg' /\ fg_edges fg = fg_edges fg'.
Proof.
  unfold view_fgraph. split.
  - intros [= H1 H2]. split.
    + apply (map_to_set_view (fun fn => map_to_set pair (fn_counts fn) : gset (node * Z))) in H1.
      apply map_eq. intros v. pose proof (f_equal (.!! v) H1) as Hv. rewrite !lookup_fmap in *. 
      destruct (fg_nodes fg !! v), (fg_nodes fg' !! v); cbn in *; try done. f_equal. apply map_to_set_inj. congruence.
    + apply (map_to_set_view (fun m => map_to_set pair m : gset (edge * Z))) in H2.
      apply map_eq. intros v. pose proof (f_equal (.!! v) H2) as Hv. rewrite !lookup_fmap in *. 
      destruct (fg_edges fg !! v), (fg_edges fg' !! v); cbn in *; try done. f_equal. apply map_to_set_inj. congruence.
  - intros [H1 H2]. f_equal; [|by rewrite H2].
    apply (map_to_set_view (fun fn => map_to_set pair (fn_counts fn) : gset (node * Z))).
    apply map_eq. intros v. pose proof (f_equal (.!! v) H1) as Hv. rewrite !lookup_fmap in *.
    destruct (fg_nodes fg !! v), (fg_nodes fg' !! v); cbn in *; try done. f_equal. congruence.
Qed.

Lemma fgraph_objects g g' fg fg' : vgraph_good ngood neqb egood eeqb g -> vgraph_good ngood neqb egood eeqb g' ->
  value_fgraph g = view_fgraph fg -> value_fgraph g' = view_fgraph fg' ->
  vgraph_eqb neqb nhash eeqb ehash g g' = true <->
  fn_counts <$> fg_nodes fg = fn_counts <$> fg_nodes fg' /\ fg_edges fg = fg_edges fg'.
Proof. intros Hg Hg' H1 H2. by rewrite fgraph_value, H1, H2, view_value. Qed.
End values.
