(** * BayesJoint: the distribution that the Bayesian network experiment reads off the joined graph. *)

From stdpp Require Import pretty.
From Verif Require Import BaseFacts SpaceFacts BfsFacts MultiFacts.
From Verif Require Export BayesBuild NetDist.

Local Existing Instance StrU.

(** Tuples of numbers as assignments. *)
Lemma value_at_map vs (b : Var -> nat) v : v ∈ vs -> value_at vs (b <$> vs) v = b v.
Proof.
  induction vs as [|w vs IH]; intros Hv; [by apply elem_of_nil in Hv|].
  change (value_at (w :: vs) (b <$> w :: vs) v) with (if decide (w = v) then b w else value_at vs (b <$> vs) v).
  case_decide as Hd; [by subst|]. apply elem_of_cons in Hv as [->|Hv]; [done|]. by apply IH.
Qed.

Lemma map_value_at vs t : NoDup vs -> length t = length vs -> value_at vs t <$> vs = t.
Proof.
  revert t. induction vs as [|w vs IH]; intros [|x t] Hnd Hl; try done. apply NoDup_cons in Hnd as [Hw Hnd]. injection Hl as Hl.
  change ((if decide (w = w) then x else value_at vs t w) :: (value_at (w :: vs) (x :: t) <$> vs) = x :: t).
  rewrite decide_True by done. f_equal. etransitivity; [|exact (IH t Hnd Hl)]. apply list_fmap_ext. intros k v Hv.
  change (value_at (w :: vs) (x :: t) v) with (if decide (w = v) then x else value_at vs t v).
  rewrite decide_False; [done|]. intros ->. apply Hw. by eapply elem_of_list_lookup_2.
Qed.

Lemma below_map (card b : Var -> nat) vs : below (b <$> vs) (card <$> vs) <-> forall v, v ∈ vs -> b v < card v.
Proof.
  unfold below. induction vs as [|w vs IH].
  - split; [|constructor]. intros _ v Hv. by apply elem_of_nil in Hv.
  - rewrite !fmap_cons, Forall2_cons. split.
    + intros [H1 H2] v Hv. apply elem_of_cons in Hv as [->|Hv]; [done|]. by apply (proj1 IH H2).
    + intros H. split; [apply H; by left|]. apply (proj2 IH). intros v Hv. apply H. by right.
Qed.

Section bayes.
Context {T : Type} (scale : T -> res Z) (card : Var -> nat) (net : list (Var * cpd T)) (Hok : bayes_ok scale card net) (i : nat).

Local Notation fac := (bayes_factor scale card).
Local Notation cp := (bayes_cp net i).
Local Notation vars := (net.*1).

Lemma tuple_ranged t : tuple_of card vars t <-> length t = length vars /\ ranged card net (value_at vars t).
Proof.
  pose proof (bk_keys _ _ _ Hok) as Hnd. unfold tuple_of, ranged. split.
  - intros H. pose proof (Forall2_length _ _ _ H) as Hl. split; [done|].
    assert (forall vs t, Forall2 (fun x v => x < card v) t vs -> forall v, v ∈ vs -> value_at vs t v < card v) as Hg.
    { clear. intros vs t H. induction H as [|x w t vs Hx Ht IH]; intros v Hv; [by apply elem_of_nil in Hv|].
      change (value_at (w :: vs) (x :: t) v) with (if decide (w = v) then x else value_at vs t v).
      case_decide as Hd; [by subst|]. apply IH. by apply elem_of_cons in Hv as [->|Hv]. }
    by apply Hg.
  - intros [Hl Hr]. rewrite <- (map_value_at vars t Hnd Hl). apply Forall2_fmap_l. apply Forall_Forall2_diag.
    apply Forall_forall. exact Hr.
Qed.

Lemma tuple_below t : tuple_of card vars t <-> below t (card <$> vars).
Proof. unfold tuple_of, below. symmetry. apply Forall2_fmap_r. Qed.

(** The tuples of a restricted set of assignments. *)
Definition bweight (t : list nat) : Z := bayes_product scale net (value_at vars t).
Definition bgraph (t : list nat) : graph := net_graph (fac <$> net) (named (value_at vars t)).

Lemma bgraph_nodes t v x : (v, x) ∈ g_nodes (bgraph t) <-> v ∈ vars /\ x = named (value_at vars t) v.
Proof.
  unfold bgraph. etransitivity; [apply net_graph_nodes|]. cbn [fst snd]. by rewrite (bayes_net_vars scale card net Hok).
Qed.

Lemma bgraph_inj t t' : tuple_of card vars t -> tuple_of card vars t' -> bgraph t = bgraph t' -> t = t'.
Proof.
  intros Ht Ht' H. apply tuple_ranged in Ht as [Hl _]. apply tuple_ranged in Ht' as [Hl' _]. pose proof (bk_keys _ _ _ Hok) as Hnd.
  rewrite <- (map_value_at vars t Hnd Hl), <- (map_value_at vars t' Hnd Hl'). apply list_fmap_ext. intros k v Hv.
  apply elem_of_list_lookup_2 in Hv.
  pose proof (net_graph_inj _ _ _ v H (proj2 (bayes_net_vars scale card net Hok v) Hv)) as Hn. exact (proj2 (value_name_inj _ _ _ _ Hn)).
Qed.

Lemma product_pos l : Forall (fun z => 1 <= z)%Z l -> (1 <= product l)%Z.
Proof. induction 1 as [|z l Hz Hl IH]; [done|]. change (1 <= z * product l)%Z. nia. Qed.

Lemma bayes_product_pos b : ranged card net b -> (1 <= bayes_product scale net b)%Z.
Proof.
  intros Hb. apply product_pos, Forall_fmap, Forall_forall. intros e He. simpl.
  destruct (entry_some scale card net Hok e b He) as (p & c & _ & _ & Hc & ->); [|done].
  by apply (ranged_in_range scale card net Hok).
Qed.

Lemma bayes_product_ext b b' : (forall v, v ∈ vars -> b v = b' v) -> bayes_product scale net b = bayes_product scale net b'.
Proof.
  intros H. unfold bayes_product. f_equal. apply list_fmap_ext. intros k e He. apply elem_of_list_lookup_2 in He.
  apply (entry_count_ext scale card net Hok); [done|]. intros v Hv. apply H. by apply (family_in_net scale card net Hok e).
Qed.

(** Outcomes by tuples instead of assignments. *)
Lemma counts_by_tuples (E : (Var -> nat) -> Prop) (l : list (list nat)) (ss : samples) :
  (forall a b, (forall v, v ∈ vars -> a v = b v) -> E a -> E b) ->
  (forall t, t ∈ l <-> tuple_of card vars t /\ E (value_at vars t)) ->
  (forall G c, count_of ss G = Ok c <->
     exists b, ranged card net b /\ E b /\ G = net_graph (fac <$> net) (named b) /\ c = bayes_product scale net b) ->
  forall G c, ss_map ss !! G = Some c <-> exists t, t ∈ l /\ G = bgraph t /\ c = bweight t.
Proof.
  intros HE Hl HG G c. rewrite <- count_of_lookup, HG. split.
  - intros (b & Hb & Heb & -> & ->). exists (b <$> vars).
    assert (forall v, v ∈ vars -> b v = value_at vars (b <$> vars) v) as Hv by (intros v Hv; by rewrite value_at_map).
    split_and!.
    + apply Hl. split; [|by apply (HE b)]. apply tuple_ranged. split; [apply fmap_length|].
      intros v Hin. rewrite <- (Hv v Hin). by apply Hb.
    + apply (net_graph_ext _ _ _ _ (bayes_net_ok scale card net Hok i)). intros v Hin. apply (bayes_net_vars scale card net Hok) in Hin.
      unfold named. by rewrite (Hv v Hin).
    + unfold bweight. by apply bayes_product_ext.
  - intros (t & Ht & -> & ->). apply Hl in Ht as [Ht He]. apply tuple_ranged in Ht as [_ Hr].
    exists (value_at vars t). done.
Qed.

Definition tnames (t : list nat) : gset Val := list_to_set (zip_with value_name vars t).

Lemma tnames_elem t x : tuple_of card vars t -> x ∈ tnames t <-> exists v, v ∈ vars /\ x = named (value_at vars t) v.
Proof.
  intros Ht. apply tuple_ranged in Ht as [Hl _]. unfold tnames.
  rewrite <- (map_value_at vars t (bk_keys _ _ _ Hok) Hl) at 1. rewrite names_of, elem_of_list_to_set, elem_of_list_fmap.
  split; intros (v & H1 & H2); by exists v.
Qed.

Lemma tnames_graph t : tuple_of card vars t -> set_map snd (values (bgraph t)) = tnames t.
Proof.
  intros Ht. apply set_eq. intros x. rewrite elem_of_map, (tnames_elem t x Ht). unfold values. split.
  - intros ([v y] & -> & Hin). apply bgraph_nodes in Hin as [Hv ->]. by exists v.
  - intros (v & Hv & ->). exists (v, named (value_at vars t) v). split; [done|]. by apply bgraph_nodes.
Qed.

Lemma tnames_inj t t' : tuple_of card vars t -> tuple_of card vars t' -> tnames t = tnames t' -> t = t'.
Proof.
  intros Ht Ht' H. pose proof (proj1 (tuple_ranged t) Ht) as [Hl _]. pose proof (proj1 (tuple_ranged t') Ht') as [Hl' _].
  pose proof (bk_keys _ _ _ Hok) as Hnd.
  rewrite <- (map_value_at vars t Hnd Hl), <- (map_value_at vars t' Hnd Hl'). apply list_fmap_ext. intros k v Hv.
  apply elem_of_list_lookup_2 in Hv.
  assert (named (value_at vars t) v ∈ tnames t') as Hin by (rewrite <- H; apply tnames_elem; [done|by exists v]).
  apply tnames_elem in Hin as (w & _ & Hw); [|done]. unfold named in Hw. destruct (value_name_inj _ _ _ _ Hw) as [<- ?]. done.
Qed.

Lemma value_map_graph_spec o (sp : space) (l : list (list nat)) : (forall t, t ∈ l -> tuple_of card vars t) ->
  (forall G c, ss_map (sp_out sp) !! G = Some c <-> exists t, t ∈ l /\ G = bgraph t /\ c = bweight t) ->
  forall X z, value_map_from_graph o sp !! X = Some z <-> exists t, t ∈ l /\ X = tnames t /\ z = bweight t.
Proof.
  intros Ht HG X z. unfold value_map_from_graph. unfold ss_items.
  assert (forall o' (m : gmap (gset Val) Z) L, for_each (fun _ m '(g, c) => <[set_map snd (values g) := c]> m) o' m L =
    foldl (fun m '(k, a) => <[k := a]> m) m ((fun gc : graph * Z => (set_map snd (values gc.1) : gset Val, gc.2)) <$> L)) as ->.
  { clear. intros o' m L. revert o' m. induction L as [|[g c] L IH]; intros o' m; [done|]. simpl. apply IH. }
  rewrite (foldl_insert (fun X z => exists t, t ∈ l /\ X = tnames t /\ z = bweight t)).
  - rewrite lookup_empty, elem_of_list_fmap. split.
    + intros [?|([g c] & [= -> ->] & Hin)]; [done|]. apply elem_of_iter_map, HG in Hin as (t & Htl & -> & ->).
      exists t. split_and!; [done| |done]. by apply tnames_graph, Ht.
    + intros (t & Htl & -> & ->). right. exists (bgraph t, bweight t). split.
      * cbn [fst snd]. by rewrite tnames_graph by (by apply Ht).
      * apply elem_of_iter_map, HG. by exists t.
  - intros k a a' (t & Htl & -> & ->) (t' & Htl' & Hk & ->). by rewrite (tnames_inj t t' (Ht t Htl) (Ht t' Htl') Hk).
  - intros k a Hin. apply elem_of_list_fmap in Hin as ([g c] & [= -> ->] & Hin). apply elem_of_iter_map, HG in Hin as (t & Htl & -> & ->).
    exists t. split_and!; [done| |done]. by apply tnames_graph, Ht.
  - intros k a Hk. by rewrite lookup_empty in Hk.
Qed.

(** ** Total number of joint outcomes of a network with normalised tables *)

Fixpoint assign (vs : list Var) (t : list nat) (b : Var -> nat) : Var -> nat :=
  match vs, t with v :: vs, x :: t => assign vs t (update b v x) | _, _ => b end.

Lemma assign_other vs t b v : v ∉ vs -> assign vs t b v = b v.
Proof.
  revert t b. induction vs as [|w vs IH]; intros [|x t] b Hv; try done. apply not_elem_of_cons in Hv as [Hne Hv].
  change (assign (w :: vs) (x :: t) b v) with (assign vs t (update b w x) v). rewrite (IH t _ Hv). unfold update. by rewrite decide_False.
Qed.

Lemma assign_value_at vs t b v : NoDup vs -> length t = length vs -> v ∈ vs -> assign vs t b v = value_at vs t v.
Proof.
  revert t b. induction vs as [|w vs IH]; intros [|x t] b Hnd Hl Hv; try done; [by apply elem_of_nil in Hv|].
  apply NoDup_cons in Hnd as [Hw Hnd]. injection Hl as Hl.
  change (assign (w :: vs) (x :: t) b v) with (assign vs t (update b w x) v).
  change (value_at (w :: vs) (x :: t) v) with (if decide (w = v) then x else value_at vs t v). case_decide as Hd.
  - subst. rewrite assign_other by done. unfold update. by rewrite decide_True.
  - apply elem_of_cons in Hv as [->|Hv]; [done|]. by apply IH.
Qed.

Lemma zsum_bind {A B} (f : B -> Z) (g : A -> list B) l : zsum (f <$> (l ≫= g)) = zsum ((fun x => zsum (f <$> g x)) <$> l).
Proof. 
  induction l as [|x l IH]; [done|]. change ((x :: l) ≫= g) with (g x ++ (l ≫= g)).
  rewrite fmap_app, zsum_app. change (zsum (f <$> g x) + zsum (f <$> (l ≫= g)) = zsum (f <$> g x) + zsum ((fun x => zsum (f <$> g x)) <$> l))%Z.
  f_equal. exact IH.
Qed.

Lemma zsum_scale {A} (f : A -> Z) c l : zsum ((fun x => c * f x)%Z <$> l) = (c * zsum (f <$> l))%Z.
Proof. induction l as [|x l IH]; simpl; [lia|]. change (c * f x + zsum ((fun x => c * f x)%Z <$> l) = c * (f x + zsum (f <$> l)))%Z. rewrite IH. lia. Qed.

Lemma zsum_scale_r {A} (f : A -> Z) c l : zsum ((fun x => f x * c)%Z <$> l) = (zsum (f <$> l) * c)%Z.
Proof. rewrite Z.mul_comm, <- zsum_scale. f_equal. apply list_fmap_ext. intros. lia. Qed.

Lemma zsum_ext {A} (f g : A -> Z) l : (forall x, x ∈ l -> f x = g x) -> zsum (f <$> l) = zsum (g <$> l).
Proof. intros H. f_equal. apply list_fmap_ext. intros k x Hx. apply H. by eapply elem_of_list_lookup_2. Qed.

Lemma suffix_total F net1 net2 : net1 ++ net2 ⊆ net -> NoDup (net1 ++ net2).*1 -> parents_first (net1 ++ net2) ->
  (forall e, e ∈ net -> columns_sum scale card F e) ->
  forall b, (forall v, v ∈ net1.*1 -> b v < card v) ->
  zsum ((fun t => product ((fun e => entry_count scale e (assign net2.*1 t b)) <$> net2)) <$> tuples (card <$> net2.*1)) =
  (F ^ Z.of_nat (length net2))%Z.
Proof.
  revert net1. induction net2 as [|e net2 IH]; intros net1 Hsub Hnd Hpf Hcol b Hb; [done|].
  assert (e ∈ net) as He by (apply Hsub, elem_of_app; right; by left).
  assert (forall p, p ∈ given (c_parents e.2) -> p ∈ net1.*1) as Hpar.
  { intros p Hp. destruct (Hpf (length net1) e p) as (k & Hk & Hlk); [by apply list_lookup_middle|done|].
    rewrite fmap_app, lookup_app_l in Hlk by (by rewrite fmap_length). by eapply elem_of_list_lookup_2. }
  rewrite fmap_app in Hnd. pose proof Hnd as Hnd0. apply NoDup_app in Hnd as (_ & Hdis & Hnd2).
  change ((e :: net2).*1) with (e.1 :: net2.*1) in *. apply NoDup_cons in Hnd2 as [Hself Hnd2].
  assert (forall t b', entry_count scale e (assign net2.*1 t b') = entry_count scale e b') as Hfree.
  { intros t b'. apply (entry_count_ext scale card net Hok); [done|]. intros v Hv. apply assign_other.
    apply elem_of_cons in Hv as [->|Hv]; [done|]. intros Hin. apply (Hdis v); [by apply Hpar|by right]. }
  change (tuples (card <$> e.1 :: net2.*1)) with (j ← seq 0 (card e.1); t ← tuples (card <$> net2.*1); [j :: t]).
  rewrite zsum_bind.
  transitivity (zsum ((fun j => entry_count scale e (update b e.1 j) * F ^ Z.of_nat (length net2))%Z <$> seq 0 (card e.1))).
  - apply zsum_ext. intros j Hj. rewrite NetNames.bind_cons, <- list_fmap_compose.
    rewrite <- (IH (net1 ++ [e])) with (b := update b e.1 j).
    + rewrite <- zsum_scale. apply zsum_ext. intros t _. simpl.
      change (entry_count scale e (assign net2.*1 t (update b e.1 j)) *
        product ((fun e0 => entry_count scale e0 (assign net2.*1 t (update b e.1 j))) <$> net2) =
        entry_count scale e (update b e.1 j) * product ((fun e0 => entry_count scale e0 (assign net2.*1 t (update b e.1 j))) <$> net2))%Z.
      by rewrite Hfree.
    + by rewrite <- app_assoc.
    + rewrite <- app_assoc. by rewrite fmap_app.
    + by rewrite <- app_assoc.
    + done.
    + intros v Hv. rewrite fmap_app in Hv. apply elem_of_app in Hv as [Hv|Hv].
      * unfold update. rewrite decide_False; [by apply Hb|]. intros Heq. apply (Hdis v Hv). rewrite elem_of_cons. left. exact (eq_sym Heq).
      * apply elem_of_list_singleton in Hv. unfold update. rewrite decide_True by exact (eq_sym Hv). apply elem_of_seq in Hj.
        replace (card v) with (card e.1) by exact (f_equal card (eq_sym Hv)). exact (proj2 Hj).
  - rewrite zsum_scale_r, (Hcol e He b).
    + change (length (e :: net2)) with (S (length net2)). rewrite Nat2Z.inj_succ, Z.pow_succ_r by lia. done.
    + intros p Hp. by apply Hb, Hpar.
Qed.

Lemma product_perm l l' : l ≡ₚ l' -> product l = product l'.
Proof. induction 1 as [|x l l' _ IH|x y l|l1 l2 l3 _ IH1 _ IH2]; [done| | |congruence]; change product with (foldr Z.mul 1%Z) in *; simpl; lia. Qed.

Lemma bayes_total F (l : list (list nat)) : no_cycle net -> (forall e, e ∈ net -> columns_sum scale card F e) ->
  NoDup l -> (forall t, t ∈ l <-> tuple_of card vars t) -> zsum (bweight <$> l) = (F ^ Z.of_nat (length net))%Z.
Proof.
  intros (net' & Hp & Hpf) Hcol Hnd Hl. pose proof (bk_keys _ _ _ Hok) as Hkeys.
  assert (vars ≡ₚ net'.*1) as Hpv by (by rewrite Hp).
  assert (NoDup net'.*1) as Hkeys' by (by rewrite <- Hpv).
  rewrite <- (Permutation_length Hp). rewrite <- (suffix_total F [] net') with (b := fun _ => 0); [| |done|done|done|].
  - assert (tuples (card <$> net'.*1) ≡ₚ (fun t => value_at vars t <$> net'.*1) <$> l) as ->.
    { apply NoDup_Permutation.
      - apply tuples_NoDup.
      - apply NoDup_fmap_2_strong; [|done]. intros t t' Ht Ht' Heq. apply Hl, tuple_ranged in Ht as [Ht _]. apply Hl, tuple_ranged in Ht' as [Ht' _].
        rewrite <- (map_value_at vars t Hkeys Ht), <- (map_value_at vars t' Hkeys Ht'). apply list_fmap_ext. intros k v Hv.
        apply elem_of_list_lookup_2 in Hv. assert (v ∈ net'.*1) as Hv' by (by rewrite <- Hpv).
        rewrite <- (value_at_map net'.*1 (value_at vars t) v Hv'), <- (value_at_map net'.*1 (value_at vars t') v Hv').
        by rewrite Heq.
      - intros t. rewrite tuples_elem, elem_of_list_fmap. split.
        + intros Hb. assert (length t = length net'.*1) as Hlen by (apply Forall2_length in Hb; by rewrite Hb, fmap_length).
          exists (value_at net'.*1 t <$> vars). split.
          * rewrite <- (map_value_at net'.*1 t Hkeys' Hlen) at 1. apply list_fmap_ext. intros k v Hv. apply elem_of_list_lookup_2 in Hv.
            rewrite value_at_map; [done|by rewrite Hpv].
          * apply Hl, tuple_ranged. split; [apply fmap_length|]. intros v Hv. rewrite value_at_map by done.
            rewrite <- (map_value_at net'.*1 t Hkeys' Hlen) in Hb. apply (proj1 (below_map _ _ _) Hb). by rewrite <- Hpv.
        + intros (t' & -> & Ht'). apply Hl, tuple_ranged in Ht' as [_ Hr]. apply below_map.
          intros v Hv. apply Hr. by rewrite Hpv. }
    rewrite <- list_fmap_compose. apply zsum_ext. intros t Ht. apply Hl, tuple_ranged in Ht as [Hlen Hr]. simpl. unfold bweight, bayes_product.
    rewrite (product_perm _ ((fun e => entry_count scale e (value_at vars t)) <$> net')) by (by rewrite Hp).
    f_equal. apply list_fmap_ext. intros k e He. apply elem_of_list_lookup_2 in He. assert (e ∈ net) as He' by (by rewrite <- Hp).
    apply (entry_count_ext scale card net Hok); [done|]. intros v Hv. apply (family_in_net scale card net Hok e v He') in Hv.
    assert (v ∈ net'.*1) as Hv' by (by rewrite <- Hpv).
    rewrite (assign_value_at net'.*1), value_at_map; [done|done|done|by rewrite fmap_length|done].
  - simpl. intros e He. by rewrite <- Hp.
  - intros v Hv. by apply elem_of_nil in Hv.
Qed.

End bayes.
