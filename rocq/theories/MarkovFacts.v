(** * MarkovFacts: the Markov network experiment. *)

From stdpp Require Import pretty.
From Verif Require Import BaseFacts BuilderFacts BuildFacts SpaceFacts CondJoinFacts.
From Verif Require Import FactorFacts.
From Verif Require Export NetInfer NetNames.

Local Existing Instance StrU.

Section markov.
Context (nodes : list Var) (edges : list (Var * Var * list Z)) (Hok : markov_ok nodes edges) (i : nat).

Definition markov_vars : gmap Var (gset Val) := list_to_map ((fun n => (n, {[value_name n 0; value_name n 1]})) <$> nodes).
Definition markov_cp : provider := Provider i markov_vars {["r" : Rel]}.

Lemma markov_vars_spec v X : markov_vars !! v = Some X <-> v ∈ nodes /\ X = {[value_name v 0; value_name v 1]}.
Proof.
  unfold markov_vars. rewrite <- elem_of_list_to_map.
  - rewrite elem_of_list_fmap. split.
    + intros (n & [= -> ->] & Hn). done.
    + intros [Hv ->]. by exists v.
  - rewrite <- list_fmap_compose. rewrite list_fmap_id. apply (mk_nodes _ _ Hok).
Qed.

Lemma markov_declared v x : declared markov_cp (v, x) <-> v ∈ nodes /\ exists j, j < 2 /\ x = value_name v j.
Proof.
  unfold declared. simpl. split.
  - intros (X & HX & Hx). apply markov_vars_spec in HX as [Hv ->]. split; [done|].
    rewrite elem_of_union, !elem_of_singleton in Hx. destruct Hx as [->| ->]; [exists 0|exists 1]; split; [lia|done|lia|done].
  - intros [Hv (j & Hj & ->)]. exists {[value_name v 0; value_name v 1]}. split; [by apply markov_vars_spec|].
    rewrite elem_of_union, !elem_of_singleton. destruct j as [|[|j]]; [by left|by right|lia].
Qed.

Lemma pair_set_eq (v w v' w' : Var) : ({[v; w]} : gset Var) = {[v'; w']} -> v = v' /\ w = w' \/ v = w' /\ w = v'.
Proof.
  intros H. assert (forall u, u = v \/ u = w <-> u = v' \/ u = w') as Hu.
  { intros u. rewrite set_eq in H. specialize (H u). by rewrite !elem_of_union, !elem_of_singleton in H. }
  destruct (proj1 (Hu v)) as [->| ->]; [by left| |].
  - destruct (proj1 (Hu w)) as [->| ->]; [by right| |by left]. destruct (proj2 (Hu w')) as [->| ->]; auto.
  - destruct (proj1 (Hu w)) as [->| ->]; [by right|by right|]. destruct (proj2 (Hu v')) as [->| ->]; auto.
Qed.

Lemma markov_link e v w r : (v, w, r) ∈ f_links (markov_factor e) <-> v = e.1.1 /\ w = e.1.2 /\ r = @Plain StrU "r".
Proof. simpl. rewrite elem_of_singleton. split; [by intros [= -> -> ->]|by intros (-> & -> & ->)]. Qed.

Lemma markov_vars_of e v : v ∈ f_vars (markov_factor e) <-> v = e.1.1 \/ v = e.1.2.
Proof. simpl. by rewrite elem_of_union, !elem_of_singleton. Qed.

Lemma markov_net_ok : net_ok markov_cp (markov_factor <$> edges).
Proof.
  split.
  - intros f Hf. apply elem_of_list_fmap in Hf as ([[e0 e1] vals] & -> & He).
    destruct (mk_ends _ _ Hok e0 e1 vals He) as (H0 & H1 & Hne). split.
    + intros H. assert (e0 ∈ f_vars (markov_factor (e0, e1, vals))) as Hv by (apply markov_vars_of; by left). rewrite H in Hv.
      by apply not_elem_of_empty in Hv.
    + intros v Hv. apply markov_vars_of in Hv. exists (value_name v 0). apply markov_declared. split; [|exists 0; split; [lia|done]].
      simpl in Hv. by destruct Hv as [->| ->].
    + intros v w r Hl. apply markov_link in Hl as (-> & -> & ->). simpl. rewrite !elem_of_union, !elem_of_singleton.
      split_and!; auto.
    + intros v w Hv Hw. apply markov_vars_of in Hv, Hw. simpl in *.
      assert (linked_in (markov_factor (e0, e1, vals)) e0 e1) as H01 by (exists (@Plain StrU "r"); left; by apply markov_link).
      assert (linked_in (markov_factor (e0, e1, vals)) e1 e0) as H10 by (exists (@Plain StrU "r"); right; by apply markov_link).
      destruct Hv as [->| ->], Hw as [->| ->]; first [apply rtc_refl|by apply rtc_once].
    + intros v w r v' w' r' Hl Hl' _. apply markov_link in Hl as (_ & _ & ->). by apply markov_link in Hl' as (_ & _ & ->).
    + intros a b Hab. simpl. rewrite (Hab e0), (Hab e1); [done| |]; apply markov_vars_of; auto.
  - intros k l f f' Hk Hl Hc. rewrite list_lookup_fmap in Hk, Hl.
    destruct (edges !! k) as [[[e0 e1] vals]|] eqn:Hek; [|done]. destruct (edges !! l) as [[[d0 d1] vals']|] eqn:Hel; [|done].
    simpl in Hk, Hl. injection Hk as <-. injection Hl as <-.
    destruct Hc as [(v & w & r & v' & w' & r' & H1 & H2 & He)|(H & _)].
    + apply markov_link in H1 as (-> & -> & _). apply markov_link in H2 as (-> & -> & _). simpl in He.
      apply pair_set_eq in He. by eapply (mk_once _ _ Hok).
    + exfalso. revert H. simpl. apply non_empty_singleton_L.
Qed.

(** ** Building *)

(** The assignment of two values. *)
Definition two (e0 : Var) (s t : nat) (v : Var) : nat := if decide (v = e0) then s else t.

Lemma markov_graph e0 e1 vals s t : e0 <> e1 ->
  f_graph (markov_factor (e0, e1, vals)) (named (two e0 s t)) =
  Graph {[(e0, value_name e0 s); (e1, value_name e1 t)]} {[({[(e0, value_name e0 s); (e1, value_name e1 t)]}, @Plain StrU "r")]}.
Proof.
  intros Hne. unfold f_graph, markov_factor. simpl.
  assert (named (two e0 s t) e0 = value_name e0 s) as H0 by (unfold named, two; by rewrite decide_True).
  assert (named (two e0 s t) e1 = value_name e1 t) as H1 by (unfold named, two; by rewrite decide_False).
  f_equal.
  - rewrite set_map_union_L, !set_map_singleton_L, H0, H1. done.
  - rewrite set_map_singleton_L. simpl. by rewrite H0, H1.
Qed.

Lemma one_edge_built e0 e1 s t : e0 ∈ nodes -> e1 ∈ nodes -> e0 <> e1 -> s < 2 -> t < 2 ->
  exists b, add_relation (new_builder markov_cp) {[(e0, value_name e0 s); (e1, value_name e1 t)]} (@Plain StrU "r") = (b, Ok tt) /\
    build b = Ok (Sample i (Graph {[(e0, value_name e0 s); (e1, value_name e1 t)]}
                                  {[({[(e0, value_name e0 s); (e1, value_name e1 t)]}, @Plain StrU "r")]})).
Proof.
  intros H0 H1 Hne Hs Ht. apply (new_edge_built markov_cp). split_and!.
  - exists (e0, value_name e0 s), (e1, value_name e1 t). split; [done|exact Hne].
  - intros n Hn. change (n ∈ ({[(e0, value_name e0 s); (e1, value_name e1 t)]} : gset node)) in Hn.
    rewrite elem_of_union, !elem_of_singleton in Hn. destruct Hn as [->| ->]; apply markov_declared; split; [done|by exists s|done|by exists t].
  - by apply elem_of_singleton.
Qed.

Definition combos : list (nat * nat * nat) := [(0, 0, 0); (0, 1, 1); (1, 0, 2); (1, 1, 3)].

Lemma combo_in s t k : (s, t, k) ∈ combos <-> s < 2 /\ t < 2 /\ k = 2 * s + t.
Proof.
  unfold combos. rewrite !elem_of_cons, elem_of_nil. split.
  - intros [[= -> -> ->]|[[= -> -> ->]|[[= -> -> ->]|[[= -> -> ->]|[]]]]]; lia.
  - intros (Hs & Ht & ->). destruct s as [|[|s]], t as [|[|t]]; try lia; simpl; tauto.
Qed.

Definition combo_entry (e : Var * Var * list Z) (x : nat * nat * nat) : graph * Z :=
  (f_graph (markov_factor e) (named (two e.1.1 x.1.1 x.1.2)), default 0%Z (e.2 !! x.2)).

Lemma combo_hist e : e ∈ edges -> factor_hist markov_cp (markov_factor e) (combo_entry e <$> combos).
Proof.
  destruct e as [[e0 e1] vals]. intros He. destruct (mk_ends _ _ Hok e0 e1 vals He) as (H0 & H1 & Hne). split.
  - rewrite <- list_fmap_compose. apply NoDup_fmap_2_strong; [|vm_compute; repeat constructor; rewrite ?elem_of_cons, ?elem_of_nil; intuition congruence].
    intros [[s t] k] [[s' t'] k'] Hx Hy Heq. apply combo_in in Hx as (Hs & Ht & ->). apply combo_in in Hy as (Hs' & Ht' & ->).
    unfold combo_entry in Heq. simpl in Heq.
    assert (forall v, v = e0 \/ v = e1 -> two e0 s t v = two e0 s' t' v) as Hv.
    { intros v Hv. pose proof (f_graph_inj _ _ _ v Heq (proj2 (markov_vars_of (e0, e1, vals) v) Hv)) as Hin.
      exact (proj2 (value_name_inj _ _ _ _ Hin)). }
    pose proof (Hv e0 (or_introl eq_refl)) as Ha. pose proof (Hv e1 (or_intror eq_refl)) as Hb. unfold two in Ha, Hb.
    rewrite !decide_True in Ha by done. rewrite !decide_False in Hb by done. by subst.
  - intros g c. rewrite elem_of_list_fmap. split.
    + intros ([[s t] k] & [= -> ->] & Hx). apply combo_in in Hx as (Hs & Ht & ->).
      exists (named (two e0 s t)). split_and!.
      * intros v Hv. apply markov_vars_of in Hv. apply markov_declared. simpl in Hv. split; [by destruct Hv as [->| ->]|].
        unfold named, two. case_decide; [by exists s|by exists t].
      * done.
      * simpl. unfold named, two. rewrite decide_True by done. rewrite decide_False by done. by rewrite !digit_named by done.
    + intros (a & Ha & -> & ->).
      destruct (proj1 (markov_declared _ _) (Ha e0 (proj2 (markov_vars_of (e0, e1, vals) e0) (or_introl eq_refl)))) as [_ (s & Hs & Has)].
      destruct (proj1 (markov_declared _ _) (Ha e1 (proj2 (markov_vars_of (e0, e1, vals) e1) (or_intror eq_refl)))) as [_ (t & Ht & Hat)].
      exists (s, t, 2 * s + t). split; [|by apply combo_in]. unfold combo_entry. simpl.
      assert (forall v, v ∈ f_vars (markov_factor (e0, e1, vals)) -> a v = named (two e0 s t) v) as Hab.
      { intros v Hv. apply markov_vars_of in Hv. simpl in Hv. unfold named, two. destruct Hv as [->| ->]; [by rewrite decide_True|by rewrite decide_False]. }
      f_equal.
      * apply (f_graph_ext markov_cp); [|done]. apply (nt_factors _ _ markov_net_ok). apply elem_of_list_fmap. by exists (e0, e1, vals).
      * rewrite Has, Hat. by rewrite !digit_named by done.
Qed.

Lemma markov_built : exists sp, make_markov_graph i nodes edges = Ok sp /\ sp_cp sp = markov_cp /\ holds_net sp (markov_factor <$> edges).
Proof.
  unfold make_markov_graph.
  assert (rgb_init i (Some markov_vars) (Some {["r" : Rel]}) None None = Ok (RGBuilder markov_cp (ssb_new markov_cp))) as Hinit.
  { rewrite rgb_init_lemma. rewrite decide_True; [done|]. split_and!.
    - intros He. assert (exists e, e ∈ edges) as [[[v w] vals] Hin].
      { pose proof (mk_edges _ _ Hok). destruct edges as [|e l]; [done|exists e; by left]. }
      destruct (mk_ends _ _ Hok v w vals Hin) as (Hv & _).
      assert (markov_vars !! v = Some {[value_name v 0; value_name v 1]}) as Hm by (by apply markov_vars_spec).
      by rewrite He, lookup_empty in Hm.
    - intros He. assert (("r" : Rel) ∈ ({["r" : Rel]} : gset Rel)) as Hr by (by apply elem_of_singleton). rewrite He in Hr. by apply not_elem_of_empty in Hr.
    - intros v X HX. apply markov_vars_spec in HX as [_ ->]. intros He.
      assert (value_name v 0 ∈ ({[value_name v 0; value_name v 1]} : gset Val)) as Hr by (by apply elem_of_union_l, elem_of_singleton).
      rewrite He in Hr. by apply not_elem_of_empty in Hr. }
  change (list_to_map ((fun n => (n, {[value_name n 0; value_name n 1]})) <$> nodes)) with markov_vars.
  rewrite Hinit. cbn [mbind res_bind].
  match goal with |- context [for_res ?F _ _ edges] => set (step := F) end.
  destruct (for_res_grown step (fun e h => factor_hist markov_cp (markov_factor e) h) markov_cp edges) with (o := (fun _ : list nat => @nil nat))
    (b := RGBuilder markov_cp (ssb_new markov_cp)) as (b' & hs & Hr & HF & Hg); [|done|done|].
  - intros o b [[e0 e1] vals] He Hb1 Hb2. destruct (mk_ends _ _ Hok e0 e1 vals He) as (H0 & H1 & Hne).
    unfold step. match goal with |- context [for_res ?F _ _ _] => set (inner := F) end.
    destruct (for_res_grown inner (fun x h => h = [combo_entry (e0, e1, vals) x]) markov_cp combos) with (o := (fun _ : list nat => @nil nat)) (b := b)
      as (b' & hs & Hr & HF & Hg); [|done|done|].
    + intros o' b1 [[s t] k] Hx Hc1 Hc2. apply combo_in in Hx as (Hs & Ht & ->). unfold inner. rewrite Hc1.
      destruct (one_edge_built e0 e1 s t) as (bb & Hadd & Hbuild); [done..|]. rewrite Hadd, Hbuild. cbn [mbind res_bind].
      destruct (mk_values _ _ Hok e0 e1 vals (2 * s + t) He) as (z & Hz & Hz1); [lia|]. unfold item. rewrite Hz. cbn [mbind res_bind].
      destruct (add_outcome_ok b1 (Sample i (Graph {[(e0, value_name e0 s); (e1, value_name e1 t)]}
                                  {[({[(e0, value_name e0 s); (e1, value_name e1 t)]}, @Plain StrU "r")]})) z) as (b2 & Ha & Hg2);
        [congruence|by rewrite Hc1|done|].
      rewrite Ha. exists b2. eexists. split_and!; [done|exact Hg2|]. unfold combo_entry. cbn [fst snd].
      rewrite Hz. cbn [default]. f_equal. f_equal. symmetry. exact (markov_graph e0 e1 vals s t Hne).
    + exists b', (concat hs). split_and!; [exact Hr|done|].
      assert (concat hs = combo_entry (e0, e1, vals) <$> combos) as ->; [|by apply combo_hist].
      clear -HF. induction HF as [|x h l hs -> HF IH]; [done|]. simpl. f_equal. exact IH.
  - rewrite Hr. cbn [mbind res_bind].
    destruct (holds_built markov_cp (markov_factor <$> edges) hs b') as (sp & Hsp); [|apply markov_net_ok| |done|by exists sp].
    + pose proof (mk_edges _ _ Hok). by destruct edges.
    + clear -HF. induction HF; simpl; constructor; done.
Qed.

(** ** Reading the distribution off a joined graph *)

Definition query (t : list nat) : gset (Var * Val) := list_to_set (zip_with (fun n j => (n, value_name n j)) nodes t).

Lemma query_spec t v x : NoDup nodes -> length t = length nodes ->
  (v, x) ∈ query t <-> v ∈ nodes /\ x = value_name v (value_at nodes t v).
Proof.
  unfold query. clear. revert t. induction nodes as [|n l IH]; intros [|j t] Hnd Hl; try done.
  - split; [intros H; by apply elem_of_empty in H|intros [H _]; by apply elem_of_nil in H].
  - apply NoDup_cons in Hnd as [Hn Hnd]. injection Hl as Hl.
    change ((v, x) ∈ ({[(n, value_name n j)]} ∪ list_to_set (zip_with (fun n j => (n, value_name n j)) l t) : gset (Var * Val)) <->
      v ∈ n :: l /\ x = value_name v (if decide (n = v) then j else value_at l t v)).
    rewrite elem_of_union, elem_of_singleton, (IH t Hnd Hl), elem_of_cons. case_decide as Hd.
    + subst. split; [intros [[= ->]|[? _]]; [by auto|done]|]. intros [_ ->]. by left.
    + split.
      * intros [[= -> ->]|[H ->]]; [done|by auto].
      * intros [[->|H] ->]; [done|by right].
Qed.

Lemma binary_below n t : below t (replicate n 2) <-> binary_tuple n t.
Proof.
  unfold below, binary_tuple. split.
  - intros H. split; [apply Forall2_length in H; by rewrite replicate_length in H|].
    remember (replicate n 2) as l eqn:Hl. revert n Hl. induction H as [|x y t l Hx Ht IH]; intros n Hl; [constructor|].
    destruct n as [|n]; [done|]. injection Hl as -> ->. constructor; [done|by eapply IH].
  - intros [<- H]. induction H; simpl; constructor; done.
Qed.

Lemma readout o (r : space) (E : list nat -> Prop) (w : list nat -> Z) (Gr : list nat -> graph) :
  cp_id (ss_cp (sp_out r)) = cp_id (sp_cp r) ->
  (forall t, binary_tuple (length nodes) t -> (1 <= w t)%Z) ->
  (forall t, binary_tuple (length nodes) t -> forall G c,
     count_of (sp_out r) G = Ok c /\ (forall n, n ∈ query t -> n ∈ g_nodes G) <-> E t /\ G = Gr t /\ c = w t) ->
  exists m, relation_graph_prop o nodes r = Ok m /\
    shares (fun t => binary_tuple (length nodes) t /\ E t) w (fun t => m !! t).
Proof.
  intros Hcp Hw Hq. unfold relation_graph_prop.
  match goal with |- context [map_res ?f ?o ?l] =>
    destruct (map_res_ok f (fun t y => y.1 = t /\ forall G c, count_of y.2 G = Ok c <-> E t /\ G = Gr t /\ c = w t) o l) as (all & -> & Hall) end.
  { intros o' t Ht. rewrite joined_values_tuples, tuples_elem, binary_below in Ht.
    destruct (C29_lemma o' r (query t) Hcp) as (c & Hc & _ & Hc').
    change (find_for_values o' r (query t)) with (find_for_values o' r (list_to_set (zip_with (fun n j => (n, value_name n j)) nodes t))) in Hc.
    rewrite Hc. exists (t, c). split; [done|]. split; [done|]. intros G d. simpl. rewrite Hc'. by apply Hq. }
  cbn [mbind res_bind].
  match goal with |- context [for_res ?f ?o ?s all] =>
    assert (match for_res f o s all with Ok m => forall t z, m !! t = Some z <-> t ∈ all.*1 /\ E t /\ z = w t | Err _ => False end) as Hloop;
    [apply (for_res_ind (fun done (m : gmap (list nat) Z) => forall t z, m !! t = Some z <-> t ∈ done.*1 /\ E t /\ z = w t) (fun _ => False) f o s all)|] end.
  { intros t z. rewrite lookup_empty. simpl. split; [done|]. intros [H _]. by apply elem_of_nil in H. }
  { intros done [t c] rest m o' Hl Hm.
      assert ((t, c) ∈ all) as Hin by (rewrite Hl; apply elem_of_app; right; by left).
      apply elem_of_list_lookup in Hin as [k Hk]. destruct (Forall2_lookup_r _ _ _ _ _ Hall Hk) as (t' & _ & Ht' & Hc).
      simpl in *. subst t'.
      assert (forall G d, ss_map c !! G = Some d <-> E t /\ G = Gr t /\ d = w t) as Hc2
        by (intros G d; rewrite <- count_of_lookup; apply Hc).
      unfold ss_bool. case_bool_decide as Hb.
      + unfold ss_items. destruct (iter_map o' (ss_map c)) as [|[G d] items] eqn:Hi.
        * apply Hb. apply map_empty. intros G. destruct (ss_map c !! G) as [d|] eqn:Hd; [|done].
          assert ((G, d) ∈ iter_map o' (ss_map c)) as Hin by (by apply elem_of_iter_map). rewrite Hi in Hin. by apply elem_of_nil in Hin.
        * assert ((G, d) ∈ iter_map o' (ss_map c)) as Hin by (rewrite Hi; by left). apply elem_of_iter_map in Hin.
          apply Hc2 in Hin as (HE & _ & ->). intros t' z. rewrite fmap_app, elem_of_app. simpl. rewrite elem_of_list_singleton.
          destruct (decide (t = t')) as [<-|Hne].
          -- rewrite lookup_insert. split; [intros [= <-]; auto|]. intros (_ & _ & ->). done.
          -- rewrite lookup_insert_ne by done. rewrite Hm. split; [tauto|]. intros ([H|H] & ?); [tauto|by subst].
      + intros t' z. rewrite fmap_app, elem_of_app. simpl. rewrite elem_of_list_singleton, Hm.
        split; [tauto|]. intros ([H|H] & HE & ?); [tauto|]. subst t'. exfalso.
        assert (ss_map c !! Gr t = Some (w t)) as Hl2 by (by apply Hc2). by rewrite Hb, lookup_empty in Hl2. }
  match type of Hloop with match ?e with _ => _ end => destruct e as [m|err] end; [|done]. cbn [mbind res_bind].
  assert (forall t z, m !! t = Some z <-> (binary_tuple (length nodes) t /\ E t) /\ z = w t) as Hm.
  { assert (all.*1 = joined_values (length nodes)) as Hfst.
    { clear -Hall. induction Hall as [|t y l all [<- _] Hall IH]; [done|]. simpl. f_equal. exact IH. }
    intros t z. assert (t ∈ joined_values (length nodes) <-> binary_tuple (length nodes) t) as Ht
      by (rewrite joined_values_tuples, tuples_elem; apply binary_below).
    rewrite <- Ht, <- Hfst, (Hloop t z). tauto. }
  clear Hloop. exists ((fun c => qdiv c (zsum (map_to_list m).*2)) <$> m).
  assert (forall l, NoDup l -> (forall t, t ∈ l <-> binary_tuple (length nodes) t /\ E t) -> zsum (map_to_list m).*2 = zsum (w <$> l)) as Htot.
  { intros l Hnd Hl. assert (map_to_list m ≡ₚ (fun t => (t, w t)) <$> l) as Hp.
    { apply NoDup_Permutation.
      - apply NoDup_map_to_list.
      - apply NoDup_fmap; [|done]. by intros t t' [= ->].
      - intros [t z]. rewrite elem_of_map_to_list, Hm, <- Hl, elem_of_list_fmap. split.
        + intros [Ht ->]. by exists t.
        + intros (t' & [= -> ->] & Ht). done. }
    rewrite Hp, <- list_fmap_compose. done. }
  split.
  - unfold normalize. destruct (bool_decide (m ≠ ∅) && bool_decide (zsum (map_to_list m).*2 = 0%Z)) eqn:Hb; [|done]. exfalso.
    apply andb_true_iff in Hb as [Hb1 Hb2]. apply bool_decide_eq_true in Hb1, Hb2.
    assert (forall t z, m !! t = Some z -> (1 <= z)%Z) as Hpos by (intros t z Hz; apply Hm in Hz as [[Ht _] ->]; by apply Hw).
    apply map_choose in Hb1 as (t & z & Hz). apply elem_of_map_to_list in Hz.
    assert (forall l : list (list nat * Z), (forall t z, (t, z) ∈ l -> (1 <= z)%Z) -> (t, z) ∈ l -> (1 <= zsum l.*2)%Z) as Hgen.
    { clear. induction l as [|[t' z'] l IH]; intros Hp Hin; [by apply elem_of_nil in Hin|].
      assert (0 <= zsum l.*2)%Z as H0.
      { assert (forall t z, (t, z) ∈ l -> (1 <= z)%Z) as Hp' by (intros; eapply Hp; by right). clear -Hp'.
        induction l as [|[t z] l IH]; [done|]. change (0 <= z + zsum l.*2)%Z.
        assert (1 <= z)%Z by (eapply Hp'; by left). assert (0 <= zsum l.*2)%Z by (apply IH; intros; eapply Hp'; by right). lia. }
      change (1 <= z' + zsum l.*2)%Z. assert (1 <= z')%Z by (eapply Hp; by left). lia. }
    enough (1 <= zsum (map_to_list m).*2)%Z by lia. apply Hgen; [|done]. intros t' z' H. apply elem_of_map_to_list in H. by eapply Hpos.
  - intros l Hnd Hl t q. rewrite lookup_fmap, (Htot l Hnd Hl). destruct (m !! t) as [z|] eqn:Hz; simpl.
    + apply Hm in Hz as [Ht ->]. split; [by intros [= <-]|]. by intros [_ ->].
    + split; [done|]. intros [Ht _]. assert (m !! t = Some (w t)) as H by (by apply Hm). congruence.
Qed.

(** ** The two comparisons of the experiment *)

Context (Hcover : forall v, v ∈ nodes -> exists e, e ∈ edges /\ (v = e.1.1 \/ v = e.1.2)).
Local Notation mfs := (markov_factor <$> edges).

Lemma markov_net_vars v : net_vars mfs v <-> v ∈ nodes.
Proof.
  split.
  - intros (f & Hf & Hv). apply elem_of_list_fmap in Hf as ([[e0 e1] vals] & -> & He). apply markov_vars_of in Hv.
    destruct (mk_ends _ _ Hok e0 e1 vals He) as (H0 & H1 & _). simpl in Hv. by destruct Hv as [->| ->].
  - intros Hv. destruct (Hcover v Hv) as (e & He & Hin). exists (markov_factor e). split; [apply elem_of_list_fmap; by exists e|].
    by apply markov_vars_of.
Qed.

Lemma value_at_binary t v : binary_tuple (length nodes) t -> value_at nodes t v < 2.
Proof.
  intros [_ H]. clear -H. revert t H. induction nodes as [|n l IH]; intros [|j t] H; simpl; try lia.
  apply Forall_cons in H as [Hj H]. case_decide; [done|by apply IH].
Qed.

Lemma markov_assignment t : binary_tuple (length nodes) t ->
  forall v, v ∈ nodes -> declared markov_cp (v, named (value_at nodes t) v).
Proof.
  intros Ht v Hv. apply markov_declared. split; [done|]. exists (value_at nodes t v). split; [by apply value_at_binary|done].
Qed.

Lemma markov_net_product t : binary_tuple (length nodes) t ->
  net_product mfs (named (value_at nodes t)) = markov_product nodes edges t.
Proof.
  intros Ht. unfold net_product, markov_product. f_equal. rewrite <- list_fmap_compose. apply list_fmap_ext. intros k e _. simpl.
  unfold named. by rewrite !digit_named by (by apply value_at_binary).
Qed.

Lemma product_pos l : Forall (fun z => 1 <= z)%Z l -> (1 <= product l)%Z.
Proof.
  induction 1 as [|z l Hz Hl IH]; [done|]. change (1 <= z * product l)%Z. nia.
Qed.

Lemma markov_product_pos t : binary_tuple (length nodes) t -> (1 <= markov_product nodes edges t)%Z.
Proof.
  intros Ht. apply product_pos. apply Forall_fmap, Forall_forall. intros [[v w] vals] He. simpl.
  pose proof (value_at_binary t v Ht). pose proof (value_at_binary t w Ht).
  destruct (mk_values _ _ Hok v w vals (2 * value_at nodes t v + value_at nodes t w) He) as (z & Hz & Hp); [lia|].
  change (1 <= default 0%Z (vals !! (2 * value_at nodes t v + value_at nodes t w)%nat))%Z. by rewrite Hz.
Qed.

Lemma markov_readout o (r : space) (E : (Var -> Val) -> Prop) :
  sp_cp r = markov_cp -> ss_cp (sp_out r) = markov_cp ->
  (forall a b, (forall v, v ∈ nodes -> a v = b v) -> E a -> E b) ->
  (forall G c, count_of (sp_out r) G = Ok c <->
     exists a, (forall v, v ∈ nodes -> declared markov_cp (v, a v)) /\ E a /\ G = net_graph mfs a /\ c = net_product mfs a) ->
  exists m, relation_graph_prop o nodes r = Ok m /\
    shares (fun t => binary_tuple (length nodes) t /\ E (named (value_at nodes t))) (markov_product nodes edges) (fun t => m !! t).
Proof.
  intros Hcp Hcp' HE HG. apply (readout o r _ _ (fun t => net_graph mfs (named (value_at nodes t)))).
  - congruence.
  - apply markov_product_pos.
  - intros t Ht G c. rewrite HG. split.
    + intros [(a & Ha & Hea & -> & ->) Hq].
      assert (forall v, v ∈ nodes -> a v = named (value_at nodes t) v) as Hab.
      { intros v Hv. assert ((v, named (value_at nodes t) v) ∈ g_nodes (net_graph mfs a)) as Hin.
        { apply Hq. apply query_spec; [apply (mk_nodes _ _ Hok)|apply Ht|done]. }
        by apply net_graph_nodes in Hin as [_ Hin]. }
      assert (forall v, net_vars mfs v -> a v = named (value_at nodes t) v) as Hab' by (intros v Hv; by apply Hab, markov_net_vars).
      split_and!.
      * by apply (HE a).
      * exact (net_graph_ext _ _ _ _ markov_net_ok Hab').
      * rewrite <- (markov_net_product t Ht). exact (net_product_ext _ _ _ _ markov_net_ok Hab').
    + intros (Hea & -> & ->). split.
      * exists (named (value_at nodes t)). split_and!; [by apply markov_assignment|done|done|by rewrite markov_net_product].
      * intros [v x] Hn. apply query_spec in Hn as [Hv ->]; [|apply (mk_nodes _ _ Hok)|apply Ht].
        apply net_graph_nodes. split; [by apply markov_net_vars|done].
Qed.

Context (Hconn : net_connected mfs) (Htree : ~ net_cyclic mfs \/ ~ net_crowded mfs).

Lemma edges_factors : mfs <> [].
Proof. pose proof (mk_edges _ _ Hok). by destruct edges. Qed.

Lemma markov_joint o o' : exists sp r m, make_markov_graph i nodes edges = Ok sp /\ make_joined o sp = Ok r /\
  relation_graph_prop o' nodes r = Ok m /\
  shares (binary_tuple (length nodes)) (markov_product nodes edges) (fun t => m !! t).
Proof.
  destruct markov_built as (sp & Hsp & Hcp & Hholds).
  assert (net_ok (sp_cp sp) mfs) as Hnet by (rewrite Hcp; apply markov_net_ok).
  destruct (net_joined sp mfs Hnet Hholds o edges_factors Hconn Htree) as (r & Hr & Hrcp & Hrcp' & HG).
  destruct (markov_readout o' r (fun _ => True)) as (m & Hm & Hs); [congruence|congruence|done| |].
  - intros G c. rewrite HG. split; intros (a & Ha & H); exists a.
    + split; [|tauto]. intros v Hv. rewrite <- Hcp. by apply Ha, markov_net_vars.
    + split; [|tauto]. intros v Hv. rewrite Hcp. by apply Ha, markov_net_vars.
  - exists sp, r, m. split_and!; [done..|]. intros l Hnd Hl t q. rewrite (Hs l Hnd); [tauto|]. intros k. rewrite Hl. tauto.
Qed.

Lemma markov_inference o o' v j : v ∈ nodes -> j < 2 ->
  exists sp ev cg r m, make_markov_graph i nodes edges = Ok sp /\
  build_single_node (new_builder (sp_cp sp)) v (value_name v j) = Ok ev /\ conditional_graph sp ev = Ok cg /\
  make_joined o (sp_relation_graph (cg_space cg)) = Ok r /\ relation_graph_prop o' nodes (sp_relation_graph r) = Ok m /\
  shares (fun t => binary_tuple (length nodes) t /\ value_at nodes t v = j) (markov_product nodes edges) (fun t => m !! t).
Proof.
  intros Hv Hj. destruct markov_built as (sp & Hsp & Hcp & Hholds).
  assert (net_ok (sp_cp sp) mfs) as Hnet by (rewrite Hcp; apply markov_net_ok).
  assert (declared (sp_cp sp) (v, value_name v j)) as Hd by (rewrite Hcp; apply markov_declared; split; [done|by exists j]).
  destruct (net_inferred sp mfs Hnet Hholds o v (value_name v j) edges_factors Hconn Htree (proj2 (markov_net_vars v) Hv) Hd)
    as (ev & cg & r & Hev & Hcg & Hr & Hrcp & Hrcp' & HG).
  destruct (markov_readout o' (sp_relation_graph r) (fun a => a v = value_name v j)) as (m & Hm & Hs).
  - simpl. congruence.
  - simpl. congruence.
  - intros a b Hab Ha. rewrite <- Hab; done.
  - intros G c. simpl. rewrite HG. split; intros (a & Ha & H); exists a.
    + split; [|tauto]. intros w Hw. rewrite <- Hcp. by apply Ha, markov_net_vars.
    + split; [|tauto]. intros w Hw. rewrite Hcp. by apply Ha, markov_net_vars.
  - exists sp, ev, cg, r, m. split_and!; [done..|].
    assert (forall t, named (value_at nodes t) v = value_name v j <-> value_at nodes t v = j) as Hn.
    { intros t. unfold named. split; [|by intros ->]. intros H. exact (proj2 (value_name_inj _ _ _ _ H)). }
    intros l Hnd Hl t q. rewrite (Hs l Hnd); [by rewrite Hn|]. intros k. rewrite Hl. by rewrite Hn.
Qed.

End markov.
