(** * DrawSample: the drawings of a sample and of the outcomes of a space *)

From Coq Require Import Ascii String.
From Verif Require Import SpecDraw BaseFacts TextFacts DrawFacts.

Local Notation txt := (list N).

Lemma elem_of_numbered {A B} (f : nat -> A -> list B) (l : list A) (x : B) :
  x ∈ (imap (fun i e => (i, e)) l ≫= fun '(i, e) => f i e) <-> exists i e, l !! i = Some e /\ x ∈ f i e.
Proof.
  rewrite elem_of_list_bind. split.
  - intros ([i e] & Hx & Hin). apply elem_of_lookup_imap in Hin as (j & y & [= -> ->] & Hl). eauto.
  - intros (i & e & Hl & Hx). exists (i, e). split; [done|]. apply elem_of_lookup_imap. eauto.
Qed.

Lemma iter_two `{Countable A} o (X : gset A) a b :
  a <> b -> X = {[a; b]} -> iter_set o X = [a; b] \/ iter_set o X = [b; a].
Proof.
  intros Hn ->. assert ([a; b] ≡ₚ iter_set o {[a; b]}) as P.
  { rewrite iter_set_perm, elements_union_singleton by (by rewrite elem_of_singleton). by rewrite elements_singleton. }
  apply Permutation_length_2_inv in P. naive_solver.
Qed.

Definition pair_of `{Countable K} {Q} (e : K * K * Q) : gset K := {[e.1.1; e.1.2]}.
Lemma pair_same `{Countable K} (a b c d : K) : ({[a; b]} : gset K) = {[c; d]} -> same_ends a b c d.
Proof.
  intros H1. assert (a ∈ ({[c; d]} : gset K) /\ b ∈ ({[c; d]} : gset K)) as [Ha Hb] by (rewrite <- H1; set_solver).
  assert (c ∈ ({[a; b]} : gset K) /\ d ∈ ({[a; b]} : gset K)) as [Hc Hd] by (rewrite H1; set_solver).
  unfold same_ends. set_solver.
Qed.
Lemma once_pairs `{Countable K} {Q} (l : list (K * K * Q)) :
  (forall j j' a b c d x y, l !! j = Some (a, b, x) -> l !! j' = Some (c, d, y) -> same_ends a b c d -> j = j') ->
  NoDup (pair_of <$> l).
Proof.
  intros H1. apply NoDup_alt. intros i j x. rewrite !list_lookup_fmap.
  destruct (l !! i) as [[[a b] z]|] eqn:Hi; [|done]. destruct (l !! j) as [[[c d] z']|] eqn:Hj; [|done].
  cbn [fmap option_fmap option_map]. intros <-%(inj Some) Hq%(inj Some). eapply H1; [exact Hi|exact Hj|]. apply pair_same. symmetry. exact Hq.
Qed.

Lemma elem_of_fmap_last {A B} (f : A -> B) (l : list A) y : y ∈ f <$> l <-> exists x, x ∈ l /\ y = f x.
Proof. rewrite elem_of_list_fmap. naive_solver. Qed.

Section draw.
Context {U : Universe}.
Context (sv : Var -> txt) (sx : Val -> txt) (sr : Rel -> txt).
Notation called := (called sv sx).
Notation string_id := (string_id sv sx).
Notation rel_text := (rel_text sv sr).
Notation reads := (reads sv sr).
Notation edge_calls := (edge_calls sv sr).

Lemma string_called v x : string_id (v, x) = called v x.
Proof. done. Qed.
Lemma reads_text r t : reads r t <-> t = rel_text r.
Proof. by destruct r. Qed.

Lemma joins_ends o e n m : joins e n m -> edge_ends o e = Some (n, m) \/ edge_ends o e = Some (m, n).
Proof.
  intros [Hn He]. unfold edge_ends, endpoints. destruct (iter_two o e.1 n m Hn He) as [-> | ->]; eauto.
Qed.
Lemma ends_joins o e a b : two_nodes e.1 -> edge_ends o e = Some (a, b) -> joins e a b.
Proof.
  intros (n & m & He & Hn). assert (n <> m) as Hn' by congruence. intros Hab.
  destruct (joins_ends o e n m (conj Hn' He)) as [H|H]; rewrite H in Hab; injection Hab as -> ->.
  - by split.
  - split; [done|]. by rewrite He, (comm_L (∪)).
Qed.
Lemma joins_sym e n m : joins e n m -> joins e m n.
Proof. intros [H1 H2]. split; [done|]. by rewrite H2, (comm_L (∪)). Qed.

Section calls.
Context (ident : node -> txt) (color : option txt) (o : oracle) (es : list edge).
Lemma edge_calls_edge a b t k :
  (forall e, e ∈ es -> two_nodes e.1) -> DEdge a b t k ∈ edge_calls ident color o es ->
  exists e n m, e ∈ es /\ joins e n m /\ a = ident n /\ b = ident m /\ reads e.2 t /\ k = color.
Proof.
  intros Ht Hin. unfold Draw.edge_calls in Hin.
  apply (elem_of_numbered (fun i e => match edge_ends (sub o i) e with
    | Some (a, b) => [DEdge (ident a) (ident b) (rel_text (rel_of e)) color] | None => [] end)) in Hin as (i & e & Hl & Hx).
  apply elem_of_list_lookup_2 in Hl. destruct (edge_ends (sub o i) e) as [[n m]|] eqn:He; [|by apply elem_of_nil in Hx].
  apply elem_of_list_singleton in Hx. injection Hx as -> -> -> ->. exists e, n, m. split; [done|].
  split; [by eapply ends_joins, He; apply Ht|]. rewrite reads_text. done.
Qed.
Lemma edge_calls_node i t k : DNode i t k ∉ edge_calls ident color o es.
Proof.
  intros Hin. unfold Draw.edge_calls in Hin.
  apply (elem_of_numbered (fun i e => match edge_ends (sub o i) e with
    | Some (a, b) => [DEdge (ident a) (ident b) (rel_text (rel_of e)) color] | None => [] end)) in Hin as (j & e & Hl & Hx).
  destruct (edge_ends (sub o j) e) as [[n m]|]; [|by apply elem_of_nil in Hx]. by apply elem_of_list_singleton in Hx.
Qed.
Lemma edge_calls_has e n m : e ∈ es -> joins e n m ->
  exists n' m', same_ends n' m' n m /\ DEdge (ident n') (ident m') (rel_text e.2) color ∈ edge_calls ident color o es.
Proof.
  intros He Hj. apply elem_of_list_lookup in He as [i Hi].
  destruct (joins_ends (sub o i) e n m Hj) as [Hs|Hs]; [exists n, m|exists m, n];
    (split; [solve [by left|by right]|]); unfold Draw.edge_calls;
    apply (elem_of_numbered (fun i e => match edge_ends (sub o i) e with
      | Some (a, b) => [DEdge (ident a) (ident b) (rel_text (rel_of e)) color] | None => [] end)); exists i, e;
    (split; [done|]); rewrite Hs; by apply elem_of_list_singleton.
Qed.
End calls.

Lemma same_ends_map {A B} (f : A -> B) a b c d : same_ends a b c d -> same_ends (f a) (f b) (f c) (f d).
Proof. unfold same_ends. naive_solver. Qed.

(** ** A sample *)

Lemma wf_two cp g e : wf_graph cp g -> e ∈ g_edges g -> two_nodes e.1.
Proof. intros W He. by destruct (wf_edges _ _ W e He). Qed.
Lemma wf_join cp g e n m : wf_graph cp g -> e ∈ g_edges g -> joins e n m -> n ∈ g_nodes g /\ m ∈ g_nodes g.
Proof. intros W He [_ Hj]. pose proof (wf_inside _ _ W e He) as Hi. rewrite Hj in Hi. set_solver. Qed.

Lemma sample_shows cp o g : wf_graph cp g ->
  exists net, sample_visualize sv sx sr o g = Ok net /\ shows net (sample_calls sv sx sr o g).
Proof.
  intros W. unfold sample_visualize.
  destruct (calls_two (fun _ => true) (sub o 2) blank []
    ((fun n => DNode (string_id n) (string_id n) None) <$> iter_set o (g_nodes g))
    (edge_calls string_id None (sub o 0) (iter_set (sub o 1) (g_edges g)))) as [net Hn].
  - apply shows_blank.
  - intros c (n & -> & _)%elem_of_list_fmap. done.
  - intros c Hc. destruct c as [i t k|a b t k]; [done|].
    apply edge_calls_edge in Hc as (e & n & m & He & Hj & -> & -> & _).
    2: { intros e He%elem_of_iter_set. by eapply wf_two. }
    apply elem_of_iter_set in He. destruct (wf_join cp g e n m W He Hj) as [Hn Hm]. cbn.
    split; [exists (string_id n), None|exists (string_id m), None]; apply elem_of_list_fmap;
      [exists n|exists m]; (split; [done|]); by apply elem_of_iter_set.
  - exists net. split; [exact Hn|]. exact (calls_shows _ _ blank [] _ _ shows_blank Hn).
Qed.

Lemma sample_lemma cp o g : wf_graph cp g ->
  exists net, sample_visualize sv sx sr o g = Ok net /\ pictures net (sample_node sv sx g) (sample_line sv sx sr g).
Proof.
  intros W. destruct (sample_shows cp o g W) as (net & Hn & Hs). exists net. split; [done|].
  apply (shows_pictures _ _ _ _ Hs); unfold sample_calls.
  - intros i t k [Hi|Hi]%elem_of_app; [|by apply edge_calls_node in Hi].
    apply elem_of_list_fmap in Hi as ([v x] & [= -> -> ->] & Hin). split; [done|]. split; [done|]. exists v, x.
    by apply elem_of_iter_set in Hin.
  - intros i t k (-> & -> & v & x & Hin & ->). exists (called v x), None. apply elem_of_app. left.
    apply elem_of_list_fmap. exists (v, x). by rewrite elem_of_iter_set.
  - intros a b t k [Hi|Hi]%elem_of_app; [by apply elem_of_list_fmap in Hi as (? & ? & _)|].
    apply edge_calls_edge in Hi as (e & [v x] & [w y] & He & Hj & -> & -> & Hr & ->).
    2: { intros e He%elem_of_iter_set. by eapply wf_two. }
    split; [done|]. exists e, v, x, w, y. by apply elem_of_iter_set in He.
  - intros a b t k (-> & e & v & x & w & y & He & Hj & -> & -> & Hr).
    destruct (edge_calls_has string_id None (sub o 0) (iter_set (sub o 1) (g_edges g)) e (v, x) (w, y)) as (n & m & Hs' & Hin).
    { by apply elem_of_iter_set. } { done. }
    exists (string_id n), (string_id m), (rel_text e.2), None. split; [apply elem_of_app; by right|].
    rewrite <- !string_called. by apply same_ends_map.
Qed.

Lemma called_ne cp n m : distinct_names sv sx cp -> declared cp n -> declared cp m -> string_id n = string_id m -> n = m.
Proof. destruct n as [v x], m as [w y]. rewrite !string_called. intros D H1 H2. by apply D. Qed.

Lemma sample_exact cp o g net : wf_graph cp g -> distinct_names sv sx cp -> sample_visualize sv sx sr o g = Ok net ->
  length (nw_nodes net) = size (g_nodes g) /\
  (simple (g_edges g) ->
   length (nw_edges net) = size (g_edges g) /\
   forall e, e ∈ g_edges g -> exists v x w y t, joins e (v, x) (w, y) /\ reads e.2 t /\ (called v x, called w y, (t, None)) ∈ nw_edges net).
Proof.
  intros W D Hn. destruct (sample_lemma cp o g W) as (net' & Hn' & HP). rewrite Hn in Hn'. injection Hn' as <-.
  destruct HP as [P1 P2 P3 P4 P5 P6].
  assert (forall e v x w y, e ∈ g_edges g -> joins e (v, x) (w, y) -> declared cp (v, x) /\ declared cp (w, y)) as Hd.
  { intros e v x w y He Hj. destruct (wf_join cp g e _ _ W He Hj). split; by apply (wf_nodes _ _ W). }
  split.
  - transitivity (length (string_id <$> elements (g_nodes g))); [|by rewrite fmap_length].
    rewrite <- (fmap_length fst). apply Permutation_length, NoDup_Permutation; [done| |].
    + apply NoDup_fmap_2_strong; [|apply NoDup_elements]. intros n m Hn1%elem_of_elements Hm%elem_of_elements.
      apply (called_ne cp); [done|by apply (wf_nodes _ _ W)|by apply (wf_nodes _ _ W)].
    + intros i. rewrite elem_of_list_fmap. split.
      * intros ([i' [t k]] & -> & Hi). apply P2 in Hi as (_ & _ & v & x & Hv & ->). cbn. apply elem_of_list_fmap.
        exists (v, x). by rewrite elem_of_elements.
      * intros (n & -> & Hi%elem_of_elements)%elem_of_list_fmap. destruct n as [v x]. apply elem_of_list_fmap.
        apply (P3 _ (called v x) None). split; [done|]. split; [done|]. by exists v, x.
  - intros S.
    (** the edge a line is drawn for *)
    assert (forall a b z, (a, b, z) ∈ nw_edges net -> exists e v x w y, e ∈ g_edges g /\ joins e (v, x) (w, y) /\
      a = called v x /\ b = called w y /\ reads e.2 z.1 /\ z.2 = None) as HL.
    { intros a b [t k] Hl. apply P4 in Hl as (-> & e & v & x & w & y & ? & ? & -> & -> & ?). by exists e, v, x, w, y. }
    assert (forall e e' v x w y v' x' w' y', e ∈ g_edges g -> e' ∈ g_edges g -> joins e (v, x) (w, y) -> joins e' (v', x') (w', y') ->
      same_ends (called v x) (called w y) (called v' x') (called w' y') -> e = e') as Hsame.
    { intros e e' v x w y v' x' w' y' He He' Hj Hj' Hs. destruct (Hd _ _ _ _ _ He Hj) as [D1 D2], (Hd _ _ _ _ _ He' Hj') as [D3 D4].
      apply S; [done|done|]. destruct Hj as [_ ->], Hj' as [_ ->].
      destruct Hs as [[H1 H2]|[H1 H2]]; apply D in H1, H2; try done; rewrite H1, H2; [done|by rewrite (comm_L (∪))]. }
    assert (forall e, e ∈ g_edges g -> exists a b z v x w y, (a, b, z) ∈ nw_edges net /\ joins e (v, x) (w, y) /\
      a = called v x /\ b = called w y /\ reads e.2 z.1 /\ z.2 = None) as HE.
    { intros e He. destruct (wf_two cp g e W He) as ([v x] & [w y] & Hx & Hne).
      assert (joins e (v, x) (w, y)) as Hj by (split; [congruence|done]).
      destruct (P5 (called v x) (called w y) (rel_text e.2) None) as (c & d & t' & k' & Hin & Hs).
      { split; [done|]. exists e, v, x, w, y. by rewrite reads_text. }
      destruct (HL _ _ _ Hin) as (e' & v' & x' & w' & y' & He' & Hj' & -> & -> & Hr & Hk).
      assert (e' = e) as -> by (by eapply (Hsame e' e)). by exists (called v' x'), (called w' y'), (t', k'), v', x', w', y'. }
    split.
    + transitivity (length ((fun e : edge => set_map string_id e.1 : gset txt) <$> elements (g_edges g))); [|by rewrite fmap_length].
      rewrite <- (fmap_length pair_of). apply Permutation_length, NoDup_Permutation.
      * by apply once_pairs.
      * apply NoDup_fmap_2_strong; [|apply NoDup_elements]. intros e e' He%elem_of_elements He'%elem_of_elements Hq.
        destruct (wf_two cp g e W He) as ([v x] & [w y] & Hx & Hne), (wf_two cp g e' W He') as ([v' x'] & [w' y'] & Hx' & Hne').
        apply (Hsame e e' v x w y v' x' w' y'); [done|done|split; [congruence|done]|split; [congruence|done]|].
        rewrite Hx, Hx', !set_map_union_L, !set_map_singleton_L in Hq. by apply pair_same.
      * intros p. rewrite !elem_of_list_fmap. split.
        -- intros ([[a b] z] & -> & Hl). destruct (HL _ _ _ Hl) as (e & v & x & w & y & He & [_ Hj] & -> & -> & _). exists e.
           rewrite elem_of_elements. split; [|done]. by rewrite Hj, set_map_union_L, !set_map_singleton_L.
        -- intros (e & -> & He%elem_of_elements). destruct (HE e He) as (a & b & z & v & x & w & y & Hin & [_ Hj] & -> & -> & _).
           exists (called v x, called w y, z). split; [|done]. by rewrite Hj, set_map_union_L, !set_map_singleton_L.
    + intros e He. destruct (HE e He) as (a & b & [t k] & v & x & w & y & Hin & Hj & -> & -> & Hr & Hk). cbn in Hk, Hr. subst k.
      by exists v, x, w, y, t.
Qed.
End draw.
