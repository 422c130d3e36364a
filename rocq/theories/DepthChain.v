(** * DepthChain: long chains (C66) *)

From Coq Require Import Lia.
From stdpp Require Import relations.
From Verif Require Import DepthFacts PropsJoin.

#[local] Existing Instance TinyU.
Local Open Scope list_scope.

(** Variables 1, 2, ... with one value, and a chain of [n] edges over [S n] of them. *)
Definition cnode (i : nat) : node := (Pos.of_succ_nat i, x1).
Definition cedge (i : nat) : edge := ({[cnode i; cnode (S i)]}, Plain (tt : @Rel TinyU)).
Definition crest (m k : nat) : gset edge := list_to_set (cedge <$> seq m k).
Definition ccp (n : nat) : provider :=
  Provider 7 (list_to_map ((fun i => (Pos.of_succ_nat i, {[x1]} : gset Val)) <$> seq 0 (S n))) {[tt : @Rel TinyU]}.

Lemma cnode_inj i j : cnode i = cnode j -> i = j.
Proof. unfold cnode. intros [= H]. by apply SuccNat2Pos.inj in H. Qed.

Lemma in_cedge x i : x ∈ (cedge i).1 <-> x = cnode i \/ x = cnode (S i).
Proof. unfold cedge. simpl. set_solver. Qed.

Lemma cedge_pair_inj i j : (cedge i).1 = (cedge j).1 -> i = j.
Proof.
  intros H.
  assert (cnode i ∈ (cedge j).1) as H1 by (rewrite <- H; apply in_cedge; by left).
  assert (cnode (S i) ∈ (cedge j).1) as H2 by (rewrite <- H; apply in_cedge; by right).
  apply in_cedge in H1, H2.
  destruct H1 as [H1|H1], H2 as [H2|H2]; apply cnode_inj in H1, H2; lia.
Qed.

Lemma in_crest e m k : e ∈ crest m k <-> exists i, (m <= i < m + k)%nat /\ e = cedge i.
Proof.
  unfold crest. rewrite elem_of_list_to_set, elem_of_list_fmap. split.
  - intros (i & -> & Hi%elem_of_seq). by exists i.
  - intros (i & Hi & ->). exists i. split; [done|]. by apply elem_of_seq.
Qed.

Lemma crest_size m k : size (crest m k) = k.
Proof.
  unfold crest. rewrite size_list_to_set; [by rewrite fmap_length, seq_length|].
  apply NoDup_fmap_2_strong; [|apply NoDup_seq]. intros i j _ _ H. apply cedge_pair_inj. by rewrite H.
Qed.

Lemma crest_touches x m k : (0 < k)%nat -> touches (crest m k) x <-> exists i, (m <= i <= m + k)%nat /\ x = cnode i.
Proof.
  intros Hk. split.
  - intros (e & (i & Hi & ->)%in_crest & Hx). apply in_cedge in Hx as [->| ->]; [exists i|exists (S i)]; (split; [lia|done]).
  - intros (i & Hi & ->). destruct (decide (i = (m + k)%nat)) as [->|].
    + exists (cedge (m + k - 1)). split; [apply in_crest; exists (m + k - 1)%nat; split; [lia|done]|].
      apply in_cedge. right. f_equal. lia.
    + exists (cedge i). split; [apply in_crest; exists i; split; [lia|done]|]. apply in_cedge. by left.
Qed.

Lemma crest_link_step x y m k : link (crest m k) x y -> exists i j, x = cnode i /\ y = cnode j /\ (i <= S j /\ j <= S i)%nat.
Proof.
  intros (e & (i & Hi & ->)%in_crest & Hx & Hy). apply in_cedge in Hx, Hy.
  destruct Hx as [->| ->], Hy as [->| ->]; do 2 eexists; (split; [reflexivity|split; [reflexivity|lia]]).
Qed.

Lemma crest_nsteps d i y m k : nsteps (link (crest m k)) d (cnode i) y -> exists j, y = cnode j /\ (i <= d + j /\ j <= d + i)%nat.
Proof.
  intros H. remember (cnode i) as x eqn:Hx. revert i Hx. induction H as [x|d x y z Hxy _ IH]; intros i Hx.
  - exists i. split; [done|lia].
  - destruct (crest_link_step _ _ _ _ Hxy) as (a & b & -> & -> & Hab). apply cnode_inj in Hx as ->.
    destruct (IH b eq_refl) as (j & -> & Hj). exists j. split; [done|lia].
Qed.

Lemma crest_linked n : edges_linked (crest 0 n).
Proof.
  intros x y Hx Hy. destruct n as [|n].
  { destruct Hx as (e & (i & Hi & _)%in_crest & _). lia. }
  apply crest_touches in Hx as (i & Hi & ->), Hy as (j & Hj & ->); [|lia|lia].
  assert (forall d a, (a + d <= S n)%nat -> rtc (link (crest 0 (S n))) (cnode a) (cnode (a + d)) /\
                                          rtc (link (crest 0 (S n))) (cnode (a + d)) (cnode a)) as H.
  { induction d as [|d IH]; intros a Ha; [rewrite Nat.add_0_r; split; apply rtc_refl|].
    destruct (IH (S a) ltac:(lia)) as [H1 H2]. rewrite <- Nat.add_succ_comm.
    assert (link (crest 0 (S n)) (cnode a) (cnode (S a)) /\ link (crest 0 (S n)) (cnode (S a)) (cnode a)) as [L1 L2].
    { split; exists (cedge a); (split; [apply in_crest; exists a; split; [lia|done]|]); rewrite !in_cedge; tauto. }
    split; [by eapply rtc_l|by eapply rtc_r]. }
  destruct (Nat.le_ge_cases i j) as [Hij|Hij].
  - destruct (H (j - i)%nat i ltac:(lia)) as [H1 _]. by replace (i + (j - i))%nat with j in H1 by lia.
  - destruct (H (i - j)%nat j ltac:(lia)) as [_ H1]. by replace (j + (i - j))%nat with i in H1 by lia.
Qed.

Lemma ccp_declared n i : (i <= n)%nat -> declared (ccp n) (cnode i).
Proof.
  intros Hi. exists {[x1]}. split; [|by apply elem_of_singleton].
  unfold ccp, cnode. cbn [cp_vars fst]. apply elem_of_list_to_map_1.
  - rewrite <- list_fmap_compose. apply NoDup_fmap_2_strong; [|apply NoDup_seq].
    intros a b _ _ H. simpl in H. by apply SuccNat2Pos.inj in H.
  - apply elem_of_list_fmap. exists i. split; [done|]. apply elem_of_seq. lia.
Qed.

Lemma cedge_legal n i : (i < n)%nat -> edge_legal (ccp n) (cedge i).
Proof.
  intros Hi. split_and!.
  - unfold two_nodes, cedge. simpl. exists (cnode i), (cnode (S i)). split; [done|].
    unfold cnode. cbn [fst]. intros H. apply SuccNat2Pos.inj in H. lia.
  - intros x [->| ->]%in_cedge; apply ccp_declared; lia.
  - unfold rel_legal, cedge. simpl. set_solver.
Qed.

Lemma crest_simple m k : simple (crest m k).
Proof. intros e e' (i & _ & ->)%in_crest (j & _ & ->)%in_crest H. by rewrite (cedge_pair_inj _ _ H). Qed.

Lemma chain_too_deep L : exists cp es, (forall e, e ∈ es -> edge_legal cp e) /\ simple es /\ edges_linked es /\
  size es = (2 * L + 1)%nat /\ forall o, is_edges_connected o es = Ok true /\ is_edges_connected_within L o es = Err OutOfFuel.
Proof.
  exists (ccp (2 * L + 1)), (crest 0 (2 * L + 1)). split_and!.
  - intros e (i & Hi & ->)%in_crest. apply cedge_legal. lia.
  - apply crest_simple.
  - apply crest_linked.
  - apply crest_size.
  - intros o. assert (is_edges_connected o (crest 0 (2 * L + 1)) = Ok true) as Hc.
    { pose proof (is_edges_connected_spec o (crest 0 (2 * L + 1))) as H.
      destruct (is_edges_connected o _) as [r|x].
      - f_equal. apply H, crest_linked.
      - destruct H as [[_ H]|(_ & e & (i & Hi & ->)%in_crest & H)].
        + pose proof (crest_size 0 (2 * L + 1)) as Hz. rewrite H, size_empty in Hz. lia.
        + destruct H. apply size_pair. intros H%cnode_inj. lia. }
    split; [done|]. destruct (within_cases L o (crest 0 (2 * L + 1))) as [H|H]; [|done]. exfalso.
    rewrite Hc in H. apply within_near in H as (start & Hs & Hn); [|apply crest_linked].
    apply crest_touches in Hs as (i & Hi & ->); [|lia].
    assert (forall k, (k <= 2 * L + 1)%nat -> exists j, (j < L)%nat /\ (i <= j + k /\ k <= j + i)%nat) as Hd.
    { intros k Hk. destruct (Hn (cnode k)) as (j & Hj & Hst).
      - apply crest_touches; [lia|]. exists k. split; [lia|done].
      - apply crest_nsteps in Hst as (k' & Hk' & Hb). apply cnode_inj in Hk' as <-. exists j. split; [done|lia]. }
    destruct (Hd 0%nat ltac:(lia)) as (j & Hj & Hb). destruct (Hd (2 * L + 1)%nat ltac:(lia)) as (j' & Hj' & Hb'). lia.
Qed.

(** ** Joining a chain *)

Definition cinv (m : nat) (b : builder) : Prop :=
  (forall x, x ∈ b_nodes b <-> exists i, (i <= m)%nat /\ x = cnode i) /\
  (forall i, (m <= i)%nat -> b_endpoints b !! (cedge i).1 = None).

Lemma cinv_far m b i : cinv m b -> (m < i)%nat -> join_connected b (cedge i) = false.
Proof.
  intros [Hn _] Hi. unfold join_connected. apply orb_false_iff. split; apply bool_decide_eq_false.
  - intros H. apply H. apply set_eq. intros x. split; [|set_solver +].
    intros [Hx (j & Hj & ->)%Hn]%elem_of_intersection. apply in_cedge in Hx as [Hx|Hx]; apply cnode_inj in Hx; lia.
  - intros H. assert (cnode 0 ∈ b_nodes b) as H0 by (apply Hn; exists 0%nat; split; [lia|done]). rewrite H in H0. set_solver.
Qed.

Lemma cinv_near m b : cinv m b ->
  join_connected b (cedge m) = true /\ edge_conflict b (cedge m) = false /\ join_values_ok b (cedge m) = true /\
  cinv (S m) (put_edge b (cedge m) (endpoints (cedge m))).
Proof.
  intros [Hn He]. split_and!.
  - unfold join_connected. apply orb_true_iff. left. apply bool_decide_eq_true. intros H.
    assert (cnode m ∈ endpoints (cedge m) ∩ b_nodes b) as Hm; [|rewrite H in Hm; set_solver].
    apply elem_of_intersection. split; [apply in_cedge; by left|]. apply Hn. exists m. split; [lia|done].
  - unfold edge_conflict. change (endpoints (cedge m)) with (cedge m).1. by rewrite (He m ltac:(lia)).
  - unfold join_values_ok. apply bool_decide_eq_true. intros x Hx. apply in_cedge in Hx as [->| ->].
    + right. apply Hn. exists m. split; [lia|done].
    + left. intros (y & Hy & (j & Hj & ->)%Hn)%elem_of_map. unfold cnode in Hy. cbn [fst] in Hy.
      apply SuccNat2Pos.inj in Hy. lia.
  - split.
    + intros x. unfold put_edge. cbn [b_nodes]. change (endpoints (cedge m)) with (cedge m).1. rewrite elem_of_union, Hn, in_cedge. split.
      * intros [[->| ->]|(i & Hi & ->)]; eexists; (split; [|reflexivity]); lia.
      * intros (i & Hi & ->). destruct (decide (i = S m)) as [->|]; [left; by right|].
        right. exists i. split; [lia|done].
    + intros i Hi. unfold put_edge. cbn [b_endpoints]. change (endpoints (cedge m)) with (cedge m).1.
      rewrite lookup_insert_ne; [apply He; lia|].
      intros H%cedge_pair_inj. lia.
Qed.

Lemma pass_far m b nc l : cinv m b -> Forall (fun i => m < i)%nat l ->
  join_pass b nc (cedge <$> l) = (b, Ok (list_to_set (cedge <$> l) ∪ nc)).
Proof.
  intros Hb Hl. revert nc. induction Hl as [|i l Hi Hl IH]; intros nc.
  - simpl. by rewrite union_empty_l_L.
  - rewrite fmap_cons. cbn [join_pass]. rewrite (cinv_far m b i Hb Hi), IH. do 2 f_equal. rewrite list_to_set_cons. set_solver +.
Qed.

Lemma pass_app b nc l l' : join_pass b nc (l ++ l') =
  match join_pass b nc l with (b', Ok nc') => join_pass b' nc' l' | r => r end.
Proof.
  revert b nc. induction l as [|e l IH]; intros b nc; [done|]. rewrite <- app_comm_cons. cbn [join_pass].
  destruct (join_connected b e); [|apply IH]. destruct (edge_conflict b e); [done|].
  destruct (join_values_ok b e); [apply IH|done].
Qed.

(** From the far end only the last edge is added. *)
Lemma pass_slow m k b : cinv m b ->
  exists b', join_pass b ∅ (cedge <$> (seq (S m) k ++ [m])) = (b', Ok (crest (S m) k)) /\ cinv (S m) b'.
Proof.
  intros Hb. rewrite fmap_app, pass_app, (pass_far m).
  - destruct (cinv_near m b Hb) as (H1 & H2 & H3 & H4). simpl. rewrite H1, H2, H3.
    eexists. split; [|exact H4]. unfold crest. by rewrite union_empty_r_L.
  - done.
  - apply Forall_forall. intros i Hi%elem_of_seq. lia.
Qed.

Lemma pass_fast m k b nc : cinv m b ->
  exists b', join_pass b nc (cedge <$> seq m k) = (b', Ok nc) /\ cinv (m + k) b'.
Proof.
  revert m b. induction k as [|k IH]; intros m b Hb.
  - exists b. rewrite Nat.add_0_r. done.
  - destruct (cinv_near m b Hb) as (H1 & H2 & H3 & H4). cbn [seq]. rewrite fmap_cons. cbn [join_pass].
    rewrite H1, H2, H3. destruct (IH (S m) _ H4) as (b' & -> & Hb'). exists b'. split; [done|].
    by rewrite <- Nat.add_succ_comm.
Qed.

Lemma elements_crest m k l : l ≡ₚ seq m k -> cedge <$> l ≡ₚ elements (crest m k).
Proof.
  intros ->. unfold crest. symmetry. apply elements_list_to_set.
  apply NoDup_fmap_2_strong; [|apply NoDup_seq]. intros i j _ _ H. apply cedge_pair_inj. by rewrite H.
Qed.

Lemma crest_empty m k : crest m k = ∅ -> k = 0%nat.
Proof. intros H. pose proof (crest_size m k) as Hs. rewrite H, size_empty in Hs. done. Qed.

Lemma slow_join k : forall L m, (L < k)%nat ->
  exists o, forall b, cinv m b -> (join_edges L o b (crest m k)).2 = Err OutOfFuel.
Proof.
  induction k as [|k IH]; intros L m HL; [lia|].
  destruct L as [|L]; [by exists (fun _ => [])|].
  destruct (IH L (S m) ltac:(lia)) as [o Ho].
  destruct (perm_by_complete (elements (crest m (S k))) (cedge <$> (seq (S m) k ++ [m]))) as [c Hc].
  { apply elements_crest. cbn [seq]. by rewrite Permutation_app_comm. }
  exists (fun p => match p with 0%nat :: q => o q | _ => c end). intros b Hb. cbn [join_edges].
  destruct (pass_slow m k b Hb) as (b' & Hp & Hb').
  unfold iter_set, iter_list. rewrite Hc, Hp.
  rewrite bool_decide_eq_false_2; [rewrite bool_decide_eq_false_2; [exact (Ho b' Hb')|]|].
  - intros H%crest_empty. lia.
  - intros H. pose proof (crest_size m (S k)) as H1. rewrite H, crest_size in H1. lia.
Qed.

Lemma fast_join m k : (0 < k)%nat -> exists o, forall b, cinv m b -> (join_edges 1 o b (crest m k)).2 = Ok tt.
Proof.
  intros Hk.
  destruct (perm_by_complete (elements (crest m k)) (cedge <$> seq m k)) as [c Hc]; [by apply elements_crest|].
  exists (fun _ => c). intros b Hb. cbn [join_edges]. unfold iter_set, iter_list. rewrite Hc.
  destruct (pass_fast m k b ∅ Hb) as (b' & -> & _).
  rewrite bool_decide_eq_false_2, bool_decide_eq_true_2; [done|done|].
  intros H%crest_empty. lia.
Qed.

Lemma join_order_matters L : exists (cp : provider) (b : builder) (s : sample) (o o' : oracle),
  builder_state b /\ simple (b_edges b) /\ wf_graph cp (s_g s) /\ size (g_edges (s_g s)) = S L /\
  (forall o, (join_sample o b s).2 = Ok tt) /\
  (join_sample_within 1 o b s).2 = Ok tt /\ (join_sample_within L o' b s).2 = Err OutOfFuel.
Proof.
  set (n := S L). set (g := Graph (list_to_set (cnode <$> seq 0 (S n))) (crest 0 n)).
  set (b := builder_init (fun _ => []) (ccp n) {[cnode 0]} ∅).
  destruct (fast_join 0 n ltac:(lia)) as [o Ho]. destruct (slow_join n L 0 ltac:(lia)) as [o' Ho'].
  assert (cinv 0 b) as Hb.
  { split.
    - intros x. unfold b. cbn [builder_init b_nodes]. rewrite elem_of_singleton. split.
      + intros ->. exists 0%nat. split; [lia|done].
      + intros (i & Hi & ->). by replace i with 0%nat by lia.
    - intros i _. unfold b, builder_init. cbn [b_endpoints]. unfold iter_set, iter_list. by rewrite elements_empty. }
  assert (forall L o, join_sample_within L o b (Sample 7 g) = join_edges L o b (crest 0 n)) as Hw.
  { intros L0 o2. unfold join_sample_within. cbn [s_g g g_edges].
    assert (is_compatible (Sample 7 g) (b_cp b) = true) as -> by (apply bool_decide_eq_true_2; done).
    rewrite bool_decide_eq_false_2; [done|]. intros H%crest_empty. unfold n in H. lia. }
  assert (wf_graph (ccp n) g) as Hg.
  { split.
    - intros x Hx. cbn [g g_nodes] in Hx. apply elem_of_list_to_set, elem_of_list_fmap in Hx as (i & -> & Hi%elem_of_seq).
      apply ccp_declared. lia.
    - intros e He. cbn [g g_edges] in He. apply in_crest in He as (i & Hi & ->). apply cedge_legal. lia.
    - intros e He x Hx. cbn [g g_edges] in He. apply in_crest in He as (i & Hi & ->).
      cbn [g g_nodes]. apply elem_of_list_to_set, elem_of_list_fmap.
      apply in_cedge in Hx as [->| ->]; [exists i|exists (S i)]; (split; [done|]; apply elem_of_seq; lia).
    - intros x y Hx Hy. cbn [g g_nodes g_edges] in *.
      apply elem_of_list_to_set, elem_of_list_fmap in Hx as (i & -> & Hi%elem_of_seq).
      apply elem_of_list_to_set, elem_of_list_fmap in Hy as (j & -> & Hj%elem_of_seq).
      apply crest_linked; (apply crest_touches; [lia|]); eexists; (split; [|reflexivity]); lia. }
  assert (builder_state b) as Hs by apply bs_init.
  assert (simple (b_edges b)) as Hm by (intros e e' He; cbn [b builder_init b_edges] in He; set_solver).
  assert (forall e, e ∈ g_edges (s_g (Sample 7 g)) -> two_nodes e.1) as H2 by (intros e He; apply (wf_edges _ _ Hg e He)).
  exists (ccp n), b, (Sample 7 g), o, o'. split_and!.
  - exact Hs.
  - exact Hm.
  - exact Hg.
  - apply crest_size.
  - assert ((join_sample o b (Sample 7 g)).2 = Ok tt) as H0.
    { destruct (join_within_cases 1 o b (Sample 7 g) Hs Hm H2) as [H|H].
      - rewrite <- H, Hw. by apply Ho.
      - rewrite Hw, (Ho b Hb) in H. done. }
    intros o2. rewrite <- H0. exact (proj1 (C07_order_independent o2 o b (Sample 7 g) Hs Hm H2)).
  - rewrite Hw. by apply Ho.
  - rewrite Hw. by apply Ho'.
Qed.
