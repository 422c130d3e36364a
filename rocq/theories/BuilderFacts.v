(** * BuilderFacts: proofs about the sample graph builder (C04-C10) *)

From Verif Require Export GraphFacts.

Section builder_facts.
Context {U : Universe}.

(** ** The endpoint index *)

Definition index_ok (b : builder) : Prop :=
  (forall k e, b_endpoints b !! k = Some e -> e ∈ b_edges b /\ e.1 = k) /\
  (forall e, e ∈ b_edges b -> is_Some (b_endpoints b !! e.1)).

Lemma index_ok_init o cp ns es : index_ok (builder_init o cp ns es).
Proof.
  unfold builder_init, index_ok. simpl.
  apply (for_each_set_ind (fun es (m : gmap (gset node) edge) =>
    (forall k e, m !! k = Some e -> e ∈ es /\ e.1 = k) /\
    (forall e, e ∈ es -> is_Some (m !! e.1)))).
  - split; [intros k e; by rewrite lookup_empty|set_solver].
  - intros Y e m o' _ _ _ [H1 H2]. split.
    + intros k e' Hk. destruct (decide (k = endpoints e)) as [->|Hne].
      * rewrite lookup_insert in Hk. simplify_eq. set_solver +.
      * rewrite lookup_insert_ne in Hk by done. destruct (H1 _ _ Hk) as [H3 ?]. split; [set_solver +H3|done].
    + intros e' He'. destruct (decide (endpoints e = e'.1)) as [Heq|Hne].
      * rewrite <- Heq, lookup_insert. by eexists.
      * rewrite lookup_insert_ne by done. apply H2.
        apply elem_of_union in He' as [->%elem_of_singleton|]; [done|done].
Qed.

Lemma index_ok_put b e ns : index_ok b -> index_ok (put_edge b e ns).
Proof.
  intros [H1 H2]. unfold put_edge, index_ok. simpl. split.
  - intros k e' Hk. destruct (decide (k = endpoints e)) as [->|Hne].
    + rewrite lookup_insert in Hk. simplify_eq. set_solver +.
    + rewrite lookup_insert_ne in Hk by done. destruct (H1 _ _ Hk) as [H3 ?]. split; [set_solver +H3|done].
  - intros e' He'. destruct (decide (endpoints e = e'.1)) as [Heq|Hne].
    + rewrite <- Heq, lookup_insert. by eexists.
    + rewrite lookup_insert_ne by done. apply H2.
      apply elem_of_union in He' as [->%elem_of_singleton|]; [done|done].
Qed.

(** ** Argument validation *)

Lemma passert_Ok b (u : unit) : passert b = Ok u <-> b = true.
Proof. destruct b, u; simpl; split; congruence. Qed.

Lemma validate_endpoints_spec eps :
  match validate_endpoints eps with
  | Ok _ => two_nodes eps
  | Err e => e = AssertionError /\ ~ two_nodes eps
  end.
Proof.
  unfold validate_endpoints.
  destruct (passert_cases (size eps = 2)) as [[H2 ->]|[H2 ->]]; simpl.
  - destruct (size_2_pair _ H2) as (x & y & -> & Hxy).
    assert (vars_of ({[x; y]}) = ({[x.1; y.1]} : gset Var)) as Hv.
    { unfold vars_of. rewrite set_map_union_L, !set_map_singleton_L. done. }
    rewrite Hv. clear Hv.
    destruct (passert_cases (size ({[x.1; y.1]} : gset Var) = 2)) as [[Hv2 ->]|[Hv2 ->]]; simpl.
    + exists x, y. split; [done|]. intros Heq. rewrite Heq in Hv2.
      rewrite union_idemp_L, size_singleton in Hv2. done.
    + split; [done|]. intros (a & b & Hab & Hne). apply Hv2, size_pair.
      apply pair_eq_inv in Hab as [[-> ->]|[-> ->]]; [congruence|congruence|done].
  - split; [done|]. intros (a & b & -> & Hne). apply H2, size_pair. congruence.
Qed.

Lemma get_node_spec cp v x :
  match get_node cp v x with
  | Ok n => n = (v, x) /\ declared cp (v, x)
  | Err e => e = AssertionError /\ ~ declared cp (v, x)
  end.
Proof.
  unfold get_node, declared. simpl. destruct (cp_vars cp !! v) as [X|].
  - case_bool_decide; [by eauto|]. split; [done|]. intros (? & ? & ?). by simplify_eq.
  - split; [done|]. intros (? & ? & ?). by simplify_eq.
Qed.

Lemma get_nodes_spec cp eps :
  match get_nodes cp eps with
  | Ok ns => ns = eps /\ forall n, n ∈ eps -> declared cp n
  | Err e => e = AssertionError /\ ~ forall n, n ∈ eps -> declared cp n
  end.
Proof.
  unfold get_nodes. case_bool_decide as Hf.
  - split; [done|]. intros [v x] Hn. specialize (Hf _ Hn). simpl in Hf.
    pose proof (get_node_spec cp v x) as Hg. destruct (get_node cp v x); [tauto|done].
  - split; [done|]. intros Hd. apply Hf. intros [v x] Hn. simpl.
    pose proof (get_node_spec cp v x) as Hg. destruct (get_node cp v x); [done|].
    destruct Hg as [_ Hg]. by destruct Hg; apply Hd.
Qed.

Lemma get_edge_spec cp eps r :
  2 <= size eps ->
  match get_edge cp eps r with
  | Ok e => e = (eps, r) /\ rel_legal cp eps r
  | Err e => e = AssertionError /\ ~ rel_legal cp eps r
  end.
Proof.
  intros Hsz. unfold get_edge, rel_legal. rewrite (bool_decide_true (2 <= size eps)) by done.
  destruct (passert_cases (base_rel r ∈ cp_rels cp)) as [[Hr ->]|[Hr ->]];
    cbn [mbind res_bind]; [|split; [done|]; destruct r; simpl in Hr; tauto].
  destruct r as [r|s t r]; cbn [mbind res_bind]; [done|].
  pose proof (elem_of_vars_of eps s). pose proof (elem_of_vars_of eps t).
  destruct (passert_cases (s ∈ vars_of eps)) as [[Hs ->]|[Hs ->]]; cbn [mbind res_bind]; [|tauto].
  destruct (passert_cases (t ∈ vars_of eps)) as [[Ht ->]|[Ht ->]]; cbn [mbind res_bind]; [|tauto].
  tauto.
Qed.

Lemma two_nodes_size eps : two_nodes eps -> size eps = 2.
Proof. intros (x & y & -> & ?). apply size_pair. congruence. Qed.

(** The common prefix of [add_relation] and of one step of [build_from_edges]. *)
Definition make_edge (cp : provider) (eps : gset node) (r : relation) : res (gset node * edge) :=
  _ ← validate_endpoints eps; ns ← get_nodes cp eps; e ← get_edge cp ns r; Ok (ns, e).

Lemma make_edge_spec cp eps r :
  match make_edge cp eps r with
  | Ok (ns, e) => ns = eps /\ e = (eps, r) /\ edge_legal cp (eps, r)
  | Err e => e = AssertionError /\ ~ edge_legal cp (eps, r)
  end.
Proof.
  unfold make_edge, edge_legal. simpl.
  pose proof (validate_endpoints_spec eps) as H1.
  destruct (validate_endpoints eps) as [[]|]; simpl; [|tauto].
  pose proof (get_nodes_spec cp eps) as H2.
  destruct (get_nodes cp eps) as [ns|]; simpl; [|tauto]. destruct H2 as [-> H2].
  pose proof (get_edge_spec cp eps r) as H3. rewrite two_nodes_size in H3 by done.
  specialize (H3 ltac:(lia)). destruct (get_edge cp eps r) as [e|]; simpl; [|tauto].
  destruct H3 as [-> H3]. tauto.
Qed.

(** ** C04 add_relation *)

Lemma add_relation_unfold b eps r :
  add_relation b eps r =
  match make_edge (b_cp b) eps r with
  | Err e => (b, Err e)
  | Ok (ns, e) =>
      if (bool_decide (ns ∩ b_nodes b ≠ ∅) || bool_decide (b_nodes b = ∅)) &&
         bool_decide (b_endpoints b !! endpoints e = None)
      then (put_edge b e ns, Ok tt) else (b, Err AssertionError)
  end.
Proof.
  unfold add_relation, make_edge.
  destruct (validate_endpoints eps); cbn [mbind res_bind]; [|done].
  destruct (get_nodes (b_cp b) eps); cbn [mbind res_bind]; [|done].
  destruct (get_edge (b_cp b) a0 r); cbn [mbind res_bind]; [|done].
  destruct (_ || _); cbn [passert mbind res_bind andb]; [|done].
  destruct (bool_decide _); done.
Qed.

Lemma add_relation_spec b eps r :
  index_ok b ->
  match add_relation b eps r with
  | (b', Ok _) => add_legal b eps r /\ b_cp b' = b_cp b /\
                  b_nodes b' = b_nodes b ∪ eps /\ b_edges b' = b_edges b ∪ {[(eps, r)]}
  | (b', Err e) => e = AssertionError /\ ~ add_legal b eps r /\ b' = b
  end.
Proof.
  intros [Hi1 Hi2]. rewrite add_relation_unfold. unfold add_legal.
  pose proof (make_edge_spec (b_cp b) eps r) as Hm.
  destruct (make_edge (b_cp b) eps r) as [[ns e]|err]; [|tauto].
  destruct Hm as (-> & -> & Hl).
  assert ((bool_decide (eps ∩ b_nodes b ≠ ∅) || bool_decide (b_nodes b = ∅)) = true <->
          (b_nodes b = ∅ \/ exists n, n ∈ eps /\ n ∈ b_nodes b)) as Hconn.
  { rewrite orb_true_iff, !bool_decide_eq_true. split.
    - intros [Hne|?]; [right|by left]. apply set_choose_L in Hne as [n Hn]. exists n. set_solver +Hn.
    - intros [?|(n & Hn1 & Hn2)]; [by right|left]. set_solver +Hn1 Hn2. }
  assert (b_endpoints b !! endpoints (eps, r) = None <->
          (forall e, e ∈ b_edges b -> e.1 <> eps)) as Hidx.
  { unfold endpoints. simpl. split.
    - intros Hn e He Heq. destruct (Hi2 e He) as [? Hs]. congruence.
    - intros Hn. destruct (b_endpoints b !! eps) as [e|] eqn:He; [|done].
      destruct (Hi1 _ _ He). by destruct (Hn e). }
  destruct (_ && _) eqn:Hb.
  - apply andb_true_iff in Hb as [Hb1 Hb2]. apply Hconn in Hb1. apply bool_decide_eq_true in Hb2. pose proof (proj1 Hidx Hb2) as Hb3.
    simpl. split_and!; [done|done|done|done| |]; set_solver +.
  - split_and!; [done| |done]. intros (_ & Hc & Hn).
    apply Hconn in Hc. pose proof (proj2 Hidx Hn) as Hn3. rewrite Hc in Hb. simpl in Hb.
    by apply bool_decide_eq_false in Hb.
Qed.

Lemma index_ok_add b eps r : index_ok b -> index_ok (add_relation b eps r).1.
Proof.
  intros Hi. rewrite add_relation_unfold.
  destruct (make_edge _ _ _) as [[ns e]|]; [|done].
  destruct (_ && _); [|done]. by apply index_ok_put.
Qed.

(** ** join_sample: generic preservation *)

Lemma join_pass_preserve (P : builder -> Prop) (E : gset edge) :
  (forall b e, P b -> e ∈ E -> join_connected b e = true -> edge_conflict b e = false ->
     join_values_ok b e = true -> P (put_edge b e (endpoints e))) ->
  forall l b nc, (forall e, e ∈ l -> e ∈ E) -> P b -> P (join_pass b nc l).1.
Proof.
  intros HP. induction l as [|e l IH]; intros b nc Hl Hb; simpl; [done|].
  assert (forall e, e ∈ l -> e ∈ E) by (intros; apply Hl; by right).
  destruct (join_connected b e) eqn:?; [|by apply IH].
  destruct (edge_conflict b e) eqn:?; [done|].
  destruct (join_values_ok b e) eqn:?; [|done].
  apply IH; [done|]. apply HP; try done. apply Hl. left.
Qed.

Lemma join_pass_nc b nc l :
  match join_pass b nc l with (_, Ok nc') => nc ⊆ nc' /\ (forall e, e ∈ nc' -> e ∈ nc \/ e ∈ l) | _ => True end.
Proof.
  revert b nc. induction l as [|e l IH]; intros b nc; simpl; [set_solver +|].
  destruct (join_connected b e).
  - destruct (edge_conflict b e); [done|]. destruct (join_values_ok b e); [|done].
    specialize (IH (put_edge b e (endpoints e)) nc).
    destruct (join_pass _ nc l) as [b' [nc'|]]; [|done]. set_solver +IH.
  - specialize (IH b ({[e]} ∪ nc)).
    destruct (join_pass _ _ l) as [b' [nc'|]]; [|done]. set_solver +IH.
Qed.

Lemma join_edges_preserve (P : builder -> Prop) (E : gset edge) :
  (forall b e, P b -> e ∈ E -> join_connected b e = true -> edge_conflict b e = false ->
     join_values_ok b e = true -> P (put_edge b e (endpoints e))) ->
  forall fuel o b es, es ⊆ E -> P b -> P (join_edges fuel o b es).1.
Proof.
  intros HP. induction fuel as [|k IH]; intros o b es Hes Hb; simpl; [done|].
  pose proof (join_pass_preserve P E HP (iter_set o es) b ∅) as Hp.
  pose proof (join_pass_nc b ∅ (iter_set o es)) as Hn.
  destruct (join_pass b ∅ (iter_set o es)) as [b' [nc|e]].
  - assert (P b') as Hb' by (apply Hp; [intros e; rewrite elem_of_iter_set; apply Hes|done]).
    case_bool_decide; [done|]. case_bool_decide; [done|]. apply IH; [|done].
    intros e He. destruct Hn as [_ Hn]. destruct (Hn e He) as [?|Hel]; [set_solver|].
    apply Hes. by rewrite elem_of_iter_set in Hel.
  - apply Hp; [intros e'; rewrite elem_of_iter_set; apply Hes|done].
Qed.

Lemma join_sample_preserve (P : builder -> Prop) o b s :
  (forall b e, P b -> e ∈ g_edges (s_g s) -> join_connected b e = true -> edge_conflict b e = false ->
     join_values_ok b e = true -> P (put_edge b e (endpoints e))) ->
  (g_edges (s_g s) = ∅ -> size (g_nodes (s_g s)) = 1 -> b_nodes b = ∅ ->
     P (Builder (b_cp b) (g_nodes (s_g s) ∪ b_nodes b) (b_edges b) (b_endpoints b))) ->
  P b -> P (join_sample o b s).1.
Proof.
  intros H1 H2 Hb. unfold join_sample. destruct (is_compatible s (b_cp b)); [|done].
  case_bool_decide as He.
  - destruct (_ && _) eqn:Hc; [|done]. apply andb_true_iff in Hc as [Hc _].
    apply bool_decide_eq_true in Hc. simpl. case_bool_decide; [by apply H2|done].
  - by eapply join_edges_preserve.
Qed.

Lemma index_ok_join o b s : index_ok b -> index_ok (join_sample o b s).1.
Proof.
  intros Hi. apply join_sample_preserve.
  - intros. by apply index_ok_put.
  - intros. exact Hi.
  - done.
Qed.

Lemma b_cp_join o b s : b_cp (join_sample o b s).1 = b_cp b.
Proof. by apply (join_sample_preserve (fun b' => b_cp b' = b_cp b)). Qed.

(** ** build_from_edges *)

Definition bfe_step (b : builder) (e : edge) : builder * res unit :=
  match make_edge (b_cp b) e.1 e.2 with
  | Ok (ns, e') => (put_edge b e' ns, Ok tt)
  | Err x => (b, Err x)
  end.

Lemma for_mut_ext {S A} (f g : oracle -> S -> A -> S * res unit) o s l :
  (forall o s x, f o s x = g o s x) -> for_mut f o s l = for_mut g o s l.
Proof.
  intros Hfg. revert o s. induction l as [|x l IH]; intros o s; simpl; [done|].
  rewrite Hfg. destruct (g _ s x) as [? []]; [apply IH|done].
Qed.

Lemma build_from_edges_unfold o b es v :
  build_from_edges o b es v =
  match (if v then c ← is_edges_connected (sub o 0) es; passert c else Ok tt) with
  | Err e => (b, Err e)
  | Ok _ => match for_mut (fun _ => bfe_step) (sub o 1) b (iter_set (sub o 2) es) with
            | (b', Ok _) => (b', build b')
            | (b', Err e) => (b', Err e)
            end
  end.
Proof.
  unfold build_from_edges. destruct (if v then _ else _); [|done].
  rewrite (for_mut_ext _ (fun _ => bfe_step)); [done|].
  intros _ b' [eps r]. unfold bfe_step, make_edge. simpl.
  destruct (validate_endpoints eps); cbn [mbind res_bind]; [|done].
  destruct (get_nodes (b_cp b') eps); cbn [mbind res_bind]; [|done].
  by destruct (get_edge (b_cp b') a1 r).
Qed.

(** What the loop leaves behind. *)
Lemma bfe_loop_spec o o' b es :
  match for_mut (fun _ => bfe_step) o b (iter_set o' es) with
  | (b', Ok _) => (forall e, e ∈ es -> edge_legal (b_cp b) e) /\
                  b_cp b' = b_cp b /\ b_edges b' = b_edges b ∪ es /\
                  (forall n, n ∈ b_nodes b' <-> n ∈ b_nodes b \/ touches es n) /\
                  (index_ok b -> index_ok b')
  | (b', Err x) => x = AssertionError /\ (exists e, e ∈ es /\ ~ edge_legal (b_cp b) e) /\
                   (index_ok b -> index_ok b')
  end.
Proof.
  apply (for_mut_set_ind (fun Y b' =>
     (forall e, e ∈ Y -> edge_legal (b_cp b) e) /\
     b_cp b' = b_cp b /\ b_edges b' = b_edges b ∪ Y /\
     (forall n, n ∈ b_nodes b' <-> n ∈ b_nodes b \/ touches Y n) /\
     (index_ok b -> index_ok b'))
   (fun b' x => x = AssertionError /\ (exists e, e ∈ es /\ ~ edge_legal (b_cp b) e) /\
                   (index_ok b -> index_ok b'))).
  - split_and!; [set_solver +|done|set_solver +| |done].
    intros n. unfold touches. set_solver +.
  - intros Y e b' _ He HeY _ (H1 & H2 & H3 & H4 & H5). unfold bfe_step. rewrite H2.
    pose proof (make_edge_spec (b_cp b) e.1 e.2) as Hm. rewrite <- surjective_pairing in Hm.
    destruct (make_edge _ _ _) as [[ns e']|x].
    + destruct Hm as (-> & -> & Hl). split_and!.
      * intros e' [->%elem_of_singleton|]%elem_of_union; auto.
      * done.
      * simpl. rewrite H3. set_solver +.
      * intros n. simpl. rewrite elem_of_union, H4. unfold touches. split.
        -- intros [?|[?|(e' & ? & ?)]]; [right|by left|right].
           ++ exists e. set_solver.
           ++ exists e'. split; [by apply elem_of_union_r|done].
        -- intros [?|(e' & [->%elem_of_singleton|?]%elem_of_union & ?)]; [by auto|by auto|].
           right. right. by exists e'.
      * intros Hi. apply index_ok_put. auto.
    + destruct Hm as [-> Hm]. split_and!; [done|by exists e|done].
Qed.

Lemma index_ok_bfe o b es v : index_ok b -> index_ok (build_from_edges o b es v).1.
Proof.
  intros Hi. rewrite build_from_edges_unfold. destruct (if v then _ else _); [|done].
  pose proof (bfe_loop_spec (sub o 1) (sub o 2) b es) as Hl.
  destruct (for_mut _ _ _ _) as [b' []]; simpl; tauto.
Qed.

Lemma builder_state_index b : builder_state b -> index_ok b.
Proof.
  induction 1.
  - apply index_ok_init.
  - by apply index_ok_add.
  - by apply index_ok_join.
  - by apply index_ok_bfe.
Qed.

(** C04 *)
Lemma C04_lemma b eps r :
  builder_state b ->
  match add_relation b eps r with
  | (b', Ok _) => add_legal b eps r /\ b_cp b' = b_cp b /\
                  b_nodes b' = b_nodes b ∪ eps /\ b_edges b' = b_edges b ∪ {[(eps, r)]}
  | (b', Err e) => e = AssertionError /\ ~ add_legal b eps r /\ b' = b
  end.
Proof. intros Hb. by apply add_relation_spec, builder_state_index. Qed.

(** C09 *)
Lemma edge_legal_size cp e : edge_legal cp e -> size e.1 = 2.
Proof. intros [H _]. by apply two_nodes_size. Qed.

Lemma C09_lemma o b es :
  builder_state b ->
  match (build_from_edges o b es true).2 with
  | Ok s => es <> ∅ /\ edges_linked es /\ (forall e, e ∈ es -> edge_legal (b_cp b) e) /\
            s_cp s = cp_id (b_cp b) /\ g_edges (s_g s) = b_edges b ∪ es /\
            (forall n, n ∈ g_nodes (s_g s) <-> n ∈ b_nodes b \/ touches es n)
  | Err e => if decide (es = ∅) then e = StopIteration
             else e = AssertionError /\ ~ (edges_linked es /\ forall e, e ∈ es -> edge_legal (b_cp b) e)
  end.
Proof.
  intros Hb. rewrite build_from_edges_unfold.
  pose proof (is_edges_connected_spec (sub o 0) es) as Hc.
  destruct (is_edges_connected (sub o 0) es) as [c|x]; cbn [mbind res_bind].
  - destruct Hc as (Hne & H2 & Hc). destruct c; cbn [passert].
    + pose proof (bfe_loop_spec (sub o 1) (sub o 2) b es) as Hl.
      destruct (for_mut _ _ _ _) as [b' [[]|x]]; simpl.
      * destruct Hl as (L1 & L2 & L3 & L4 & _). unfold build.
        assert (b_nodes b' <> ∅) as Hnn.
        { apply set_choose_L in Hne as [e He]. pose proof (H2 e He) as Hsz.
          destruct (size_2_pair _ Hsz) as (x & y & Heq & _). intros Hemp.
          assert (x ∈ b_nodes b') as Hx; [|rewrite Hemp in Hx; set_solver +Hx].
          apply L4. right. exists e. rewrite Heq. set_solver +He. }
        rewrite bool_decide_true by done. simpl. rewrite L2.
        split_and!; try done. by apply Hc.
      * destruct Hl as (-> & (e & He & Hl) & _). rewrite decide_False by done.
        split; [done|]. intros [_ Hall]. auto.
    + simpl. rewrite decide_False by done. split; [done|]. intros [Hl _].
      apply Hc in Hl. done.
  - simpl. destruct Hc as [[-> ->]|[-> (e & He & Hs)]]; [done|].
    destruct (decide (es = ∅)) as [->|]; [set_solver +He|]. split; [done|].
    intros [_ Hall]. by apply Hs, (edge_legal_size (b_cp b)), Hall.
Qed.

(** ** C07 join_sample *)

Lemma edge_conflict_spec b e :
  index_ok b -> simple (b_edges b) ->
  edge_conflict b e = true <-> exists e', e' ∈ b_edges b /\ e.1 = e'.1 /\ e <> e'.
Proof.
  intros [Hi1 Hi2] Hs. unfold edge_conflict, endpoints, rel_of.
  destruct (b_endpoints b !! e.1) as [e0|] eqn:He0.
  - destruct (Hi1 _ _ He0) as [Hin Heq]. rewrite bool_decide_eq_true. split.
    + intros Hr. exists e0. split_and!; [done|done|]. by intros ->.
    + intros (e' & Hin' & Heq' & Hne) Hr. apply Hne.
      rewrite (Hs e' e0) in * by (done || congruence).
      destruct e, e0; simpl in *. congruence.
  - split; [done|]. intros (e' & Hin' & Heq' & _). destruct (Hi2 _ Hin') as [? Hsome].
    rewrite <- Heq' in Hsome. congruence.
Qed.

Lemma join_connected_spec b e :
  join_connected b e = true <-> b_nodes b = ∅ \/ exists n, n ∈ e.1 /\ n ∈ b_nodes b.
Proof.
  unfold join_connected, endpoints. rewrite orb_true_iff, !bool_decide_eq_true. split.
  - intros [Hne|?]; [right|by left]. apply set_choose_L in Hne as [n Hn]. exists n. set_solver +Hn.
  - intros [?|(n & Hn1 & Hn2)]; [by right|left]. set_solver +Hn1 Hn2.
Qed.

Lemma join_values_ok_spec b e :
  join_values_ok b e = true <->
  forall n n', n ∈ e.1 -> n ∉ b_nodes b -> n' ∈ b_nodes b -> n.1 <> n'.1.
Proof.
  unfold join_values_ok, endpoints. rewrite bool_decide_eq_true. split.
  - intros Hf n n' Hn Hnb Hn' Heq. destruct (Hf n Hn) as [Hv|]; [|done].
    apply Hv. rewrite elem_of_vars_of. exists n'.2. rewrite Heq. by destruct n'.
  - intros Hf n Hn. destruct (decide (n ∈ b_nodes b)) as [|Hnb]; [by right|left].
    rewrite elem_of_vars_of. intros [x Hx]. by apply (Hf n (n.1, x)).
Qed.

(** Invariant of joining the edge set [E] into a builder with nodes [N0] and edges [B0]; [D] are the
    edges joined so far. *)
Record jinv (N0 : gset node) (B0 E : gset edge) (b : builder) (D : gset edge) : Prop := {
  ji_index : index_ok b;
  ji_edges : b_edges b = B0 ∪ D;
  ji_nodes : forall n, n ∈ b_nodes b <-> n ∈ N0 \/ touches D n;
  ji_sub : D ⊆ E;
  ji_simple : simple (B0 ∪ D);
  ji_values : forall n n', touches D n -> n ∉ N0 -> n' ∈ b_nodes b -> n.1 = n'.1 -> n = n';
  ji_reach : N0 <> ∅ -> forall n, touches D n -> exists m, m ∈ N0 /\ rtc (link D) m n;
  ji_linked : N0 = ∅ -> edges_linked D
}.

Lemma touches_union D e n : touches ({[e]} ∪ D) n <-> n ∈ e.1 \/ touches D n.
Proof.
  unfold touches. split.
  - intros (e' & [->%elem_of_singleton|]%elem_of_union & ?); [by left|right; eauto].
  - intros [?|(e' & ? & ?)]; [exists e|exists e']; (split; [|done]); [set_solver +|by apply elem_of_union_r].
Qed.

Lemma jinv_step N0 B0 E b D e :
  jinv N0 B0 E b D -> e ∈ E -> two_nodes e.1 ->
  join_connected b e = true -> edge_conflict b e = false -> join_values_ok b e = true ->
  jinv N0 B0 E (put_edge b e (endpoints e)) ({[e]} ∪ D).
Proof.
  intros [Hi He Hn Hsub Hs Hv Hr Hl] HeE H2 Hconn Hconf Hval.
  apply join_connected_spec in Hconn.
  assert (forall e', e' ∈ b_edges b -> e.1 = e'.1 -> e = e') as Hconf'.
  { intros e' He' Heq. destruct (decide (e = e')) as [|Hne]; [done|].
    assert (edge_conflict b e = true); [|congruence].
    apply edge_conflict_spec; [done| |by exists e']. by rewrite He. }
  pose proof (proj1 (join_values_ok_spec b e) Hval) as Hval'. clear Hval Hconf.
  assert (forall n, n ∈ b_nodes (put_edge b e (endpoints e)) <-> n ∈ e.1 \/ n ∈ b_nodes b) as Hn'.
  { intros n. simpl. by rewrite elem_of_union. }
  split.
  - by apply index_ok_put.
  - simpl. rewrite He. set_solver +.
  - intros n. rewrite Hn', Hn, touches_union. tauto.
  - set_solver +Hsub HeE.
  - intros a a' Ha Ha' Heq.
    assert (a = e \/ a ∈ b_edges b) as [->|Ha1] by (rewrite He; set_solver +Ha);
    assert (a' = e \/ a' ∈ b_edges b) as [->|Ha1'] by (rewrite He; set_solver +Ha').
    + done.
    + by apply Hconf'.
    + symmetry. by apply Hconf'.
    + rewrite He in Ha1, Ha1'. by apply Hs.
  - (* values *)
    intros n n' Ht Hn0 Hn1 Heq. apply touches_union in Ht. apply Hn' in Hn1.
    destruct (decide (n ∈ b_nodes b)) as [Hnb|Hnb].
    + (* n old: it is touched by D *)
      assert (touches D n) as HtD by (apply Hn in Hnb; tauto).
      destruct (decide (n' ∈ b_nodes b)) as [Hnb'|Hnb']; [by apply Hv|].
      destruct Hn1 as [Hn1|]; [|done].
      exfalso. by apply (Hval' n' n).
    + destruct Ht as [Ht|Ht]; [|by destruct Hnb; apply Hn; right].
      destruct (decide (n' ∈ b_nodes b)) as [Hnb'|Hnb']; [by destruct (Hval' n n')|].
      destruct Hn1 as [Hn1|]; [|done].
      destruct H2 as (x & y & Hxy & Hne). rewrite Hxy in Ht, Hn1.
      apply elem_of_union in Ht as [->%elem_of_singleton| ->%elem_of_singleton];
      apply elem_of_union in Hn1 as [->%elem_of_singleton| ->%elem_of_singleton]; congruence.
  - intros HN0 n Ht.
    assert (exists m0 k, m0 ∈ N0 /\ k ∈ e.1 /\ rtc (link D) m0 k) as (m0 & k & Hm0 & Hk & Hm0k).
    { destruct Hconn as [Hemp|(k & Hk & Hkb)].
      - apply set_choose_L in HN0 as [m Hm]. assert (m ∈ b_nodes b) as Hmb by (apply Hn; by left).
        rewrite Hemp in Hmb. set_solver +Hmb.
      - apply Hn in Hkb as [HkN|HkD].
        + exists k, k. by split_and!.
        + destruct (Hr HN0 k HkD) as (m & ? & ?). by exists m, k. }
    apply touches_union in Ht as [Hne|HtD].
    + exists m0. split; [done|]. eapply rtc_r.
      * eapply rtc_link_mono; [|exact Hm0k]. set_solver +.
      * exists e. split_and!; [set_solver +|done|done].
    + destruct (Hr HN0 n HtD) as (m & ? & ?). exists m. split; [done|].
      eapply rtc_link_mono; [|done]. set_solver +.
  - intros HN0 x y Hx Hy. specialize (Hl HN0).
    assert (forall z, touches D z -> exists k, k ∈ e.1 /\ rtc (link ({[e]} ∪ D)) k z) as Hk.
    { intros z Hz. destruct Hconn as [Hemp|(k & Hk & Hkb)].
      - assert (z ∈ b_nodes b) as Hzb by (apply Hn; by right). rewrite Hemp in Hzb. set_solver +Hzb.
      - exists k. split; [done|]. eapply rtc_link_mono; [|apply Hl; [|done]]; [set_solver +|].
        apply Hn in Hkb as [Hk0|]; [rewrite HN0 in Hk0; set_solver +Hk0|done]. }
    assert (forall z, touches ({[e]} ∪ D) z -> exists k, k ∈ e.1 /\ rtc (link ({[e]} ∪ D)) k z) as Hk'.
    { intros z [Hz|Hz]%touches_union; [|by apply Hk]. exists z. by split. }
    destruct (Hk' x Hx) as (kx & Hkx & Hrx). destruct (Hk' y Hy) as (ky & Hky & Hry).
    etrans; [by apply rtc_link_sym|]. eapply rtc_l; [|done].
    exists e. split_and!; [set_solver +|done|done].
Qed.

Lemma jinv_conflict N0 B0 E b D e :
  jinv N0 B0 E b D -> e ∈ E -> edge_conflict b e = true -> ~ join_no_conflict B0 E.
Proof.
  intros [Hi He Hn Hsub Hs Hv Hr Hl] HeE Hc Hnc.
  apply edge_conflict_spec in Hc as (e' & He' & Heq & Hne); [|done|by rewrite He].
  apply Hne, Hnc; [done| |done]. rewrite He in He'. set_solver +He' Hsub.
Qed.

Lemma jinv_bad_value N0 B0 E b D e :
  jinv N0 B0 E b D -> e ∈ E -> join_values_ok b e = false -> ~ join_values_match N0 E.
Proof.
  intros [Hi He Hn Hsub Hs Hv Hr Hl] HeE Hc Hvm.
  assert (join_values_ok b e = true); [|congruence].
  apply join_values_ok_spec. intros n n' Hne Hnb Hnb' Heq.
  assert (n = n') as ->; [|done].
  apply Hvm; [by exists e| | |done].
  - intros ?. apply Hnb, Hn. by left.
  - apply Hn in Hnb' as [?|(e' & ? & ?)]; [by left|right]. exists e'. set_solver.
Qed.

Lemma join_pass_spec N0 B0 E l : forall b D nc,
  jinv N0 B0 E b D -> (forall e, e ∈ l -> e ∈ E /\ two_nodes e.1) -> NoDup l ->
  match join_pass b nc l with
  | (b', Ok nc') => exists P Q, jinv N0 B0 E b' (D ∪ P) /\ nc' = nc ∪ Q /\ P ∪ Q = list_to_set l /\
       P ## Q /\ (P = ∅ -> b' = b /\ forall e, e ∈ l -> join_connected b e = false)
  | (b', Err x) => x = AssertionError /\ ~ (join_no_conflict B0 E /\ join_values_match N0 E)
  end.
Proof.
  induction l as [|e l IH]; intros b D nc Hj Hl Hnd; simpl.
  - exists ∅, ∅. rewrite !union_empty_r_L. split_and!; try done. intros _. split; [done|].
    intros e He. by apply elem_of_nil in He.
  - destruct (Hl e) as [HeE H2]; [left|]. apply NoDup_cons in Hnd as [Hel Hnd].
    assert (forall e, e ∈ l -> e ∈ E /\ two_nodes e.1) as Hl' by (intros; apply Hl; by right).
    destruct (join_connected b e) eqn:Hc.
    + destruct (edge_conflict b e) eqn:Hconf.
      { split; [done|]. intros [? _]. by eapply jinv_conflict. }
      destruct (join_values_ok b e) eqn:Hv.
      2:{ split; [done|]. intros [_ ?]. by eapply jinv_bad_value. }
      specialize (IH _ _ nc (jinv_step _ _ _ _ _ _ Hj HeE H2 Hc Hconf Hv) Hl' Hnd).
      destruct (join_pass _ nc l) as [b' [nc'|x]]; [|done].
      destruct IH as (P & Q & Hj' & -> & HPQ & Hd & _).
      exists ({[e]} ∪ P), Q. split_and!.
      * by replace (D ∪ ({[e]} ∪ P)) with ({[e]} ∪ D ∪ P) by set_solver +.
      * done.
      * rewrite <- HPQ. set_solver +.
      * assert (e ∉ Q); [|set_solver]. intros HeQ. apply Hel.
        apply (elem_of_list_to_set (C:=gset edge)). rewrite <- HPQ. set_solver +HeQ.
      * intros He. exfalso. set_solver +He.
    + specialize (IH b D ({[e]} ∪ nc) Hj Hl' Hnd).
      destruct (join_pass _ _ l) as [b' [nc'|x]]; [|done].
      destruct IH as (P & Q & Hj' & -> & HPQ & Hd & HP).
      exists P, ({[e]} ∪ Q). split_and!.
      * done.
      * set_solver +.
      * rewrite <- HPQ. set_solver +.
      * assert (e ∉ P); [|set_solver]. intros HeP. apply Hel.
        apply (elem_of_list_to_set (C:=gset edge)). rewrite <- HPQ. set_solver +HeP.
      * intros HP0. destruct (HP HP0) as [-> Hall]. split; [done|].
        intros e' [->|?]%elem_of_cons; auto.
Qed.

Lemma jinv_stuck N0 B0 E b D es :
  jinv N0 B0 E b D -> E = D ∪ es -> es <> ∅ ->
  (forall e, e ∈ es -> two_nodes e.1) ->
  (forall e, e ∈ es -> join_connected b e = false) -> ~ join_reachable N0 E.
Proof.
  intros [Hi He Hn Hsub Hs Hv Hr Hl] HE Hes H2 Hno [HR0 HR1].
  assert (forall e n, e ∈ es -> n ∈ e.1 -> n ∉ b_nodes b) as Hout.
  { intros e n Hee Hne Hnb. assert (join_connected b e = true); [|by rewrite Hno in *].
    apply join_connected_spec. right. by exists n. }
  assert (forall x y, x ∈ b_nodes b -> rtc (link E) x y -> y ∈ b_nodes b) as Hclosed.
  { intros x y Hx Hxy. induction Hxy as [|x z y (e & HeE & Hxe & Hze) _ IH]; [done|].
    apply IH. rewrite HE in HeE. apply elem_of_union in HeE as [HeD|Hees].
    - apply Hn. right. by exists e.
    - by destruct (Hout e x). }
  apply set_choose_L in Hes as [e Hees].
  destruct (H2 e Hees) as (a & a' & Haa & _).
  assert (a ∈ e.1) as Hae by (rewrite Haa; set_solver +).
  destruct (decide (b_nodes b = ∅)) as [Hb0|Hb0].
  { assert (join_connected b e = true); [|by rewrite Hno in *].
    apply join_connected_spec. by left. }
  destruct (decide (N0 = ∅)) as [HN|HN].
  - apply set_choose_L in Hb0 as [n Hnb].
    assert (touches E n) as Htn.
    { apply Hn in Hnb as [Hnb|(e' & ? & ?)]; [rewrite HN in Hnb; set_solver +Hnb|].
      exists e'. rewrite HE. split; [by apply elem_of_union_l|done]. }
    assert (touches E a) as Hta.
    { exists e. rewrite HE. split; [by apply elem_of_union_r|done]. }
    apply (Hout e a Hees Hae). eapply Hclosed; [done|]. by apply HR0.
  - destruct (HR1 HN e) as (n & m & Hn0 & Hm & Hp).
    { rewrite HE. by apply elem_of_union_r. }
    apply (Hout e m Hees Hm). eapply Hclosed; [|done]. apply Hn. by left.
Qed.


Lemma join_edges_spec N0 B0 E : (forall e, e ∈ E -> two_nodes e.1) ->
  forall fuel o b D es,
  jinv N0 B0 E b D -> E = D ∪ es -> es <> ∅ -> (size es < fuel)%nat ->
  match join_edges fuel o b es with
  | (b', Ok _) => jinv N0 B0 E b' E
  | (b', Err x) => x = AssertionError /\
       ~ (join_reachable N0 E /\ join_no_conflict B0 E /\ join_values_match N0 E)
  end.
Proof.
  intros H2. induction fuel as [|k IH]; intros o b D es Hj HE Hne Hf; [lia|]. simpl.
  assert (es ⊆ E) as HesE by (rewrite HE; set_solver +).
  assert (forall e, e ∈ iter_set o es -> e ∈ E /\ two_nodes e.1) as Hl.
  { intros e He. apply elem_of_iter_set in He. auto. }
  pose proof (join_pass_spec N0 B0 E (iter_set o es) b D ∅ Hj Hl (NoDup_iter_set o es)) as Hp.
  destruct (join_pass b ∅ (iter_set o es)) as [b' [nc|x]]; [|tauto].
  destruct Hp as (P & Q & Hj' & HncQ & HPQ & Hd & HP).
  rewrite list_to_set_iter_set in HPQ. rewrite union_empty_l_L in HncQ. subst nc.
  case_bool_decide as Heq.
  { assert (P = ∅) as HP0 by (clear -HPQ Hd Heq; set_solver).
    destruct (HP HP0) as [-> Hno]. split; [done|]. intros [Hr _]. revert Hr.
    eapply jinv_stuck; [exact Hj|done|done|auto|].
    intros e He. apply Hno. by apply elem_of_iter_set. }
  assert (E = D ∪ P ∪ Q) as HE' by (rewrite HE, <- HPQ; set_solver +).
  case_bool_decide as HQ.
  { assert (D ∪ P = E) as HDP by (rewrite HE', HQ; set_solver +). by rewrite HDP in Hj'. }
  apply (IH (sub o 0) b' (D ∪ P) Q Hj' HE' HQ).
  assert (size Q < size es); [|lia]. apply subset_size.
  split; [rewrite <- HPQ; set_solver +|]. intros Hsub. apply Heq. rewrite <- HPQ.
  clear -Hsub HPQ Hd. set_solver.
Qed.

Lemma jinv_start b E : index_ok b -> simple (b_edges b) -> jinv (b_nodes b) (b_edges b) E b ∅.
Proof.
  intros Hi Hs. split.
  - done.
  - set_solver +.
  - intros n. unfold touches. set_solver +.
  - set_solver +.
  - by rewrite union_empty_r_L.
  - intros n n' (e & ? & ?). set_solver.
  - intros _ n (e & ? & ?). set_solver.
  - intros _ x y (e & ? & ?). set_solver.
Qed.

Lemma is_compatible_spec s cp : is_compatible s cp = true <-> s_cp s = cp_id cp.
Proof. unfold is_compatible. by rewrite bool_decide_eq_true. Qed.

Lemma C07_lemma o b s :
  builder_state b -> simple (b_edges b) -> (forall e, e ∈ g_edges (s_g s) -> two_nodes e.1) ->
  match join_sample o b s with
  | (b', Ok _) => join_legal b s /\ b_cp b' = b_cp b /\ b_edges b' = b_edges b ∪ g_edges (s_g s) /\
      (forall n, n ∈ b_nodes b' <-> n ∈ b_nodes b \/
         (if decide (g_edges (s_g s) = ∅) then n ∈ g_nodes (s_g s) else touches (g_edges (s_g s)) n))
  | (b', Err x) => x = AssertionError /\ ~ join_legal b s
  end.
Proof.
  intros Hb Hs H2. apply builder_state_index in Hb.
  pose proof (b_cp_join o b s) as Hcp.
  unfold join_legal. revert Hcp. unfold join_sample.
  destruct (is_compatible s (b_cp b)) eqn:Hc.
  2:{ intros _. split; [done|]. intros [He _]. by rewrite (proj2 (is_compatible_spec _ _) He) in Hc. }
  apply is_compatible_spec in Hc.
  case_bool_decide as He.
  - rewrite decide_True by done. rewrite He, union_empty_r_L.
    destruct (_ && _) eqn:Hcond.
    + intros _. apply andb_true_iff in Hcond as [H1 Hn]. apply bool_decide_eq_true in H1.
      apply size_1_elem_of in H1 as [n Hnn]. apply leibniz_equiv in Hnn.
      rewrite orb_true_iff, !bool_decide_eq_true in Hn.
      split_and!.
      * done.
      * exists n. split; [done|]. rewrite Hnn in Hn. destruct Hn as [Hn|]; [right; set_solver +Hn|by left].
      * by case_bool_decide.
      * by case_bool_decide.
      * intros m. destruct (decide (b_nodes b = ∅)) as [Hb0|Hb0].
        -- rewrite bool_decide_true by done. simpl. rewrite elem_of_union. tauto.
        -- rewrite bool_decide_false by done. destruct Hn as [Hn|]; [|done]. set_solver +Hn.
    + intros _. split; [done|]. intros [_ (n & Hnn & Hor)].
      rewrite Hnn, size_singleton in Hcond. rewrite bool_decide_true in Hcond by done. simpl in Hcond.
      apply orb_false_iff in Hcond as [Ha Hb'].
      apply bool_decide_eq_false in Ha, Hb'. destruct Hor as [|Hor]; [done|]. set_solver +Ha Hor.
  - rewrite decide_False by done.
    pose proof (join_edges_spec (b_nodes b) (b_edges b) (g_edges (s_g s)) H2
      (S (size (g_edges (s_g s)))) o b ∅ (g_edges (s_g s)) (jinv_start b _ Hb Hs)) as Hj.
    specialize (Hj ltac:(set_solver +) He ltac:(lia)).
    destruct (join_edges _ o b (g_edges (s_g s))) as [b' [[]|x]]; simpl; intros Hcp.
    + destruct Hj as [Hi Hed Hn Hsub Hsi Hv Hr Hl]. split_and!; try done.
      * split; [done|]. intros HN e Hee. destruct (H2 e Hee) as (x & y & Hxy & _).
        destruct (Hr HN x) as (m & ? & ?).
        { exists e. rewrite Hxy. set_solver +Hee. }
        exists m, x. split_and!; [done| |done]. rewrite Hxy. set_solver +.
      * intros e e' Hee Hee' Heq. apply Hsi; [by apply elem_of_union_r|done|done].
      * intros n n' Hn1 Hn2 Hn3 Heq. apply Hv; [done|done|by apply Hn|done].
      * intros n. rewrite decide_False by done. apply Hn.
    + destruct Hj as [-> Hj]. split; [done|]. tauto.
Qed.

End builder_facts.
