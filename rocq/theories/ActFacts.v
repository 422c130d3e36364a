(** * ActFacts: the activation graph *)

From Verif Require Export SpecAct BuildFacts BfsFacts.

(** ** Rational sums over maps *)
Definition qmsum {K A} `{Countable K} (f : K -> A -> Qc) (m : gmap K A) : Qc :=
  qsum ((fun kv => f kv.1 kv.2) <$> map_to_list m).

Lemma zsum_cons_eq x l : zsum (x :: l) = (x + zsum l)%Z.
Proof. done. Qed.

Lemma qsum_cons x l : qsum (x :: l) = (x + qsum l)%Qc.
Proof. done. Qed.

Lemma qsum_perm l l' : l ≡ₚ l' -> qsum l = qsum l'.
Proof. intros Hp. induction Hp; rewrite ?qsum_cons; [done|by f_equal|ring|congruence]. Qed.

Section qmsum.
Context {K A : Type} `{Countable K}.
Implicit Types (m : gmap K A) (f : K -> A -> Qc).

Lemma qmsum_empty f : qmsum f (∅ : gmap K A) = 0%Qc.
Proof. unfold qmsum. by rewrite map_to_list_empty. Qed.

Lemma qmsum_insert f m k a : m !! k = None -> qmsum f (<[k := a]> m) = (f k a + qmsum f m)%Qc.
Proof.
  intros Hk. unfold qmsum. erewrite (qsum_perm (_ <$> map_to_list (<[k:=a]> m))).
  2:{ rewrite map_to_list_insert by done. reflexivity. }
  done.
Qed.

Lemma qmsum_ext f f' m : (forall k a, m !! k = Some a -> f k a = f' k a) -> qmsum f m = qmsum f' m.
Proof.
  induction m as [|k a m Hk IH] using map_ind; intros Hf; [by rewrite !qmsum_empty|].
  rewrite !qmsum_insert by done. rewrite Hf by apply lookup_insert. f_equal.
  apply IH. intros k' a' Hk'. apply Hf. rewrite lookup_insert_ne; [done|]. by intros ->; simplify_eq.
Qed.

Lemma qmsum_zero f m : (forall k a, m !! k = Some a -> f k a = 0%Qc) -> qmsum f m = 0%Qc.
Proof.
  induction m as [|k a m Hk IH] using map_ind; intros Hf; [by rewrite !qmsum_empty|].
  rewrite !qmsum_insert by done. rewrite Hf by apply lookup_insert. rewrite IH; [ring|].
  intros k' a' Hk'. apply Hf. rewrite lookup_insert_ne; [done|]. by intros ->; simplify_eq.
Qed.

Lemma qmsum_le f f' m : (forall k a, m !! k = Some a -> f k a <= f' k a)%Qc -> (qmsum f m <= qmsum f' m)%Qc.
Proof.
  induction m as [|k a m Hk IH] using map_ind; intros Hf; [rewrite !qmsum_empty; apply Qcle_refl|].
  rewrite !qmsum_insert by done. apply Qcplus_le_compat; [apply Hf, lookup_insert|].
  apply IH. intros k' a' Hk'. apply Hf. rewrite lookup_insert_ne; [done|]. by intros ->; simplify_eq.
Qed.
End qmsum.

Lemma zq_plus a b : zq (a + b) = (zq a + zq b)%Qc.
Proof. unfold zq. apply Qc_is_canon. cbn [this Qcplus Q2Qc]. rewrite !Qred_correct, inject_Z_plus. done. Qed.
Lemma zq_0 : zq 0 = 0%Qc.
Proof. by apply Qc_is_canon. Qed.
Lemma zq_le a b : (a <= b)%Z -> (zq a <= zq b)%Qc.
Proof. intros Hab. unfold zq, Qcle. cbn [this Q2Qc]. rewrite !Qred_correct. by rewrite <- Zle_Qle. Qed.
Lemma zq_eq_0 a : zq a = 0%Qc -> a = 0%Z.
Proof.
  intros He. apply (f_equal this) in He. unfold zq in He. cbn [this Q2Qc] in He.
  assert (inject_Z a == 0)%Q as Hq by (rewrite <- (Qred_correct (inject_Z a)); by rewrite He).
  unfold inject_Z, Qeq in Hq. simpl in Hq. lia.
Qed.
Lemma qinv_nonneg (x : Qc) : (0 <= x)%Qc -> (0 <= / x)%Qc.
Proof. unfold Qcle, Qcinv. cbn [this Q2Qc]. rewrite !Qred_correct. apply Qinv_le_0_compat. Qed.
Lemma qmult_nonneg (x y : Qc) : (0 <= x)%Qc -> (0 <= y)%Qc -> (0 <= x * y)%Qc.
Proof. intros Hx Hy. rewrite <- (Qcmult_0_l y). by apply Qcmult_le_compat_r. Qed.
Lemma qdiv_one z : qdiv z 1 = zq z.
Proof. unfold qdiv, zq. change (Q2Qc (inject_Z 1)) with 1%Qc. field. discriminate. Qed.

Section act.
Context {U : Universe}.

Lemma zq_msum (f : graph -> Z -> Z) (m : gmap graph Z) : zq (msum f m) = qmsum (fun g c => zq (f g c)) m.
Proof.
  induction m as [|k a m Hk IH] using map_ind; [by rewrite msum_empty, qmsum_empty, zq_0|].
  by rewrite msum_insert, qmsum_insert, zq_plus, IH by done.
Qed.

(** ** Listing outcomes *)
Lemma lists_exist (ss : samples) (P : graph -> Prop) `{!forall g, Decision (P g)} :
  lists ss P (filter P (map_to_list (ss_map ss)).*1).
Proof.
  split; [apply NoDup_filter, NoDup_fst_map_to_list|]. intros g.
  rewrite elem_of_list_filter, elem_of_list_fmap. unfold contains. split.
  - intros [HP ([g' c] & -> & Hg)]. apply elem_of_map_to_list in Hg. split; [by eexists|done].
  - intros [[c Hg] HP]. split; [done|]. exists (g, c). split; [done|]. by apply elem_of_map_to_list.
Qed.

Lemma tally_msum (ss : samples) (P : graph -> Prop) `{!forall g, Decision (P g)} :
  tally ss P (msum (fun g c => if decide (P g) then c else 0%Z) (ss_map ss)).
Proof.
  exists (filter P (map_to_list (ss_map ss)).*1). split; [apply lists_exist; done|].
  unfold msum.
  assert (forall L, (forall g c, (g, c) ∈ L -> ss_map ss !! g = Some c) ->
    zsum ((fun kv : graph * Z => if decide (P kv.1) then kv.2 else 0%Z) <$> L) = zsum (times_in ss <$> filter P L.*1)) as HL.
  { induction L as [|[g c] L IH]; intros HL; [done|]. rewrite !fmap_cons, filter_cons. cbn [fst snd].
    rewrite zsum_cons_eq, IH by (intros; apply HL; by right).
    destruct (decide (P g)); [|lia]. rewrite fmap_cons, zsum_cons_eq. f_equal.
    unfold times_in. by rewrite (HL g c) by left. }
  apply HL. intros g c Hg. by apply elem_of_map_to_list in Hg.
Qed.

Lemma similar_tally_qmsum (ss : samples) (ev : graph) (P : graph -> Prop) `{!forall g, Decision (P g)} :
  similar_tally ss ev P (qmsum (fun g c => if decide (P g) then likeness g ev * zq c else 0)%Qc (ss_map ss)).
Proof.
  exists (filter P (map_to_list (ss_map ss)).*1). split; [apply lists_exist; done|].
  unfold qmsum.
  assert (forall L, (forall g c, (g, c) ∈ L -> ss_map ss !! g = Some c) ->
    qsum ((fun kv : graph * Z => if decide (P kv.1) then likeness kv.1 ev * zq kv.2 else 0)%Qc <$> L) =
    qsum ((fun g => likeness g ev * qdiv (times_in ss g) 1)%Qc <$> filter P L.*1)) as HL.
  { induction L as [|[g c] L IH]; intros HL; [done|]. rewrite !fmap_cons, filter_cons. cbn [fst snd].
    rewrite qsum_cons, IH by (intros; apply HL; by right).
    destruct (decide (P g)); [|ring]. rewrite fmap_cons, qsum_cons. f_equal.
    unfold times_in. rewrite (HL g c) by left. cbn [default]. by rewrite qdiv_one. }
  apply HL. intros g c Hg. by apply elem_of_map_to_list in Hg.
Qed.

Lemma external_ok_unique (g : graph) (f : option (gset relation)) (C : gset node) (m m' : gmap node (gset edge)) : external_ok g f C m -> external_ok g f C m' -> m = m'.
Proof.
  intros H1 H2. apply map_eq. intros n. specialize (H1 n). specialize (H2 n).
  destruct (m !! n) as [X|], (m' !! n) as [Y|]; try done.
  - f_equal. apply set_eq. intros e. rewrite (proj2 H1). by rewrite (proj2 H2).
  - destruct H1 as [HX H1]. apply set_choose_L in HX as [e He]. apply H1 in He. by destruct (H2 e).
  - destruct H2 as [HX H2]. apply set_choose_L in HX as [e He]. apply H2 in He. by destruct (H1 e).
Qed.

Lemma likeness_bounds g ev : (0 <= likeness g ev)%Qc /\ (likeness g ev <= 1)%Qc.
Proof.
  unfold likeness. pose proof (shared_total g ev) as [H0 H1].
  destruct (decide (Spec.total g ev = 0%Z)) as [Hz|Hz].
  - rewrite Hz. assert (qdiv (shared g ev) 0 = 0%Qc) as ->; [|split; discriminate].
    assert (shared g ev = 0%Z) as -> by lia. by apply Qc_is_canon.
  - rewrite qdiv_1, qdiv_0. split; apply qdiv_le; lia.
Qed.

Section loop.
Variable cp : provider.
Variable ev : graph.
Variable f : option (gset relation).
Hypothesis ev_wf : wf_graph cp ev.
Hypothesis ev_single : single_valued (g_nodes ev).
Hypothesis ev_ne : g_nodes ev <> ∅.

Definition good (g : graph) : Prop :=
  wf_graph cp g /\ single_valued (g_nodes g) /\ consistent_or_unrelated ev g.

Lemma edge_legal_two e : edge_legal cp e -> two_nodes e.1.
Proof. by intros [? _]. Qed.

(** An outcome with an edge at the evidence contains the evidence. *)
Lemma reach_contains g m n :
  good g -> m ∈ g_nodes ev -> n <> m -> rtc (alink g f) m n -> g_nodes ev ⊆ g_nodes g /\ g_edges ev ⊆ g_edges g.
Proof.
  intros (Hwf & _ & [H|Hun]) Hm Hne Hr; [done|]. exfalso.
  inversion Hr as [|? y ? (e & He & _ & Hx & _)]; subst; [done|].
  apply (wf_inside _ _ Hwf) in He. apply He in Hx. destruct m as [v x].
  apply (Hun v); by exists x.
Qed.

Lemma closer_in g n e : good g -> closer_edge g f (g_nodes ev) n e ->
  e ∈ g_edges g /\ n ∈ e.1 /\ n ∈ g_nodes g /\ ~ has_var (g_nodes ev) n.1.
Proof.
  intros Hg Hc. pose proof (closer_outside _ _ _ _ _ Hc) as HnC.
  destruct Hc as (He & _ & Hn & k & m & Hd & _). split; [done|]. split; [done|].
  assert (n ∈ g_nodes g) as Hng by (apply (wf_inside _ _ (proj1 Hg) e He); done).
  split; [done|]. intros [y Hy].
  destruct (proj1 (within_reach g f (g_nodes ev) n) (ex_intro _ (S k) (proj1 Hd))) as (c & Hc & Hr).
  destruct (reach_contains g c n) as [Hsub _]; [done|done| |done|].
  { intros ->. done. }
  pose proof (Hsub _ Hy) as Hy'. destruct Hg as (_ & Hs & _). destruct n as [v x]. cbn [fst] in *.
  rewrite (Hs v x y) in HnC by done. done.
Qed.

(** ** Nodes *)
Definition nodes_show (na : gmap Var anode) (S : node -> Qc) : Prop :=
  forall v, match cp_vars cp !! v with
            | Some X => exists a, na !! v = Some a /\ an_in_query a = bool_decide (v ∈ included_variables ev) /\
                forall x, an_values a !! x = if decide (x ∈ X) then Some (S (v, x)) else None
            | None => na !! v = None
            end.

Lemma nodes_show_ext (na : gmap Var anode) (S S' : node -> Qc) : (forall n, S n = S' n) -> nodes_show na S -> nodes_show na S'.
Proof.
  intros HS H v. specialize (H v). destruct (cp_vars cp !! v) as [X|]; [|done].
  destruct H as (a & Ha & Hq & Hx). exists a. split_and!; [done|done|]. intros x. rewrite Hx. by rewrite HS.
Qed.

Definition gain (W : gmap node (Qc * bool)) (n : node) : Qc := match W !! n with Some (w, _) => w | None => 0%Qc end.

Lemma act_nodes_loop (o o' : oracle) (na : gmap Var anode) (S : node -> Qc) (W : gmap node (Qc * bool)) :
  nodes_show na S ->
  (forall n w q, W !! n = Some (w, q) -> declared cp n /\ q = bool_decide (n.1 ∈ included_variables ev)) ->
  exists na', for_res (fun _ na '(n, (w, q)) => act_node na n w q) o na (iter_map o' W) = Ok na' /\
    nodes_show na' (fun n => S n + gain W n)%Qc.
Proof.
  intros H0 HW.
  pose proof (for_res_map_ind (fun W' na' => nodes_show na' (fun n => S n + gain W' n)%Qc) (fun _ => False)
    (fun _ na '(n, (w, q)) => act_node na n w q) o o' na W) as H.
  destruct (for_res _ o na (iter_map o' W)) as [na'|e]; [exists na'; split; [done|]|exfalso]; apply H; clear H.
  1, 3: eapply nodes_show_ext; [|exact H0]; intros n; unfold gain; rewrite lookup_empty; ring.
  all: intros W' n [w q] na1 _ Hn Hn' _ IH; destruct (HW n w q Hn) as [[X [HX Hx]] Hq].
  all: unfold act_node; pose proof (IH n.1) as IHn; rewrite HX in IHn; destruct IHn as (a & -> & Hqa & Hv).
  all: rewrite Hqa, <- Hq; replace (eqb q q) with true by (by destruct q); cbn.
  all: rewrite (Hv n.2), decide_True by done.
  all: intros v; destruct (decide (v = n.1)) as [->|Hne].
  all: try (specialize (IH v); destruct (cp_vars cp !! v) as [Y|]; [|by rewrite lookup_insert_ne by done];
    destruct IH as (a' & Ha' & Hqa' & Hv'); exists a'; rewrite lookup_insert_ne by done; split_and!; [done|done|];
    intros x; rewrite Hv'; destruct (decide (x ∈ Y)); [|done]; do 2 f_equal; unfold gain;
    rewrite lookup_insert_ne; [done|]; by intros ->).
  all: rewrite HX; eexists; split; [apply lookup_insert|]; split; [first [exact Hqa|exact Hq]|]; intros x; cbn [an_values].
  all: destruct (decide (x = n.2)) as [->|Hnx].
  all: try (rewrite lookup_insert, decide_True by done; f_equal; unfold gain; destruct n as [v x]; cbn [fst snd];
    rewrite lookup_insert, Hn'; ring).
  all: rewrite lookup_insert_ne by done; rewrite Hv; destruct (decide (x ∈ X)); [|done]; do 2 f_equal; unfold gain;
    rewrite lookup_insert_ne; [done|]; intros Heq; apply Hnx; by rewrite Heq.
Qed.

(** ** Edges *)
Definition in_q (X : gset Var) : bool := bool_decide (X ∈ (set_map (fun e => vars_of (endpoints e)) (g_edges ev) : gset (gset Var))).

Lemma in_q_spec X : in_q X = true <-> exists e, e ∈ g_edges ev /\ edge_vars e X.
Proof.
  unfold in_q. rewrite bool_decide_eq_true, elem_of_map. split.
  - intros (e & -> & He). exists e. split; [done|]. intros v. apply elem_of_vars_of.
  - intros (e & He & Hv). exists e. split; [|done]. apply set_eq. intros v. rewrite elem_of_vars_of. apply Hv.
Qed.

Definition edges_show (ea : gmap (gset Var) aedge) (F : gset Var -> relation -> option Z) : Prop :=
  forall X, match ea !! X with
            | Some a => ae_in_query a = in_q X /\ (exists r, is_Some (F X r)) /\ forall r, ae_relations a !! r = F X r
            | None => forall r, F X r = None
            end.

Definition bump (o : option Z) (c : Z) : option Z := Some (default 0%Z o + c)%Z.

Definition hit (Y : gset (edge * bool)) (X : gset Var) (r : relation) : bool :=
  bool_decide ((X, r) ∈ (set_map (fun p : edge * bool => (vars_of (endpoints p.1), rel_of p.1)) Y : gset (gset Var * relation))).

Lemma hit_spec Y X r : hit Y X r = true <-> exists e q, (e, q) ∈ Y /\ edge_vars e X /\ e.2 = r.
Proof.
  unfold hit. rewrite bool_decide_eq_true, elem_of_map. split.
  - intros ([e q] & He & Hin). cbn [fst] in He. injection He as -> ->. exists e, q. split; [done|]. split; [|done].
    intros v. apply elem_of_vars_of.
  - intros (e & q & Hin & Hv & <-). exists (e, q). split; [|done]. cbn [fst]. f_equal. apply set_eq. intros v.
    rewrite elem_of_vars_of. apply Hv.
Qed.

Lemma edges_show_ext (ea : gmap (gset Var) aedge) (F F' : gset Var -> relation -> option Z) : (forall X r, F X r = F' X r) -> edges_show ea F -> edges_show ea F'.
Proof.
  intros HF H X. specialize (H X). destruct (ea !! X) as [a|].
  - destruct H as (Hq & [r Hr] & Hv). split_and!; [done| |]; [exists r; by rewrite <- HF|].
    intros r'. by rewrite <- HF.
  - intros r. by rewrite <- HF.
Qed.

Lemma act_edges_loop (o o' : oracle) (c : Z) (ea : gmap (gset Var) aedge) (F : gset Var -> relation -> option Z) (Y : gset (edge * bool)) :
  edges_show ea F ->
  (forall e q, (e, q) ∈ Y -> q = in_q (vars_of (endpoints e))) ->
  (forall e q e' q', (e, q) ∈ Y -> (e', q') ∈ Y -> vars_of (endpoints e) = vars_of (endpoints e') -> rel_of e = rel_of e' -> e = e') ->
  exists ea', for_res (fun _ ea '(e, q) => act_edge ea e c q) o ea (iter_set o' Y) = Ok ea' /\
    edges_show ea' (fun X r => if hit Y X r then bump (F X r) c else F X r).
Proof.
  intros H0 HY Hone.
  pose proof (for_res_set_ind (fun Y' ea' => edges_show ea' (fun X r => if hit Y' X r then bump (F X r) c else F X r))
    (fun _ => False) (fun _ ea '(e, q) => act_edge ea e c q) o o' ea Y) as H.
  assert (forall Y' p ea1 (o1 : oracle), p ∈ Y -> p ∉ Y' -> Y' ⊆ Y ->
    edges_show ea1 (fun X r => if hit Y' X r then bump (F X r) c else F X r) ->
    match (fun '(e, q) => act_edge ea1 e c q) p with
    | Ok s' => edges_show s' (fun X r => if hit ({[p]} ∪ Y') X r then bump (F X r) c else F X r)
    | Err _ => False end) as Hstep.
  { intros Y' [e q] ea1 _ Hp Hp' HY' IH. pose proof (HY e q Hp) as Hq.
    set (X0 := vars_of (endpoints e)) in *.
    assert (hit Y' X0 (rel_of e) = false) as Hno.
    { apply not_true_iff_false. rewrite hit_spec. intros (e' & q' & Hin & Hv & Hr).
      assert (e = e') as <-.
      { eapply Hone; [exact Hp|apply HY'; exact Hin| |by symmetry]. apply set_eq. intros v.
        rewrite (elem_of_vars_of (endpoints e')). apply (Hv v). }
      assert (q = q') as <-; [|done]. rewrite Hq. rewrite (HY e q'); [done|]. by apply HY'. }
    assert (forall X r, hit ({[(e, q)]} ∪ Y') X r = true <-> (X = X0 /\ r = rel_of e) \/ hit Y' X r = true) as Hhit.
    { intros X r. rewrite !hit_spec. split.
      - intros (e' & q' & Hin & Hv & Hr). apply elem_of_union in Hin as [Hin|Hin].
        + apply elem_of_singleton in Hin. injection Hin as -> ->. left. split; [|done].
          apply set_eq. intros v. unfold X0. rewrite elem_of_vars_of. apply Hv.
        + right. by exists e', q'.
      - intros [[-> ->]|(e' & q' & Hin & Hv & Hr)].
        + exists e, q. split; [set_solver +|]. split; [|done]. intros v. apply elem_of_vars_of.
        + exists e', q'. split; [|done]. set_solver + Hin. }
    assert (forall X r, ~ (X = X0 /\ r = rel_of e) -> hit ({[(e, q)]} ∪ Y') X r = hit Y' X r) as Hhit'.
    { intros X r Hn. apply eq_true_iff_eq. rewrite Hhit. tauto. }
    assert (hit ({[(e, q)]} ∪ Y') X0 (rel_of e) = true) as Hyes by (apply Hhit; by left).
    unfold act_edge. fold X0. pose proof (IH X0) as IH0. cbv zeta.
    destruct (ea1 !! X0) as [a|] eqn:Ha.
    - destruct IH0 as (Hqa & _ & Hv). rewrite Hqa, <- Hq. replace (eqb q q) with true by (by destruct q). cbn.
      intros X. destruct (decide (X = X0)) as [->|HX].
      + rewrite lookup_insert. cbn [ae_in_query ae_relations]. split; [congruence|]. split.
        { exists (rel_of e). rewrite Hyes. by eexists. }
        intros r. destruct (decide (r = rel_of e)) as [->|Hr].
        * rewrite lookup_insert, Hyes. unfold bump. f_equal. rewrite Hv, Hno. done.
        * rewrite lookup_insert_ne by done. rewrite Hv, Hhit' by tauto. done.
      + rewrite lookup_insert_ne by done. specialize (IH X). destruct (ea1 !! X) as [a'|].
        * destruct IH as (Hq' & [r Hr] & Hv'). split; [done|]. split.
          { exists r. by rewrite Hhit' by tauto. }
          intros r'. rewrite Hv', Hhit' by tauto. done.
        * intros r. rewrite Hhit' by tauto. apply IH.
    - intros X. destruct (decide (X = X0)) as [->|HX].
      + rewrite lookup_insert. cbn [ae_in_query ae_relations]. split; [done|]. split.
        { exists (rel_of e). rewrite Hyes. by eexists. }
        intros r. destruct (decide (r = rel_of e)) as [->|Hr].
        * rewrite lookup_singleton, Hyes. unfold bump. specialize (IH0 (rel_of e)). rewrite Hno in IH0.
          rewrite IH0. done.
        * rewrite lookup_singleton_ne by done. rewrite Hhit' by tauto. symmetry. apply IH0.
      + rewrite lookup_insert_ne by done. specialize (IH X). destruct (ea1 !! X) as [a'|].
        * destruct IH as (Hq' & [r Hr] & Hv'). split; [done|]. split.
          { exists r. by rewrite Hhit' by tauto. }
          intros r'. rewrite Hv', Hhit' by tauto. done.
        * intros r. rewrite Hhit' by tauto. apply IH. }
  destruct (for_res _ o ea (iter_set o' Y)) as [ea'|e]; [exists ea'; split; [done|]|exfalso]; apply H; clear H.
  1, 3: eapply edges_show_ext; [|exact H0]; intros X r; unfold hit; rewrite set_map_empty, bool_decide_false; [done|];
    apply not_elem_of_empty.
  all: intros Y' p ea1 o1 Hp Hp' HY' IH; by apply (Hstep Y' p ea1 o1).
Qed.

(** ** One outcome *)
Definition Ext (g : graph) : gmap node (gset edge) :=
  match external_nodes (fun _ => []) g (g_nodes ev) f with Ok m => m | Err _ => ∅ end.

Definition Yset (g : graph) : gset (edge * bool) :=
  set_map (fun e => (e, false)) (⋃ (map_to_list (Ext g)).*2 : gset edge) ∪ set_map (fun e => (e, true)) (g_edges ev).

Definition share (g : graph) (n : node) : Qc :=
  if decide (n ∈ g_nodes ev) then (if decide (n ∈ g_nodes g) then 1%Qc else 0%Qc)
  else if decide (is_Some (Ext g !! n)) then likeness g ev else 0%Qc.

Lemma Ext_spec o g : good g -> external_nodes o g (g_nodes ev) f = Ok (Ext g) /\ external_ok g f (g_nodes ev) (Ext g).
Proof.
  intros Hg. assert (forall e, e ∈ g_edges g -> two_nodes e.1) as H2.
  { intros e He. apply edge_legal_two, (wf_edges _ _ (proj1 Hg) e He). }
  destruct (external_nodes_spec o g (g_nodes ev) f H2 ev_ne) as (m & Hm & Hok).
  destruct (external_nodes_spec (fun _ => []) g (g_nodes ev) f H2 ev_ne) as (m' & Hm' & Hok').
  unfold Ext. rewrite Hm'. rewrite Hm, (external_ok_unique _ _ _ _ _ Hok Hok'). done.
Qed.

Lemma Ext_node (g : graph) (n : node) : good g -> is_Some (Ext g !! n) ->
  n ∈ g_nodes g /\ n ∉ g_nodes ev /\ ~ has_var (g_nodes ev) n.1.
Proof.
  intros Hg [X HX]. destruct (Ext_spec (fun _ => []) g Hg) as [_ Hok]. pose proof (Hok n) as Hn. rewrite HX in Hn.
  destruct Hn as [HX0 Hn]. apply set_choose_L in HX0 as [e He]. apply Hn in He.
  destruct (closer_in g n e Hg He) as (_ & _ & ? & ?). split_and!; [done| |done].
  by apply closer_outside in He.
Qed.

Lemma Yset_elem (g : graph) (e : edge) (q : bool) : good g -> (e, q) ∈ Yset g <->
  (q = false /\ exists n, closer_edge g f (g_nodes ev) n e) \/ (q = true /\ e ∈ g_edges ev).
Proof.
  intros Hg. destruct (Ext_spec (fun _ => []) g Hg) as [_ Hok]. unfold Yset.
  rewrite elem_of_union, !elem_of_map. apply ZifyClasses.or_morph.
  - split.
    + intros (e' & He & Hin). injection He as -> ->. split; [done|]. apply elem_of_union_list in Hin as (X & HX & He).
      apply elem_of_list_fmap in HX as ([n X'] & -> & HX). apply elem_of_map_to_list in HX. cbn [snd] in He.
      pose proof (Hok n) as Hn. rewrite HX in Hn. exists n. by apply Hn.
    + intros [-> [n Hc]]. exists e. split; [done|]. apply elem_of_union_list.
      pose proof (Hok n) as Hn. destruct (Ext g !! n) as [X|] eqn:HX; [|by destruct (Hn e)].
      exists X. split; [|by apply Hn]. apply elem_of_list_fmap. exists (n, X). split; [done|].
      by apply elem_of_map_to_list.
  - split.
    + intros (e' & He & Hin). by injection He as -> ->.
    + intros [-> Hin]. by exists e.
Qed.

Lemma edge_vars_in (e : edge) (X : gset node) v : e.1 ⊆ X -> v ∈ vars_of (endpoints e) -> has_var X v.
Proof. rewrite elem_of_vars_of. intros Hsub [x Hx]. exists x. by apply Hsub. Qed.

Lemma Yset_flag g e q : good g -> (e, q) ∈ Yset g -> q = in_q (vars_of (endpoints e)).
Proof.
  intros Hg He. apply Yset_elem in He; [|done]. destruct He as [[-> [n Hc]]|[-> He]]; symmetry.
  - apply not_true_iff_false. rewrite in_q_spec. intros (e' & He' & Hv).
    destruct (closer_in g n e Hg Hc) as (_ & Hn & _ & Hno). apply Hno.
    apply (edge_vars_in e'); [by apply (wf_inside _ _ ev_wf)|].
    rewrite elem_of_vars_of. apply Hv. rewrite elem_of_vars_of. exists n.2. by destruct n.
  - apply in_q_spec. exists e. split; [done|]. intros v. apply elem_of_vars_of.
Qed.

Lemma same_edge (X : gset node) (e e' : edge) : single_valued X -> e.1 ⊆ X -> e'.1 ⊆ X ->
  vars_of (endpoints e) = vars_of (endpoints e') -> rel_of e = rel_of e' -> e = e'.
Proof.
  intros Hs He He' Hv Hr. destruct e as [a r], e' as [b r']. cbn in *. subst r'. f_equal.
  assert (forall p q : gset node, p ⊆ X -> q ⊆ X -> vars_of p = vars_of q -> p ⊆ q) as Hhalf.
  { intros p q Hp Hq Hpq [v x] Hin.
    assert (v ∈ vars_of q) as Hvq by (rewrite <- Hpq; apply elem_of_vars_of; by exists x).
    apply elem_of_vars_of in Hvq as [y Hy]. rewrite (Hs v x y); [done|by apply Hp|by apply Hq]. }
  apply (anti_symm (⊆)); apply Hhalf; done.
Qed.

Lemma Yset_one g e q e' q' : good g -> (e, q) ∈ Yset g -> (e', q') ∈ Yset g ->
  vars_of (endpoints e) = vars_of (endpoints e') -> rel_of e = rel_of e' -> e = e'.
Proof.
  intros Hg He He' Hv Hr.
  assert (q = q') as <- by (rewrite (Yset_flag g e q), (Yset_flag g e' q'), Hv by done; done).
  apply Yset_elem in He; [|done]. apply Yset_elem in He'; [|done].
  destruct He as [[-> [n Hc]]|[-> He]], He' as [[? [n' Hc']]|[? He']]; try done.
  - destruct (closer_in g n e Hg Hc) as (He & _). destruct (closer_in g n' e' Hg Hc') as (He' & _).
    apply (same_edge (g_nodes g)); [apply Hg| | |done|done]; by apply (wf_inside _ _ (proj1 Hg)).
  - apply (same_edge (g_nodes ev)); [done| | |done|done]; by apply (wf_inside _ _ ev_wf).
Qed.

Lemma hit_contributes g X r : good g -> hit (Yset g) X r = true <-> contributes ev f X r g.
Proof.
  intros Hg. rewrite hit_spec. unfold contributes. split.
  - intros (e & q & Hin & Hv & Hr). exists e. split_and!; [done|done|]. apply Yset_elem in Hin; [|done]. tauto.
  - intros (e & Hv & Hr & [He|He]); [exists e, true|exists e, false]; (split; [|done]); apply Yset_elem; auto.
Qed.

Lemma total_pos g : (0 < Spec.total g ev)%Z.
Proof.
  unfold Spec.total. assert (0 < size (g_nodes g ∪ g_nodes ev))%nat; [|lia].
  apply set_choose_L in ev_ne as [n Hn].
  assert (size (g_nodes g ∪ g_nodes ev) <> 0%nat) as Hz; [|lia].
  intros H0. apply size_empty_inv in H0. apply (not_elem_of_empty (C:=gset node) n). apply H0. set_solver + Hn.
Qed.

Lemma act_outcome_spec o na ea g c (S : node -> Qc) (F : gset Var -> relation -> option Z) :
  good g -> nodes_show na S -> edges_show ea F ->
  exists na' ea', act_outcome o ev f (na, ea) g c = Ok (na', ea') /\
    nodes_show na' (fun n => S n + share g n * zq c)%Qc /\
    edges_show ea' (fun X r => if hit (Yset g) X r then bump (F X r) c else F X r).
Proof.
  intros Hg Hna Hea. unfold act_outcome. rewrite similarity_unfold. unfold py_div.
  pose proof (total_pos g) as Ht. rewrite bool_decide_false by lia.
  destruct (Ext_spec (sub o 0) g Hg) as [-> Hok]. cbn -[bool_decide].
  set (inn := gset_to_gmap (zq c, true) (g_nodes ev ∩ g_nodes g)).
  set (outn := (fun _ => ((qdiv (shared g ev) (Spec.total g ev) * zq c)%Qc, false)) <$> Ext g).
  assert (forall n, outn !! n = if decide (is_Some (Ext g !! n)) then Some ((likeness g ev * zq c)%Qc, false) else None) as Hout.
  { intros n. unfold outn. rewrite lookup_fmap. destruct (Ext g !! n) as [X|]; cbn [fmap option_fmap option_map].
    - rewrite decide_True by (by eexists). done.
    - rewrite decide_False; [done|]. by intros [? ?]. }
  assert (forall n, inn !! n = if decide (n ∈ g_nodes ev /\ n ∈ g_nodes g) then Some (zq c, true) else None) as Hin.
  { intros n. unfold inn. destruct (decide (n ∈ g_nodes ev /\ n ∈ g_nodes g)) as [H|H].
    - apply lookup_gset_to_gmap_Some. split; [|done]. by apply elem_of_intersection.
    - apply lookup_gset_to_gmap_None. by rewrite elem_of_intersection. }
  rewrite (bool_decide_true (dom outn ∩ dom inn = ∅)).
  2:{ apply set_eq. intros n. split; [|intros Hn; by apply not_elem_of_empty in Hn].
      intros Hn. apply elem_of_intersection in Hn as [H1 H2]. exfalso.
      apply elem_of_dom in H1. rewrite Hout in H1. destruct (decide (is_Some (Ext g !! n))) as [Hs|]; [|by destruct H1].
      apply elem_of_dom in H2. rewrite Hin in H2. destruct (decide (n ∈ g_nodes ev /\ n ∈ g_nodes g)) as [Hn|]; [|by destruct H2].
      apply Ext_node in Hs; [|done]. tauto. }
  cbn -[bool_decide].
  rewrite bool_decide_true.
  2:{ apply set_eq. intros [e q]. split; [|intros Hn; by apply not_elem_of_empty in Hn].
      intros Hn. apply elem_of_intersection in Hn as [H1 H2]. exfalso.
      apply elem_of_map in H1 as (? & He & _). apply elem_of_map in H2 as (? & He' & _). congruence. }
  cbn -[bool_decide].
  destruct (act_nodes_loop (sub o 1) (sub o 2) na S (inn ∪ outn)) as (na' & -> & Hna'); [done| |].
  { intros n w q Hn. apply lookup_union_Some_raw in Hn as [Hn|[_ Hn]].
    - rewrite Hin in Hn. destruct (decide (n ∈ g_nodes ev /\ n ∈ g_nodes g)) as [[H1 H2]|]; [|done].
      injection Hn as <- <-. split; [by apply (wf_nodes _ _ ev_wf)|]. symmetry. apply bool_decide_eq_true.
      apply elem_of_vars_of. exists n.2. by destruct n.
    - rewrite Hout in Hn. destruct (decide (is_Some (Ext g !! n))) as [Hs|]; [|done].
      injection Hn as <- <-. apply Ext_node in Hs as (H1 & H2 & H3); [|done].
      split; [by apply (wf_nodes _ _ (proj1 Hg))|]. symmetry. apply bool_decide_eq_false.
      unfold included_variables. by rewrite elem_of_vars_of. }
  cbn -[bool_decide].
  destruct (act_edges_loop (sub o 3) (sub o 4) c ea F (Yset g)) as (ea' & Heq & Hea'); [done| | |].
  { intros e q He. by apply (Yset_flag g). }
  { intros e q e' q' He He'. by apply (Yset_one g e q e' q'). }
  unfold Yset in Heq. rewrite Heq. exists na', ea'. split; [done|]. split; [|done].
  eapply nodes_show_ext; [|exact Hna']. intros n. cbn beta. f_equal. unfold gain, share.
  rewrite lookup_union, Hin, Hout.
  destruct (decide (n ∈ g_nodes ev)) as [H1|H1].
  - destruct (decide (n ∈ g_nodes g)) as [H2|H2].
    + rewrite (decide_True (P := n ∈ g_nodes ev /\ n ∈ g_nodes g)) by done.
      destruct (decide (is_Some (Ext g !! n))); cbn; ring.
    + rewrite (decide_False (P := n ∈ g_nodes ev /\ n ∈ g_nodes g)) by tauto.
      destruct (decide (is_Some (Ext g !! n))) as [Hs|]; cbn; [|ring].
      apply Ext_node in Hs; [|done]. tauto.
  - rewrite (decide_False (P := n ∈ g_nodes ev /\ n ∈ g_nodes g)) by tauto.
    destruct (decide (is_Some (Ext g !! n))); cbn; ring.
Qed.

(** ** All outcomes *)
Definition Fsum (m : gmap graph Z) (X : gset Var) (r : relation) : option Z :=
  let M := filter (fun kv => hit (Yset kv.1) X r = true) m in
  if decide (M = ∅) then None else Some (msum (fun _ c => c) M).

Lemma Fsum_insert m g c X r : m !! g = None ->
  Fsum (<[g := c]> m) X r = if hit (Yset g) X r then bump (Fsum m X r) c else Fsum m X r.
Proof.
  intros Hg. unfold Fsum. cbv zeta. destruct (hit (Yset g) X r) eqn:Hh.
  - rewrite map_filter_insert_True by done. rewrite decide_False by apply insert_non_empty.
    rewrite msum_insert.
    2:{ apply map_filter_lookup_None. by left. }
    unfold bump. f_equal. destruct (decide _) as [He|]; cbn [from_option id]; [|lia]. rewrite He, msum_empty. lia.
  - rewrite map_filter_insert_not; [done|]. intros y. cbn [fst]. by rewrite Hh.
Qed.

Definition node_sum (m : gmap graph Z) (n : node) : Qc := qmsum (fun g c => share g n * zq c)%Qc m.

Definition act_init : gmap Var anode :=
  map_imap (fun v X => Some (ANode (gset_to_gmap (Q2Qc 0) X) (bool_decide (v ∈ included_variables ev)))) (cp_vars cp).

Lemma act_loop o o' (m : gmap graph Z) :
  (forall g, is_Some (m !! g) -> good g) ->
  exists na ea, for_res (fun o' acc '(g, c) => act_outcome o' ev f acc g c) o (act_init, ∅) (iter_map o' m) = Ok (na, ea) /\
    nodes_show na (node_sum m) /\ edges_show ea (Fsum m).
Proof.
  intros Hm.
  pose proof (for_res_map_ind (fun m' (acc : gmap Var anode * gmap (gset Var) aedge) =>
      nodes_show acc.1 (node_sum m') /\ edges_show acc.2 (Fsum m')) (fun _ => False)
    (fun o' acc '(g, c) => act_outcome o' ev f acc g c) o o' (act_init, ∅) m) as H.
  assert (nodes_show act_init (node_sum ∅) /\ edges_show ∅ (Fsum ∅)) as H0.
  { split.
    - intros v. unfold act_init. rewrite map_lookup_imap. destruct (cp_vars cp !! v) as [X|]; cbn; [|done].
      eexists. split; [done|]. split; [done|]. intros x. cbn [an_values].
      destruct (decide (x ∈ X)).
      + rewrite lookup_gset_to_gmap_Some. split; [done|]. unfold node_sum. by rewrite qmsum_empty.
      + by apply lookup_gset_to_gmap_None.
    - intros X. rewrite lookup_empty. intros r. unfold Fsum. cbv zeta. by rewrite decide_True by apply map_filter_empty. }
  assert (forall m' g c (acc : gmap Var anode * gmap (gset Var) aedge) o, m !! g = Some c -> m' !! g = None -> m' ⊆ m ->
    nodes_show acc.1 (node_sum m') /\ edges_show acc.2 (Fsum m') ->
    match act_outcome o ev f acc g c with
    | Ok acc' => nodes_show acc'.1 (node_sum (<[g := c]> m')) /\ edges_show acc'.2 (Fsum (<[g := c]> m'))
    | Err _ => False end) as Hs.
  { intros m' g c [na ea] o1 Hg Hg' _ [Hna Hea]. cbn [fst snd] in *.
    destruct (act_outcome_spec o1 na ea g c (node_sum m') (Fsum m')) as (na' & ea' & -> & H1 & H2); [|done|done|].
    { apply Hm. by eexists. }
    cbn [fst snd]. split.
    - eapply nodes_show_ext; [|exact H1]. intros n. unfold node_sum. rewrite qmsum_insert by done. ring.
    - eapply edges_show_ext; [|exact H2]. intros X r. by rewrite Fsum_insert. }
  specialize (H H0). cbv beta in H.
  assert (Hf := H (fun m' k a s o1 A B C D => Hs m' k a s o1 A B C D)).
  destruct (for_res _ o (act_init, ∅) (iter_map o' m)) as [[na ea]|e]; [|done].
  exists na, ea. split; [done|]. exact Hf.
Qed.

End loop.

(** ** The whole function *)
Lemma for_res_map_values {K A B} `{Countable K} (h : A -> B) (fb : gmap K B -> K -> A -> res (gmap K B)) o o' (m : gmap K A) :
  (forall k a acc, m !! k = Some a -> fb acc k a = Ok (<[k := h a]> acc)) ->
  for_res (fun _ acc '(k, a) => fb acc k a) o ∅ (iter_map o' m) = Ok (h <$> m).
Proof.
  intros Hf.
  pose proof (for_res_map_ind (fun m' acc => acc = h <$> m') (fun _ => False) (fun _ acc '(k, a) => fb acc k a) o o' ∅ m) as Hi.
  assert (forall m' k a acc (o1 : oracle), m !! k = Some a -> m' !! k = None -> m' ⊆ m -> acc = h <$> m' ->
    match fb acc k a with Ok s => s = h <$> <[k := a]> m' | Err _ => False end) as Hs.
  { intros m' k a acc _ Hk _ _ ->. rewrite Hf by done. by rewrite fmap_insert. }
  assert (∅ = h <$> (∅ : gmap K A)) as H0 by (by rewrite fmap_empty).
  specialize (Hi H0 (fun m' k a s o1 a1 a2 a3 a4 => Hs m' k a s o1 a1 a2 a3 a4)). cbv beta in Hi.
  destruct (for_res _ o ∅ (iter_map o' m)) as [r|]; [by rewrite Hi|done].
Qed.

Lemma two_vars_size (e : edge) (X : gset Var) : two_nodes e.1 -> edge_vars e X -> size X = 2%nat.
Proof.
  intros (x & y & He & Hxy) Hv. assert (X = {[x.1; y.1]}) as ->; [|rewrite size_union, !size_singleton; [done|set_solver + Hxy]].
  apply set_eq. intros v. rewrite (Hv v), He. unfold has_var. split.
  - intros [z Hz]. apply elem_of_union in Hz as [Hz|Hz]; apply elem_of_singleton in Hz; subst; set_solver +.
  - intros Hz. apply elem_of_union in Hz as [Hz|Hz]; apply elem_of_singleton in Hz; subst v;
      [exists x.2; destruct x|exists y.2; destruct y]; set_solver +.
Qed.

Section whole.
Variable cg : cgraph.
Variable f : option (gset relation).
Let cp := sp_cp (cg_space cg).
Let out := sp_out (cg_space cg).
Let ev := s_g (cg_evidence cg).
Hypothesis ev_wf : wf_graph cp ev.
Hypothesis ev_single : single_valued (g_nodes ev).
Hypothesis ev_ne : g_nodes ev <> ∅.
Hypothesis out_good : forall g, contains out g -> good cp ev g.
Hypothesis out_pos : pos_counts out.
Hypothesis out_ne : ss_map out <> ∅.

Lemma out_len : (0 < ss_length out)%Z.
Proof.
  apply map_choose in out_ne as (g & c & Hg). rewrite ss_length_msum.
  rewrite (msum_delete _ _ _ _ Hg). pose proof (out_pos g c Hg).
  assert (0 <= msum (fun _ c => c) (delete g (ss_map out)))%Z; [|lia].
  apply msum_nonneg. intros g' c' Hg'. apply lookup_delete_Some in Hg' as [_ Hg']. apply out_pos in Hg'. lia.
Qed.

Lemma Fsum_Some X r n : Fsum ev f (ss_map out) X r = Some n <->
  (exists g, contains out g /\ contributes ev f X r g) /\
  n = msum (fun g c => if hit (Yset ev f g) X r then c else 0%Z) (ss_map out).
Proof.
  unfold Fsum. cbv zeta.
  assert (msum (fun _ c => c) (filter (fun kv => hit (Yset ev f kv.1) X r = true) (ss_map out)) =
    msum (fun g c => if hit (Yset ev f g) X r then c else 0%Z) (ss_map out)) as Hm.
  { rewrite msum_filter. apply msum_ext. intros g c _. cbn [fst]. by destruct (hit (Yset ev f g) X r). }
  destruct (decide _) as [He|He].
  - split; [done|]. intros [(g & [c Hg] & Hc) _]. exfalso.
    apply (hit_contributes cp ev f ev_ne) in Hc; [|apply out_good; by eexists].
    assert (filter (fun kv => hit (Yset ev f kv.1) X r = true) (ss_map out) !! g = Some c) as Hl.
    { apply map_filter_lookup_Some. done. }
    by rewrite He, lookup_empty in Hl.
  - rewrite Hm. split.
    + intros Hn. apply (inj Some) in Hn. subst n. split; [|done].
      apply map_choose in He as (g & c & Hg). apply map_filter_lookup_Some in Hg as [Hg Hh]. exists g.
      assert (contains out g) as Hcg by (by eexists). split; [done|].
      apply (hit_contributes cp ev f ev_ne); [by apply out_good|done].
    + intros [_ ->]. done.
Qed.

Lemma Fsum_None X r : Fsum ev f (ss_map out) X r = None <->
  forall g, contains out g -> ~ contributes ev f X r g.
Proof.
  split.
  - intros HN g Hg Hc.
    assert (Fsum ev f (ss_map out) X r = Some (msum (fun g c => if hit (Yset ev f g) X r then c else 0%Z) (ss_map out))) as HS.
    { apply Fsum_Some. split; [by exists g|done]. }
    congruence.
  - intros Hn. destruct (Fsum ev f (ss_map out) X r) as [n|] eqn:He; [|done].
    apply Fsum_Some in He as [(g & Hg & Hc) _]. by destruct (Hn g).
Qed.

Lemma whole_lemma (o : oracle) : exists ag, activation_graph o cg f = Ok ag /\ activation_ok cg f ag.
Proof.
  unfold activation_graph. fold ev cp out. cbv zeta.
  destruct (act_loop cp ev f ev_wf ev_single ev_ne (sub o 0) (sub o 1) (ss_map out)) as (na & ea & Heq & Hna & Hea).
  { intros g Hg. by apply out_good. }
  unfold act_init in Heq. unfold ss_items. rewrite Heq. cbn -[bool_decide passert]. clear Heq.
  pose proof out_len as Hlen.
  set (hn := fun a : anode => ANode ((fun w => (w / zq (ss_length out))%Qc) <$> an_values a) (an_in_query a)).
  match goal with |- context [for_res ?F (sub o 2) ∅ (iter_map (sub o 3) na)] =>
    assert (for_res F (sub o 2) ∅ (iter_map (sub o 3) na) = Ok (hn <$> na)) as -> end.
  { refine (for_res_map_values hn (fun acc v a => if bool_decide (an_values a ≠ ∅) && bool_decide (ss_length out = 0%Z)
      then Err ZeroDivisionError else Ok (<[v := hn a]> acc)) (sub o 2) (sub o 3) na _).
    intros v a acc _. rewrite (bool_decide_false (ss_length out = 0%Z)) by lia. by rewrite andb_false_r. }
  cbn -[bool_decide passert].
  match goal with |- context [for_res ?F (sub o 4) ∅ (iter_map (sub o 5) ea)] =>
    assert (for_res F (sub o 4) ∅ (iter_map (sub o 5) ea) = Ok (id <$> ea)) as -> end.
  { refine (for_res_map_values id (fun acc ep a => _ ← passert (bool_decide (size (ep : gset Var) = 2)); Ok (<[ep := a]> acc))
      (sub o 4) (sub o 5) ea _).
    intros X a acc HX. pose proof (Hea X) as H. rewrite HX in H. destruct H as (_ & [r [n Hr]] & _).
    apply Fsum_Some in Hr as [(g & Hg & (e & Hv & _ & He)) _].
    rewrite bool_decide_true; [done|]. apply (two_vars_size e); [|done].
    destruct He as [He|[n' He]].
    - by apply (wf_edges _ _ ev_wf).
    - destruct He as [He _]. apply (wf_edges _ _ (proj1 (out_good g Hg)) e He). }
  rewrite map_fmap_id. cbn -[bool_decide].
  eexists. split; [reflexivity|].
  assert (forall n, (0 <= share ev f n.1 n.2)%Qc /\ (share ev f n.1 n.2 <= 1)%Qc) as Hshare.
  { intros [g n]. unfold share. cbn [fst snd]. pose proof (likeness_bounds g ev) as [? ?].
    repeat case_decide; split; done. }
  assert (zq (ss_length out) <> 0%Qc) as Hlz by (intros Hz; apply zq_eq_0 in Hz; lia).
  assert (0 < zq (ss_length out))%Qc as Hlp.
  { apply Qcnot_le_lt. intros Hle. apply Hlz. apply Qcle_antisym; [done|]. rewrite <- zq_0. apply zq_le. lia. }
  assert (forall n, 0 <= node_sum ev f (ss_map out) n)%Qc as Hns0.
  { intros n. unfold node_sum. rewrite <- (qmsum_zero (fun _ _ => 0%Qc) (ss_map out)) by done.
    apply qmsum_le. intros g c Hg. apply qmult_nonneg; [apply (Hshare (g, n))|].
    rewrite <- zq_0. apply zq_le. apply out_pos in Hg. lia. }
  assert (forall n, node_sum ev f (ss_map out) n <= zq (ss_length out))%Qc as Hns1.
  { intros n. unfold node_sum. rewrite ss_length_msum, zq_msum.
    apply qmsum_le. intros g c Hg. rewrite <- (Qcmult_1_l (zq c)) at 2. apply Qcmult_le_compat_r; [apply (Hshare (g, n))|].
    rewrite <- zq_0. apply zq_le. apply out_pos in Hg. lia. }
  split; cbv zeta; fold ev cp out; cbn [ag_total ag_nodes ag_edges].
  - pose proof (tally_msum out anything) as Ht.
    match type of Ht with tally _ _ ?n => replace n with (ss_length out) in Ht; [exact Ht|] end.
    rewrite ss_length_msum. apply msum_ext. intros g c _. by destruct (decide (anything g)) as [|[]].
  - intros v. rewrite lookup_fmap. specialize (Hna v). destruct (cp_vars cp !! v) as [X|].
    2:{ by rewrite Hna. }
    destruct Hna as (a & -> & Hq & Hv). cbn [fmap option_fmap option_map]. unfold hn.
    cbn [an_in_query an_values]. rewrite Hq, bool_decide_eq_true. unfold included_variables. rewrite elem_of_vars_of.
    split; [done|]. intros x. rewrite lookup_fmap, Hv. destruct (decide (x ∈ X)) as [Hx|Hx]; [|done].
    cbn [fmap option_fmap option_map]. split; [done|].
    set (n := (v, x) : node). fold n.
    split. { unfold Qcdiv. apply qmult_nonneg; [apply Hns0|]. by apply qinv_nonneg, Qclt_le_weak. }
    split. { apply (Qcmult_lt_0_le_reg_r _ _ (zq (ss_length out))); [done|]. unfold Qcdiv.
      rewrite <- Qcmult_assoc, (Qcmult_comm (/ _)), Qcmult_inv_r by done. rewrite Qcmult_1_r, Qcmult_1_l. apply Hns1. }
    destruct (decide _) as [Hin|Hin].
    + exists (msum (fun g c => if decide (has v x g) then c else 0%Z) (ss_map out)).
      split; [apply tally_msum|]. unfold qdiv. unfold Qcdiv. f_equal.
      change (Q2Qc (inject_Z (msum (fun g c => if decide (has v x g) then c else 0%Z) (ss_map out))))
        with (zq (msum (fun g c => if decide (has v x g) then c else 0%Z) (ss_map out))).
      rewrite zq_msum. unfold node_sum. apply qmsum_ext. intros g c _. unfold share.
      rewrite decide_True by done. unfold has. fold n. repeat case_decide; try done; rewrite ?zq_0; ring.
    + assert (forall g, contains out g -> is_Some (Ext ev f g !! n) <-> reached ev f n g) as Hre.
      { intros g Hg. destruct (Ext_spec cp ev f ev_ne (fun _ => []) g (out_good g Hg)) as [_ Hok].
        apply (external_keys _ _ _ _ _ Hok). }
      exists (node_sum ev f (ss_map out) n). split; [|split].
      * pose proof (similar_tally_qmsum out ev (fun g => is_Some (Ext ev f g !! n))) as (l & [Hnd Hl] & Hs).
        exists l. split.
        { split; [done|]. intros g. rewrite Hl. split; intros [Hg H]; (split; [done|]); by apply Hre. }
        rewrite <- Hs. unfold node_sum. apply qmsum_ext. intros g c _. unfold share. rewrite decide_False by done.
        destruct (decide (is_Some (Ext ev f g !! n))); ring.
      * by rewrite qdiv_one.
      * intros Hhv. unfold node_sum. rewrite qmsum_zero; [unfold Qcdiv; ring|].
        intros g c Hg. unfold share. rewrite decide_False by done. rewrite decide_False; [ring|].
        intros Hs. apply (Ext_node cp ev f ev_ne) in Hs; [tauto|]. apply out_good. by eexists.
  - intros X. pose proof (Hea X) as H. destruct (ea !! X) as [a|].
    + destruct H as (Hq & [r [n Hr]] & Hv). split; [|split].
      * apply Fsum_Some in Hr as [(g & Hg & Hc) _]. by exists g, r.
      * rewrite Hq. apply in_q_spec.
      * intros r'. rewrite Hv. destruct (Fsum ev f (ss_map out) X r') as [n'|] eqn:HF; [|by apply Fsum_None].
        pose proof HF as HF'. apply Fsum_Some in HF as [(g & [c Hg] & Hc) ->].
        assert (forall g, contains out g -> hit (Yset ev f g) X r' = true <-> contributes ev f X r' g) as Hh.
        { intros g' Hg'. apply (hit_contributes cp ev f ev_ne). by apply out_good. }
        split.
        -- destruct (tally_msum out (fun g => hit (Yset ev f g) X r' = true)) as (l & [Hnd Hl] & Hs).
           exists l. split.
           { split; [done|]. intros g'. rewrite Hl. split; intros [Hg' H]; (split; [done|]); by apply Hh. }
           rewrite <- Hs. apply msum_ext. intros g' c' _. by destruct (hit (Yset ev f g') X r').
        -- rewrite (msum_delete _ _ _ _ Hg). rewrite (proj2 (Hh g ltac:(by eexists)) Hc).
           pose proof (out_pos g c Hg).
           match goal with |- (0 < c + ?s)%Z => assert (0 <= s)%Z; [|lia] end.
           apply msum_nonneg. intros g' c' Hg'. apply lookup_delete_Some in Hg' as [_ Hg']. apply out_pos in Hg'.
           destruct (hit (Yset ev f g') X r'); lia.
    + intros g r Hg. revert g Hg. apply Fsum_None, H.
Qed.
End whole.

Lemma conditional_good (sp : space) (evs : sample) (cg : cgraph) :
  conditional_graph sp evs = Ok cg -> all_wf (sp_cp sp) (sp_out sp) -> one_valued (sp_out sp) -> pos_counts (sp_out sp) ->
  cg_evidence cg = evs /\ sp_cp (cg_space cg) = sp_cp sp /\
  (forall g, contains (sp_out (cg_space cg)) g -> good (sp_cp sp) (s_g evs) g) /\ pos_counts (sp_out (cg_space cg)).
Proof.
  intros Hc Hwf Hone Hpos. pose proof (C36_lemma sp evs) as H. rewrite Hc in H.
  destruct H as (_ & He & Hcp & _ & Hcnt). split; [done|]. split; [done|].
  assert (forall g c, ss_map (sp_out (cg_space cg)) !! g = Some c ->
    ss_map (sp_out sp) !! g = Some c /\ consistent_or_unrelated (s_g evs) g) as Hl.
  { intros g c Hg. assert (count_of (sp_out (cg_space cg)) g = Ok c) as H by (unfold count_of; by rewrite Hg).
    apply Hcnt in H as [H ?]. split; [|done]. unfold count_of in H. destruct (ss_map (sp_out sp) !! g); [|done]. by injection H as ->. }
  split.
  - intros g [c Hg]. apply Hl in Hg as [Hg Hcu]. assert (contains (sp_out sp) g) as Hcg by (by eexists).
    split_and!; [by apply Hwf|by apply Hone|done].
  - intros g c Hg. apply Hl in Hg as [Hg _]. by apply (Hpos g).
Qed.

Lemma C37_lemma (o : oracle) (sp : space) (evs : sample) (cg : cgraph) (f : option (gset relation)) :
  conditional_graph sp evs = Ok cg -> all_wf (sp_cp sp) (sp_out sp) -> one_valued (sp_out sp) -> pos_counts (sp_out sp) ->
  wf_graph (sp_cp sp) (s_g evs) -> single_valued (g_nodes (s_g evs)) -> g_nodes (s_g evs) <> ∅ ->
  ss_map (sp_out (cg_space cg)) <> ∅ ->
  exists ag, activation_graph o cg f = Ok ag /\ activation_ok cg f ag.
Proof.
  intros Hc Hwf Hone Hpos Hew Hes Hen Hne.
  destruct (conditional_good sp evs cg Hc Hwf Hone Hpos) as (He & Hcp & Hg & Hp).
  apply whole_lemma; rewrite ?He, ?Hcp; done.
Qed.

(** ** Uniqueness *)
Lemma lists_perm ss P l l' : lists ss P l -> lists ss P l' -> l ≡ₚ l'.
Proof. intros [H1 H2] [H1' H2']. apply NoDup_Permutation; [done|done|]. intros g. by rewrite H2, H2'. Qed.

Lemma tally_unique ss P a b : tally ss P a -> tally ss P b -> a = b.
Proof.
  intros (l & Hl & ->) (l' & Hl' & ->). pose proof (lists_perm _ _ _ _ Hl Hl') as Hp.
  clear -Hp. induction Hp; rewrite ?fmap_cons, ?zsum_cons_eq; lia.
Qed.

Lemma similar_tally_unique ss ev P a b : similar_tally ss ev P a -> similar_tally ss ev P b -> a = b.
Proof.
  intros (l & Hl & ->) (l' & Hl' & ->). pose proof (lists_perm _ _ _ _ Hl Hl') as Hp.
  apply qsum_perm. by rewrite Hp.
Qed.

Lemma activation_ok_unique cg f ag ag' : activation_ok cg f ag -> activation_ok cg f ag' -> ag = ag'.
Proof.
  intros [H1 H2 H3] [H1' H2' H3']. destruct ag as [t N E], ag' as [t' N' E']. cbn [ag_total ag_nodes ag_edges] in *.
  assert (t = t') as <- by (by eapply tally_unique).
  assert (N = N') as <-.
  { apply map_eq. intros v. specialize (H2 v). specialize (H2' v). cbv zeta in *.
    destruct (N !! v) as [[vs q]|], (N' !! v) as [[vs' q']|], (cp_vars (sp_cp (cg_space cg)) !! v) as [X|]; try done.
    cbn [an_values an_in_query] in *. destruct H2 as [Hq Hx], H2' as [Hq' Hx'].
    assert (q = q') as <- by (apply eq_true_iff_eq; by rewrite Hq).
    do 2 f_equal. apply map_eq. intros x. specialize (Hx x). specialize (Hx' x).
    destruct (vs !! x) as [w|], (vs' !! x) as [w'|]; try done; [|tauto|tauto]. f_equal.
    destruct Hx as (_ & _ & _ & Hx), Hx' as (_ & _ & _ & Hx').
    revert Hx Hx'. destruct (decide _) as [Hin|Hin]; intros Hx Hx'.
    - destruct Hx as (n & Hn & ->), Hx' as (n' & Hn' & ->). by rewrite (tally_unique _ _ _ _ Hn Hn').
    - destruct Hx as (n & Hn & -> & _), Hx' as (n' & Hn' & -> & _). by rewrite (similar_tally_unique _ _ _ _ _ Hn Hn'). }
  f_equal. apply map_eq. intros X. specialize (H3 X). specialize (H3' X). cbv zeta in *.
  destruct (E !! X) as [[rs q]|], (E' !! X) as [[rs' q']|]; try done.
  - cbn [ae_relations ae_in_query] in *. destruct H3 as (_ & Hq & Hr), H3' as (_ & Hq' & Hr').
    assert (q = q') as <- by (apply eq_true_iff_eq; by rewrite Hq).
    do 2 f_equal. apply map_eq. intros r. specialize (Hr r). specialize (Hr' r).
    destruct (rs !! r) as [n|], (rs' !! r) as [n'|]; try done.
    + f_equal. by apply (tally_unique _ _ _ _ (proj1 Hr) (proj1 Hr')).
    + destruct Hr as [(l & [_ Hl] & ->) Hp]. exfalso. destruct l as [|g l]; [cbn in Hp; lia|].
      destruct (proj1 (Hl g)) as [Hg Hc]; [left|]. by apply (Hr' g).
    + destruct Hr' as [(l & [_ Hl] & ->) Hp]. exfalso. destruct l as [|g l]; [cbn in Hp; lia|].
      destruct (proj1 (Hl g)) as [Hg Hc]; [left|]. by apply (Hr g).
  - destruct H3 as ((g & r & Hg & Hc) & _). by destruct (H3' g r).
  - destruct H3' as ((g & r & Hg & Hc) & _). by destruct (H3 g r).
Qed.

(** ** Errors *)
Lemma C37_no_outcomes_lemma (o : oracle) (cg : cgraph) (f : option (gset relation)) v X :
  ss_map (sp_out (cg_space cg)) = ∅ -> cp_vars (sp_cp (cg_space cg)) !! v = Some X -> X <> ∅ ->
  activation_graph o cg f = Err ZeroDivisionError.
Proof.
  intros Hne HX HX0. unfold activation_graph. cbv zeta. unfold ss_items. rewrite Hne, iter_map_empty. cbn -[bool_decide passert].
  assert (ss_length (sp_out (cg_space cg)) = 0%Z) as -> by (rewrite ss_length_msum, Hne; apply msum_empty).
  set (init := map_imap _ _).
  match goal with |- context [for_res ?F (sub o 2) ∅ (iter_map (sub o 3) init)] => set (F0 := F) end.
  pose proof (for_res_map_ind (fun m' (_ : gmap Var anode) => forall v a, m' !! v = Some a -> an_values a = ∅)
    (fun e => e = ZeroDivisionError) F0 (sub o 2) (sub o 3) ∅ init) as H.
  destruct (for_res F0 (sub o 2) ∅ (iter_map (sub o 3) init)) as [r|e]; cbn.
  - exfalso. apply HX0.
    assert (init !! v = Some (ANode (gset_to_gmap (Q2Qc 0) X) (bool_decide (v ∈ included_variables (s_g (cg_evidence cg)))))) as Hv.
    { unfold init. rewrite map_lookup_imap, HX. done. }
    eapply H in Hv; [|by intros ? ? ?|].
    + cbn [an_values] in Hv. apply (f_equal dom) in Hv. rewrite dom_gset_to_gmap, dom_empty_L in Hv. done.
    + intros m' k a s o1 _ _ _ IH. unfold F0. destruct (decide (an_values a = ∅)) as [He|He].
      * rewrite bool_decide_false by tauto. cbn. intros v' a' Hv'. apply lookup_insert_Some in Hv' as [[<- <-]|[_ Hv']]; [done|by eapply IH].
      * rewrite bool_decide_true by done. by rewrite bool_decide_true.
  - f_equal. apply H; [by intros ? ? ?|]. intros m' k a s o1 _ _ _ IH. unfold F0.
    destruct (decide (an_values a = ∅)) as [He|He].
    + rewrite bool_decide_false by tauto. cbn. intros v' a' Hv'. apply lookup_insert_Some in Hv' as [[<- <-]|[_ Hv']]; [done|by eapply IH].
    + rewrite bool_decide_true by done. by rewrite bool_decide_true.
Qed.

Lemma C37_empty_evidence_lemma (o : oracle) (cg : cgraph) (f : option (gset relation)) :
  ss_map (sp_out (cg_space cg)) <> ∅ -> g_nodes (s_g (cg_evidence cg)) = ∅ ->
  activation_graph o cg f = Err AssertionError \/
  (activation_graph o cg f = Err ZeroDivisionError /\ contains (sp_out (cg_space cg)) (Graph ∅ ∅)).
Proof.
  intros Hne He. unfold activation_graph. cbv zeta. unfold ss_items.
  destruct (iter_map (sub o 1) (ss_map (sp_out (cg_space cg)))) as [|[g c] l] eqn:Hl;
    [by apply iter_map_nil in Hl|].
  all: assert (contains (sp_out (cg_space cg)) g) as Hg
    by (exists c; apply (elem_of_iter_map (sub o 1)); rewrite Hl; left).
  all: cbn [for_res]; unfold act_outcome; rewrite He.
  all: destruct (similarity g (s_g (cg_evidence cg))) as [q|x] eqn:Hs; [left; done|right].
  all: rewrite similarity_unfold in Hs; unfold py_div in Hs; case_bool_decide as Ht; [|done]; injection Hs as <-; split; [done|].
  all: assert (g = Graph ∅ ∅) as <-; [|done].
  all: unfold Spec.total in Ht; destruct g as [N E]; cbn [g_nodes g_edges] in Ht.
  all: assert (size (N ∪ g_nodes (s_g (cg_evidence cg))) = 0%nat) as H1 by lia.
  all: assert (size (E ∪ g_edges (s_g (cg_evidence cg))) = 0%nat) as H2 by lia.
  all: apply size_empty_inv in H1, H2; f_equal; apply set_eq; intros z; (split; [|intros Hz; by apply not_elem_of_empty in Hz]); intros Hz.
  all: first [apply H1|apply H2]; apply elem_of_union; by left.
Qed.

End act.
