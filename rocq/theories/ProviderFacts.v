(** * ProviderFacts: sharing of nodes and edges (C01) *)

From Verif Require Export Provider.

Section provider.
Context {U : Universe}.
Notation addr := nat.
Notation nodeset := (gmap node addr).
Notation heap := (gmap addr obj).

(** ** Invariant *)

Definition event : Type := call * res addr.

Record inv (E : list event) (h : heap) : Prop := {
  iv_prov : forall p pc, h !! p = Some (OProvider pc) -> (CProvider (cp_vars (pc_decl pc)) (cp_rels (pc_decl pc)), Ok p) ∈ E;
  iv_made : forall p vs rs, (CProvider vs rs, Ok p) ∈ E -> exists pc, h !! p = Some (OProvider pc) /\ pc_decl pc = Provider p vs rs;
  iv_nodes : forall p pc, h !! p = Some (OProvider pc) -> forall v x a, pc_nodes pc !! (v, x) = Some a <-> (CNode p v x, Ok a) ∈ E;
  iv_edges : forall p pc, h !! p = Some (OProvider pc) -> forall X r a, pc_edges pc !! (X, r) = Some a <->
    exists eps, dom eps = X /\ (CEdge p eps r, Ok a) ∈ E;
  iv_node : forall p v x a, (CNode p v x, Ok a) ∈ E -> h !! a = Some (ONode (v, x)) /\ exists pc, h !! p = Some (OProvider pc);
  iv_edge : forall p eps r a, (CEdge p eps r, Ok a) ∈ E ->
    (exists eps', dom eps' = dom eps /\ h !! a = Some (OEdge eps' r)) /\ exists pc, h !! p = Some (OProvider pc);
  iv_node_owner : forall p q v x w y a, (CNode p v x, Ok a) ∈ E -> (CNode q w y, Ok a) ∈ E -> p = q;
  iv_edge_owner : forall p q eps r eps' r' a, (CEdge p eps r, Ok a) ∈ E -> (CEdge q eps' r', Ok a) ∈ E -> p = q;
  iv_size : forall p eps r a, (CEdge p eps r, Ok a) ∈ E -> 2 <= size (dom eps);
  iv_own : forall v x a, (CValueNode v x, Ok a) ∈ E -> h !! a = Some (ONode (v, x))
}.

Lemma inv_start : inv [] ∅.
Proof.
  split; intros * Hx; try discriminate Hx; by apply elem_of_nil in Hx.
Qed.

Lemma fresh_heap (h : heap) : h !! fresh (dom h) = None.
Proof. apply (not_elem_of_dom (D := gset addr)), is_fresh. Qed.

Lemma inv_same E E' h : (forall c a, (c, Ok a) ∈ E' <-> (c, Ok a) ∈ E) -> inv E h -> inv E' h.
Proof.
  intros Hin [H1 H2 H3 H4 H5 H6 H7 H8 H9 H10]. split.
  - intros p pc Hp. rewrite Hin. auto.
  - intros p vs rs. rewrite Hin. auto.
  - intros p pc Hp v x a. rewrite Hin. by apply H3.
  - intros p pc Hp X r a. setoid_rewrite Hin. by apply H4.
  - intros p v x a. rewrite Hin. apply H5.
  - intros p eps r a. rewrite Hin. apply H6.
  - intros p q v x w y a. rewrite !Hin. apply H7.
  - intros p q eps r eps' r' a. rewrite !Hin. apply H8.
  - intros p eps r a. rewrite Hin. apply H9.
  - intros v x a. rewrite Hin. apply H10.
Qed.

Lemma inv_err E h c e : inv E h -> inv (E ++ [(c, Err e)]) h.
Proof.
  apply inv_same. intros c' a. rewrite elem_of_app, elem_of_list_singleton. split; [intros [?|?]; [done|congruence]|auto].
Qed.

Lemma in_snoc {A} (x y : A) l : x ∈ l ++ [y] <-> x ∈ l \/ x = y.
Proof. rewrite elem_of_app, elem_of_list_singleton. done. Qed.

Lemma inv_alloc E h n : inv E h -> inv E (<[fresh (dom h) := ONode n]> h).
Proof.
  pose proof (fresh_heap h) as Hf. set (a := fresh (dom h)) in *. intros [H1 H2 H3 H4 H5 H6 H7 H8 H9 H10].
  assert (forall p pc, <[a := ONode n]> h !! p = Some (OProvider pc) <-> h !! p = Some (OProvider pc)) as Hp.
  { intros p pc. destruct (decide (p = a)) as [->|?]; [rewrite lookup_insert, Hf|rewrite lookup_insert_ne by done]; split; congruence. }
  assert (forall b ob, h !! b = Some ob -> <[a := ONode n]> h !! b = Some ob) as Hb.
  { intros b ob Hb. rewrite lookup_insert_ne by congruence. done. }
  split.
  - intros p pc. rewrite Hp. apply H1.
  - intros p vs rs Hx. destruct (H2 p vs rs Hx) as (pc & ? & ?). exists pc. by rewrite Hp.
  - intros p pc. rewrite Hp. apply H3.
  - intros p pc. rewrite Hp. apply H4.
  - intros p v x b Hx. destruct (H5 p v x b Hx) as (? & pc & ?). split; [by apply Hb|]. exists pc. by rewrite Hp.
  - intros p eps r b Hx. destruct (H6 p eps r b Hx) as ((eps' & ? & ?) & pc & ?). split; [exists eps'; auto|]. exists pc. by rewrite Hp.
  - done.
  - done.
  - done.
  - intros v x b Hx. by apply Hb, H10.
Qed.

Lemma inv_provider E h vs rs : inv E h ->
  let a := fresh (dom h) in
  inv (E ++ [(CProvider vs rs, Ok a)]) (<[a := OProvider (PCache (Provider a vs rs) ∅ ∅)]> h).
Proof.
  intros [H1 H2 H3 H4 H5 H6 H7 H8 H9 H10] a. pose proof (fresh_heap h) as Hf. fold a in Hf.
  set (pa := PCache (Provider a vs rs) ∅ ∅).
  assert (forall p pc, <[a := OProvider pa]> h !! p = Some (OProvider pc) -> p = a /\ pc = pa \/ p <> a /\ h !! p = Some (OProvider pc)) as Hp.
  { intros p pc. destruct (decide (p = a)) as [->|?]; [rewrite lookup_insert|rewrite lookup_insert_ne by done]; [left; split; congruence|auto]. }
  assert (forall b ob, h !! b = Some ob -> <[a := OProvider pa]> h !! b = Some ob) as Hb.
  { intros b ob Hb. rewrite lookup_insert_ne by congruence. done. }
  split.
  - intros p pc [[-> ->]|[? Hq]]%Hp; rewrite in_snoc; [by right|left; by apply H1].
  - intros p ws ss. rewrite in_snoc. intros [Hx|Hx].
    + destruct (H2 p ws ss Hx) as (pc & ? & ?). exists pc. split; [by apply Hb|done].
    + injection Hx as -> -> ->. exists pa. by rewrite lookup_insert.
  - intros p pc [[-> ->]|[? Hq]]%Hp v x b; rewrite in_snoc.
    + cbn. rewrite lookup_empty. split; [done|]. intros [Hx|Hx]; [|done]. destruct (H5 a v x b Hx) as (_ & pc & Hc). congruence.
    + rewrite (H3 p pc Hq v x b). split; [auto|]. by intros [?|?].
  - intros p pc [[-> ->]|[? Hq]]%Hp X r b; setoid_rewrite in_snoc.
    + cbn. rewrite lookup_empty. split; [done|]. intros (eps & _ & [Hx|Hx]); [|done]. destruct (H6 a eps r b Hx) as (_ & pc & Hc). congruence.
    + rewrite (H4 p pc Hq X r b). split; intros (eps & HX & He); exists eps; (split; [done|]); [auto|by destruct He].
  - intros p v x b [Hx|Hx]%in_snoc; [|done]. destruct (H5 p v x b Hx) as (? & pc & ?). split; [by apply Hb|]. exists pc. by apply Hb.
  - intros p eps r b [Hx|Hx]%in_snoc; [|done]. destruct (H6 p eps r b Hx) as ((eps' & ? & ?) & pc & ?).
    split; [exists eps'; auto|]. exists pc. by apply Hb.
  - intros p q v x w y b [Hx|Hx]%in_snoc [Hy|Hy]%in_snoc; try done. by eapply H7.
  - intros p q eps r eps' r' b [Hx|Hx]%in_snoc [Hy|Hy]%in_snoc; try done. by eapply H8.
  - intros p eps r b [Hx|Hx]%in_snoc; [by eapply H9|done].
  - intros v x b [Hx|Hx]%in_snoc; [by apply Hb, H10|done].
Qed.

(** A new node or edge object [ob] entered into the caches of the provider at [p]. *)
Section enter.
Variables (E : list event) (h : heap) (p : addr) (pc pc' : pcache) (ob : obj).
Let a := fresh (dom h).
Let h' := <[p := OProvider pc']> (<[a := ob]> h).
Hypothesis Hi : inv E h.
Hypothesis Hpc : h !! p = Some (OProvider pc).
Hypothesis Hd : pc_decl pc' = pc_decl pc.
Hypothesis Hob : forall q, ob <> OProvider q.

Lemma enter_p : h' !! p = Some (OProvider pc').
Proof. apply lookup_insert. Qed.
Lemma enter_pa : p <> a.
Proof. intros ->. pose proof (fresh_heap h) as Hf. fold a in Hf. congruence. Qed.
Lemma enter_a : h' !! a = Some ob.
Proof. unfold h'. rewrite lookup_insert_ne by apply enter_pa. apply lookup_insert. Qed.
Lemma enter_q q qc : h' !! q = Some (OProvider qc) -> q = p /\ qc = pc' \/ q <> p /\ h !! q = Some (OProvider qc).
Proof.
  unfold h'. destruct (decide (q = p)) as [->|Hq]; [rewrite lookup_insert; left; split; congruence|].
  rewrite lookup_insert_ne by done. destruct (decide (q = a)) as [->|Hqa]; [rewrite lookup_insert|rewrite lookup_insert_ne by done; auto].
  intros [= Hx]. by destruct (Hob qc).
Qed.
Lemma enter_prov q qc : h !! q = Some (OProvider qc) -> exists qc', h' !! q = Some (OProvider qc') /\ pc_decl qc' = pc_decl qc.
Proof.
  intros Hq. unfold h'. destruct (decide (q = p)) as [->|Hn]; [exists pc'; rewrite lookup_insert; split; congruence|].
  exists qc. rewrite !lookup_insert_ne; [done| |done]. intros <-. pose proof (fresh_heap h) as Hf. fold a in Hf. congruence.
Qed.
Lemma enter_obj b ob' : h !! b = Some ob' -> (forall q, ob' <> OProvider q) -> h' !! b = Some ob'.
Proof.
  intros Hb Hn. unfold h'. rewrite !lookup_insert_ne; [done|..].
  - intros <-. pose proof (fresh_heap h) as Hf. fold a in Hf. congruence.
  - intros <-. rewrite Hpc in Hb. injection Hb as <-. by apply (Hn pc).
Qed.
Lemma enter_fresh_node q v x : (CNode q v x, Ok a) ∈ E -> False.
Proof. intros Hx. destruct (iv_node _ _ Hi _ _ _ _ Hx) as [Ha _]. pose proof (fresh_heap h) as Hf. fold a in Hf. congruence. Qed.
Lemma enter_fresh_edge q eps r : (CEdge q eps r, Ok a) ∈ E -> False.
Proof.
  intros Hx. destruct (iv_edge _ _ Hi _ _ _ _ Hx) as [(eps' & _ & Ha) _]. pose proof (fresh_heap h) as Hf. fold a in Hf. congruence.
Qed.
End enter.

Lemma inv_new_node E h p pc v x : inv E h -> h !! p = Some (OProvider pc) -> pc_nodes pc !! (v, x) = None ->
  let a := fresh (dom h) in
  inv (E ++ [(CNode p v x, Ok a)])
    (<[p := OProvider (PCache (pc_decl pc) (<[(v, x) := a]> (pc_nodes pc)) (pc_edges pc))]> (<[a := ONode (v, x)]> h)).
Proof.
  intros Hi Hpc Hnew a. set (pc' := PCache _ _ _). assert (forall q, ONode (v, x) <> OProvider q) as Hob by done.
  pose proof Hi as [H1 H2 H3 H4 H5 H6 H7 H8 H9 H10]. split.
  - intros q qc Hqc. rewrite in_snoc. left. destruct (enter_q h p pc' _ Hob q qc Hqc) as [[-> ->]|[? Hq]]; [exact (H1 p pc Hpc)|exact (H1 q qc Hq)].
  - intros q ws ss [Hx|Hx]%in_snoc; [|done]. destruct (H2 q ws ss Hx) as (qc & Hq & Hqd).
    destruct (enter_prov h p pc pc' (ONode (v, x)) Hpc eq_refl q qc Hq) as (qc' & Hq' & Hd). exists qc'. split; [done|congruence].
  - intros q qc Hqc w y b. rewrite in_snoc. destruct (enter_q h p pc' _ Hob q qc Hqc) as [[-> ->]|[Hn Hq]].
    + cbn. destruct (decide ((w, y) = (v, x))) as [[= -> ->]|Hne].
      * rewrite lookup_insert. split; [intros [= <-]; by right|]. intros [Hx|[= <-]]; [|done].
        apply (H3 p pc Hpc) in Hx. congruence.
      * rewrite lookup_insert_ne by congruence. rewrite (H3 p pc Hpc). split; [auto|]. intros [?|Hx]; [done|congruence].
    + rewrite (H3 q qc Hq). split; [auto|]. intros [?|Hx]; [done|congruence].
  - intros q qc Hqc X r b. setoid_rewrite in_snoc. destruct (enter_q h p pc' _ Hob q qc Hqc) as [[-> ->]|[Hn Hq]].
    + cbn. rewrite (H4 p pc Hpc). split; intros (eps & HX & He); exists eps; (split; [done|]); [auto|by destruct He].
    + rewrite (H4 q qc Hq). split; intros (eps & HX & He); exists eps; (split; [done|]); [auto|by destruct He].
  - intros q w y b [Hx|[= -> -> -> ->]]%in_snoc.
    + destruct (H5 q w y b Hx) as (Hb & qc & Hq). split; [by apply (enter_obj h p pc)|].
      destruct (enter_prov h p pc pc' (ONode (v, x)) Hpc eq_refl q qc Hq) as (qc' & Hq' & _). by exists qc'.
    + split; [by apply (enter_a h p pc)|]. exists pc'. apply enter_p.
  - intros q eps r b [Hx|Hx]%in_snoc; [|done]. destruct (H6 q eps r b Hx) as ((eps' & He & Hb) & qc & Hq). split.
    + exists eps'. split; [done|]. by apply (enter_obj h p pc).
    + destruct (enter_prov h p pc pc' (ONode (v, x)) Hpc eq_refl q qc Hq) as (qc' & Hq' & _). by exists qc'.
  - intros q q' w y w' y' b [Hx|Hx]%in_snoc [Hy|Hy]%in_snoc.
    + by eapply H7.
    + injection Hy as -> -> -> ->. by apply (enter_fresh_node E h Hi) in Hx.
    + injection Hx as -> -> -> ->. by apply (enter_fresh_node E h Hi) in Hy.
    + congruence.
  - intros q q' eps r eps' r' b [Hx|Hx]%in_snoc [Hy|Hy]%in_snoc; try done. by eapply H8.
  - intros q eps r b [Hx|Hx]%in_snoc; [by eapply H9|done].
  - intros w y b [Hx|Hx]%in_snoc; [|done]. apply (enter_obj h p pc); [done|by apply H10|done].
Qed.

Lemma inv_new_edge E h p pc eps r : inv E h -> h !! p = Some (OProvider pc) -> pc_edges pc !! (dom eps, r) = None -> 2 <= size (dom eps) ->
  let a := fresh (dom h) in
  inv (E ++ [(CEdge p eps r, Ok a)])
    (<[p := OProvider (PCache (pc_decl pc) (pc_nodes pc) (<[(dom eps, r) := a]> (pc_edges pc)))]> (<[a := OEdge eps r]> h)).
Proof.
  intros Hi Hpc Hnew Hsz a. set (pc' := PCache _ _ _). assert (forall q, OEdge eps r <> OProvider q) as Hob by done.
  pose proof Hi as [H1 H2 H3 H4 H5 H6 H7 H8 H9 H10]. split.
  - intros q qc Hqc. rewrite in_snoc. left. destruct (enter_q h p pc' _ Hob q qc Hqc) as [[-> ->]|[? Hq]]; [exact (H1 p pc Hpc)|exact (H1 q qc Hq)].
  - intros q ws ss [Hx|Hx]%in_snoc; [|done]. destruct (H2 q ws ss Hx) as (qc & Hq & Hqd).
    destruct (enter_prov h p pc pc' (OEdge eps r) Hpc eq_refl q qc Hq) as (qc' & Hq' & Hd). exists qc'. split; [done|congruence].
  - intros q qc Hqc w y b. rewrite in_snoc. destruct (enter_q h p pc' _ Hob q qc Hqc) as [[-> ->]|[Hn Hq]].
    + cbn. rewrite (H3 p pc Hpc). split; [auto|]. by intros [?|?].
    + rewrite (H3 q qc Hq). split; [auto|]. by intros [?|?].
  - intros q qc Hqc X s b. setoid_rewrite in_snoc. destruct (enter_q h p pc' _ Hob q qc Hqc) as [[-> ->]|[Hn Hq]].
    + cbn. destruct (decide ((X, s) = (dom eps, r))) as [[= -> ->]|Hne].
      * rewrite lookup_insert. split; [intros [= <-]; exists eps; auto|]. intros (eps' & He & [Hx|Hx]).
        -- enough (pc_edges pc !! (dom eps, r) = Some b) by congruence. apply (H4 p pc Hpc). by exists eps'.
        -- congruence.
      * rewrite lookup_insert_ne by congruence. rewrite (H4 p pc Hpc).
        split; intros (eps' & HX & He); exists eps'; (split; [done|]); [auto|]. destruct He as [?|[= -> -> ->]]; [done|].
        by rewrite HX in Hne.
    + rewrite (H4 q qc Hq). split; intros (eps' & HX & He); exists eps'; (split; [done|]); [auto|].
      destruct He as [?|Hx]; [done|congruence].
  - intros q w y b [Hx|Hx]%in_snoc; [|done]. destruct (H5 q w y b Hx) as (Hb & qc & Hq). split; [by apply (enter_obj h p pc)|].
    destruct (enter_prov h p pc pc' (OEdge eps r) Hpc eq_refl q qc Hq) as (qc' & Hq' & _). by exists qc'.
  - intros q eps' s b [Hx|[= -> -> -> ->]]%in_snoc.
    + destruct (H6 q eps' s b Hx) as ((eps'' & He & Hb) & qc & Hq). split.
      * exists eps''. split; [done|]. by apply (enter_obj h p pc).
      * destruct (enter_prov h p pc pc' (OEdge eps r) Hpc eq_refl q qc Hq) as (qc' & Hq' & _). by exists qc'.
    + split; [exists eps; split; [done|]; by apply (enter_a h p pc)|]. exists pc'. apply enter_p.
  - intros q q' w y w' y' b [Hx|Hx]%in_snoc [Hy|Hy]%in_snoc; try done. by eapply H7.
  - intros q q' e1 r1 e2 r2 b [Hx|Hx]%in_snoc [Hy|Hy]%in_snoc.
    + by eapply H8.
    + injection Hy as -> -> -> ->. by apply (enter_fresh_edge E h Hi) in Hx.
    + injection Hx as -> -> -> ->. by apply (enter_fresh_edge E h Hi) in Hy.
    + congruence.
  - intros q e1 r1 b [Hx|[= -> -> -> ->]]%in_snoc; [by eapply H9|done].
  - intros w y b [Hx|Hx]%in_snoc; [|done]. apply (enter_obj h p pc); [done|by apply H10|done].
Qed.

(** A cached edge returned for equal endpoints. *)
Lemma inv_hit_edge E h p pc eps r a : inv E h -> h !! p = Some (OProvider pc) -> pc_edges pc !! (dom eps, r) = Some a ->
  inv (E ++ [(CEdge p eps r, Ok a)]) h.
Proof.
  intros Hi Hpc Hhit. pose proof Hi as [H1 H2 H3 H4 H5 H6 H7 H8 H9 H10].
  apply (H4 p pc Hpc) in Hhit as (eps0 & Hd & Hin). split.
  - intros q qc Hq. rewrite in_snoc. left. by apply H1.
  - intros q ws ss [Hx|Hx]%in_snoc; [by apply H2|done].
  - intros q qc Hq w y b. rewrite in_snoc, (H3 q qc Hq). split; [auto|]. by intros [?|?].
  - intros q qc Hq X s b. setoid_rewrite in_snoc. rewrite (H4 q qc Hq). split.
    + intros (eps' & HX & He). exists eps'. auto.
    + intros (eps' & HX & [He|[= -> -> -> ->]]); [by exists eps'|]. exists eps0. split; [congruence|done].
  - intros q w y b [Hx|Hx]%in_snoc; [by apply H5|done].
  - intros q eps' s b [Hx|[= -> -> -> ->]]%in_snoc; [by apply H6|]. rewrite <- Hd. by apply H6.
  - intros q q' w y w' y' b [Hx|Hx]%in_snoc [Hy|Hy]%in_snoc; try done. by eapply H7.
  - intros q q' e1 r1 e2 r2 b [Hx|Hx]%in_snoc [Hy|Hy]%in_snoc.
    + by eapply H8.
    + injection Hy as -> -> -> ->. by eapply H8.
    + injection Hx as -> -> -> ->. by eapply H8.
    + congruence.
  - intros q e1 r1 b [Hx|[= -> -> -> ->]]%in_snoc; [by eapply H9|]. rewrite <- Hd. by eapply H9.
  - intros w y b [Hx|Hx]%in_snoc; [by apply H10|done].
Qed.

Lemma inv_own E h v x a : inv E h -> h !! a = Some (ONode (v, x)) -> inv (E ++ [(CValueNode v x, Ok a)]) h.
Proof.
  intros [H1 H2 H3 H4 H5 H6 H7 H8 H9 H10] Ha. split.
  - intros q qc Hq. rewrite in_snoc. left. by apply H1.
  - intros q ws ss [Hx|Hx]%in_snoc; [by apply H2|done].
  - intros q qc Hq w y b. rewrite in_snoc, (H3 q qc Hq). split; [auto|]. by intros [?|?].
  - intros q qc Hq X s b. setoid_rewrite in_snoc. rewrite (H4 q qc Hq).
    split; intros (eps' & HX & He); exists eps'; (split; [done|]); [auto|by destruct He].
  - intros q w y b [Hx|Hx]%in_snoc; [by apply H5|done].
  - intros q eps' s b [Hx|Hx]%in_snoc; [by apply H6|done].
  - intros q q' w y w' y' b [Hx|Hx]%in_snoc [Hy|Hy]%in_snoc; try done. by eapply H7.
  - intros q q' e1 r1 e2 r2 b [Hx|Hx]%in_snoc [Hy|Hy]%in_snoc; try done. by eapply H8.
  - intros q e1 r1 b [Hx|Hx]%in_snoc; [by eapply H9|done].
  - intros w y b [Hx|[= -> -> ->]]%in_snoc; [by apply H10|done].
Qed.

Lemma inv_step E h c h' r : inv E h -> step h c = (h', r) -> inv (E ++ [(c, r)]) h'.
Proof.
  intros Hi. destruct c as [vs rs|p v x|p eps s|v x]; cbn.
  - unfold new_provider, provider_init, passert, mbind, res_bind.
    destruct (bool_decide (vs ≠ ∅)); [|intros [= <- <-]; by apply inv_err].
    destruct (bool_decide (map_Forall _ vs)); [|intros [= <- <-]; by apply inv_err].
    destruct (bool_decide (rs ≠ ∅)); [|intros [= <- <-]; by apply inv_err].
    unfold alloc. intros [= <- <-]. by apply inv_provider.
  - destruct (h !! p) as [[n|eps s|pc]|] eqn:Hp; try (intros [= <- <-]; by apply inv_err).
    unfold pc_get_node. destruct (cp_vars (pc_decl pc) !! v) as [X|]; [|intros [= <- <-]; by apply inv_err].
    case_bool_decide; [|intros [= <- <-]; by apply inv_err].
    destruct (pc_nodes pc !! (v, x)) as [a|] eqn:Hn; cbn; intros [= <- <-].
    + apply (inv_same E); [|done]. intros c a'. rewrite in_snoc. split; [|auto]. intros [?|[= -> ->]]; [done|].
      by apply (iv_nodes _ _ Hi p pc Hp).
    + by apply inv_new_node.
  - destruct (h !! p) as [[n|eps' s'|pc]|] eqn:Hp; try (intros [= <- <-]; by apply inv_err).
    unfold pc_get_edge. case_bool_decide; [|intros [= <- <-]; by apply inv_err].
    case_bool_decide; [|intros [= <- <-]; by apply inv_err].
    destruct (match s with Plain _ => _ | Directed _ _ _ => _ end); [|intros [= <- <-]; by apply inv_err].
    destruct (pc_edges pc !! (dom eps, s)) as [a|] eqn:Hn.
    + intros [= <- <-]. by apply (inv_hit_edge E h p pc).
    + case_bool_decide; [|intros [= <- <-]; by apply inv_err]. cbn. intros [= <- <-]. by apply inv_new_edge.
  - intros [= <- <-]. apply inv_own; [by apply inv_alloc|apply lookup_insert].
Qed.

Lemma run_app cs cs' h : run h (cs ++ cs') =
  let '(h1, rs1) := run h cs in let '(h2, rs2) := run h1 cs' in (h2, rs1 ++ rs2).
Proof.
  revert h. induction cs as [|c cs IH]; intros h; cbn; [by destruct (run h cs')|].
  destruct (step h c) as [h1 r]. rewrite IH. destruct (run h1 cs) as [h2 rs]. by destruct (run h2 cs').
Qed.

Lemma run_length cs h : length (run h cs).2 = length cs.
Proof.
  revert h. induction cs as [|c cs IH]; intros h; cbn; [done|]. destruct (step h c) as [h1 r].
  specialize (IH h1). destruct (run h1 cs) as [h2 rs]. cbn in *. lia.
Qed.

Lemma run_inv cs : inv (zip cs (results cs)) (final cs).
Proof.
  induction cs as [|c cs IH] using rev_ind; [apply inv_start|]. unfold results, final in *. rewrite run_app.
  pose proof (run_length cs ∅) as Hl. destruct (run ∅ cs) as [h rs]. cbn in *.
  destruct (step h c) as [h' r] eqn:Hs. cbn. rewrite zip_with_app by done. cbn. by apply (inv_step _ h).
Qed.

Lemma at_call_in cs i c r : at_call cs i c r -> (c, r) ∈ zip cs (results cs).
Proof.
  intros [Hc Hr]. apply elem_of_list_lookup. exists i. apply lookup_zip_with_Some. by exists c, r.
Qed.
Lemma in_at_call cs c r : (c, r) ∈ zip cs (results cs) -> exists i, at_call cs i c r.
Proof.
  intros [i Hi]%elem_of_list_lookup. exists i.
  apply lookup_zip_with_Some in Hi as (c' & r' & [= -> ->] & Hc & Hr). done.
Qed.

(** The calls before position [i], and the state they lead to. *)
Lemma at_call_split cs i c r : at_call cs i c r ->
  exists h', step (final (take i cs)) c = (h', r) /\
    (forall j d s, at_call cs j d s /\ j < i <-> at_call (take i cs) j d s).
Proof.
  intros [Hc Hr]. assert (length (take i cs) = i) as Hl by (rewrite take_length; apply lookup_lt_Some in Hc; lia).
  rewrite <- (take_drop_middle cs i c Hc) in Hr. unfold results in Hr. rewrite run_app in Hr. unfold final.
  pose proof (run_length (take i cs) ∅) as Hl'.
  destruct (run ∅ (take i cs)) as [h1 rs1] eqn:H1. cbn in Hr, Hl'. cbn. destruct (step h1 c) as [h' r'] eqn:Hs.
  destruct (run h' (drop (S i) cs)) as [h2 rs2] eqn:H2. cbn in Hr.
  rewrite lookup_app_r in Hr by lia. rewrite Hl', Hl, Nat.sub_diag in Hr. injection Hr as ->. exists h'. split; [done|].
  intros j d s. unfold at_call. assert (results cs = rs1 ++ r :: rs2) as ->.
  { rewrite <- (take_drop_middle cs i c Hc). unfold results. rewrite run_app, H1. cbn. by rewrite Hs, H2. }
  assert (results (take i cs) = rs1) as -> by (unfold results; by rewrite H1). split.
  - intros [[Hd He] Hj]. rewrite lookup_take by done. split; [done|]. rewrite lookup_app_l in He by lia. done.
  - intros [Hd He]. assert (j < i) as Hj by (apply lookup_lt_Some in Hd; lia). rewrite lookup_take in Hd by done.
    split; [|done]. split; [done|]. rewrite lookup_app_l by lia. done.
Qed.

(** ** C01 *)

Lemma C01_nodes cs i j p q v w x y a b : at_call cs i (CNode p v x) (Ok a) -> at_call cs j (CNode q w y) (Ok b) ->
  (a = b <-> p = q /\ v = w /\ x = y).
Proof.
  intros Hi%at_call_in Hj%at_call_in. pose proof (run_inv cs) as [H1 H2 H3 H4 H5 H6 H7 H8 H9 H10]. split.
  - intros <-. split; [by eapply H7|]. apply H5 in Hi as [Ha _]. apply H5 in Hj as [Hb _].
    rewrite Ha in Hb. by injection Hb as -> ->.
  - intros (<- & <- & <-). pose proof (H5 _ _ _ _ Hi) as (_ & pc & Hp).
    apply (H3 p pc Hp) in Hi, Hj. congruence.
Qed.

Lemma C01_edges cs i j p q eps eps' r r' a b : at_call cs i (CEdge p eps r) (Ok a) -> at_call cs j (CEdge q eps' r') (Ok b) ->
  (a = b <-> p = q /\ dom eps = dom eps' /\ r = r').
Proof.
  intros Hi%at_call_in Hj%at_call_in. pose proof (run_inv cs) as [H1 H2 H3 H4 H5 H6 H7 H8 H9 H10]. split.
  - intros <-. split; [by eapply H8|]. apply H6 in Hi as [(e1 & Hd1 & Ha) _]. apply H6 in Hj as [(e2 & Hd2 & Hb) _].
    rewrite Ha in Hb. injection Hb as -> ->. split; congruence.
  - intros (<- & Hd & <-). pose proof (H6 _ _ _ _ Hi) as (_ & pc & Hp).
    assert (pc_edges pc !! (dom eps, r) = Some a) by (apply (H4 p pc Hp); by exists eps).
    assert (pc_edges pc !! (dom eps, r) = Some b) by (apply (H4 p pc Hp); by exists eps'). congruence.
Qed.

Lemma content_at cs i c a : at_call cs i c (Ok a) ->
  match c with
  | CNode _ v x | CValueNode v x => final cs !! a = Some (ONode (v, x))
  | CEdge _ eps r => exists eps', dom eps' = dom eps /\ final cs !! a = Some (OEdge eps' r)
  | CProvider vs rs => exists pc, final cs !! a = Some (OProvider pc) /\ pc_decl pc = Provider a vs rs
  end.
Proof.
  intros Hi. pose proof (at_call_in _ _ _ _ Hi) as Hin. pose proof (run_inv cs) as [H1 H2 H3 H4 H5 H6 H7 H8 H9 H10].
  destruct c as [vs rs|p v x|p eps r|v x].
  - by apply H2.
  - by apply (H5 p).
  - by apply (H6 p).
  - by apply H10.
Qed.

Lemma C01_init cs i vs rs r : at_call cs i (CProvider vs rs) r ->
  (is_ok r = true <-> vs <> ∅ /\ (forall v X, vs !! v = Some X -> X <> ∅) /\ rs <> ∅) /\ (forall e, r = Err e -> e = AssertionError).
Proof.
  intros (h' & Hs & _)%at_call_split. cbn in Hs. revert Hs.
  unfold new_provider, provider_init, passert, mbind, res_bind.
  case_bool_decide as H1; [|intros [= <- <-]; split; [split; [done|by intros (?&?&?)]|congruence]].
  case_bool_decide as H2; [|intros [= <- <-]; split; [split; [done|by intros (?&?&?)]|congruence]].
  case_bool_decide as H3; [|intros [= <- <-]; split; [split; [done|by intros (?&?&?)]|congruence]].
  unfold alloc. intros [= <- <-]. split; [|done]. split; [|done]. done.
Qed.

(** The state of a provider made before, at a later call. *)
Lemma provider_at cs k i p vs rs c r : at_call cs k (CProvider vs rs) (Ok p) -> k < i -> at_call cs i c r ->
  exists pc h', final (take i cs) !! p = Some (OProvider pc) /\ pc_decl pc = Provider p vs rs /\
    step (final (take i cs)) c = (h', r) /\
    (forall j d s, at_call cs j d s /\ j < i <-> at_call (take i cs) j d s).
Proof.
  intros Hk Hki Hi. destruct (at_call_split cs i c r Hi) as (h' & Hs & Hpre).
  destruct (content_at (take i cs) k (CProvider vs rs) p) as (pc & Hp & Hd); [by apply Hpre|]. by exists pc, h'.
Qed.

Lemma C01_node_accept cs k i p vs rs v x r : at_call cs k (CProvider vs rs) (Ok p) -> k < i -> at_call cs i (CNode p v x) r ->
  (is_ok r = true <-> exists X, vs !! v = Some X /\ x ∈ X) /\ (forall e, r = Err e -> e = AssertionError).
Proof.
  intros Hk Hki Hi. destruct (provider_at _ _ _ _ _ _ _ _ Hk Hki Hi) as (pc & h' & Hp & Hd & Hs & _).
  cbn in Hs. rewrite Hp in Hs. unfold pc_get_node in Hs. rewrite Hd in Hs. cbn in Hs.
  destruct (vs !! v) as [X|] eqn:Hv; [|injection Hs as <- <-; split; [split; [done|by intros (X & ? & _)]|congruence]].
  case_bool_decide as Hx; [|injection Hs as <- <-; split; [split; [done|by intros (Y & [= <-] & ?)]|congruence]].
  destruct (pc_nodes pc !! (v, x)); injection Hs as <- <-; (split; [|done]); (split; [intros _; by exists X|done]).
Qed.

(** The endpoints were created by the provider before position [i]. *)
Definition created (cs : list call) (i : nat) (p : addr) (X : gset node) : Prop :=
  forall v x, (v, x) ∈ X -> exists j a, j < i /\ at_call cs j (CNode p v x) (Ok a).

Lemma created_dom cs i p pc : final (take i cs) !! p = Some (OProvider pc) ->
  (forall j d s, at_call cs j d s /\ j < i <-> at_call (take i cs) j d s) ->
  forall X, X ⊆ dom (pc_nodes pc) <-> created cs i p X.
Proof.
  intros Hp Hpre X. pose proof (run_inv (take i cs)) as Hi. pose proof (iv_nodes _ _ Hi p pc Hp) as Hn. split.
  - intros HX v x Hx. apply HX, elem_of_dom in Hx as [a Ha]. apply Hn, in_at_call in Ha as [j Hj].
    apply Hpre in Hj as [Hj Hji]. exists j, a. done.
  - intros Hc [v x] Hx. destruct (Hc v x Hx) as (j & a & Hji & Hj). apply elem_of_dom. exists a. apply Hn.
    eapply at_call_in, Hpre. done.
Qed.

Definition directed_ok (X : gset node) (r : relation) : Prop :=
  match r with
  | Plain _ => True
  | Directed s t _ => (exists x, (s, x) ∈ X) /\ (exists y, (t, y) ∈ X)
  end.

Lemma elem_vars_of (X : gset node) v : v ∈ vars_of X <-> exists x, (v, x) ∈ X.
Proof.
  unfold vars_of. rewrite elem_of_map. split; [intros ([w x] & -> & ?); by exists x|intros [x Hx]; by exists (v, x)].
Qed.

Lemma C01_edge_accept cs k i p vs rs eps s r : at_call cs k (CProvider vs rs) (Ok p) -> k < i -> at_call cs i (CEdge p eps s) r ->
  (is_ok r = true <-> created cs i p (dom eps) /\ base_rel s ∈ rs /\ directed_ok (dom eps) s /\ 2 <= size (dom eps)) /\
  (forall e, r = Err e -> e = AssertionError \/
     e = IndexError /\ created cs i p (dom eps) /\ base_rel s ∈ rs /\ directed_ok (dom eps) s /\ size (dom eps) < 2).
Proof.
  intros Hk Hki Hi. destruct (provider_at _ _ _ _ _ _ _ _ Hk Hki Hi) as (pc & h' & Hp & Hd & Hs & Hpre).
  cbn in Hs. rewrite Hp in Hs. unfold pc_get_edge in Hs. rewrite Hd in Hs. cbn [cp_rels] in Hs.
  pose proof (created_dom cs i p pc Hp Hpre (dom eps)) as Hcr.
  case_bool_decide as H1; [apply Hcr in H1|injection Hs as <- <-; rewrite Hcr in H1; split; [split; [done|by intros (? & _)]|left; congruence]].
  case_bool_decide as H2; [|injection Hs as <- <-; split; [split; [done|by intros (_ & ? & _)]|left; congruence]].
  match type of Hs with (if ?b then _ else _) = _ => assert (b = true <-> directed_ok (dom eps) s) as Hdir end.
  { destruct s as [s|u w s]; [done|]. cbn. by rewrite andb_true_iff, !bool_decide_eq_true, !elem_vars_of. }
  match type of Hs with (if ?b then _ else _) = _ => destruct b end;
    [assert (directed_ok (dom eps) s) as H3 by tauto
    |injection Hs as <- <-; split; [split; [done|intros (_ & _ & Hx & _); by apply Hdir in Hx]|left; congruence]].
  destruct (pc_edges pc !! (dom eps, s)) as [a|] eqn:He.
  - injection Hs as <- <-. split; [|done]. split; [|done]. intros _. split_and!; try done.
    pose proof (run_inv (take i cs)) as Hv. apply (iv_edges _ _ Hv p pc Hp) in He as (eps0 & <- & Hin). by eapply iv_size.
  - case_bool_decide as H4; cbn in Hs; injection Hs as <- <-.
    + split; [|done]. split; done.
    + split; [split; [done|by intros (_ & _ & _ & ?)]|]. intros e [= <-]. right. split_and!; try done. lia.
Qed.

Lemma step_err h c h' e : step h c = (h', Err e) -> h' = h.
Proof.
  destruct c as [vs rs|p v x|p eps s|v x]; cbn.
  - unfold new_provider. destruct (provider_init _ _ _); cbn; congruence.
  - destruct (h !! p) as [[n|eps s|pc]|]; try congruence. unfold pc_get_node. repeat case_match; cbn; congruence.
  - destruct (h !! p) as [[n|eps' s'|pc]|]; try congruence. unfold pc_get_edge.
    destruct (bool_decide _); [|congruence]. destruct (bool_decide _); [|congruence].
    destruct (match s with Plain _ => _ | Directed _ _ _ => _ end); [|congruence]. destruct (pc_edges pc !! _); [congruence|].
    destruct (bool_decide _); cbn; congruence.
  - congruence.
Qed.

Lemma C01_rejected cs c cs' e : at_call (cs ++ c :: cs') (length cs) c (Err e) ->
  final (cs ++ c :: cs') = final (cs ++ cs') /\
  results (cs ++ c :: cs') = results cs ++ Err e :: drop (length cs) (results (cs ++ cs')).
Proof.
  intros [_ Hr]. unfold final, results in *. rewrite run_app in Hr |- *. rewrite run_app.
  pose proof (run_length cs ∅) as Hl. destruct (run ∅ cs) as [h1 rs1]. cbn [run fst snd] in *.
  destruct (step h1 c) as [h2 r] eqn:Hs. destruct (run h2 cs') as [h3 rs3] eqn:H3. cbn [fst snd] in *.
  rewrite lookup_app_r in Hr by lia. rewrite Hl, Nat.sub_diag in Hr. injection Hr as ->.
  apply step_err in Hs as ->. rewrite H3. cbn. split; [done|]. by rewrite drop_app_alt.
Qed.

(** ** Agreement with the values of Components.v *)

Lemma node_value_at cs k i p vs rs v x r : at_call cs k (CProvider vs rs) (Ok p) -> k < i -> at_call cs i (CNode p v x) r ->
  get_node (Provider p vs rs) v x = match r with Ok _ => Ok (v, x) | Err e => Err e end.
Proof.
  intros Hk Hki Hi. destruct (provider_at _ _ _ _ _ _ _ _ Hk Hki Hi) as (pc & h' & Hp & Hd & Hs & _).
  cbn in Hs. rewrite Hp in Hs. unfold pc_get_node in Hs. rewrite Hd in Hs. cbn in Hs. unfold get_node. cbn.
  destruct (vs !! v) as [X|]; [|by injection Hs as <- <-]. case_bool_decide; [|by injection Hs as <- <-].
  destruct (pc_nodes pc !! (v, x)); by injection Hs as <- <-.
Qed.

Lemma edge_value_at cs k i p vs rs eps s r : at_call cs k (CProvider vs rs) (Ok p) -> k < i -> at_call cs i (CEdge p eps s) r ->
  created cs i p (dom eps) ->
  get_edge (Provider p vs rs) (dom eps) s = match r with Ok _ => Ok (dom eps, s) | Err e => Err e end.
Proof.
  intros Hk Hki Hi Hc. destruct (C01_edge_accept _ _ _ _ _ _ _ _ _ Hk Hki Hi) as [Hok _].
  destruct (provider_at _ _ _ _ _ _ _ _ Hk Hki Hi) as (pc & h' & Hp & Hd & Hs & Hpre).
  cbn in Hs. rewrite Hp in Hs. unfold pc_get_edge in Hs. rewrite Hd in Hs. cbn [cp_rels] in Hs.
  rewrite bool_decide_eq_true_2 in Hs by (by apply (created_dom cs i p pc Hp Hpre)).
  unfold get_edge, passert, mbind, res_bind. cbn [cp_rels]. case_bool_decide; [|by injection Hs as <- <-].
  assert ((match s with Plain _ => Ok tt | Directed u w _ =>
      match (if bool_decide (u ∈ vars_of (dom eps)) then Ok tt else Err AssertionError) with
      | Ok _ => if bool_decide (w ∈ vars_of (dom eps)) then Ok tt else Err AssertionError | Err e => Err e end end) =
    if match s with Plain _ => true | Directed u w _ => bool_decide (u ∈ vars_of (dom eps)) && bool_decide (w ∈ vars_of (dom eps)) end
    then Ok tt else Err AssertionError) as ->.
  { destruct s; [done|]. destruct (bool_decide (source ∈ _)); [|done]. done. }
  destruct (match s with Plain _ => true | Directed _ _ _ => _ end); [|by injection Hs as <- <-].
  destruct (pc_edges pc !! (dom eps, s)) as [a|].
  - injection Hs as <- <-. rewrite bool_decide_eq_true_2; [done|]. by apply Hok.
  - case_bool_decide; cbn in Hs; by injection Hs as <- <-.
Qed.

End provider.
