(** * PropsVars: equality and hashing of the variable-level classes (C52) *)

From Verif Require Import HashVarsFacts FoldFacts FoldEq ExamplesSets PropsJoin.

Section theorems.
Context {U : Universe}.
Variables (htuple hset : list Z -> Z).
Variables (veq : Var -> Var -> bool) (hv : Var -> Z) (xeq : Val -> Val -> bool) (hx : Val -> Z).
Variables (req : Rel -> Rel -> bool) (hr : Rel -> Z) (W : Type) (weq : W -> W -> bool) (hw : W -> Z) (hz : Z -> Z).

(** Objects of the classes VariableNode, FoldedNode, ActiveNode, and of VariableEdge, FoldedEdge, ActiveEdge. *)
Definition vnode : Type := vobj Var Hash.fnode (anode W).
Definition vedge : Type := vobj (list Var) fedge aedge.
Definition vnode_eqb : vnode -> vnode -> bool :=
  vobj_eqb veq fn_variable (fnode_eqb htuple veq hv xeq hx hz) (an_variable W) (anode_eqb htuple veq xeq hx W weq hw).
Definition vnode_hash : vnode -> Z := vobj_hash hv (fnode_hash htuple hset hv hx hz) (anode_hash htuple hset hv hx W hw).
Definition vnode_good : vnode -> Prop := vobj_good any (fnode_good veq xeq) (anode_good xeq W weq).
Definition vedge_eqb : vedge -> vedge -> bool :=
  vobj_eqb (Hash.vedge_eqb veq hv) fe_endpoints (fedge_eqb htuple hset veq hv xeq hx req hr hz) ae_endpoints (aedge_eqb htuple veq hv req hr hz).
Definition vedge_hash : vedge -> Z := vobj_hash (Hash.vedge_hash hset hv) (fedge_hash htuple hset hv hx hr hz) (aedge_hash htuple hset hv hr hz).
Definition vedge_good : vedge -> Prop := vobj_good (fs_good any veq) (fedge_good htuple veq hv xeq hx req) (aedge_good veq req).
Definition graph_eqb : vgraph vnode vedge -> vgraph vnode vedge -> bool := vgraph_eqb vnode_eqb vnode_hash vedge_eqb vedge_hash.
Definition graph_good : vgraph vnode vedge -> Prop := vgraph_good vnode_good vnode_eqb vedge_good vedge_eqb.

(** [==] is an equivalence over all three classes together, and equal objects have equal hashes. *)
Theorem C52_contract :
  (forall l l', Permutation l l' -> hset l = hset l') ->
  laws any veq hv -> laws any xeq hx -> laws any req hr -> laws any weq hw ->
  laws vnode_good vnode_eqb vnode_hash /\ laws vedge_good vedge_eqb vedge_hash /\
  (forall g, graph_good g -> graph_eqb g g = true) /\
  (forall g g', graph_good g -> graph_good g' -> graph_eqb g g' = true -> graph_eqb g' g = true) /\
  (forall g g' g'', graph_good g -> graph_good g' -> graph_good g'' -> graph_eqb g g' = true -> graph_eqb g' g'' = true -> graph_eqb g g'' = true).
Proof.
  intros Hp Hv Hx Hr Hw.
  assert (laws vnode_good vnode_eqb vnode_hash) as Hn by (apply vobj_laws; [done|by apply fnode_laws|by apply anode_laws]).
  assert (laws vedge_good vedge_eqb vedge_hash) as He by (apply vobj_laws; [by apply vedge_laws|by apply fedge_laws|by apply aedge_laws]).
  exact (conj Hn (conj He (vgraph_laws _ _ _ _ _ _ Hn He))).
Qed.

(** Objects of different classes are never equal, also not a [VariableNode] and a [FoldedNode] of the same variable. *)
Theorem C52_same_class :
  (forall x y, vnode_eqb x y = true -> vclass_of x = vclass_of y) /\ (forall x y, vedge_eqb x y = true -> vclass_of x = vclass_of y).
Proof. exact (conj (vobj_same_class _ _ _ _ _) (vobj_same_class _ _ _ _ _)). Qed.

(** A graph of folded nodes and edges equals a graph of active nodes and edges only if both are empty. *)
Theorem C52_folded_activation (g g' : vgraph vnode vedge) :
  (forall x, x ∈ vg_nodes g -> vclass_of x = CFold) -> (forall x, x ∈ vg_edges g -> vclass_of x = CFold) ->
  (forall x, x ∈ vg_nodes g' -> vclass_of x = CAct) -> (forall x, x ∈ vg_edges g' -> vclass_of x = CAct) ->
  graph_eqb g g' = true <-> vg_nodes g = [] /\ vg_nodes g' = [] /\ vg_edges g = [] /\ vg_edges g' = [].
Proof.
  intros H1 H2 H3 H4. unfold graph_eqb, vgraph_eqb. rewrite andb_true_iff, !fs_eqb_disjoint; [tauto| |].
  - intros x y Hx Hy. apply not_true_iff_false. intros He%(proj2 C52_same_class). rewrite (H2 x), (H4 y) in He by done. discriminate.
  - intros x y Hx Hy. apply not_true_iff_false. intros He%(proj1 C52_same_class). rewrite (H1 x), (H3 y) in He by done. discriminate.
Qed.
End theorems.

(** The objects that hold the folded graphs of two spaces are equal exactly if every value node is in equally many
    outcomes of both and every relation edge is in equally many outcomes of both. *)
Theorem C52_folded_meaning {U : Universe} (htuple hset : list Z -> Z) (hv : Var -> Z) (hx : Val -> Z) (hr : Rel -> Z) (hz : Z -> Z)
    (o o' : oracle) (sp sp' : space) (fg fg' : fgraph) (g g' : vgraph Hash.fnode fedge) :
  (forall l l', Permutation l l' -> hset l = hset l') ->
  all_wf (sp_cp sp) (sp_out sp) -> all_wf (sp_cp sp') (sp_out sp') -> pos_counts (sp_out sp) -> pos_counts (sp_out sp') ->
  folded_graph o sp = Ok fg -> folded_graph o' sp' = Ok fg' ->
  let neqb := fnode_eqb htuple is_eqb hv is_eqb hx hz in
  let eeqb := fedge_eqb htuple hset is_eqb hv is_eqb hx is_eqb hr hz in
  let good := vgraph_good (fnode_good is_eqb is_eqb) neqb (fedge_good htuple is_eqb hv is_eqb hx is_eqb) eeqb in
  good g -> good g' -> value_fgraph g = view_fgraph fg -> value_fgraph g' = view_fgraph fg' ->
  vgraph_eqb neqb (fnode_hash htuple hset hv hx hz) eeqb (fedge_hash htuple hset hv hx hr hz) g g' = true <->
  (forall n a, weight (sp_out sp) (fun G => n ∈ g_nodes G) a <-> weight (sp_out sp') (fun G => n ∈ g_nodes G) a) /\
  (forall e a, weight (sp_out sp) (fun G => e ∈ g_edges G) a <-> weight (sp_out sp') (fun G => e ∈ g_edges G) a).
Proof.
  intros Hp H1 H2 H3 H4 H5 H6 neqb eeqb good H7 H8 H9 H10.
  rewrite <- (fold_equal_meaning o o' sp sp' fg fg' H1 H2 H3 H4 H5 H6).
  exact (fgraph_objects htuple hset Hp hv hx hr hz g g' fg fg' H7 H8 H9 H10).
Qed.

(** Of the classes of the library exactly VariablesGraph, FoldedGraph and ActivationGraph are unhashable. *)
Theorem C52_unhashable (k : nat) : (k < length relnet_classes)%nat ->
  exists b, hashable relnet_classes 3 k = Ok b /\ (b = false <-> k = 2 \/ k = 5 \/ k = 8).
Proof.
  cbn. intros Hk. do 14 (destruct k as [|k]; [eexists; split; [reflexivity|]; split; lia || (intros; try done; lia)|]). lia.
Qed.

(** ** Examples and refutation *)
#[local] Existing Instance TinyU.

(** Three pairs; the triangle and its three corners. *)
Definition sp_pairs : space := Space tcp (tset
  [(graph_of [ted va x1 vb x1], 1%Z); (graph_of [ted vb x1 vc x1], 1%Z); (graph_of [ted vc x1 va x1], 1%Z)]).
Definition sp_corners : space := Space tcp (tset
  [(graph_of [ted va x1 vb x1; ted vb x1 vc x1; ted vc x1 va x1], 1%Z); (tsingle va x1, 1%Z); (tsingle vb x1, 1%Z); (tsingle vc x1, 1%Z)]).

Definition same_folded (fg fg' : fgraph) : Prop :=
  fn_counts <$> fg_nodes fg = fn_counts <$> fg_nodes fg' /\ fg_edges fg = fg_edges fg'.
Definition marginal_of (fg : fgraph) (v : Var) : option Qc :=
  match folded_node fg v with
  | Some fn => match marginal_distribution o0 fn with Ok d => d !! x1 | Err _ => None end
  | None => None
  end.

(** Equal folded graphs can differ in the marginal distributions of their nodes: the number of outcomes is part of a
    folded graph and of its nodes, but not compared. *)
Theorem C52_marginals_refuted : exists (sp sp' : space) (fg fg' : fgraph) (v : Var),
  sp_cp sp = sp_cp sp' /\ all_wf (sp_cp sp) (sp_out sp) /\ all_wf (sp_cp sp') (sp_out sp') /\ pos_counts (sp_out sp) /\ pos_counts (sp_out sp') /\
  folded_graph o0 sp = Ok fg /\ folded_graph o0 sp' = Ok fg' /\ same_folded fg fg' /\
  marginal_of fg v = Some (qdiv 2 3) /\ marginal_of fg' v = Some (qdiv 1 2).
Proof.
  destruct (ok_inv2 (folded_graph o0 sp_pairs) (folded_graph o0 sp_corners)
    (fun a b => bool_decide (same_folded a b /\ marginal_of a va = Some (qdiv 2 3) /\ marginal_of b va = Some (qdiv 1 2)))) as (fg & fg' & H1 & H2 & H3);
    [vm_compute; reflexivity|].
  apply bool_decide_eq_true in H3 as (H3 & H4 & H5).
  exists sp_pairs, sp_corners, fg, fg', va. split_and!; try assumption.
  - reflexivity.
  - refine (set_wfb_spec (sp_out sp_pairs) _). vm_compute. reflexivity.
  - refine (set_wfb_spec (sp_out sp_corners) _). vm_compute. reflexivity.
  - apply set_posb_spec. vm_compute. reflexivity.
  - apply set_posb_spec. vm_compute. reflexivity.
Qed.

(** Objects for both, in different orders, with a hash that says little. *)
Fixpoint distinctb {A} (eqb : A -> A -> bool) (l : list A) : bool :=
  match l with [] => true | x :: l => forallb (fun y => negb (eqb x y)) l && distinctb eqb l end.
Lemma distinctb_spec {A} (eqb : A -> A -> bool) (l : list A) : distinctb eqb l = true -> distinct eqb l.
Proof.
  induction l as [|x l IH]; cbn; [constructor|]. intros [H1 H2]%andb_prop. constructor; [|by apply IH].
  intros y Hy. rewrite forallb_forall in H1. specialize (H1 y). rewrite <- elem_of_list_In, negb_true_iff in H1. by apply H1.
Qed.

Definition ht (l : list Z) : Z := foldr (fun x a => (x + 31 * a) mod 17)%Z 7%Z l.
Definition hs (l : list Z) : Z := (foldr Z.add 0 l mod 5)%Z.
Lemma hs_perm l l' : Permutation l l' -> hs l = hs l'.
Proof. intros Hp. unfold hs. f_equal. induction Hp; cbn; lia. Qed.
Definition hp (p : positive) : Z := Z.pos p.
Definition hu (_ : unit) : Z := 1%Z.
Definition fnode_tri (n : Z) (v : Var) : Hash.fnode := Hash.FNode v [x1; x2] [((v, x1), 2%Z)] n.
Definition fedge_tri (v w : Var) : fedge := FEdge [v; w] [(Hash.OEdge [(w, x1); (v, x1)] (Plain (tt : @Rel TinyU)), 1%Z)].
Definition fg_pairs : vgraph Hash.fnode fedge :=
  VGraph (fnode_tri 3 <$> [va; vb; vc]) [fedge_tri va vb; fedge_tri vb vc; fedge_tri vc va] 3 "pairs".
Definition fg_corners : vgraph Hash.fnode fedge :=
  VGraph (fnode_tri 4 <$> [vc; va; vb]) [fedge_tri va vc; fedge_tri vb va; fedge_tri vb vc] 4 "corners".
Notation tneqb := (fnode_eqb ht is_eqb hp is_eqb hp id).
Notation teeqb := (fedge_eqb ht hs is_eqb hp is_eqb hp is_eqb hu id).
Notation tgood := (vgraph_good (fnode_good is_eqb is_eqb) tneqb (fedge_good ht is_eqb hp is_eqb hp is_eqb) teeqb).
Lemma fnode_tri_good n v : fnode_good is_eqb is_eqb (fnode_tri n v).
Proof. split; [done|]. apply distinctb_spec. reflexivity. Qed.
Lemma fedge_tri_good v w : v <> w -> fedge_good ht is_eqb hp is_eqb hp is_eqb (fedge_tri v w).
Proof.
  intros Hvw. split.
  - split; [done|]. apply distinctb_spec. cbn. unfold is_eqb. by rewrite bool_decide_eq_false_2.
  - split; [|apply distinctb_spec; reflexivity]. intros x ->%elem_of_list_singleton. split; [done|]. apply distinctb_spec. cbn.
    unfold node_eqb, is_eqb. cbn. by rewrite bool_decide_eq_false_2 by congruence.
Qed.

Definition views (sp : space) (g : vgraph Hash.fnode fedge) : bool :=
  match folded_graph o0 sp with Ok fg => bool_decide (value_fgraph g = view_fgraph fg) | Err _ => false end.

Example C52_objects : tgood fg_pairs /\ tgood fg_corners /\ views sp_pairs fg_pairs = true /\ views sp_corners fg_corners = true /\
  vgraph_eqb tneqb (fnode_hash ht hs hp hp id) teeqb (fedge_hash ht hs hp hp hu id) fg_pairs fg_corners = true.
Proof.
  split_and!.
  - split; (split; [|apply distinctb_spec; vm_compute; reflexivity]).
    + intros x (v & -> & _)%elem_of_list_fmap. apply fnode_tri_good.
    + intros x Hx. cbn in Hx. rewrite !elem_of_cons in Hx. destruct Hx as [->|[->|[->|[]%elem_of_nil]]]; by apply fedge_tri_good.
  - split; (split; [|apply distinctb_spec; vm_compute; reflexivity]).
    + intros x (v & -> & _)%elem_of_list_fmap. apply fnode_tri_good.
    + intros x Hx. cbn in Hx. rewrite !elem_of_cons in Hx. destruct Hx as [->|[->|[->|[]%elem_of_nil]]]; by apply fedge_tri_good.
  - vm_compute. reflexivity.
  - vm_compute. reflexivity.
  - vm_compute. reflexivity.
Qed.

(** The three classes with one variable. *)
Example C52_classes :
  let a : vnode unit := OBase va in
  let b : vnode unit := OFold (fnode_tri 3 va) in
  let c : vnode unit := OAct (ANode unit va [(x1, tt)] true) in
  let eqb := vnode_eqb ht is_eqb hp is_eqb hp unit (fun _ _ => true) (fun _ => 0%Z) id in
  (eqb a b, eqb b a, eqb a c, eqb c a, eqb b c, eqb a a, eqb b b, eqb c c) = (false, false, false, false, false, true, true, true).
Proof. vm_compute. reflexivity. Qed.

Print Assumptions C52_contract.
Print Assumptions C52_same_class.
Print Assumptions C52_folded_activation.
Print Assumptions C52_folded_meaning.
Print Assumptions C52_unhashable.
Print Assumptions C52_marginals_refuted.
