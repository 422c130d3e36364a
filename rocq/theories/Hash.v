(** * Hash: [__eq__] and [__hash__] of the classes, on objects as they are stored

    In the other files frozensets are [gset]s and [==] is equality.  Here a frozenset is the list of its
    elements in some order, and [==] and [hash] are the programs of the classes.  The user's variables,
    values, relations (and the float weights) come with their own [==] and [hash]; all that is assumed of
    them is Python's contract ([laws] below), so [1 == 1.0 == True] is covered. *)

From stdpp Require Import sorting.
From Verif Require Export Components.

(** Python's contract on the objects that satisfy [good]: [==] is an equivalence, equal objects have
    equal hashes. *)
Record laws {A} (good : A -> Prop) (eqb : A -> A -> bool) (h : A -> Z) : Prop := {
  lw_refl : forall x, good x -> eqb x x = true;
  lw_sym : forall x y, good x -> good y -> eqb x y = true -> eqb y x = true;
  lw_trans : forall x y z, good x -> good y -> good z -> eqb x y = true -> eqb y z = true -> eqb x z = true;
  lw_hash : forall x y, good x -> good y -> eqb x y = true -> h x = h y
}.

Definition any {A} (_ : A) : Prop := True.

Section builtins.
(** [htuple]: the hash of a tuple from the hashes of its items.  [hset]: of a frozenset from the hashes
    of its elements.  Both are left open; Python promises that the order does not matter for [hset]. *)
Variable htuple : list Z -> Z.
Variable hset : list Z -> Z.

(** Tuples. *)
Definition pair_eqb {A B} (ea : A -> A -> bool) (eb : B -> B -> bool) (x y : A * B) : bool := ea x.1 y.1 && eb x.2 y.2.
Definition pair_hash {A B} (ha : A -> Z) (hb : B -> Z) (x : A * B) : Z := htuple [ha x.1; hb x.2].

(** Sets and dictionaries find a key by hash and [==]. *)
Section frozenset.
Context {A : Type} (good : A -> Prop) (eqb : A -> A -> bool) (h : A -> Z).

Definition same (x y : A) : bool := Z.eqb (h x) (h y) && eqb x y.
Definition mem (x : A) (l : list A) : bool := existsb (same x) l.

(** A list is the content of a set: no two [==] elements. *)
Inductive distinct : list A -> Prop :=
  | distinct_nil : distinct []
  | distinct_cons x l : (forall y, y ∈ l -> eqb x y = false) -> distinct l -> distinct (x :: l).
Definition fs_good (l : list A) : Prop := (forall x, x ∈ l -> good x) /\ distinct l.

(** [s == t] for frozensets: as many elements, each of them in the other. *)
Definition fs_eqb (l l' : list A) : bool := Nat.eqb (length l) (length l') && forallb (fun x => mem x l') l.
Definition fs_hash (l : list A) : Z := hset (map h l).
(** [s.union(t)] *)
Definition fs_union (l l' : list A) : list A := l ++ filter (fun x => mem x l = false) l'.
End frozenset.

(** Dictionaries with integer values: [d == e] *)
Definition dict_eqb {A} (eqb : A -> A -> bool) (h : A -> Z) (d e : list (A * Z)) : bool :=
  Nat.eqb (length d) (length e) &&
  forallb (fun kv => match find (fun kv' => same eqb h kv.1 kv'.1) e with Some kv' => Z.eqb kv.2 kv'.2 | None => false end) d.
Definition dict_good {A} (good : A -> Prop) (eqb : A -> A -> bool) (d : list (A * Z)) : Prop := fs_good good eqb (map fst d).

(** [sorted] on pairs of integers. *)
Definition pair_le (x y : Z * Z) : Prop := (x.1 < y.1 \/ x.1 = y.1 /\ x.2 <= y.2)%Z.
Global Instance pair_le_dec : RelDecision pair_le.
Proof. intros x y. unfold pair_le. apply _. Defined.
Definition sorted (l : list (Z * Z)) : list (Z * Z) := merge_sort pair_le l.

Section classes.
Context {U : Universe}.
Variables (veq : Var -> Var -> bool) (hv : Var -> Z).
Variables (xeq : Val -> Val -> bool) (hx : Val -> Z).
Variables (req : Rel -> Rel -> bool) (hr : Rel -> Z).
Variables (W : Type) (weq : W -> W -> bool) (hw : W -> Z).
(** Hash of an [int]. *)
Variable hz : Z -> Z.

(** graph_components.py:30-36,46-49 [ValueNode] *)
Definition node_eqb (x y : Var * Val) : bool := veq x.1 y.1 && xeq x.2 y.2.
Definition node_hash (x : Var * Val) : Z := htuple [hv x.1; hx x.2].

(** graph_components.py:114-120,129-133 [DirectedRelation]; a user's relation never equals one. *)
Definition rel_eqb (r s : relation) : bool :=
  match r, s with
  | Plain r, Plain s => req r s
  | Directed a b r, Directed c d s => veq a c && veq b d && req r s
  | _, _ => false
  end.
Definition rel_hash (r : relation) : Z :=
  match r with
  | Plain r => hr r
  | Directed a b r => htuple [hv a; hv b; hr r]
  end.

(** graph_components.py:64-72,83-86 [RelationEdge] *)
Record oedge := OEdge { oe_endpoints : list (Var * Val); oe_relation : relation }.
Definition edge_eqb (e f : oedge) : bool :=
  fs_eqb node_eqb node_hash (oe_endpoints e) (oe_endpoints f) && rel_eqb (oe_relation e) (oe_relation f).
Definition edge_hash (e : oedge) : Z :=
  htuple [fs_hash node_hash (oe_endpoints e); rel_hash (oe_relation e)].
Definition edge_good (e : oedge) : Prop := fs_good any node_eqb (oe_endpoints e).

(** An element of [SampleGraph.hash]: node or edge; [ValueNode.__eq__] and [RelationEdge.__eq__] return
    False for another class. *)
Inductive element := ENode (n : Var * Val) | EEdge (e : oedge).
Definition element_eqb (x y : element) : bool :=
  match x, y with
  | ENode n, ENode m => node_eqb n m
  | EEdge e, EEdge f => edge_eqb e f
  | _, _ => false
  end.
Definition element_hash (x : element) : Z :=
  match x with ENode n => node_hash n | EEdge e => edge_hash e end.
Definition element_good (x : element) : Prop :=
  match x with ENode n => True | EEdge e => edge_good e end.

(** sample_graph.py:267-285,295-298 [SampleGraph]: [self.hash = nodes.union({e for e in edges})]. *)
Record ograph := OGraph { og_nodes : list (Var * Val); og_edges : list oedge; og_name : string }.
Definition og_hash (g : ograph) : list element :=
  fs_union element_eqb element_hash (map ENode (og_nodes g)) (map EEdge (og_edges g)).
Definition ograph_eqb (g g' : ograph) : bool := fs_eqb element_eqb element_hash (og_hash g) (og_hash g').
Definition ograph_hash (g : ograph) : Z := fs_hash element_hash (og_hash g).
Definition ograph_good (g : ograph) : Prop :=
  fs_good any node_eqb (og_nodes g) /\ fs_good edge_good edge_eqb (og_edges g).

(** sample_set.py:82-99 [SampleSet]: [hash(tuple(sorted([(hash(o), hash(c)) ...])))]. *)
Definition set_eqb (s s' : list (ograph * Z)) : bool := dict_eqb ograph_eqb ograph_hash s s'.
Definition set_hash (s : list (ograph * Z)) : Z :=
  htuple (map (fun p => htuple [p.1; p.2]) (sorted (map (fun gc => (ograph_hash gc.1, hz gc.2)) s))).
Definition set_good (s : list (ograph * Z)) : Prop := dict_good ograph_good ograph_eqb s.

(** variables_graph.py:42-48,67-73 [VariableNode], [VariableEdge] *)
Definition vedge_eqb (e f : list Var) : bool := fs_eqb veq hv e f.
Definition vedge_hash (e : list Var) : Z := fs_hash hv e.

(** folded_graph.py:33-50 [FoldedNode]: compared and hashed by variable and [value_nodes]. *)
Record fnode := FNode { fn_variable : Var; fn_values : list Val; fn_value_nodes : list ((Var * Val) * Z); fn_outcomes : Z }.
Definition vcount_eqb : (Var * Val) * Z -> (Var * Val) * Z -> bool := pair_eqb node_eqb Z.eqb.
Definition vcount_hash : (Var * Val) * Z -> Z := pair_hash node_hash hz.
Definition fnode_eqb (a b : fnode) : bool :=
  veq (fn_variable a) (fn_variable b) && fs_eqb vcount_eqb vcount_hash (fn_value_nodes a) (fn_value_nodes b).
Definition fnode_hash (a : fnode) : Z := htuple [hv (fn_variable a); fs_hash vcount_hash (fn_value_nodes a)].
Definition fnode_good (a : fnode) : Prop := fs_good any vcount_eqb (fn_value_nodes a).

(** folded_graph.py:89-105 [FoldedEdge] *)
Record fedge := FEdge { fe_endpoints : list Var; fe_relation_edges : list (oedge * Z) }.
Definition ecount_eqb : oedge * Z -> oedge * Z -> bool := pair_eqb edge_eqb Z.eqb.
Definition ecount_hash : oedge * Z -> Z := pair_hash edge_hash hz.
Definition ecount_good (x : oedge * Z) : Prop := edge_good x.1.
Definition fedge_eqb (a b : fedge) : bool :=
  fs_eqb veq hv (fe_endpoints a) (fe_endpoints b) && fs_eqb ecount_eqb ecount_hash (fe_relation_edges a) (fe_relation_edges b).
Definition fedge_hash (a : fedge) : Z := htuple [fs_hash hv (fe_endpoints a); fs_hash ecount_hash (fe_relation_edges a)].
Definition fedge_good (a : fedge) : Prop :=
  fs_good any veq (fe_endpoints a) /\ fs_good ecount_good ecount_eqb (fe_relation_edges a).

(** activation_graph.py:33-50 [ActiveNode]: [in_query] is compared but not hashed. *)
Record anode := ANode { an_variable : Var; an_values : list (Val * W); an_in_query : bool }.
Definition weight_eqb : Val * W -> Val * W -> bool := pair_eqb xeq weq.
Definition weight_hash : Val * W -> Z := pair_hash hx hw.
Definition anode_eqb (a b : anode) : bool :=
  veq (an_variable a) (an_variable b) && fs_eqb weight_eqb weight_hash (an_values a) (an_values b) &&
  Bool.eqb (an_in_query a) (an_in_query b).
Definition anode_hash (a : anode) : Z := htuple [hv (an_variable a); fs_hash weight_hash (an_values a)].
Definition anode_good (a : anode) : Prop := fs_good any weight_eqb (an_values a).

(** activation_graph.py:58-78 [ActiveEdge] *)
Record aedge := AEdge { ae_endpoints : list Var; ae_relations : list (relation * Z); ae_in_query : bool }.
Definition rcount_eqb : relation * Z -> relation * Z -> bool := pair_eqb rel_eqb Z.eqb.
Definition rcount_hash : relation * Z -> Z := pair_hash rel_hash hz.
Definition aedge_eqb (a b : aedge) : bool :=
  fs_eqb veq hv (ae_endpoints a) (ae_endpoints b) && fs_eqb rcount_eqb rcount_hash (ae_relations a) (ae_relations b) &&
  Bool.eqb (ae_in_query a) (ae_in_query b).
Definition aedge_hash (a : aedge) : Z := htuple [fs_hash hv (ae_endpoints a); fs_hash rcount_hash (ae_relations a)].
Definition aedge_good (a : aedge) : Prop :=
  fs_good any veq (ae_endpoints a) /\ fs_good any rcount_eqb (ae_relations a).

End classes.
End builtins.
