(** * HashVars: [==] and [hash] between the variable-level classes

    [FoldedNode] and [ActiveNode] are subclasses of [VariableNode] (the edges and graphs likewise), so objects of
    the three classes can meet in one comparison or one set.  Hash.v has the methods of the classes; here is the
    choice of the method. *)

From Verif Require Export Hash.

(** A class [base] and two subclasses, [fold] and [act]; an object of a subclass has the attributes of [base]. *)
Inductive vclass := CBase | CFold | CAct.
Global Instance vclass_eq_dec : EqDecision vclass.
Proof. solve_decision. Defined.

(** [issubclass(c, d)] *)
Definition issubclass (c d : vclass) : bool := bool_decide (d = CBase \/ c = d).

Section hierarchy.
Context {B F A : Type}.
Variables (beq : B -> B -> bool) (bh : B -> Z).
Variables (fb : F -> B) (feq : F -> F -> bool) (fh : F -> Z).
Variables (ab : A -> B) (aeq : A -> A -> bool) (ah : A -> Z).

Inductive vobj := OBase (b : B) | OFold (f : F) | OAct (a : A).
Definition vclass_of (x : vobj) : vclass := match x with OBase _ => CBase | OFold _ => CFold | OAct _ => CAct end.
Definition base_of (x : vobj) : B := match x with OBase b => b | OFold f => fb f | OAct a => ab a end.

(** The [__eq__] methods: [isinstance(other, C)], then the attributes; [False] for another class
    (variables_graph.py:45-48,70-73, folded_graph.py:47-50,102-105, activation_graph.py:47-50,73-78). *)
Definition eq_method (c : vclass) (self other : vobj) : bool :=
  if issubclass (vclass_of other) c then
    match c, self, other with
    | CBase, _, _ => beq (base_of self) (base_of other)
    | CFold, OFold f, OFold g => feq f g
    | CAct, OAct a, OAct b => aeq a b
    | _, _, _ => false
    end
  else false.

(** [x == y]: if the class of [y] is a proper subclass of that of [x] its method is asked first, with the
    arguments exchanged.  No method returns [NotImplemented], so the first answer counts. *)
Definition vobj_eqb (x y : vobj) : bool :=
  if bool_decide (vclass_of x <> vclass_of y) && issubclass (vclass_of y) (vclass_of x)
  then eq_method (vclass_of y) y x else eq_method (vclass_of x) x y.

(** Each class has its own [__hash__]. *)
Definition vobj_hash (x : vobj) : Z := match x with OBase b => bh b | OFold f => fh f | OAct a => ah a end.

Definition vobj_good (gb : B -> Prop) (gf : F -> Prop) (ga : A -> Prop) (x : vobj) : Prop :=
  match x with OBase b => gb b | OFold f => gf f | OAct a => ga a end.
End hierarchy.
Arguments vobj : clear implicits.

(** variables_graph.py:81-94,102-105 [VariablesGraph] and [__eq__], inherited by [FoldedGraph]
    (folded_graph.py:108-124) and [ActivationGraph] (activation_graph.py:81-96); [number_of_outcomes] is not
    compared. *)
Record vgraph (N E : Type) := VGraph { vg_nodes : list N; vg_edges : list E; vg_outcomes : Z; vg_name : string }.
Arguments VGraph {N E}.
Arguments vg_nodes {N E}.
Arguments vg_edges {N E}.
Arguments vg_outcomes {N E}.
Arguments vg_name {N E}.

Definition vgraph_eqb {N E} (neq : N -> N -> bool) (nh : N -> Z) (eeq : E -> E -> bool) (eh : E -> Z) (g g' : vgraph N E) : bool :=
  fs_eqb neq nh (vg_nodes g) (vg_nodes g') && fs_eqb eeq eh (vg_edges g) (vg_edges g').

Definition vgraph_good {N E} (gn : N -> Prop) (neq : N -> N -> bool) (ge : E -> Prop) (eeq : E -> E -> bool) (g : vgraph N E) : Prop :=
  fs_good gn neq (vg_nodes g) /\ fs_good ge eeq (vg_edges g).

(** Which special methods a class defines, and its base.  A class that defines [__eq__] and not [__hash__] gets
    [__hash__ = None]. *)
Inductive special := Own | Unset | Inherited.
Record pyclass := PyClass { pc_eq : bool; pc_hash : bool; pc_base : option nat }.
Definition hash_entry (c : pyclass) : special :=
  if pc_hash c then Own else if pc_eq c then Unset else Inherited.
(** [hash(x)] for an object of class number [k]: TypeError if the nearest entry is [None]; [object] has one.
    [n] bounds the depth of the hierarchy. *)
Fixpoint hashable (cs : list pyclass) (n k : nat) : res bool :=
  match n with
  | O => Err OutOfFuel
  | S n =>
    match cs !! k with
    | None => Err IndexError
    | Some c => match hash_entry c with
                | Own => Ok true
                | Unset => Ok false
                | Inherited => match pc_base c with None => Ok true | Some b => hashable cs n b end
                end
    end
  end.
(** VariableNode, VariableEdge, VariablesGraph (variables_graph.py), FoldedNode, FoldedEdge, FoldedGraph
    (folded_graph.py), ActiveNode, ActiveEdge, ActivationGraph (activation_graph.py), SampleGraph, SampleSet,
    SampleSpace, RelationGraph, ConditionalGraph (sample_graph.py, sample_set.py, sample_space.py,
    relation_graph.py, conditional_graph.py), in this order. *)
Definition relnet_classes : list pyclass :=
  [PyClass true true None; PyClass true true None; PyClass true false None;
   PyClass true true (Some 0); PyClass true true (Some 1); PyClass false false (Some 2);
   PyClass true true (Some 0); PyClass true true (Some 1); PyClass false false (Some 2);
   PyClass true true None; PyClass true true None;
   PyClass false false None; PyClass false false (Some 11); PyClass false false (Some 11)].
