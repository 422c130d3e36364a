(** * Provider: the node and edge caches of graph_components.py, with object identity

    Components.v treats nodes and edges as values.  Here they are objects on a heap, an address is what
    Python's [is] and [id] see, and the providers with their two caches are objects too.  No object is
    ever freed (the caches keep theirs alive; an address is never reused while compared). *)

From Verif Require Export Components.

Section provider.
Context {U : Universe}.

Notation addr := nat.

(** A frozenset of node objects: at most one object for each (variable, value), as [ValueNode.__eq__]
    compares these (graph_components.py:46-49). *)
Notation nodeset := (gmap node addr).

(** graph_components.py:174-175 [self.nodes], [self.edges], with the declarations. *)
Record pcache := PCache {
  pc_decl : provider;
  pc_nodes : gmap node addr;
  pc_edges : gmap edge addr
}.

Inductive obj :=
  | ONode (n : node)
  | OEdge (eps : nodeset) (r : relation)
  | OProvider (pc : pcache).

Notation heap := (gmap addr obj).

(** Creating an object. *)
Definition alloc (h : heap) (ob : obj) : heap * addr :=
  let a := fresh (dom h) in (<[a := ob]> h, a).

(** graph_components.py:163-175 [BuilderComponentsProvider.__init__] *)
Definition new_provider (h : heap) (vs : gmap Var (gset Val)) (rs : gset Rel) : heap * res addr :=
  match provider_init (fresh (dom h)) vs rs with
  | Ok cp => let '(h', a) := alloc h (OProvider (PCache cp ∅ ∅)) in (h', Ok a)
  | Err e => (h, Err e)
  end.

(** graph_components.py:183-194 [get_node] *)
Definition pc_get_node (h : heap) (p : addr) (pc : pcache) (v : Var) (x : Val) : heap * res addr :=
  match cp_vars (pc_decl pc) !! v with
  | None => (h, Err AssertionError)
  | Some X =>
      if bool_decide (x ∈ X) then
        match pc_nodes pc !! (v, x) with
        | Some a => (h, Ok a)
        | None =>
            let '(h', a) := alloc h (ONode (v, x)) in
            (<[p := OProvider (PCache (pc_decl pc) (<[(v, x) := a]> (pc_nodes pc)) (pc_edges pc))]> h', Ok a)
        end
      else (h, Err AssertionError)
  end.

(** graph_components.py:196-217 [get_edge] and :64-69 [RelationEdge.__init__].  The endpoints kept by a
    new edge are the objects that were passed. *)
Definition pc_get_edge (h : heap) (p : addr) (pc : pcache) (eps : nodeset) (r : relation) : heap * res addr :=
  if bool_decide (dom eps ⊆ dom (pc_nodes pc)) then
    if bool_decide (base_rel r ∈ cp_rels (pc_decl pc)) then
      if match r with
         | Plain _ => true
         | Directed s t _ => bool_decide (s ∈ vars_of (dom eps)) && bool_decide (t ∈ vars_of (dom eps))
         end
      then
        match pc_edges pc !! (dom eps, r) with
        | Some a => (h, Ok a)
        | None =>
            if bool_decide (2 <= size (dom eps))%nat then
              let '(h', a) := alloc h (OEdge eps r) in
              (<[p := OProvider (PCache (pc_decl pc) (pc_nodes pc) (<[(dom eps, r) := a]> (pc_edges pc)))]> h', Ok a)
            else (h, Err IndexError)
        end
      else (h, Err AssertionError)
    else (h, Err AssertionError)
  else (h, Err AssertionError).

(** What a program can do: make providers, call them, and make [ValueNode]s of its own. *)
Inductive call :=
  | CProvider (vs : gmap Var (gset Val)) (rs : gset Rel)
  | CNode (p : addr) (v : Var) (x : Val)
  | CEdge (p : addr) (eps : nodeset) (r : relation)
  | CValueNode (v : Var) (x : Val).

(** A call on something that is no provider is an AttributeError (it has no such method). *)
Definition step (h : heap) (c : call) : heap * res addr :=
  match c with
  | CProvider vs rs => new_provider h vs rs
  | CNode p v x => match h !! p with Some (OProvider pc) => pc_get_node h p pc v x | _ => (h, Err AttributeError) end
  | CEdge p eps r => match h !! p with Some (OProvider pc) => pc_get_edge h p pc eps r | _ => (h, Err AttributeError) end
  | CValueNode v x => let '(h', a) := alloc h (ONode (v, x)) in (h', Ok a)
  end.

Fixpoint run (h : heap) (cs : list call) : heap * list (res addr) :=
  match cs with
  | [] => (h, [])
  | c :: cs => let '(h', r) := step h c in let '(h'', rs) := run h' cs in (h'', r :: rs)
  end.

(** The results of a program that starts with no objects. *)
Definition results (cs : list call) : list (res addr) := (run ∅ cs).2.
Definition final (cs : list call) : heap := (run ∅ cs).1.

(** ** Histories *)

(** [at_call cs i c r]: the [i]-th call of the program is [c] and it gave [r]. *)
Definition at_call (cs : list call) (i : nat) (c : call) (r : res addr) : Prop :=
  cs !! i = Some c /\ results cs !! i = Some r.

End provider.
