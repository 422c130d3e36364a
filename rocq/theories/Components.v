(** * Components: model of graph_components.py *)

From Verif Require Export Base.

(** The values Python types as [Any].  [var_iter v] is what [for x in v] yields (None: TypeError);
    [val_u] / [val_unobserved] are the string keys 'u' / 'unobserved' seen as values. *)
Class Universe := {
  Var : Type; Val : Type; Rel : Type;
  Var_eq_dec :> EqDecision Var; Var_countable :> Countable Var;
  Val_eq_dec :> EqDecision Val; Val_countable :> Countable Val;
  Rel_eq_dec :> EqDecision Rel; Rel_countable :> Countable Rel;
  var_iter : Var -> option (list Var);
  val_u : Val;
  val_unobserved : Val
}.

Section components.
Context {U : Universe}.

(** graph_components.py:25-56 [ValueNode]: compared by (variable, value); [string_id] and [__repr__]
    are in Text.v. *)
Definition node : Type := Var * Val.

(** graph_components.py:109-133 [DirectedRelation], and the undecorated relations used as is. *)
Inductive relation := Plain (r : Rel) | Directed (source target : Var) (r : Rel).

Global Instance relation_eq_dec : EqDecision relation.
Proof. solve_decision. Defined.
Global Instance relation_countable : Countable relation.
Proof.
  refine (inj_countable'
    (fun x => match x with Plain r => inl r | Directed s t r => inr (s, t, r) end)
    (fun x => match x with inl r => Plain r | inr (s, t, r) => Directed s t r end) _).
  by intros [].
Defined.

(** graph_components.py:59-86 [RelationEdge]: compared by (endpoints, relation). *)
Definition edge : Type := gset node * relation.
Definition endpoints (e : edge) : gset node := e.1.
Definition rel_of (e : edge) : relation := e.2.

(** The relation name inside a relation: [relation.relation if isinstance(relation, DirectedRelation)
    else relation] (graph_components.py:200). *)
Definition base_rel (r : relation) : Rel :=
  match r with Plain r => r | Directed _ _ r => r end.

(** [{ep.variable for ep in endpoints}] *)
Definition vars_of (X : gset node) : gset Var := set_map fst X.

(** graph_components.py:158-175 [BuilderComponentsProvider]: declared variables (with values) and
    relations, and the identity [id(provider)] which [is_compatible] compares.  The caches
    [self.nodes], [self.edges] are modelled in Provider.v (they only affect object identity). *)
Record provider := Provider {
  cp_id : nat;
  cp_vars : gmap Var (gset Val);
  cp_rels : gset Rel
}.

(** graph_components.py:163-175 [BuilderComponentsProvider.__init__] *)
Definition provider_init (i : nat) (vs : gmap Var (gset Val)) (rs : gset Rel) : res provider :=
  _ ← passert (bool_decide (vs ≠ ∅));
  _ ← passert (bool_decide (map_Forall (fun _ X => X ≠ ∅) vs));
  _ ← passert (bool_decide (rs ≠ ∅));
  Ok (Provider i vs rs).

(** graph_components.py:183-194 [get_node]: the two assertions; the returned (cached or new) node is
    equal to [(variable, value)].  [self._variables[variable]] is [cp_vars cp !! v]. *)
Definition get_node (cp : provider) (v : Var) (x : Val) : res node :=
  match cp_vars cp !! v with
  | None => Err AssertionError
  | Some X => if bool_decide (x ∈ X) then Ok (v, x) else Err AssertionError
  end.

(** [{get_node(var, val) for var, val in endpoints}] as used in sample_graph.py:142,158.  All calls can
    only fail with AssertionError, and a node equals its (variable, value) pair, so the resulting set is
    [eps] itself. *)
Definition get_nodes (cp : provider) (eps : gset node) : res (gset node) :=
  if bool_decide (set_Forall (fun n => is_ok (get_node cp n.1 n.2) = true) eps)
  then Ok eps else Err AssertionError.

(** graph_components.py:196-217 [get_edge] and :64-69 [RelationEdge.__init__] (IndexError when fewer
    than two endpoints).  The first assertion (endpoints were created by this provider before) is
    treated in Provider.v, where it is shown to hold at all call sites; it is omitted here. *)
Definition get_edge (cp : provider) (eps : gset node) (r : relation) : res edge :=
  _ ← passert (bool_decide (base_rel r ∈ cp_rels cp));
  _ ← match r with
      | Plain _ => Ok tt
      | Directed s t _ =>
          _ ← passert (bool_decide (s ∈ vars_of eps));
          passert (bool_decide (t ∈ vars_of eps))
      end;
  if bool_decide (2 <= size eps)%nat then Ok (eps, r) else Err IndexError.

(** graph_components.py:65-69: [self.a], [self.b] are the first two endpoints in iteration order. *)
Definition edge_ab (o : oracle) (e : edge) : option (node * node) :=
  match iter_set o (endpoints e) with
  | a :: b :: _ => Some (a, b)
  | _ => None
  end.

(** graph_components.py:88-94 [is_endpoint] *)
Definition is_endpoint (e : edge) (n : node) : bool := bool_decide (n ∈ endpoints e).

(** graph_components.py:96-106 [opposite_endpoint]; [o] fixes which endpoint is [a] and which [b].
    The [None] case cannot happen for an edge object (its constructor would have raised). *)
Definition opposite_endpoint (o : oracle) (e : edge) (n : node) : res node :=
  match edge_ab o e with
  | None => Err IndexError
  | Some (a, b) =>
      if bool_decide (a = n) then Ok b
      else if bool_decide (b = n) then Ok a
      else Err AssertionError
  end.

End components.

(** The universe used by the library's tests and experiments: everything is a [str].  Iterating a
    string yields its characters. *)
Fixpoint str_chars (s : string) : list string :=
  match s with
  | EmptyString => []
  | String c s' => String c EmptyString :: str_chars s'
  end.

Definition StrU : Universe := {|
  Var := string; Val := string; Rel := string;
  var_iter := fun s => Some (str_chars s);
  val_u := "u"%string;
  val_unobserved := "unobserved"%string
|}.
