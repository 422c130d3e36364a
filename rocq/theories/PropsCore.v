(** * PropsCore: the components provider (C01), equality and hashing (C02) *)

From Verif Require Import ProviderFacts HashFacts Examples ExamplesSets.

(** ** C01 *)

(** Two calls of [get_node], anywhere in a program, return the same object exactly if they were made on
    the same provider with the same variable and value. *)
Theorem C01_nodes_shared {U : Universe} (cs : list call) (i j p q : nat) (v w : Var) (x y : Val) (a b : nat) :
  at_call cs i (CNode p v x) (Ok a) -> at_call cs j (CNode q w y) (Ok b) -> (a = b <-> p = q /\ v = w /\ x = y).
Proof. exact (C01_nodes cs i j p q v w x y a b). Qed.

(** The same for [get_edge]; endpoints count by (variable, value), not by object. *)
Theorem C01_edges_shared {U : Universe} (cs : list call) (i j p q : nat) (eps eps' : gmap node nat) (r r' : relation) (a b : nat) :
  at_call cs i (CEdge p eps r) (Ok a) -> at_call cs j (CEdge q eps' r') (Ok b) -> (a = b <-> p = q /\ dom eps = dom eps' /\ r = r').
Proof. exact (C01_edges cs i j p q eps eps' r r' a b). Qed.

(** What was returned is, at any later time, the node / edge / provider that was asked for. *)
Theorem C01_content {U : Universe} (cs : list call) (i : nat) (c : call) (a : nat) : at_call cs i c (Ok a) ->
  match c with
  | CNode _ v x | CValueNode v x => final cs !! a = Some (ONode (v, x))
  | CEdge _ eps r => exists eps', dom eps' = dom eps /\ final cs !! a = Some (Provider.OEdge eps' r)
  | CProvider vs rs => exists pc, final cs !! a = Some (OProvider pc) /\ pc_decl pc = Provider a vs rs
  end.
Proof. exact (content_at cs i c a). Qed.

(** The constructor accepts exactly non-empty declarations. *)
Theorem C01_provider_accepted {U : Universe} (cs : list call) (i : nat) (vs : gmap Var (gset Val)) (rs : gset Rel) (r : res nat) :
  at_call cs i (CProvider vs rs) r ->
  (is_ok r = true <-> vs <> ∅ /\ (forall v X, vs !! v = Some X -> X <> ∅) /\ rs <> ∅) /\ (forall e, r = Err e -> e = AssertionError).
Proof. exact (C01_init cs i vs rs r). Qed.

(** [get_node] accepts exactly the declared values. *)
Theorem C01_node_accepted {U : Universe} (cs : list call) (k i p : nat) (vs : gmap Var (gset Val)) (rs : gset Rel) (v : Var) (x : Val) (r : res nat) :
  at_call cs k (CProvider vs rs) (Ok p) -> k < i -> at_call cs i (CNode p v x) r ->
  (is_ok r = true <-> exists X, vs !! v = Some X /\ x ∈ X) /\ (forall e, r = Err e -> e = AssertionError).
Proof. exact (C01_node_accept cs k i p vs rs v x r). Qed.

(** [get_edge] accepts exactly two or more endpoints created before, a declared relation, and for a directed
    relation source and target among the variables of the endpoints. *)
Theorem C01_edge_accepted {U : Universe} (cs : list call) (k i p : nat) (vs : gmap Var (gset Val)) (rs : gset Rel)
    (eps : gmap node nat) (s : relation) (r : res nat) :
  at_call cs k (CProvider vs rs) (Ok p) -> k < i -> at_call cs i (CEdge p eps s) r ->
  (is_ok r = true <->
     (forall v x, (v, x) ∈ dom eps -> exists j a, j < i /\ at_call cs j (CNode p v x) (Ok a)) /\
     base_rel s ∈ rs /\
     match s with Plain _ => True | Directed f t _ => (exists x, (f, x) ∈ dom eps) /\ (exists y, (t, y) ∈ dom eps) end /\
     2 <= size (dom eps)) /\
  (forall e, r = Err e -> e = AssertionError \/ e = IndexError /\ size (dom eps) < 2).
Proof.
  intros Hk Hki Hi. destruct (C01_edge_accept cs k i p vs rs eps s r Hk Hki Hi) as [H1 H2]. split; [exact H1|].
  intros e He. destruct (H2 e He) as [?|(? & _ & _ & _ & ?)]; [by left|by right].
Qed.

(** A rejected call changes nothing: the rest of the program gives the same results without it. *)
Theorem C01_rejected_unchanged {U : Universe} (cs cs' : list call) (c : call) (e : exn) :
  at_call (cs ++ c :: cs') (length cs) c (Err e) ->
  final (cs ++ c :: cs') = final (cs ++ cs') /\
  results (cs ++ c :: cs') = results cs ++ Err e :: drop (length cs) (results (cs ++ cs')).
Proof. exact (C01_rejected cs c cs' e). Qed.

(** The provider of the other files, which has no caches, returns the same values. *)
Theorem C01_node_value {U : Universe} (cs : list call) (k i p : nat) (vs : gmap Var (gset Val)) (rs : gset Rel) (v : Var) (x : Val) (r : res nat) :
  at_call cs k (CProvider vs rs) (Ok p) -> k < i -> at_call cs i (CNode p v x) r ->
  get_node (Provider p vs rs) v x = match r with Ok _ => Ok (v, x) | Err e => Err e end.
Proof. exact (node_value_at cs k i p vs rs v x r). Qed.
Theorem C01_edge_value {U : Universe} (cs : list call) (k i p : nat) (vs : gmap Var (gset Val)) (rs : gset Rel)
    (eps : gmap node nat) (s : relation) (r : res nat) :
  at_call cs k (CProvider vs rs) (Ok p) -> k < i -> at_call cs i (CEdge p eps s) r ->
  (forall v x, (v, x) ∈ dom eps -> exists j a, j < i /\ at_call cs j (CNode p v x) (Ok a)) ->
  get_edge (Provider p vs rs) (dom eps) s = match r with Ok _ => Ok (dom eps, s) | Err e => Err e end.
Proof. exact (edge_value_at cs k i p vs rs eps s r). Qed.

(** A program: two providers (objects 0 and 1), nodes, an own [ValueNode] used as an endpoint, an edge
    before its endpoints exist, a repeated edge. *)
Definition prog : list (@call StrU) := [
  CProvider (cp_vars cpx) (cp_rels cpx); CProvider (cp_vars cpx) (cp_rels cpx);
  CNode 0 "a" "1"; CNode 0 "b" "1"; CNode 1 "a" "1"; CNode 0 "a" "1"; CNode 0 "a" "7"; CValueNode "a" "1";
  CEdge 1 {[ ("a", "1") := 2; ("b", "1") := 3 ]} (Plain "r");
  CEdge 0 {[ ("a", "1") := 2; ("b", "1") := 3 ]} (Plain "r");
  CEdge 0 {[ ("a", "1") := 5; ("b", "1") := 3 ]} (Plain "r");
  CEdge 0 {[ ("a", "1") := 2; ("b", "1") := 3 ]} (Directed "a" "b" "r");
  CEdge 0 {[ ("a", "1") := 2 ]} (Plain "r");
  CEdge 0 {[ ("a", "1") := 2; ("b", "1") := 3 ]} (Directed "a" "c" "r")
].
Example C01_example : bool_decide (results prog =
  [Ok 0; Ok 1; Ok 2; Ok 3; Ok 4; Ok 2; Err AssertionError; Ok 5; Err AssertionError; Ok 6; Ok 6; Ok 7; Err IndexError; Err AssertionError]) = true.
Proof. vm_compute. reflexivity. Qed.

(** ** C02 *)

(** For all hash functions of tuples and frozensets (the latter insensitive to order, as Python promises) and
    all user types that keep Python's contract, [==] is an equivalence on the objects of each class and equal
    objects have equal hashes. *)
Theorem C02_contract {U : Universe} (htuple hset : list Z -> Z)
    (veq : Var -> Var -> bool) (hv : Var -> Z) (xeq : Val -> Val -> bool) (hx : Val -> Z)
    (req : Rel -> Rel -> bool) (hr : Rel -> Z) (W : Type) (weq : W -> W -> bool) (hw : W -> Z) (hz : Z -> Z) :
  (forall l l', Permutation l l' -> hset l = hset l') ->
  laws any veq hv -> laws any xeq hx -> laws any req hr -> laws any weq hw ->
  laws any (node_eqb veq xeq) (node_hash htuple hv hx) /\
  laws any (rel_eqb veq req) (rel_hash htuple hv hr) /\
  laws (edge_good veq xeq) (edge_eqb htuple veq hv xeq hx req) (edge_hash htuple hset hv hx hr) /\
  laws (ograph_good htuple veq hv xeq hx req) (ograph_eqb htuple hset veq hv xeq hx req hr) (ograph_hash htuple hset veq hv xeq hx req hr) /\
  laws (set_good htuple hset veq hv xeq hx req hr) (set_eqb htuple hset veq hv xeq hx req hr) (set_hash htuple hset veq hv xeq hx req hr hz) /\
  laws (fs_good any veq) (vedge_eqb veq hv) (vedge_hash hset hv) /\
  laws (fnode_good veq xeq) (fnode_eqb htuple veq hv xeq hx hz) (fnode_hash htuple hset hv hx hz) /\
  laws (fedge_good htuple veq hv xeq hx req) (fedge_eqb htuple hset veq hv xeq hx req hr hz) (fedge_hash htuple hset hv hx hr hz) /\
  laws (anode_good xeq W weq) (anode_eqb htuple veq xeq hx W weq hw) (anode_hash htuple hset hv hx W hw) /\
  laws (aedge_good veq req) (aedge_eqb htuple veq hv req hr hz) (aedge_hash htuple hset hv hr hz).
Proof.
  intros Hp Hv Hx Hr Hw. split_and!; [by apply node_laws|by apply rel_laws|by apply edge_laws|by apply graph_laws|by apply set_laws
    |by apply vedge_laws|by apply fnode_laws|by apply fedge_laws|by apply anode_laws|by apply aedge_laws].
Qed.

(** [SampleGraph.__eq__] holds exactly if the node sets and the edge sets are equal; names do not matter. *)
Theorem C02_graph_equality {U : Universe} (htuple hset : list Z -> Z)
    (veq : Var -> Var -> bool) (hv : Var -> Z) (xeq : Val -> Val -> bool) (hx : Val -> Z) (req : Rel -> Rel -> bool) (hr : Rel -> Z) (g g' : ograph) :
  (forall l l', Permutation l l' -> hset l = hset l') -> laws any veq hv -> laws any xeq hx -> laws any req hr ->
  ograph_good htuple veq hv xeq hx req g -> ograph_good htuple veq hv xeq hx req g' ->
  ograph_eqb htuple hset veq hv xeq hx req hr g g' = true <->
  fs_eqb (node_eqb veq xeq) (node_hash htuple hv hx) (og_nodes g) (og_nodes g') = true /\
  fs_eqb (edge_eqb htuple veq hv xeq hx req) (edge_hash htuple hset hv hx hr) (og_edges g) (og_edges g') = true.
Proof. intros Hp Hv Hx Hr. by apply graph_eqb_parts. Qed.

(** With equality as [==] of the user's objects, [==] of sample graphs and sample sets is equality of the
    values used in the other files, for all hash functions; and each such value is that of an object. *)
Theorem C02_values {U : Universe} (htuple hset : list Z -> Z) (hv : Var -> Z) (hx : Val -> Z) (hr : Rel -> Z) :
  (forall l l', Permutation l l' -> hset l = hset l') ->
  (forall g g', ograph_good htuple is_eqb hv is_eqb hx is_eqb g -> ograph_good htuple is_eqb hv is_eqb hx is_eqb g' ->
    ograph_eqb htuple hset is_eqb hv is_eqb hx is_eqb hr g g' = true <-> value_graph g = value_graph g') /\
  (forall d d', set_good htuple hset is_eqb hv is_eqb hx is_eqb hr d -> set_good htuple hset is_eqb hv is_eqb hx is_eqb hr d' ->
    set_eqb htuple hset is_eqb hv is_eqb hx is_eqb hr d d' = true <-> value_set d = value_set d') /\
  (forall g name, exists g', ograph_good htuple is_eqb hv is_eqb hx is_eqb g' /\ value_graph g' = g /\ og_name g' = name).
Proof.
  intros Hp. split_and!; [intros; by apply graph_value|intros; by apply set_value|].
  intros g name. exists (object_graph g name). by destruct (object_graph_good htuple hv hx g name).
Qed.

(** Two graphs built in different orders, with different names; a hash that is far from injective. *)
Definition ht (l : list Z) : Z := foldr (fun x a => (x + 31 * a) mod 17)%Z 7%Z l.
Definition hs (l : list Z) : Z := (foldr Z.add 0 l mod 5)%Z.
Definition hstr (s : string) : Z := Z.of_nat (String.length s).
Lemma hs_perm l l' : Permutation l l' -> hs l = hs l'.
Proof. intros Hp. unfold hs. f_equal. induction Hp; cbn; lia. Qed.
Definition og1 : @ograph StrU := OGraph [("a", "1"); ("b", "1"); ("c", "2")]
  [Hash.OEdge [("a", "1"); ("b", "1")] (Plain "r"); Hash.OEdge [("b", "1"); ("c", "2")] (Directed "b" "c" "q")] "G".
Definition og2 : @ograph StrU := OGraph [("c", "2"); ("a", "1"); ("b", "1")]
  [Hash.OEdge [("c", "2"); ("b", "1")] (Directed "b" "c" "q"); Hash.OEdge [("b", "1"); ("a", "1")] (Plain "r")] "H".
Definition og3 : @ograph StrU := OGraph [("c", "2"); ("a", "1"); ("b", "1")]
  [Hash.OEdge [("c", "2"); ("b", "1")] (Directed "c" "b" "q"); Hash.OEdge [("b", "1"); ("a", "1")] (Plain "r")] "H".
Example C02_example :
  ograph_eqb ht hs is_eqb hstr is_eqb hstr is_eqb hstr og1 og2 = true /\
  ograph_hash ht hs is_eqb hstr is_eqb hstr is_eqb hstr og1 = ograph_hash ht hs is_eqb hstr is_eqb hstr is_eqb hstr og2 /\
  ograph_eqb ht hs is_eqb hstr is_eqb hstr is_eqb hstr og1 og3 = false.
Proof. by vm_compute. Qed.

Print Assumptions C01_nodes_shared.
Print Assumptions C01_edges_shared.
Print Assumptions C01_content.
Print Assumptions C01_provider_accepted.
Print Assumptions C01_node_accepted.
Print Assumptions C01_edge_accepted.
Print Assumptions C01_rejected_unchanged.
Print Assumptions C01_node_value.
Print Assumptions C01_edge_value.
Print Assumptions C02_contract.
Print Assumptions C02_graph_equality.
Print Assumptions C02_values.
