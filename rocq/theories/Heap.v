(** * Heap: mutable containers, sharing and histories of API calls

    SampleGraph.v, SampleSet.v and RelationGraph.v treat the state of a builder as a value.  Here every
    Python [set] and [dict] a builder, a sample set or a provider keeps is a cell of a heap, objects hold
    the addresses of their cells, and a history is a list of calls made by a client in any order on any
    live objects, including changes the client makes to containers it holds itself.  What one call does
    to the containers it reaches is computed with the value level functions. *)

From Verif Require Export RelationGraph.

Section heap.
Context {U : Universe}.

Notation addr := nat.

(** Containers ([M...]) and library objects ([H...]). *)
Inductive obj :=
  | MNodes (X : gset node)                    (* set of ValueNode *)
  | MEdges (X : gset edge)                    (* set of RelationEdge *)
  | MEnds (m : gmap (gset node) edge)         (* dict, sample_graph.py:82 *)
  | MDict (m : gmap graph Z)                  (* dict from SampleGraph to int *)
  | MItems (X : gset (graph * Z))             (* set returned by items() *)
  | MSamples (X : gset graph)                 (* set returned by samples() *)
  | MVars (m : gmap Var (gset Val))           (* dict of variables with its sets of values *)
  | MRels (X : gset Rel)                      (* set of relations *)
  | HProv (v r : addr)                        (* graph_components.py:172-173: kept by reference *)
  | HGB (p n e x : addr)                      (* sample_graph.py:78-82 *)
  | HGraph (p : addr) (g : graph)             (* sample_graph.py:273-283: frozensets *)
  | HSB (p d : addr)                          (* sample_set.py:38-39 under SampleSetBuilder *)
  | HSet (p d : addr) (len : Z)               (* sample_set.py:38-39, :87 under SampleSet *)
  | HRGB (p b : addr) (vs : gmap Var (gset Val)) (rs : gset Rel)   (* relation_graph.py:47-53 *)
  | HRG (p s : addr) (vs : gmap Var (gset Val)) (rs : gset Rel).   (* relation_graph.py:201-203 *)

Notation heap := (gmap addr obj).

(** The heap and the addresses of the containers the client holds. *)
Record state := State { st_h : heap; st_own : gset addr }.

Definition alloc (st : state) (ob : obj) : state * addr :=
  let a := fresh (dom (st_h st)) in (State (<[a := ob]> (st_h st)) (st_own st), a).
Definition write (st : state) (a : addr) (ob : obj) : state := State (<[a := ob]> (st_h st)) (st_own st).
Definition hold (st : state) (a : addr) : state := State (st_h st) ({[a]} ∪ st_own st).

(** ** Reading objects *)

(** The provider as it answers now: its dict and set are read when a method runs. *)
Definition get_prov (h : heap) (p : addr) : option provider :=
  match h !! p with
  | Some (HProv v r) =>
      match h !! v, h !! r with
      | Some (MVars m), Some (MRels X) => Some (Provider p m X)
      | _, _ => None
      end
  | _ => None
  end.

Definition get_gb (h : heap) (b : addr) : option builder :=
  match h !! b with
  | Some (HGB p n e x) =>
      match get_prov h p, h !! n, h !! e, h !! x with
      | Some cp, Some (MNodes X), Some (MEdges Y), Some (MEnds m) => Some (Builder cp X Y m)
      | _, _, _, _ => None
      end
  | _ => None
  end.

Definition get_dict (h : heap) (d : addr) : option (gmap graph Z) :=
  match h !! d with Some (MDict m) => Some m | _ => None end.

Definition get_graph (h : heap) (a : addr) : option sample :=
  match h !! a with Some (HGraph p g) => Some (Sample p g) | _ => None end.

(** [Samples]: a SampleSet or a SampleSetBuilder. *)
Definition get_samples (h : heap) (a : addr) : option samples :=
  match h !! a with
  | Some (HSB p d) | Some (HSet p d _) =>
      match get_prov h p, get_dict h d with
      | Some cp, Some m => Some (Samples cp m)
      | _, _ => None
      end
  | _ => None
  end.

(** ** Calls *)

Inductive gb_method :=
  | MAddRelation (eps : gset node) (r : relation)
  | MAddDirected (s t : node) (r : Rel)
  | MBuildFromEdges (es : gset edge) (validate : bool)
  | MJoin (s : addr)
  | MBuild
  | MBuildEmpty
  | MBuildSingle (v : Var) (x : Val).

Inductive call :=
  (* the client creates a container, or changes the content of one it holds in any way *)
  | UNew (ob : obj)
  | UChange (a : addr) (ob : obj)
  (* BuilderComponentsProvider(variables, relations) *)
  | KProv (v r : addr)
  (* SampleGraphBuilder(provider, nodes, edges), __copy__, methods, SampleGraph.builder *)
  | KGB (p : addr) (n e : option addr)
  | KGBCopy (b : addr)
  | KGBCall (b : addr) (m : gb_method)
  | KGraphBuilder (g : addr)
  (* SampleSetBuilder(provider, samples), copy, add, add_all, remove, remove_all, empty, build *)
  | KSB (p : addr) (d : option addr)
  | KSBCopy (b : addr)
  | KSBAdd (b g : addr) (c : Z)
  | KSBAddAll (b s : addr)
  | KSBRemove (b g : addr)
  | KSBRemoveAll (b s : addr)
  | KSBEmpty (b : addr)
  | KSBBuild (b : addr)
  (* SampleSet(provider, samples), builder, union, filter_samples; items, samples *)
  | KSet (p d : addr)
  | KSetBuilder (s : addr)
  | KUnion (s t : addr)
  | KFilter (s : addr) (f : graph -> bool)
  | KItems (s : addr)
  | KSamples (s : addr)
  (* RelationGraphBuilder(outcomes=, components_provider=), add_outcome, build; SampleSpace.builder, .outcomes *)
  | KRGB (p : addr) (out : option addr)
  | KRGBAdd (r g : addr) (c : Z)
  | KRGBuild (r : addr)
  | KRGBuilder (g : addr)
  | KOutcomes (g : addr)
  (* SampleSpace.relation_graph *)
  | KRelationGraph (g : addr).

(** Containers a client can create, and changes that keep the kind of container. *)
Definition container (ob : obj) : bool :=
  match ob with
  | MNodes _ | MEdges _ | MDict _ | MItems _ | MSamples _ | MVars _ | MRels _ => true
  | _ => false
  end.

Definition same_kind (a b : obj) : bool :=
  match a, b with
  | MNodes _, MNodes _ | MEdges _, MEdges _ | MEnds _, MEnds _ | MDict _, MDict _
  | MItems _, MItems _ | MSamples _, MSamples _ | MVars _, MVars _ | MRels _, MRels _ => true
  | _, _ => false
  end.

Definition bad : res addr := Err TypeError.

(** sample_graph.py:100-258: the methods, at value level, on the builder read from its cells. *)
Definition run_method (o : oracle) (h : heap) (b : builder) (m : gb_method)
  : builder * res (option sample) :=
  let unit_result (x : builder * res unit) := (x.1, _ ← x.2; Ok None) in
  match m with
  | MAddRelation eps r => unit_result (add_relation b eps r)
  | MAddDirected s t r => unit_result (add_directed_relation b s t r)
  | MBuildFromEdges es v =>
      match build_from_edges o b es v with (b', r) => (b', s ← r; Ok (Some s)) end
  | MJoin a =>
      match get_graph h a with
      | Some s => unit_result (join_sample o b s)
      | None => (b, Err TypeError)
      end
  | MBuild => (b, s ← build b; Ok (Some s))
  | MBuildEmpty => (b, Ok (Some (build_empty b)))
  | MBuildSingle v x => (b, s ← build_single_node b v x; Ok (Some s))
  end.

(** sample_graph.py:80-81 [nodes if nodes else set([])]: a non-empty container passed by the client is
    kept, otherwise a new one is made. *)
Definition node_cell (st : state) (n : option addr) : option (state * addr) :=
  match n with
  | None => Some (alloc st (MNodes ∅))
  | Some a =>
      if bool_decide (a ∈ st_own st) then
        match st_h st !! a with
        | Some (MNodes X) => Some (if bool_decide (X = ∅) then alloc st (MNodes ∅) else (st, a))
        | _ => None
        end
      else None
  end.

Definition edge_cell (st : state) (e : option addr) : option (state * addr) :=
  match e with
  | None => Some (alloc st (MEdges ∅))
  | Some a =>
      if bool_decide (a ∈ st_own st) then
        match st_h st !! a with
        | Some (MEdges X) => Some (if bool_decide (X = ∅) then alloc st (MEdges ∅) else (st, a))
        | _ => None
        end
      else None
  end.

(** sample_graph.py:82 [{e.endpoints: e for e in self._edges}] *)
Definition ends_of (o : oracle) (Y : gset edge) : gmap (gset node) edge :=
  for_each (fun _ m e => <[endpoints e := e]> m) (sub o 0) ∅ (iter_set o Y).

(** sample_graph.py:71-82 with the two sets in place. *)
Definition new_gb (o : oracle) (st : state) (p n e : addr) : state * res addr :=
  match st_h st !! e with
  | Some (MEdges Y) =>
      let '(st, x) := alloc st (MEnds (ends_of o Y)) in
      let '(st, b) := alloc st (HGB p n e x) in (st, Ok b)
  | _ => (st, bad)
  end.

(** sample_graph.py:85 [set(self._nodes), set(self._edges)], :358-361: new sets are passed.  (An empty
    one is replaced by another new one at :80-81, which no one can tell apart.) *)
Definition fresh_gb (o : oracle) (st : state) (p : addr) (X : gset node) (Y : gset edge) : state * res addr :=
  let '(st, n) := alloc st (MNodes X) in
  let '(st, e) := alloc st (MEdges Y) in
  new_gb o st p n e.

(** sample_set.py:276-281: [samples.copy() if samples else {}]. *)
Definition fresh_sb (st : state) (p : addr) (m : gmap graph Z) : state * res addr :=
  let '(st, d) := alloc st (MDict m) in
  let '(st, b) := alloc st (HSB p d) in (st, Ok b).

(** sample_set.py:81-88: [samples.copy()]. *)
Definition fresh_set (st : state) (p : addr) (m : gmap graph Z) : state * res addr :=
  let '(st, d) := alloc st (MDict m) in
  let '(st, b) := alloc st (HSet p d (map_total m)) in (st, Ok b).

(** relation_graph.py:51-53: the snapshots of the declarations. *)
Definition new_rgb (st : state) (p b : addr) (cp : provider) : state * res addr :=
  let '(st, r) := alloc st (HRGB p b (cp_vars cp) (cp_rels cp)) in (st, Ok r).

(** The dict of a SampleSetBuilder is changed in place. *)
Definition put_dict (st : state) (b : addr) (m : gmap graph Z) : state :=
  match st_h st !! b with
  | Some (HSB _ d) => write st d (MDict m)
  | _ => st
  end.

Definition run_sb (st : state) (b : addr) (x : samples * res unit) : state * res addr :=
  (put_dict st b (ss_map x.1), _ ← x.2; Ok b).

Definition is_sb (h : heap) (b : addr) : bool :=
  match h !! b with Some (HSB _ _) => true | _ => false end.
Definition is_set (h : heap) (b : addr) : bool :=
  match h !! b with Some (HSet _ _ _) => true | _ => false end.

(** One call.  The result is an address (the object itself for methods returning [self] or nothing). *)
Definition step (o : oracle) (st : state) (c : call) : state * res addr :=
  let h := st_h st in
  match c with
  | UNew ob =>
      if container ob then let '(st', a) := alloc st ob in (hold st' a, Ok a) else (st, bad)
  | UChange a ob =>
      match h !! a with
      | Some ob0 =>
          if bool_decide (a ∈ st_own st) && same_kind ob0 ob then (write st a ob, Ok a) else (st, bad)
      | None => (st, bad)
      end
  (* graph_components.py:163-175 *)
  | KProv v r =>
      match h !! v, h !! r with
      | Some (MVars m), Some (MRels X) =>
          if bool_decide (v ∈ st_own st) && bool_decide (r ∈ st_own st) then
            match provider_init (fresh (dom h)) m X with
            | Ok _ => let '(st', p) := alloc st (HProv v r) in (st', Ok p)
            | Err e => (st, Err e)
            end
          else (st, bad)
      | _, _ => (st, bad)
      end
  (* sample_graph.py:71-82 *)
  | KGB p n e =>
      match get_prov h p with
      | None => (st, bad)
      | Some _ =>
          match node_cell st n with
          | None => (st, bad)
          | Some (st1, n') =>
              match edge_cell st1 e with
              | None => (st, bad)
              | Some (st2, e') => new_gb o st2 p n' e'
              end
          end
      end
  (* sample_graph.py:84-85 *)
  | KGBCopy b =>
      match h !! b, get_gb h b with
      | Some (HGB p _ _ _), Some bv => fresh_gb o st p (b_nodes bv) (b_edges bv)
      | _, _ => (st, bad)
      end
  | KGBCall b m =>
      match h !! b, get_gb h b with
      | Some (HGB p n e x), Some bv =>
          let '(bv', r) := run_method o h bv m in
          let st' := write (write (write st n (MNodes (b_nodes bv'))) e (MEdges (b_edges bv')))
                       x (MEnds (b_endpoints bv')) in
          match r with
          | Ok (Some s) => let '(st'', a) := alloc st' (HGraph (s_cp s) (s_g s)) in (st'', Ok a)
          | Ok None => (st', Ok b)
          | Err e => (st', Err e)
          end
      | _, _ => (st, bad)
      end
  (* sample_graph.py:352-361 *)
  | KGraphBuilder a =>
      match get_graph h a with
      | Some s => fresh_gb o st (s_cp s) (g_nodes (s_g s)) (g_edges (s_g s))
      | None => (st, bad)
      end
  (* sample_set.py:276-281 *)
  | KSB p d =>
      match get_prov h p, d with
      | Some _, None => fresh_sb st p ∅
      | Some _, Some a =>
          match get_dict h a with
          | Some m => if bool_decide (a ∈ st_own st) then fresh_sb st p m else (st, bad)
          | None => (st, bad)
          end
      | None, _ => (st, bad)
      end
  (* sample_set.py:286-291 *)
  | KSBCopy b =>
      match get_samples h b with
      | Some ss => if is_sb h b then fresh_sb st (cp_id (ss_cp ss)) (ss_map ss) else (st, bad)
      | None => (st, bad)
      end
  (* sample_set.py:293-308 *)
  | KSBAdd b g c =>
      match get_samples h b, get_graph h g with
      | Some ss, Some s => if is_sb h b then run_sb st b (ssb_add ss s c) else (st, bad)
      | _, _ => (st, bad)
      end
  (* sample_set.py:310-318 *)
  | KSBAddAll b s =>
      match get_samples h b, get_samples h s with
      | Some ss, Some ss2 => if is_sb h b then run_sb st b (ssb_add_all o ss ss2) else (st, bad)
      | _, _ => (st, bad)
      end
  (* sample_set.py:320-329 *)
  | KSBRemove b g =>
      match get_samples h b, get_graph h g with
      | Some ss, Some s =>
          if is_sb h b then
            match ssb_remove ss s with (ss', r) => run_sb st b (ss', _ ← r; Ok tt) end
          else (st, bad)
      | _, _ => (st, bad)
      end
  (* sample_set.py:331-339 *)
  | KSBRemoveAll b s =>
      match get_samples h b, get_samples h s with
      | Some ss, Some ss2 => if is_sb h b then run_sb st b (ssb_remove_all o ss ss2) else (st, bad)
      | _, _ => (st, bad)
      end
  (* sample_set.py:348-353 *)
  | KSBEmpty b =>
      match get_samples h b with
      | Some ss => if is_sb h b then fresh_set st (cp_id (ss_cp ss)) ∅ else (st, bad)
      | None => (st, bad)
      end
  (* sample_set.py:355-360 *)
  | KSBBuild b =>
      match get_samples h b with
      | Some ss => if is_sb h b then fresh_set st (cp_id (ss_cp ss)) (ss_map ss) else (st, bad)
      | None => (st, bad)
      end
  (* sample_set.py:81-88 *)
  | KSet p d =>
      match get_prov h p, get_dict h d with
      | Some _, Some m => if bool_decide (d ∈ st_own st) then fresh_set st p m else (st, bad)
      | _, _ => (st, bad)
      end
  (* sample_set.py:104-109 *)
  | KSetBuilder s =>
      match get_samples h s with
      | Some ss => if is_set h s then fresh_sb st (cp_id (ss_cp ss)) (ss_map ss) else (st, bad)
      | None => (st, bad)
      end
  (* sample_set.py:111-124; the builder it uses is not reachable afterwards *)
  | KUnion s t =>
      match get_samples h s, get_samples h t with
      | Some ss, Some ss2 =>
          if is_set h s && is_set h t then
            match ss_union o ss ss2 with
            | Ok r => fresh_set st (cp_id (ss_cp ss)) (ss_map r)
            | Err e => (st, Err e)
            end
          else (st, bad)
      | _, _ => (st, bad)
      end
  (* sample_set.py:126-132 *)
  | KFilter s f =>
      match get_samples h s with
      | Some ss =>
          if is_set h s then fresh_set st (cp_id (ss_cp ss)) (ss_map (filter_samples f ss)) else (st, bad)
      | None => (st, bad)
      end
  (* sample_set.py:44-49 *)
  | KItems s =>
      match get_samples h s with
      | Some ss =>
          let '(st', a) := alloc st (MItems (list_to_set (map_to_list (ss_map ss)))) in (hold st' a, Ok a)
      | None => (st, bad)
      end
  (* sample_set.py:51-56 *)
  | KSamples s =>
      match get_samples h s with
      | Some ss => let '(st', a) := alloc st (MSamples (dom (ss_map ss))) in (hold st' a, Ok a)
      | None => (st, bad)
      end
  (* relation_graph.py:36-53: line 50 keeps a non-empty builder it was given *)
  | KRGB p out =>
      match get_prov h p with
      | None => (st, bad)
      | Some cp =>
          let new :=
            match fresh_sb st p ∅ with
            | (st', Ok b) => new_rgb st' p b cp
            | (st', Err e) => (st', Err e)
            end in
          match out with
          | None => new
          | Some b =>
              match get_samples h b with
              | Some ss =>
                  if is_sb h b then if ss_bool ss then new_rgb st p b cp else new else (st, bad)
              | None => (st, bad)
              end
          end
      end
  (* relation_graph.py:75-89 *)
  | KRGBAdd r g c =>
      match h !! r with
      | Some (HRGB p b _ _) =>
          match get_prov h p, get_samples h b, get_graph h g with
          | Some cp, Some ss, Some s =>
              match add_outcome (RGBuilder cp ss) s c with
              | (rb, x) => run_sb st b (rb_out rb, x)
              end
          | _, _, _ => (st, bad)
          end
      | _ => (st, bad)
      end
  (* relation_graph.py:175-186, :195-204 *)
  | KRGBuild r =>
      match h !! r with
      | Some (HRGB p b _ _) =>
          match get_prov h p, get_samples h b with
          | Some cp, Some ss =>
              match rgb_build (RGBuilder cp ss) with
              | Ok _ =>
                  match fresh_set st (cp_id (ss_cp ss)) (ss_map ss) with
                  | (st', Ok s) =>
                      let '(st'', g) := alloc st' (HRG p s (cp_vars cp) (cp_rels cp)) in (st'', Ok g)
                  | (st', Err e) => (st', Err e)
                  end
              | Err e => (st, Err e)
              end
          | _, _ => (st, bad)
          end
      | _ => (st, bad)
      end
  (* sample_space.py:62-73: a new builder of the outcomes, kept by the new object when non-empty *)
  | KRGBuilder g =>
      match h !! g with
      | Some (HRG p s _ _) =>
          match get_prov h p, get_samples h s with
          | Some cp, Some ss =>
              match fresh_sb st (cp_id (ss_cp ss)) (ss_map ss) with
              | (st', Ok b) =>
                  if ss_bool ss then new_rgb st' p b cp
                  else match fresh_sb st' p ∅ with
                       | (st'', Ok b') => new_rgb st'' p b' cp
                       | (st'', Err e) => (st'', Err e)
                       end
              | (st', Err e) => (st', Err e)
              end
          | _, _ => (st, bad)
          end
      | _ => (st, bad)
      end
  (* sample_space.py:52 *)
  | KOutcomes g =>
      match h !! g with
      | Some (HRG _ s _ _) => (st, Ok s)
      | _ => (st, bad)
      end
  (* sample_space.py:75-84: the same outcomes object, new snapshots *)
  | KRelationGraph g =>
      match h !! g with
      | Some (HRG p s _ _) =>
          match get_prov h p with
          | Some cp =>
              let '(st', a) := alloc st (HRG p s (cp_vars cp) (cp_rels cp)) in (st', Ok a)
          | None => (st, bad)
          end
      | _ => (st, bad)
      end
  end.

(** A history: each call runs with its own iteration orders. *)
Fixpoint run (st : state) (l : list (oracle * call)) : state :=
  match l with
  | [] => st
  | (o, c) :: l' => run (step o st c).1 l'
  end.

Definition start : state := State ∅ ∅.

(** The states a client can bring about. *)
Definition reachable (st : state) : Prop := exists l, st = run start l.

(** ** What a client sees of an object *)

Inductive seen :=
  | SGraph (p : addr) (g : graph)
  | SSet (p : addr) (m : gmap graph Z) (len : Z)
  | SSpace (p : addr) (m : gmap graph Z) (len : Z) (vs : gmap Var (gset Val)) (rs : gset Rel)
  | SSetBuilder (p : addr) (m : gmap graph Z)
  | SSpaceBuilder (p : addr) (m : gmap graph Z) (vs : gmap Var (gset Val)) (rs : gset Rel)
  | SGraphBuilder (p : addr) (X : gset node) (Y : gset edge) (m : gmap (gset node) edge)
  | SProvider (vs : gmap Var (gset Val)) (rs : gset Rel).

Definition see (h : heap) (a : addr) : option seen :=
  match h !! a with
  | Some (HGraph p g) => Some (SGraph p g)
  | Some (HSet p d len) => m ← get_dict h d; Some (SSet p m len)
  | Some (HRG p s vs rs) =>
      match h !! s with
      | Some (HSet _ d len) => m ← get_dict h d; Some (SSpace p m len vs rs)
      | _ => None
      end
  | Some (HSB p d) => m ← get_dict h d; Some (SSetBuilder p m)
  | Some (HRGB p b vs rs) =>
      match h !! b with
      | Some (HSB _ d) => m ← get_dict h d; Some (SSpaceBuilder p m vs rs)
      | _ => None
      end
  | Some (HGB p n e x) =>
      match h !! n, h !! e, h !! x with
      | Some (MNodes X), Some (MEdges Y), Some (MEnds m) => Some (SGraphBuilder p X Y m)
      | _, _, _ => None
      end
  | Some (HProv v r) =>
      match h !! v, h !! r with
      | Some (MVars m), Some (MRels X) => Some (SProvider m X)
      | _, _ => None
      end
  | _ => None
  end.

End heap.
