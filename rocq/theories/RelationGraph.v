(** * RelationGraph: model of relation_graph.py *)

From Verif Require Export SampleSpace.

Section relation_graph.
Context {U : Universe}.

(** ** RelationGraphBuilder *)

(** relation_graph.py:36-53: provider and the mutable outcomes builder.  [variables]/[relations] are the
    provider's; names and the id counter only affect sample names. *)
Record rgbuilder := RGBuilder { rb_cp : provider; rb_out : samples }.

(** relation_graph.py:36-53 [__init__].  [i] is the identity a freshly created provider gets.  An
    [outcomes] builder without samples is falsy and is replaced by a new one (line 50). *)
Definition rgb_init (i : nat) (vs : option (gmap Var (gset Val))) (rs : option (gset Rel))
    (outcomes : option samples) (cp : option provider) : res rgbuilder :=
  p ← match cp with
      | Some p => Ok p
      | None =>
          match vs, rs with
          | Some vs, Some rs =>
              _ ← passert (bool_decide (vs ≠ ∅) && bool_decide (rs ≠ ∅));
              provider_init i vs rs
          | _, _ => Err AssertionError
          end
      end;
  Ok (RGBuilder p (match outcomes with
                   | Some b => if ss_bool b then b else ssb_new p
                   | None => ssb_new p
                   end)).

(** sample_space.py:62-73 [SampleSpace.builder] *)
Definition sp_builder (sp : space) : res rgbuilder :=
  rgb_init 0 None None (Some (sp_out sp)) (Some (sp_cp sp)).

(** relation_graph.py:75-89 [add_outcome] *)
Definition add_outcome (b : rgbuilder) (s : sample) (c : Z) : rgbuilder * res unit :=
  if is_compatible s (rb_cp b) && bool_decide (1 <= c)%Z then
    match ssb_add (rb_out b) s c with
    | (out, r) => (RGBuilder (rb_cp b) out, r)
    end
  else (b, Err AssertionError).

(** relation_graph.py:91-100 [add_outcomes] *)
Fixpoint add_outcomes (b : rgbuilder) (l : list sample) (c : Z) : rgbuilder * res unit :=
  match l with
  | [] => (b, Ok tt)
  | s :: l' => match add_outcome b s c with
               | (b', Ok _) => add_outcomes b' l' c
               | (b', Err e) => (b', Err e)
               end
  end.

(** relation_graph.py:109-115 [build_sample]: the given function gets a new builder. *)
Definition build_sample (b : rgbuilder) (f : builder -> res sample) : rgbuilder * res unit :=
  match f (new_builder (rb_cp b)) with
  | Ok s => add_outcome b s 1
  | Err e => (b, Err e)
  end.

(** relation_graph.py:175-186 [build] *)
Definition rgb_build (b : rgbuilder) : res space :=
  _ ← passert (ss_bool (rb_out b));
  Ok (Space (rb_cp b) (rb_out b)).

(** relation_graph.py:142-145: [index_acc[i]] may raise IndexError; the digits start at -1. *)
Fixpoint odo_next (top : Z) (l : list Z) : res (list Z) :=
  match l with
  | [] => Err IndexError
  | d :: l' => if bool_decide (top <= d)%Z then r ← odo_next top l'; Ok ((-1)%Z :: r)
               else Ok ((d + 1)%Z :: l')
  end.

(** relation_graph.py:138-146: the while loop; [top] is [len(indexed_relations) - 1]. *)
Fixpoint odo_loop (fuel : nat) (top : Z) (idx : list Z) : res (list (list Z)) :=
  match fuel with
  | O => Err OutOfFuel
  | S k =>
      if existsb (fun i => bool_decide (i < top)%Z) idx
      then idx' ← odo_next top idx; r ← odo_loop k top idx'; Ok (idx' :: r)
      else Ok []
  end.

(** relation_graph.py:152-155 [active_edges] *)
Definition active_edges (eps : list (gset node)) (rels : list Rel) (idx : list Z) : gset edge :=
  list_to_set (omap (fun '(ep, i) =>
      if bool_decide (0 <= i)%Z
      then r ← rels !! Z.to_nat i; Some (ep, Plain r) else None) (zip eps idx)).

(** relation_graph.py:133-135 [all_endpoints] *)
Definition all_endpoints (o : oracle) (ns : list node) : list (gset node) :=
  iter_set o (list_to_set (n2 ← ns; n1 ← ns; if bool_decide (n1 ≠ n2) then [{[n1; n2]}] else [])
              : gset (gset node)).

(** relation_graph.py:126-131: variables with their values as a list; the first value is the one the
    generator starts from ([values[0]] raises IndexError on an undeclared-values variable). *)
Definition indexed_variables (o : oracle) (cp : provider) : list (Var * list Val) :=
  (fun '(v, X) => (v, iter_set (sub o 0) X)) <$> iter_map o (cp_vars cp).

Definition first_nodes (ivs : list (Var * list Val)) : res (list node) :=
  map_res (fun _ '(v, xs) => match xs with x :: _ => Ok (v, x) | [] => Err IndexError end)
    (fun _ => []) ivs.

(** relation_graph.py:162-167: the outcomes added for one variable. *)
Definition replaced_outcomes (o : oracle) (b : rgbuilder) (v : Var) (xs : list Val)
  : res (list sample) :=
  l ← map_res (fun o' g =>
        if bool_decide (v ∈ included_variables g)
        then map_res (fun o'' x =>
               r ← transform_with_replaced_values o'' (rb_cp b) {[v := x]} g;
               Ok (sample_of (rb_out b) r.2)) o' (tail xs)
        else Ok []) (sub o 0) (iter_set o (ss_samples (rb_out b)));
  Ok (concat l).

(** relation_graph.py:117-173 [generate_all_possible_outcomes].  The while loop cannot run more than
    [(number of relations + 1) ^ (number of pairs)] times. *)
Definition generate_all_possible_outcomes (o : oracle) (b : rgbuilder) : rgbuilder * res unit :=
  if ss_bool (rb_out b) then (b, Err AssertionError) else
  let ivs := indexed_variables (sub o 0) (rb_cp b) in
  let rels := iter_set (sub o 1) (cp_rels (rb_cp b)) in
  match first_nodes ivs with
  | Err e => (b, Err e)
  | Ok ns =>
      let eps := all_endpoints (sub o 2) ns in
      match odo_loop (S (S (length rels) ^ length eps)) (Z.of_nat (length rels) - 1)
              (replicate (length eps) (-1)%Z) with
      | Err e => (b, Err e)
      | Ok idxs =>
          match for_mut (fun _ b '(v, x) => build_sample b (fun sb => build_single_node sb v x))
                  (sub o 3) b ns with
          | (b1, Err e) => (b1, Err e)
          | (b1, Ok _) =>
              match for_mut (fun o' b idx =>
                      let es := active_edges eps rels idx in
                      match is_edges_connected (sub o' 0) es with
                      | Err e => (b, Err e)
                      | Ok false => (b, Ok tt)
                      | Ok true => build_sample b (fun sb => (build_from_edges (sub o' 1) sb es false).2)
                      end) (sub o 4) b1 idxs with
              | (b2, Err e) => (b2, Err e)
              | (b2, Ok _) =>
                  match for_mut (fun o' b '(v, xs) =>
                          match replaced_outcomes o' b v xs with
                          | Err e => (b, Err e)
                          | Ok l => add_outcomes b l 1
                          end) (sub o 5) b2 ivs with
                  | (b3, Err e) => (b3, Err e)
                  | (b3, Ok _) =>
                      (b3, passert (bool_decide (map_Forall (fun _ c => c = 1%Z) (ss_map (rb_out b3)))))
                  end
              end
          end
      end
  end.

(** ** RelationGraph *)

(** conditional_graph.py:30-45 [ConditionalGraph.__init__] *)
Record cgraph := CGraph { cg_space : space; cg_evidence : sample }.

(** relation_graph.py:219-239 [conditional_graph] *)
Definition conditional_graph (sp : space) (ev : sample) : res cgraph :=
  _ ← passert (is_compatible ev (sp_cp sp));
  Ok (CGraph (Space (sp_cp sp) (Samples (sp_cp sp)
        (filter (fun kv => is_subgraph (s_g ev) kv.1
                           || bool_decide (included_variables (s_g ev) ∩ included_variables kv.1 = ∅) = true)
           (ss_map (sp_out sp))))) ev).

(** relation_graph.py:251-261 [cross_join] *)
Fixpoint cross_join (o : oracle) (cp : provider) (groups : list samples) (joints : samples)
  : res samples :=
  match groups with
  | [] =>
      if ss_bool joints && is_all_values_match (sub o 0) joints then
        '(s, cs) ← make_joined_sample (sub o 1) joints;
        match ssb_add (ssb_new cp) s (zprod cs) with
        | (b, Ok _) => Ok b
        | (_, Err e) => Err e
        end
      else Ok (ssb_new cp)
  | g0 :: gs =>
      for_res (fun o' ssb '(g, c) =>
          match ssb_add joints (sample_of g0 g) c with
          | (_, Err e) => Err e
          | (j, Ok _) =>
              r ← cross_join (sub o' 0) cp gs j;
              match ssb_add_all (sub o' 1) ssb r with
              | (b, Ok _) => Ok b
              | (_, Err e) => Err e
              end
          end) (sub o 0) (ssb_new cp) (ss_items (sub o 1) g0)
  end.

(** relation_graph.py:263-268: one iteration of the loop of [joined_on_variables]. *)
Definition join_on (o : oracle) (cp : provider) (acc : samples) (v : Var) : res samples :=
  let sel := filter_samples (fun g => bool_decide (v ∈ included_variables g)) acc in
  grouped ← group_intersecting (sub o 0) sel;
  joined ← cross_join (sub o 1) cp (iter_map (sub o 2) grouped).*2 (ssb_new cp);
  match ssb_remove_all (sub o 3) acc sel with
  | (_, Err e) => Err e
  | (acc', Ok _) =>
      match ssb_add_all (sub o 4) acc' joined with
      | (_, Err e) => Err e
      | (acc'', Ok _) => Ok acc''
      end
  end.

(** relation_graph.py:241-273 [joined_on_variables]; [variables is not None] here, so an empty set means
    no variable. *)
Definition joined_on_variables (o : oracle) (sp : space) (variables : option (gset Var)) : res space :=
  let vars := match variables with
              | Some X => X
              | None => dom (sp_included_variables (sub o 0) sp)
              end in
  out ← for_res (fun o' acc v => join_on o' (sp_cp sp) acc v) (sub o 1) (sp_out sp)
          (iter_set (sub o 2) vars);
  Ok (Space (sp_cp sp) out).

(** relation_graph.py:275-285 [is_joined] *)
Definition is_joined (o : oracle) (sp : space) : bool :=
  let vs := match iter_set (sub o 0) (ss_samples (sp_out sp)) with
            | g :: _ => included_variables g
            | [] => ∅
            end in
  forallb (fun g => bool_decide (vs = included_variables g)) (iter_set (sub o 1) (ss_samples (sp_out sp))).

(** relation_graph.py:287-302 [is_factorized]; [None] stands for the early [return False]. *)
Definition is_factorized (o : oracle) (sp : space) : bool :=
  match for_each (fun _ (acc : option (gset (gset (gset Var)))) g =>
          match acc with
          | None => None
          | Some A =>
              if is_k_0 g then None
              else
                let ep := edges_endpoint_variables g in
                if bool_decide (ep ∈ A) then Some A
                else if bool_decide (set_Forall (fun a : gset (gset Var) => a ∩ ep = ∅) A)
                     then Some ({[ep]} ∪ A) else None
          end) (sub o 0) (Some ∅) (iter_set o (ss_samples (sp_out sp))) with
  | Some _ => true
  | None => false
  end.

(** relation_graph.py:310-321 [join_factors] *)
Fixpoint join_factors (o : oracle) (cp : provider) (outcomes : list (gmap graph Z)) (acc : samples)
  : res samples :=
  match outcomes with
  | m :: rest =>
      l ← map_res (fun o' '(g, c) =>
            match ssb_add acc (Sample (cp_id cp) g) c with
            | (_, Err e) => Err e
            | (a, Ok _) => join_factors o' cp rest a
            end) (sub o 0) (iter_map (sub o 1) m);
      join_sample_set (sub o 2) l
  | [] =>
      can ← can_join_samples (sub o 0) acc;
      if (can : bool) then
        '(s, cs) ← make_joined_sample (sub o 1) acc;
        Ok (Samples cp {[s_g s := zprod cs]})
      else Ok (ssb_new cp)
  end.

(** relation_graph.py:325-333: one iteration of the loop over variables. *)
Definition join_variable (o : oracle) (cp : provider) (factors : gset (gmap graph Z)) (v : Var)
    (vals : gset Val) : res (gset (gmap graph Z)) :=
  let ffv := filter (fun f => ss_have_variable (Samples cp f) v = true) factors in
  let ffvl := iter_set (sub o 0) ffv in
  jf ← for_res (fun o' jf x =>
         let ofv := (fun f : gmap graph Z => filter (fun kv => have_value kv.1 v x = true) f) <$> ffvl in
         r ← join_factors (sub o' 0) cp (filter (fun m : gmap graph Z => m ≠ ∅) ofv) (ssb_new cp);
         match ssb_add_all (sub o' 1) jf r with
         | (b, Ok _) => Ok b
         | (_, Err e) => Err e
         end) (sub o 1) (ssb_new cp) (iter_set (sub o 2) vals);
  Ok ((factors ∖ ffv) ∪ {[ss_map jf]}).

(** relation_graph.py:304-341 [make_joined] *)
Definition make_joined (o : oracle) (sp : space) : res space :=
  factors ← factorized (sub o 0) sp;
  factors' ← for_res (fun o' fs '(v, vals) => join_variable o' (sp_cp sp) fs v vals) (sub o 1) factors
               (iter_map (sub o 2) (sp_included_variables (sub o 3) sp));
  _ ← passert (bool_decide (size factors' <= 1)%nat);
  Ok (Space (sp_cp sp)
        (Samples (sp_cp sp) (match elements factors' with f :: _ => f | [] => ∅ end))).

End relation_graph.
