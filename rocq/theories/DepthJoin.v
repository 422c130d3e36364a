(** * DepthJoin: joining with a limit on nested calls (relation_graph.py, sample_set.py)

    As in Depth.v [limit] bounds the nested calls and [OutOfFuel] stands for RecursionError.  One limit is shared by
    [join_factors] and the [join_sample_set] it calls, as Python's is.  Other frames (list comprehensions, [union], the
    callers) are not counted, so Python fails no later than this model. *)

From Verif Require Export RelationGraph.

Section depth_join.
Context {U : Universe}.

(** sample_set.py:262-274 [join_sample_set] *)
Fixpoint join_sample_set_within (limit : nat) (o : oracle) (l : list samples) : res samples :=
  match limit with
  | O => Err OutOfFuel
  | S k =>
      match l with
      | [] => Err AssertionError
      | [a] => Ok a
      | a :: l' => r ← join_sample_set_within k (sub o 0) l'; ss_union (sub o 1) a r
      end
  end.

(** relation_graph.py:310-321 [join_factors] *)
Fixpoint join_factors_within (limit : nat) (o : oracle) (cp : provider) (outcomes : list (gmap graph Z)) (acc : samples)
  : res samples :=
  match limit with
  | O => Err OutOfFuel
  | S k =>
      match outcomes with
      | m :: rest =>
          l ← map_res (fun o' '(g, c) =>
                match ssb_add acc (Sample (cp_id cp) g) c with
                | (_, Err e) => Err e
                | (a, Ok _) => join_factors_within k o' cp rest a
                end) (sub o 0) (iter_map (sub o 1) m);
          join_sample_set_within k (sub o 2) l
      | [] =>
          can ← can_join_samples (sub o 0) acc;
          if (can : bool) then
            '(s, cs) ← make_joined_sample (sub o 1) acc;
            Ok (Samples cp {[s_g s := zprod cs]})
          else Ok (ssb_new cp)
      end
  end.

(** relation_graph.py:325-333: one iteration of the loop over variables. *)
Definition join_variable_within (limit : nat) (o : oracle) (cp : provider) (factors : gset (gmap graph Z)) (v : Var)
    (vals : gset Val) : res (gset (gmap graph Z)) :=
  let ffv := filter (fun f => ss_have_variable (Samples cp f) v = true) factors in
  let ffvl := iter_set (sub o 0) ffv in
  jf ← for_res (fun o' jf x =>
         let ofv := (fun f : gmap graph Z => filter (fun kv => have_value kv.1 v x = true) f) <$> ffvl in
         r ← join_factors_within limit (sub o' 0) cp (filter (fun m : gmap graph Z => m ≠ ∅) ofv) (ssb_new cp);
         match ssb_add_all (sub o' 1) jf r with
         | (b, Ok _) => Ok b
         | (_, Err e) => Err e
         end) (sub o 1) (ssb_new cp) (iter_set (sub o 2) vals);
  Ok ((factors ∖ ffv) ∪ {[ss_map jf]}).

(** relation_graph.py:304-341 [make_joined] *)
Definition make_joined_within (limit : nat) (o : oracle) (sp : space) : res space :=
  factors ← factorized (sub o 0) sp;
  factors' ← for_res (fun o' fs '(v, vals) => join_variable_within limit o' (sp_cp sp) fs v vals) (sub o 1) factors
               (iter_map (sub o 2) (sp_included_variables (sub o 3) sp));
  _ ← passert (bool_decide (size factors' <= 1)%nat);
  Ok (Space (sp_cp sp)
        (Samples (sp_cp sp) (match elements factors' with f :: _ => f | [] => ∅ end))).

(** sample_set.py:134-169 [group_intersecting], where [group] may be nested [limit] times. *)
Definition group_intersecting_within (limit : nat) (o : oracle) (ss : samples) : res (gmap (gset Var) samples) :=
  let acc0 := group_init (sub o 0) ss in
  acc ← group_loop limit (sub o 1) acc0;
  grouped ← for_res (fun _ m '(k, sm) => vs ← key_vars k; Ok (<[vs := Samples (ss_cp ss) sm]> m))
              (sub o 2) ∅ (iter_map (sub o 3) acc);
  _ ← passert (bool_decide (size grouped = size acc));
  Ok grouped.

(** relation_graph.py:251-261 [cross_join] *)
Fixpoint cross_join_within (limit : nat) (o : oracle) (cp : provider) (groups : list samples) (joints : samples)
  : res samples :=
  match limit with
  | O => Err OutOfFuel
  | S k =>
      match groups with
      | [] =>
          if ss_bool joints && is_all_values_match (sub o 0) joints then
            '(s, cs) ← make_joined_sample (sub o 1) joints;
            match ssb_add (ssb_new cp) s (zprod cs) with
            | (b, Ok _) => Ok b
            | (_, Err e) => Err e
            end
          else Ok (ssb_new cp)
      | g0 :: gs =>
          for_res (fun o' ssb '(g, c) =>
              match ssb_add joints (sample_of g0 g) c with
              | (_, Err e) => Err e
              | (j, Ok _) =>
                  r ← cross_join_within k (sub o' 0) cp gs j;
                  match ssb_add_all (sub o' 1) ssb r with
                  | (b, Ok _) => Ok b
                  | (_, Err e) => Err e
                  end
              end) (sub o 0) (ssb_new cp) (ss_items (sub o 1) g0)
      end
  end.

(** relation_graph.py:263-268: one iteration of the loop of [joined_on_variables]. *)
Definition join_on_within (limit : nat) (o : oracle) (cp : provider) (acc : samples) (v : Var) : res samples :=
  let sel := filter_samples (fun g => bool_decide (v ∈ included_variables g)) acc in
  grouped ← group_intersecting_within limit (sub o 0) sel;
  joined ← cross_join_within limit (sub o 1) cp (iter_map (sub o 2) grouped).*2 (ssb_new cp);
  match ssb_remove_all (sub o 3) acc sel with
  | (_, Err e) => Err e
  | (acc', Ok _) =>
      match ssb_add_all (sub o 4) acc' joined with
      | (_, Err e) => Err e
      | (acc'', Ok _) => Ok acc''
      end
  end.

(** relation_graph.py:241-273 [joined_on_variables] *)
Definition joined_on_variables_within (limit : nat) (o : oracle) (sp : space) (variables : option (gset Var)) : res space :=
  let vars := match variables with
              | Some X => X
              | None => dom (sp_included_variables (sub o 0) sp)
              end in
  out ← for_res (fun o' acc v => join_on_within limit o' (sp_cp sp) acc v) (sub o 1) (sp_out sp)
          (iter_set (sub o 2) vars);
  Ok (Space (sp_cp sp) out).

End depth_join.
