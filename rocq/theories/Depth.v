(** * Depth: functions of the library that call themselves, with a limit on nested calls (sample_graph.py)

    Python raises RecursionError when calls are nested too deeply (by default about 1000).  Here [limit] bounds the nested
    calls of one function and [OutOfFuel] stands for RecursionError. *)

From Verif Require Export SampleGraph.

Section depth.
Context {U : Universe}.

(** sample_graph.py:34-57 [is_edges_connected], where [trace] may be nested [limit] times. *)
Definition is_edges_connected_within (limit : nat) (o : oracle) (es : gset edge) : res bool :=
  tm ← tracing_map (sub o 0) es;
  match iter_map (sub o 1) tm with
  | [] => Err StopIteration
  | (start, _) :: _ =>
      traced ← trace limit (sub o 2) tm ∅ start;
      Ok (bool_decide (size tm = size traced))
  end.

(** [external_nodes_fuel] of SampleGraph.v has its limit already. *)

(** sample_graph.py:201-248 [join_sample] for a sample with edges, where [join_edges] may be nested [limit] times. *)
Definition join_sample_within (limit : nat) (o : oracle) (b : builder) (s : sample) : builder * res unit :=
  if is_compatible s (b_cp b) && negb (bool_decide (g_edges (s_g s) = ∅))
  then join_edges limit o b (g_edges (s_g s))
  else join_sample o b s.

End depth.
