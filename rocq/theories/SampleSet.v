(** * SampleSet: model of sample_set.py *)

From Verif Require Export SampleGraph.

Section sample_set.
Context {U : Universe}.

(** sample_set.py:28-39 [Samples]: a provider and a dict from sample graphs to counts, used both for the
    immutable [SampleSet] and the mutable [SampleSetBuilder].  Simplifications: keys are the sample
    contents (that is what [SampleGraph.__eq__]/[__hash__] use; names are display only), and all keys
    carry the provider of the collection (every public way of filling one checks this). *)
Record samples := Samples { ss_cp : provider; ss_map : gmap graph Z }.

(** The sample graph object stored under key [g]. *)
Definition sample_of (ss : samples) (g : graph) : sample := Sample (cp_id (ss_cp ss)) g.

(** sample_set.py:41-42 [__bool__] *)
Definition ss_bool (ss : samples) : bool := bool_decide (ss_map ss ≠ ∅).

(** sample_set.py:44-49 [items], as iterated. *)
Definition ss_items (o : oracle) (ss : samples) : list (graph * Z) := iter_map o (ss_map ss).

(** sample_set.py:51-56 [samples] *)
Definition ss_samples (ss : samples) : gset graph := dom (ss_map ss).

(** sample_set.py:58-64 [is_compatible] *)
Definition ss_compatible (a b : samples) : bool := bool_decide (cp_id (ss_cp a) = cp_id (ss_cp b)).

(** sample_set.py:66-73 [count_of] *)
Definition count_of (ss : samples) (g : graph) : res Z :=
  match ss_map ss !! g with Some c => Ok c | None => Err AssertionError end.

(** sample_set.py:81-88: [self.length = sum(self._samples.values())]; also :341-346 for the builder. *)
Definition map_total (m : gmap graph Z) : Z := zsum (map_to_list m).*2.
Definition ss_length (ss : samples) : Z := map_total (ss_map ss).

(** sample_set.py:93-96 [SampleSet.__eq__] *)
Definition ss_eqb (a b : samples) : bool := bool_decide (ss_map a = ss_map b).

(** ** SampleSetBuilder *)

(** sample_set.py:276-281 [__init__], :286-291 [copy], :104-109 [builder], :348-360 [empty], [build]: the
    dict is copied each time; copies are values here, aliasing is treated in Heap.v. *)
Definition ssb_new (cp : provider) : samples := Samples cp ∅.

(** sample_set.py:293-308 [add] *)
Definition ssb_add (b : samples) (s : sample) (c : Z) : samples * res unit :=
  if is_compatible s (ss_cp b)
  then (Samples (ss_cp b)
          (match ss_map b !! s_g s with
           | Some c0 => <[s_g s := (c0 + c)%Z]> (ss_map b)
           | None => <[s_g s := c]> (ss_map b)
           end), Ok tt)
  else (b, Err AssertionError).

(** sample_set.py:310-318 [add_all] *)
Definition ssb_add_all (o : oracle) (b : samples) (ss : samples) : samples * res unit :=
  for_mut (fun _ b '(g, c) => ssb_add b (sample_of ss g) c) (sub o 0) b (ss_items o ss).

(** sample_set.py:320-329 [remove] *)
Definition ssb_remove (b : samples) (s : sample) : samples * res (graph * Z) :=
  match ss_map b !! s_g s with
  | Some c => (Samples (ss_cp b) (delete (s_g s) (ss_map b)), Ok (s_g s, c))
  | None => (b, Err AssertionError)
  end.

(** sample_set.py:331-339 [remove_all] *)
Definition ssb_remove_all (o : oracle) (b : samples) (ss : samples) : samples * res unit :=
  for_mut (fun _ b g =>
      match ssb_remove b (sample_of ss g) with
      | (b', Ok _) => (b', Ok tt)
      | (b', Err e) => (b', Err e)
      end) (sub o 0) b (iter_set o (ss_samples ss)).

(** ** SampleSet *)

(** sample_set.py:111-124 [union] *)
Definition ss_union (o : oracle) (a b : samples) : res samples :=
  _ ← passert (ss_compatible a b);
  match for_mut (fun _ bld '(g, c) => ssb_add bld (sample_of b g) c) (sub o 0) a (ss_items o b) with
  | (bld, Ok _) => Ok bld
  | (_, Err e) => Err e
  end.

(** sample_set.py:262-274 [join_sample_set] *)
Fixpoint join_sample_set (o : oracle) (l : list samples) : res samples :=
  match l with
  | [] => Err AssertionError
  | [a] => Ok a
  | a :: l' => r ← join_sample_set (sub o 0) l'; ss_union (sub o 1) a r
  end.

(** sample_set.py:126-132 [filter_samples] *)
Definition filter_samples (p : graph -> bool) (ss : samples) : samples :=
  Samples (ss_cp ss) (filter (fun kv => p kv.1 = true) (ss_map ss)).

(** Keys of the groups: a frozenset of frozensets of variables, or, for a sample without edges, a
    frozenset of variables (sample_set.py:143-147, sample_space.py:262).  Simplification: a variable
    never equals a set of variables. *)
Definition gkey : Type := gset (Var + gset Var).

(** sample_set.py:143-147 *)
Definition group_key (g : graph) : gkey :=
  if bool_decide (g_edges g ≠ ∅) then set_map inr (edges_endpoint_variables g)
  else set_map inl (included_variables g).

(** sample_set.py:141-151 *)
Definition group_init (o : oracle) (ss : samples) : gmap gkey (gmap graph Z) :=
  for_each (fun _ acc '(g, c) =>
      match acc !! group_key g with
      | Some m => <[group_key g := <[g := c]> m]> acc
      | None => <[group_key g := {[g := c]}]> acc
      end) (sub o 0) ∅ (ss_items o ss).

(** sample_set.py:154-156: the first pair of different, intersecting keys in iteration order. *)
Definition intersecting_pair (p : gkey * gkey) : bool :=
  bool_decide (p.1 ≠ p.2) && negb (bool_decide (p.1 ∩ p.2 = ∅)).

Definition find_pair (ks : list gkey) : option (gkey * gkey) :=
  List.find intersecting_pair (ka ← ks; kb ← ks; [(ka, kb)]).

(** sample_set.py:157: [sample_acc[k_a | k_b] = sample_acc.pop(k_a) | sample_acc.pop(k_b)]; the right operand of [|] wins. *)
Definition merge_groups (acc : gmap gkey (gmap graph Z)) (ka kb : gkey) : gmap gkey (gmap graph Z) :=
  <[ka ∪ kb := default ∅ (acc !! kb) ∪ default ∅ (acc !! ka)]> (delete kb (delete ka acc)).

(** sample_set.py:153-160 [group] *)
Fixpoint group_loop (fuel : nat) (o : oracle) (acc : gmap gkey (gmap graph Z))
  : res (gmap gkey (gmap graph Z)) :=
  match fuel with
  | O => Err OutOfFuel
  | S k =>
      match find_pair (iter_map o acc).*1 with
      | Some (ka, kb) => group_loop k (sub o 0) (merge_groups acc ka kb)
      | None => Ok acc
      end
  end.

(** sample_set.py:162 [frozenset({v for vs in key for v in vs})]: for a single node key [vs] is the
    variable itself, which is iterated. *)
Definition key_vars (k : gkey) : res (gset Var) :=
  l ← map_res (fun _ x =>
        match x with
        | inr X => Ok (elements X)
        | inl v => match var_iter v with Some l => Ok l | None => Err TypeError end
        end) (fun _ => []) (elements k);
  Ok (list_to_set (concat l)).

(** sample_set.py:134-169 [group_intersecting] *)
Definition group_intersecting (o : oracle) (ss : samples) : res (gmap (gset Var) samples) :=
  let acc0 := group_init (sub o 0) ss in
  acc ← group_loop (S (size acc0)) (sub o 1) acc0;
  grouped ← for_res (fun _ m '(k, sm) => vs ← key_vars k; Ok (<[vs := Samples (ss_cp ss) sm]> m))
              (sub o 2) ∅ (iter_map (sub o 3) acc);
  _ ← passert (bool_decide (size grouped = size acc));
  Ok grouped.

(** sample_set.py:171-181 [can_join_samples]; [frozenset.intersection()] without arguments is a
    TypeError.  The early [return False] is the boolean accumulator staying false. *)
Definition can_join_samples (o : oracle) (ss : samples) : res bool :=
  match elements (ss_samples ss) with
  | [] => Err TypeError
  | g :: gs =>
      let common := foldr (fun g X => included_variables g ∩ X) (included_variables g) gs in
      Ok (for_each (fun o' ok v =>
            let vals : gset (option Val) :=
              for_each (fun o'' X g => {[value_for_variable o'' g v]} ∪ X) (sub o' 0) ∅
                (iter_set o' (ss_samples ss)) in
            ok && bool_decide (size vals <= 1)%nat) (sub o 0) true (iter_set o common))
  end.

(** sample_set.py:183-193 [make_joined_sample] *)
Definition make_joined_sample (o : oracle) (ss : samples) : res (sample * list Z) :=
  let items := ss_items (sub o 0) ss in
  match for_mut (fun o' b '(g, _) => join_sample o' b (sample_of ss g)) (sub o 1)
          (new_builder (ss_cp ss)) items with
  | (b, Ok _) => s ← build b; Ok (s, items.*2)
  | (_, Err e) => Err e
  end.

(** sample_set.py:195-210 [is_all_values_match]; [None] stands for the early [return False]. *)
Definition is_all_values_match (o : oracle) (ss : samples) : bool :=
  match for_each (fun o' acc '(g, _) =>
          for_each (fun _ (acc : option (gmap Var Val)) (n : node) =>
              match acc with
              | None => None
              | Some m => match m !! n.1 with
                          | Some x => if bool_decide (x ≠ n.2) then None else Some m
                          | None => Some (<[n.1 := n.2]> m)
                          end
              end) (sub o' 0) acc (iter_set o' (g_nodes g)))
        (sub o 0) (Some ∅) (ss_items o ss) with
  | Some _ => true
  | None => false
  end.

(** sample_set.py:212-222 [probabilities].  The set of pairs has one pair per sample, so its sum is the
    sum over the samples. *)
Definition probabilities (ss : samples) : res (gmap graph Qc) :=
  if bool_decide (ss_map ss ≠ ∅) && bool_decide (ss_length ss = 0%Z) then Err ZeroDivisionError
  else
    let props := (fun c => qdiv c (ss_length ss)) <$> ss_map ss in
    _ ← passert (isclose_one (qsum (map_to_list props).*2));
    Ok props.

(** sample_set.py:224-245 [have_value], [have_variable] *)
Definition ss_have_value (ss : samples) (v : Var) (x : Val) : bool :=
  existsb (fun g => have_value g v x) (elements (ss_samples ss)).
Definition ss_have_variable (ss : samples) (v : Var) : bool :=
  existsb (fun g => have_variable g v) (elements (ss_samples ss)).

(** sample_set.py:247-254 [probability_of] *)
Definition probability_of (ss : samples) (g : graph) : res Qc :=
  match ss_map ss !! g with
  | Some c => py_div c (ss_length ss)
  | None => Err AssertionError
  end.

End sample_set.
