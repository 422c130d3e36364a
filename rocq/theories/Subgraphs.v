(** * Subgraphs: playaround/number_of_subgraphs.py

    Draws every graph on the nodes 1 to n whose edges have one of two types, and compares their number with a formula.
    Paths are relative to /repo/Python/research/scripts/.  The printing is left out. *)

From Coq Require Import ZArith String Ascii.
From Flocq Require Import IEEE754.BinarySingleNaN.
From Verif Require Export Base RelationGraph Text ActFloats Draw.

Local Notation txt := (list N).

(** number_of_subgraphs.py:28: [list(range(1, n + 1))] *)
Definition node_ids (n : Z) : list Z := Z.of_nat <$> seq 1 (Z.to_nat n).

(** number_of_subgraphs.py:34-38; the loops over lists have one order. *)
Definition pair_edges (ids : list Z) : list (Z * Z) :=
  fold_left (fun acc n1 => fold_left (fun acc n2 =>
    if bool_decide (n1 ≠ n2) && bool_decide ((n2, n1) ∉ acc) then acc ++ [(n1, n2)] else acc) ids acc) ids [].

(** number_of_subgraphs.py:45 *)
Definition edge_types : list txt := [lit "AB"; lit "BA"].

(** number_of_subgraphs.py:51-60.  The condition compares the set of [i < len(types) - 1] with [{False}]: the empty
    list passes.  The inner loop (:55-58) is the one of relation_graph.py:142-145. *)
Fixpoint index_loop (fuel : nat) (top : Z) (idx : list Z) : res (list (list Z)) :=
  match fuel with
  | O => Err OutOfFuel
  | S k =>
      if bool_decide (idx = []) || existsb (fun i => bool_decide (i < top)%Z) idx
      then idx' ← odo_next top idx; r ← index_loop k top idx'; Ok (idx' :: r)
      else Ok []
  end.

(** number_of_subgraphs.py:67: [((len(types) + 1) ** ((n * (n - 1)) / 2)) + n].  The exponent is a float and a whole
    number; the power of an [int] and a float is a float.  It is taken to be the nearest double ([z2f], OverflowError if
    there is none), as C libraries do for powers that are doubles.  [n * (n - 1) / 2] is exact for [n] up to 2^26, above
    that the power overflows. *)
Definition counted_size (n : Z) : res b64 :=
  p ← z2f (3 ^ (n * (n - 1) / 2));
  m ← z2f n;
  Ok (fadd p m).

(** Python compares an [int] and a float exactly. *)
Definition int_eq_float (z : Z) (f : b64) : bool :=
  match f with
  | B754_zero _ => bool_decide (z = 0%Z)
  | B754_finite s m e _ =>
      let v := if s then Zneg m else Zpos m in
      if bool_decide (0 <= e)%Z then bool_decide (z = v * 2 ^ e)%Z else bool_decide (z * 2 ^ (- e) = v)%Z
  | _ => false
  end.

(** number_of_subgraphs.py:82, :95, :101: [f"N{nid}_{i}"] *)
Definition sub_node (a i : Z) : txt := lit "N" ++ int_text a ++ lit "_" ++ int_text i.

(** number_of_subgraphs.py:84-101: one graph.  The title of a line is its label here. *)
Definition chosen (es : list (Z * Z)) (idx : list Z) : list (Z * Z * Z) :=
  filter (fun p => 0 <= p.2)%Z (zip es idx).
Definition piece_calls (o : oracle) (es : list (Z * Z)) (i : Z) (idx : list Z) : list (dcall txt) :=
  let l := chosen es idx in
  ((fun a => DNode (sub_node a i) (sub_node a i) None) <$>
     iter_set o (list_to_set (l ≫= fun p => [p.1.1; p.1.2]) : gset Z)) ++
  ((fun p => DEdge (sub_node p.1.1 i) (sub_node p.1.2 i) (default [] (edge_types !! Z.to_nat p.2)) None) <$> l).

(** number_of_subgraphs.py:24-103 [make_all_sub_graphs] *)
Definition make_all_sub_graphs (o : oracle) (n : Z) : res (network txt) :=
  let ids := node_ids n in
  let es := pair_edges ids in
  _ ← passert (bool_decide (NoDup es));
  let top := (Z.of_nat (length edge_types) - 1)%Z in
  indices ← index_loop (S (S (length edge_types) ^ length es)) top (replicate (length es) (-1)%Z);
  let built := (Z.of_nat (length indices) + Z.of_nat (length ids) + 1)%Z in
  counted ← counted_size n;
  (* the message of this assertion calls [set] on lists *)
  _ ← (if bool_decide (NoDup indices) then Ok tt else Err TypeError);
  _ ← passert (int_eq_float built counted);
  net ← do_calls (fun _ => true) (sub o 0) blank ((fun a => DNode (sub_node a 0) (sub_node a 0) None) <$> ids);
  for_res (fun o' net '(i, idx) => do_calls (fun _ => true) (sub o' 0) net (piece_calls (sub o' 1) es (Z.of_nat (S i)) idx))
    (sub o 1) net (imap (fun i idx => (i, idx)) indices).
