(** * Manual: manual_bayes_net_test of playaround/pgmpy_bayes_net_test.py

    Tables of a Bayesian network as dicts from frozensets of value names to numbers.  Numbers are exact rationals here.
    The orders in which dicts and frozensets are iterated are arbitrary (Base.v).  Printing is left out. *)

From Coq Require Import String.
From Verif Require Export Base.

Notation table := (gmap (gset string) Qc).

(** pgmpy_bayes_net_test.py:98-104 [cpd_product] *)
Definition cpd_product (o : oracle) (x1 x2 : table) : table :=
  for_each (fun o1 res '(k1, v1) =>
      for_each (fun _ res '(k2, v2) =>
          if bool_decide (k1 ∩ k2 = ∅) then res else <[k1 ∪ k2 := (v1 * v2)%Qc]> res)
        (sub o1 0) res (iter_map (sub o1 1) x2)) (sub o 0) ∅ (iter_map (sub o 1) x1).

(** pgmpy_bayes_net_test.py:106-108 [norm]; of an empty table nothing is divided. *)
Definition norm (x : table) : res table :=
  let t := qsum (map_to_list x).*2 in
  if bool_decide (x <> ∅) && bool_decide (t = 0%Qc) then Err ZeroDivisionError else Ok ((fun v => (v / t)%Qc) <$> x).

(** pgmpy_bayes_net_test.py:113: [var in e] for strings. *)
Definition str_in (var e : string) : bool :=
  match String.index 0 var e with Some _ => true | None => false end.

(** pgmpy_bayes_net_test.py:110-116 [margin] *)
Definition margin (o : oracle) (cpd : table) (var : string) : gmap string Qc :=
  for_each (fun o' res '(k, v) =>
      match filter (fun e => str_in var e = true) (iter_set o' k) with
      | e :: _ => <[e := (default 0%Qc (res !! e) + v)%Qc]> res
      | [] => res
      end) (sub o 0) ∅ (iter_map (sub o 1) cpd).

(** pgmpy_bayes_net_test.py:118-119 [select_value] *)
Definition select_value (cpd : table) (val : string) : table := filter (fun kv => val ∈ kv.1) cpd.

(** pgmpy_bayes_net_test.py:121, :132 and :143: [cpd_product(cpd_d, cpd_product(cpd_i, cpd_g))], for any number of tables in front
    of the last one. *)
Fixpoint joint_factor (o : oracle) (roots : list table) (child : table) : table :=
  match roots with
  | [] => child
  | r :: rs => cpd_product (sub o 0) r (joint_factor (sub o 1) rs child)
  end.
