(** * SpecSubgraphs: what playaround/number_of_subgraphs.py should draw (C61) *)

From Coq Require Import ZArith String Ascii.
From Verif Require Export SpecDraw Subgraphs.

Local Notation txt := (list N).

(** A graph with typed edges on the nodes 1 to [n]: some edges [(a, b, t)] with [a < b], at most one between two nodes. *)
Record typed_graph (n : Z) (S : gset (Z * Z * txt)) : Prop := {
  tg_some : S <> ∅;
  tg_edge : forall a b t, (a, b, t) ∈ S -> (1 <= a)%Z /\ (a < b)%Z /\ (b <= n)%Z /\ (t = lit "AB" \/ t = lit "BA");
  tg_one : forall a b t t', (a, b, t) ∈ S -> (a, b, t') ∈ S -> t = t'
}.

(** The name of node [a] in the graph number [j]. *)
Definition named_in (j a : Z) : txt := lit "N" ++ int_text a ++ lit "_" ++ int_text j.

(** The drawing has the single nodes 1 to [n], numbered 0, and the graphs of [L] next to each other, numbered from 1. *)
Record draws_all (n : Z) (L : list (gset (Z * Z * txt))) (net : network txt) : Prop := {
  da_ids : NoDup (nw_nodes net).*1;
  da_nodes : forall i t k, (i, (t, k)) ∈ nw_nodes net <->
    t = i /\ k = None /\
    ((exists a, (1 <= a <= n)%Z /\ i = named_in 0 a) \/
     exists j S a b ty, L !! j = Some S /\ ((a, b, ty) ∈ S \/ (b, a, ty) ∈ S) /\ i = named_in (Z.of_nat (1 + j)) a);
  da_once : NoDup (nw_edges net);
  da_edges : forall x y t k, (x, y, (t, k)) ∈ nw_edges net <->
    k = None /\ exists j S a b, L !! j = Some S /\ (a, b, t) ∈ S /\
      x = named_in (Z.of_nat (1 + j)) a /\ y = named_in (Z.of_nat (1 + j)) b
}.

(** Three possibilities for every pair of nodes: no edge or one of the two types. *)
Definition all_numbers (n : Z) : Z := (3 ^ (n * (n - 1) / 2))%Z.
