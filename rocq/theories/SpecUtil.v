(** * SpecUtil: what the containers of the demo should do *)

From Coq Require Import ZArith Sorting.Sorted.
From stdpp Require Import base list numbers option.
From Verif Require Export Util.

Section containers.
Context {A : Type}.

(** What waits, in the order of arrival, with priorities.  One call: what waited, the call, its answer, what waits after. *)
Notation waiting := (list (Z * A)).

(** The item that has waited longest among those of the least priority is served.  [update] lowers the priority of one
    entry of the item, which keeps its place, or lets the item arrive if it does not wait. *)
Inductive by_priority : waiting -> call_of A -> answer A -> waiting -> Prop :=
| bp_push l x p : by_priority l (CPush x p) ANone (l ++ [(p, x)])
| bp_pop l1 p x l2 : (forall e, e ∈ l1 -> (p < e.1)%Z) -> (forall e, e ∈ l2 -> (p <= e.1)%Z) ->
    by_priority (l1 ++ (p, x) :: l2) CPop (AItem x) (l1 ++ l2)
| bp_pop_empty : by_priority [] CPop (ARaise DIndexError) []
| bp_update l1 p x l2 p' : by_priority (l1 ++ (p, x) :: l2) (CUpdate x p') ANone (l1 ++ (Z.min p p', x) :: l2)
| bp_update_new l x p : x ∉ l.*2 -> by_priority l (CUpdate x p) ANone (l ++ [(p, x)])
| bp_empty l : by_priority l CEmpty (ABool (bool_decide (l = []))) l.

(** First in, first out and last in, first out. *)
Inductive fifo : waiting -> call_of A -> answer A -> waiting -> Prop :=
| ff_push l x p : fifo l (CPush x p) ANone (l ++ [(p, x)])
| ff_pop p x l : fifo ((p, x) :: l) CPop (AItem x) l
| ff_pop_empty : fifo [] CPop (ARaise DIndexError) []
| ff_update l x p : fifo l (CUpdate x p) (ARaise DAttributeError) l
| ff_empty l : fifo l CEmpty (ABool (bool_decide (l = []))) l.
Inductive lifo : waiting -> call_of A -> answer A -> waiting -> Prop :=
| lf_push l x p : lifo l (CPush x p) ANone (l ++ [(p, x)])
| lf_pop l p x : lifo (l ++ [(p, x)]) CPop (AItem x) l
| lf_pop_empty : lifo [] CPop (ARaise DIndexError) []
| lf_update l x p : lifo l (CUpdate x p) (ARaise DAttributeError) l
| lf_empty l : lifo l CEmpty (ABool (bool_decide (l = []))) l.

(** A sequence of calls and its answers. *)
Inductive calls (one : waiting -> call_of A -> answer A -> waiting -> Prop) : waiting -> list (call_of A) -> list (answer A) -> Prop :=
| calls_nil l : calls one l [] []
| calls_cons l c a l' cs ans : one l c a l' -> calls one l' cs ans -> calls one l (c :: cs) (a :: ans).

(** Sorted by priority; entries of one priority stay in their order. *)
Definition stably_sorted (l k : waiting) : Prop :=
  k ≡ₚ l /\ Sorted (fun a b => (a.1 <= b.1)%Z) k /\
  forall p, filter (fun e => e.1 = p) k = filter (fun e => e.1 = p) l.
End containers.

Section counters.
Context {K : Type} `{EqDecision K}.
Notation counter := (list (K * Z)).

(** [c] counts [v] for the key [k]; keys that are not there count 0. *)
Definition counts (c : counter) (k : K) (v : Z) : Prop := (k, v) ∈ c \/ (k ∉ c.*1 /\ v = 0%Z).
(** A dictionary has every key once. *)
Definition dict (c : counter) : Prop := NoDup c.*1.
Fixpoint occurrences (k : K) (l : list K) : Z :=
  match l with [] => 0 | x :: l => (if decide (x = k) then 1 else 0) + occurrences k l end%Z.
Definition sum_over {X} (l : list X) (f : X -> Z) : Z := foldr (fun x s => (f x + s)%Z) 0%Z l.
End counters.

(** The entries in column [j] of those rows that have one. *)
Definition column {A} (a : list (list A)) (j : nat) : list A := omap (fun row => row !! j) a.

(** Reading order of cells. *)
Definition reads_before (x y : Z * Z) : Prop := (x.1 < y.1 \/ (x.1 = y.1 /\ x.2 < y.2))%Z.
