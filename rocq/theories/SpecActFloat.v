(** * SpecActFloat: specification vocabulary for activation graphs in floats (C54) *)

From Coq Require Import ZArith Reals Qcanon String Ascii.
From Flocq Require Import IEEE754.BinarySingleNaN.
From Verif Require Export SpecAct SpecFloats ActFloats.

Local Open Scope R_scope.

(** A finite double from 0 to 1. *)
Definition unit_double (f : binary_float 53 1024) : Prop := is_finite f = true /\ 0 <= B2R f <= 1.

(** Both dictionaries have the same keys, and related values. *)
Definition same_keys `{Countable K} {A B} (R : A -> B -> Prop) (m : gmap K A) (m' : gmap K B) : Prop :=
  forall k, match m !! k, m' !! k with
            | Some a, Some b => R a b
            | None, None => True
            | _, _ => False
            end.

Section spec.
Context {U : Universe}.

(** The float weight [wf] of an exact weight [w] computed from [n] outcomes: the nearest double if the variable is in
    the evidence, and otherwise at most [n + 3] rounding errors away. *)
Definition weight_ok (n : nat) (in_query : bool) (wf : binary_float 53 1024) (w : Qc) : Prop :=
  unit_double wf /\
  Rabs (B2R wf - real_of w) <= (INR n + 3) * (21 / 20) * / 2 ^ 53 /\
  (in_query = true -> nearest_double wf (real_of w)).

Definition node_ok (n : nat) (af : fanode) (a : anode) : Prop :=
  fa_in_query af = an_in_query a /\ same_keys (weight_ok n (an_in_query a)) (fa_values af) (an_values a).

(** The float graph has the counts, edges, variables, values and flags of the exact one, and nearly its weights. *)
Definition float_graph_ok (n : nat) (fg : fagraph) (ag : agraph) : Prop :=
  fa_total fg = ag_total ag /\ fa_edges fg = ag_edges ag /\ same_keys (node_ok n) (fa_nodes fg) (ag_nodes ag).

(** Two executions end in the same way. *)
Definition same_outcome {A B} (R : A -> B -> Prop) (x : res A) (y : res B) : Prop :=
  match x, y with Ok a, Ok b => R a b | Err e, Err e' => e = e' | _, _ => False end.

(** A shade of red from 00 to FF. *)
Definition hex_of (d : Z) (c : ascii) : Prop :=
  (0 <= d <= 15)%Z /\ String.get (Z.to_nat d) "0123456789ABCDEF" = Some c.
Definition red_shade (n : Z) (s : string) : Prop :=
  exists a b, hex_of (n / 16) a /\ hex_of (n mod 16) b /\ s = String "#" (String a (String b "0000")).

(** [w] is the largest weight of the node. *)
Definition largest (a : fanode) (w : binary_float 53 1024) : Prop :=
  (exists x, fa_values a !! x = Some w) /\ forall x w', fa_values a !! x = Some w' -> B2R w' <= B2R w.

End spec.
