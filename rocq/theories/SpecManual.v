(** * SpecManual: what the manual computation should give (C68) *)

From Coq Require Import String.
From Verif Require Export Manual.

(** The sum of the numbers of all keys that satisfy [P]. *)
Definition mass (P : gset string -> bool) (x : table) : Qc :=
  qsum ((fun kv => if P kv.1 then kv.2 else 0%Qc) <$> map_to_list x).
Definition with_value (e : string) (k : gset string) : bool := bool_decide (e ∈ k).
Definition any_key (k : gset string) : bool := true.

(** A table for one variable: every key is a single value. *)
Definition single_variable (r : table) : Prop := forall k p, r !! k = Some p -> exists a, k = {[a]}.

(** No key of [x] has two values of [r]. *)
Definition one_value_of (r x : table) : Prop :=
  forall k c a b, is_Some (r !! {[a]}) -> is_Some (r !! {[b]}) -> x !! k = Some c -> a ∈ k -> b ∈ k -> a = b.

(** The product of the numbers that the tables give to the values of [k]. *)
Inductive weighs : list table -> gset string -> Qc -> Prop :=
  | weighs_nil k : weighs [] k 1%Qc
  | weighs_cons r rs k a p q : a ∈ k -> r !! {[a]} = Some p -> weighs rs k q -> weighs (r :: rs) k (p * q)%Qc.

(** [var] is a part of the name [e]. *)
Definition name_has (var e : string) : Prop := exists a b : string, e = (a ++ var ++ b)%string.

(** Every key has exactly one value with [var] in its name. *)
Definition one_named (var : string) (x : table) : Prop :=
  forall k c, x !! k = Some c -> exists e, forall e', e' ∈ k /\ name_has var e' <-> e' = e.
