(** * Sampling: the sampling functions of the demo (demo/util.py)

    Random numbers are arguments here, in the order in which [random.random()] gives them.  Distributions are lists of
    floats; a list is read from its head on, so [distribution[i]] and [values[i]] for a growing [i] are the heads of what is
    left of the lists. *)

From Coq Require Import ZArith.
From Flocq Require Import IEEE754.BinarySingleNaN.
From stdpp Require Import base list numbers option sorting.
From Verif Require Export Agents.

Section sampling.
(** The version of [sum], as in Floats.v. *)
Context (py_sum : list b64 -> b64).
Context {A : Type}.

(** util.py:476-477 and 496-497 *)
Definition normalized (d : list b64) : list b64 := if Beqb (py_sum d) f_one then d else vec_normalize py_sum d.

(** util.py:479 [rand.sort()]; the comparison is [<]. *)
Definition f_le (x y : b64) : Prop := Bltb y x = false.
Global Instance f_le_dec : RelDecision f_le.
Proof. intros x y. unfold f_le. apply _. Defined.

(** util.py:482-488: the loop of [nSample]; [cdf] is the sum so far, [dist] are the probabilities after [distPos], [vs] the
    values from [distPos] on, [rand] the numbers from [samplePos] on. *)
Fixpoint n_loop (cdf : b64) (dist : list b64) (vs : list A) (rand : list b64) (samples : list A) : dres (list A) :=
  (fix at_pos (rand : list b64) (samples : list A) : dres (list A) :=
     match rand with
     | [] => DOk samples
     | r :: rand' =>
         if Bltb r cdf then
           match vs with v :: _ => at_pos rand' (samples ++ [v]) | [] => DErr DIndexError end
         else
           match dist with p :: dist' => n_loop (fadd cdf p) dist' (tail vs) rand samples | [] => DErr DIndexError end
     end) rand samples.

(** util.py:475-489 [nSample] with the numbers [rand]; their number is [n]. *)
Definition n_sample (d : list b64) (vs : list A) (rand : list b64) : dres (list A) :=
  match normalized d with
  | p :: dist => n_loop p dist vs (merge_sort f_le rand) []
  | [] => DErr DIndexError
  end.

(** util.py:499-503 for a list; [None] stands for values that are not given, and [None[i]] is a TypeError. *)
Fixpoint list_loop (r total : b64) (dist : list b64) (vs : option (list A)) : dres A :=
  if Bltb total r then
    match dist with p :: dist' => list_loop r (fadd total p) dist' (tail <$> vs) | [] => DErr DIndexError end
  else
    match vs with Some (v :: _) => DOk v | Some [] => DErr DIndexError | None => DErr DTypeError end.

(** util.py:491-503 [sample] of a list with the random number [r] *)
Definition sample_list (d : list b64) (vs : option (list A)) (r : b64) : dres A :=
  match normalized d with
  | p :: dist => list_loop r p dist vs
  | [] => DErr DIndexError
  end.

(** util.py:505-507 [sampleFromCounter]; [sort] is [sorted]. *)
Definition sample_from_counter (sort : list (A * b64) -> list (A * b64)) (c : list (A * b64)) (r : b64) : dres A :=
  sample_list (sort c).*2 (Some (sort c).*1) r.

(** util.py:509-518 [getProbability] *)
Definition get_probability `{EqDecision A} (v : A) (d : list b64) (vs : list A) : b64 :=
  fold_left (fun total '(p, x) => if decide (x = v) then fadd total p else total) (zip d vs) f_zero.

(** util.py:520-522 [flipCoin] *)
Definition flip_coin (p r : b64) : bool := Bltb r p.

(** util.py:524-532 [chooseFromDistribution] of a list of pairs; [None] is the result if the loop ends. *)
Fixpoint choose_loop (r base : b64) (dist : list (b64 * A)) : option A :=
  match dist with
  | [] => None
  | (p, x) :: dist => let base := fadd base p in if Bleb r base then Some x else choose_loop r base dist
  end.
Definition choose_pairs (dist : list (b64 * A)) (r : b64) : option A := choose_loop r f_zero dist.

End sampling.
