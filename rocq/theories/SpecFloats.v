(** * Specification vocabulary for the float results (C42) *)

From Coq Require Import ZArith Reals Qreals Qcanon.
From Flocq Require Import IEEE754.BinarySingleNaN.
From Verif Require Import Base.

(** No finite binary64 number is closer to [x] than [f]. *)
Definition nearest_double (f : binary_float 53 1024) (x : R) : Prop :=
  is_finite f = true /\
  forall d : binary_float 53 1024, is_finite d = true -> (Rabs (B2R f - x) <= Rabs (B2R d - x))%R.

(** The real number of an exact result. *)
Definition real_of (q : Qc) : R := Q2R (this q).

(** A dictionary of floats holds the nearest doubles of a dictionary of exact numbers. *)
Definition rounds_to `{Countable K} (mf : gmap K (binary_float 53 1024)) (m : gmap K Qc) : Prop :=
  forall k, match mf !! k, m !! k with
            | Some f, Some q => nearest_double f (real_of q)
            | None, None => True
            | _, _ => False
            end.
