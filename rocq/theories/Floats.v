(** * Model: probabilities in IEEE binary64

    The other files compute probabilities as exact rationals.  Here the two methods that divide counts and check
    "sums to 1" are modelled again with Python's floats: IEEE 754 binary64, round to nearest even (Flocq,
    [BinarySingleNaN]).  Python integers are [Z]. *)

From Coq Require Import ZArith.
From Flocq Require Import IEEE754.BinarySingleNaN.
From Verif Require Import SampleSet SampleSpace.

Notation b64 := (binary_float 53 1024).

Global Instance prec_gt_0_53 : FLX.Prec_gt_0 53.
Proof. reflexivity. Qed.
Global Instance prec_lt_emax_53 : Prec_lt_emax 53 1024.
Proof. reflexivity. Qed.

Definition fadd : b64 -> b64 -> b64 := Bplus mode_NE.
Definition fsub : b64 -> b64 -> b64 := Bminus mode_NE.
Definition fmul : b64 -> b64 -> b64 := Bmult mode_NE.
Definition f_zero : b64 := B754_zero false.
Definition f_one : b64 := Bone.

(** Python's [a / b] for a non-negative [a] and a positive [b]: the exact quotient rounded once, for integers of
    any size (CPython, long_true_divide).  The counts of a sample set are such integers. *)
Definition int_div (a b : Z) : b64 :=
  match a, b with
  | Zpos m, Zpos n => SF2B _ (proj1 (Bdiv_correct_aux 53 1024 _ _ mode_NE false m 0 false n 0))
  | Z0, Zpos _ => f_zero
  | _, _ => B754_nan
  end.

(** Python's [sum] of floats up to version 3.11: from left to right, starting from 0. *)
Definition f_sum (l : list b64) : b64 := fold_left fadd l f_zero.

(** [sum] of floats from version 3.12 on: the compensated summation of CPython (bltinmodule.c, cs_add and
    cs_to_double). *)
Definition cs_add (t : b64 * b64) (x : b64) : b64 * b64 :=
  let hi := fadd t.1 x in
  let c := if Bleb (Babs x) (Babs t.1) then fadd (fsub t.1 hi) x else fadd (fsub x hi) t.1 in
  (hi, fadd t.2 c).
Definition cs_to_double (t : b64 * b64) : b64 :=
  if negb (Beqb t.2 f_zero) && is_finite t.2 then fadd t.1 t.2 else t.1.
Definition f_sum_compensated (l : list b64) : b64 :=
  cs_to_double (fold_left cs_add l (f_zero, f_zero)).

(** The literal 1e-9: the decimal number rounded once. *)
Definition f_1e_9 : b64 := int_div 1 (10 ^ 9).

(** Python's [math.isclose] (CPython mathmodule.c) for finite arguments; an infinity is only close to itself. *)
Definition isclose (a b rel_tol abs_tol : b64) : bool :=
  if Beqb a b then true
  else if is_finite a && is_finite b then
    let diff := Babs (fsub b a) in
    Bleb diff (Babs (fmul rel_tol b)) || Bleb diff (Babs (fmul rel_tol a)) || Bleb diff abs_tol
  else false.

(** [isclose(p_sum, 1.0, rel_tol=1e-9, abs_tol=0.0)] (sample_set.py:220, sample_space.py:139) *)
Definition close_to_one (p_sum : b64) : bool := isclose p_sum f_one f_1e_9 f_zero.

Section floats.
Context {U : Universe}.

(** The version of [sum]: [f_sum] or [f_sum_compensated]. *)
Context (py_sum : list b64 -> b64).

(** sample_set.py:212-222 [probabilities].  The set [props] has one pair per sample; its iteration order, and so
    the order of the sum, is arbitrary. *)
Definition probabilities_f (o : oracle) (ss : samples) : res (gmap graph b64) :=
  if bool_decide (ss_map ss ≠ ∅) && bool_decide (ss_length ss = 0%Z) then Err ZeroDivisionError
  else
    let props := (fun c => int_div c (ss_length ss)) <$> ss_map ss in
    _ ← passert (close_to_one (py_sum (iter_map o props).*2));
    Ok props.

(** sample_set.py:247-254 [probability_of] *)
Definition probability_of_f (ss : samples) (g : graph) : res b64 :=
  match ss_map ss !! g with
  | Some c => if bool_decide (ss_length ss = 0%Z) then Err ZeroDivisionError else Ok (int_div c (ss_length ss))
  | None => Err AssertionError
  end.

(** [{v: p / d for v, p in values.items()}] *)
Definition div_all_f `{Countable K} (m : gmap K Z) (d : Z) : res (gmap K b64) :=
  if bool_decide (m ≠ ∅) && bool_decide (d = 0%Z) then Err ZeroDivisionError
  else Ok ((fun c => int_div c d) <$> m).

(** sample_space.py:102-143 [marginal_variables_probability] *)
Definition marginal_variables_probability_f (o : oracle) (sp : space) (variables : option (gset Var))
    (unobserved : bool) : res (gmap Var (gmap Val b64)) :=
  let all := dom (cp_vars (sp_cp sp)) in
  let vars := match variables with
              | None => all
              | Some X => if bool_decide (X = ∅) then all else X
              end in
  let groups := marginal_groups (sub o 0) sp vars in
  let len := ss_length (sp_out sp) in
  norm ← for_res (fun _ acc '(v, m) =>
      let c_sum := zsum (map_to_list m).*2 in
      _ ← passert (bool_decide (0 <= c_sum)%Z && bool_decide (c_sum <= len)%Z);
      d ← (if unobserved : bool
           then div_all_f (<[val_u := (len - c_sum)%Z]> m) len
           else div_all_f m c_sum);
      Ok (<[v := d]> acc)) (sub o 1) ∅ (iter_map (sub o 2) groups);
  _ ← for_res (fun o' _ '(v, d) => passert (close_to_one (py_sum (iter_map o' d).*2)))
        (sub o 3) tt (iter_map (sub o 4) norm);
  Ok norm.

End floats.
