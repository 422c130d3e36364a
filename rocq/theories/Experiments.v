(** * Experiments: model of the closed formula in experiments/outcomes_space_power.py

    The Python code computes with floats; here the same expressions are evaluated exactly in [Qc]. *)

From Verif Require Import Base.

(** [math.comb n k] (exact integers in Python). *)
Fixpoint comb (n k : nat) : Z :=
  match n, k with
  | _, O => 1
  | O, S _ => 0
  | S n', S k' => comb n' k' + comb n' (S k')
  end.

Definition zq (z : Z) : Qc := Q2Qc (inject_Z z).

(** experiments/outcomes_space_power.py:56 and :58: [(n_rel_type + 1) ** (k * ((k - 1) / 2))]; the
    exponent is a whole number. *)
Definition rel_pow (n_rel_type k : nat) : Z := Z.of_nat (S n_rel_type) ^ (Z.of_nat k * (Z.of_nat k - 1) / 2).

(** experiments/outcomes_space_power.py:50-59 [c_k]; the recursion depth is at most [k]. *)
Fixpoint c_k (fuel n_rel_type k : nat) : Qc :=
  match fuel, k with
  | _, O => 1%Qc
  | O, S _ => 0%Qc
  | S fuel', S _ =>
      let st := qsum ((fun i => (zq (Z.of_nat i * comb k i * rel_pow n_rel_type (k - i))
                                 * c_k fuel' n_rel_type i)%Qc) <$> seq 1 (k - 1)) in
      (zq (rel_pow n_rel_type k) - st / zq (Z.of_nat k))%Qc
  end.

(** experiments/outcomes_space_power.py:61-67 [n_k] and :69 [space_power]; the result of the sum is a
    whole number (proved), so [int] is the identity on it. *)
Definition calc_number_of_outcomes (n_variables n_values n_rel_type : nat) : Qc :=
  qsum ((fun k => (zq (comb n_variables k) * (c_k k n_rel_type k * zq ((Z.of_nat n_values - 1) ^ Z.of_nat k)))%Qc)
          <$> seq 1 n_variables).
