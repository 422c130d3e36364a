(** * Properties: probabilities in floating point (C42) *)

From Coq Require Import ZArith Reals.
From Flocq Require Import IEEE754.BinarySingleNaN.
From Verif Require Import SpecSpace SpecFloats Floats FloatFacts FloatSumFacts ExamplesSets.

Section props.
Context {U : Universe}.

(** [a / b] of counts is the double nearest to the quotient, whatever the size of the integers. *)
Theorem C42_quotient (a b : Z) : (0 <= a <= b)%Z -> (0 < b)%Z -> nearest_double (int_div a b) (real_of (qdiv a b)).
Proof. exact (int_div_nearest a b). Qed.

(** The sum of the quotients passes the check, for at most [2 ^ 23] counts in any order. *)
Theorem C42_sum_close (cs : list Z) :
  Forall (fun c => 0 <= c)%Z cs -> (0 < zsum cs)%Z -> (Z.of_nat (length cs) <= 2 ^ 23)%Z ->
  isclose (f_sum ((fun c => int_div c (zsum cs)) <$> cs)) Bone (int_div 1 (10 ^ 9)) (B754_zero false) = true.
Proof. exact (sum_close cs). Qed.

(** The error grows with the number of counts only. *)
Theorem C42_sum_error (cs : list Z) :
  Forall (fun c => 0 <= c)%Z cs -> (0 < zsum cs)%Z -> (Z.of_nat (length cs) <= 2 ^ 23)%Z ->
  is_finite (f_sum ((fun c => int_div c (zsum cs)) <$> cs)) = true /\
  (Rabs (B2R (f_sum ((fun c => int_div c (zsum cs)) <$> cs)) - 1)
    <= 21 / 20 * / 9007199254740992 * (INR (length cs) + 1))%R.
Proof. exact (sum_error cs). Qed.

(** With the compensated sum of newer Python versions. *)
Theorem C42_compensated_sum_close (cs : list Z) :
  Forall (fun c => 0 <= c)%Z cs -> (0 < zsum cs)%Z -> (Z.of_nat (length cs) <= 2 ^ 22 - 2)%Z ->
  isclose (f_sum_compensated ((fun c => int_div c (zsum cs)) <$> cs)) Bone (int_div 1 (10 ^ 9)) (B754_zero false) = true.
Proof. exact (compensated_close cs). Qed.

(** [probabilities] and [marginal_variables_probability] with floats never fail their checks, and their results
    are the nearest doubles of the exact results, in every iteration order. *)
Theorem C42_probabilities (o : oracle) (ss : samples) :
  pos_counts ss -> ss_map ss <> ∅ -> (Z.of_nat (size (ss_map ss)) <= 2 ^ 23)%Z ->
  exists mf m, probabilities_f f_sum o ss = Ok mf /\ probabilities ss = Ok m /\ rounds_to mf m.
Proof. exact (probabilities_f_lemma f_sum (2 ^ 23) sum_close o ss). Qed.

Theorem C42_marginals (o : oracle) (sp : space) (variables : option (gset Var)) (unobserved : bool) :
  one_valued (sp_out sp) -> pos_counts (sp_out sp) ->
  (unobserved = true -> forall v, requested sp variables v -> ~ occurs (sp_out sp) (v, val_u)) ->
  (Z.of_nat (size (ss_map (sp_out sp))) < 2 ^ 23)%Z ->
  exists mf m, marginal_variables_probability_f f_sum o sp variables unobserved = Ok mf /\
    marginal_variables_probability o sp variables unobserved = Ok m /\
    forall v, match mf !! v, m !! v with
              | Some df, Some d => rounds_to df d
              | None, None => True
              | _, _ => False
              end.
Proof. exact (marginal_f_lemma f_sum (2 ^ 23) sum_close o sp variables unobserved). Qed.

Theorem C42_probabilities_compensated (o : oracle) (ss : samples) :
  pos_counts ss -> ss_map ss <> ∅ -> (Z.of_nat (size (ss_map ss)) <= 2 ^ 22 - 2)%Z ->
  exists mf m, probabilities_f f_sum_compensated o ss = Ok mf /\ probabilities ss = Ok m /\ rounds_to mf m.
Proof. exact (probabilities_f_lemma f_sum_compensated (2 ^ 22 - 2) compensated_close o ss). Qed.

Theorem C42_marginals_compensated (o : oracle) (sp : space) (variables : option (gset Var)) (unobserved : bool) :
  one_valued (sp_out sp) -> pos_counts (sp_out sp) ->
  (unobserved = true -> forall v, requested sp variables v -> ~ occurs (sp_out sp) (v, val_u)) ->
  (Z.of_nat (size (ss_map (sp_out sp))) < 2 ^ 22 - 2)%Z ->
  exists mf m, marginal_variables_probability_f f_sum_compensated o sp variables unobserved = Ok mf /\
    marginal_variables_probability o sp variables unobserved = Ok m /\
    forall v, match mf !! v, m !! v with
              | Some df, Some d => rounds_to df d
              | None, None => True
              | _, _ => False
              end.
Proof. exact (marginal_f_lemma f_sum_compensated (2 ^ 22 - 2) compensated_close o sp variables unobserved). Qed.

Theorem C42_probability_of (ss : samples) (g : graph) :
  pos_counts ss ->
  match probability_of_f ss g, probability_of ss g with
  | Ok f, Ok q => nearest_double f (real_of q)
  | Err x, Err y => x = y
  | _, _ => False
  end.
Proof. exact (probability_of_f_lemma ss g). Qed.

End props.

(** ** Examples *)

(** 1/3 = 6004799503160661 * 2^-54. *)
Example C42_third_example : B2SF (int_div 1 3) = SpecFloat.S754_finite false 6004799503160661 (-54).
Proof. vm_compute. reflexivity. Qed.

(** 1/10 ten times: the plain sum is 1 - 2^-53, the compensated one is 1. *)
Example C42_tenths_example :
  B2SF (f_sum ((fun c => int_div c 10) <$> repeat 1%Z 10)) = SpecFloat.S754_finite false 9007199254740991 (-53) /\
  B2SF (f_sum_compensated ((fun c => int_div c 10) <$> repeat 1%Z 10)) = SpecFloat.S754_finite false 4503599627370496 (-52).
Proof. split; vm_compute; reflexivity. Qed.

(** The check is not vacuous: a sum that is off by 2^-29 fails it, and so does the sum of no counts. *)
Example C42_check_example :
  close_to_one (int_div (2 ^ 29 - 1) (2 ^ 29)) = false /\ close_to_one (f_sum []) = false.
Proof. split; vm_compute; reflexivity. Qed.

(** The hypotheses hold for a set of three outcomes. *)
Definition ss_floats : @samples StrU :=
  Samples cpx {[single "a" "1" := 1%Z; single "a" "2" := 4%Z; graph_of [ab] := 2%Z]}.

Example C42_probabilities_example :
  pos_counts ss_floats /\ ss_map ss_floats <> ∅ /\ (Z.of_nat (size (ss_map ss_floats)) <= 2 ^ 22 - 2)%Z /\
  is_ok (probabilities_f f_sum o1 ss_floats) = true.
Proof.
  split; [|split; [by_vm|split; [by_vm|vm_compute; reflexivity]]].
  intros g c Hg. unfold ss_floats in Hg. cbn [ss_map] in Hg.
  repeat (apply lookup_insert_Some in Hg as [[_ <-]|[_ Hg]]; [done|]).
  apply lookup_singleton_Some in Hg as [_ <-]. done.
Qed.

Print Assumptions C42_quotient.
Print Assumptions C42_sum_close.
Print Assumptions C42_sum_error.
Print Assumptions C42_compensated_sum_close.
Print Assumptions C42_probabilities.
Print Assumptions C42_marginals.
Print Assumptions C42_probabilities_compensated.
Print Assumptions C42_marginals_compensated.
Print Assumptions C42_probability_of.
