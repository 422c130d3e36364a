(** * Theorems about the sampling functions of the demo: C67 *)

From Coq Require Import ZArith Reals Lra Sorted.
From Flocq Require Import IEEE754.BinarySingleNaN.
From stdpp Require Import base list numbers option.
From Verif Require Import SpecSampling Sampling AgentFacts AgentMain SamplingFacts SamplingShares SamplingMain ExamplesSets.

(** ** Which value a random number draws, for any weights *)

(** [nSample] sorts the numbers and draws for each the value whose running sum is the first above it; IndexError exactly
    when some number draws no value. *)
Theorem C67_n_sample {A} (py_sum : list b64 -> b64) (d d' : list b64) (vs : list A) (rand : list b64) :
  Forall random_number rand -> d <> [] -> shares_of py_sum d d' ->
  match n_sample py_sum d vs rand with
  | DOk l => exists sorted, sorted ≡ₚ rand /\ StronglySorted (fun x y => (B2R x <= B2R y)%R) sorted /\ Forall2 (draws_above d' vs) sorted l
  | DErr e => e = DIndexError /\ exists r, r ∈ rand /\ forall x, ~ draws_above d' vs r x
  end.
Proof. exact (n_sample_lemma py_sum d d' vs rand). Qed.

(** [sample] draws the value whose running sum is the first that is not below the number. *)
Theorem C67_sample {A} (py_sum : list b64 -> b64) (d d' : list b64) (vs : list A) (r : b64) : shares_of py_sum d d' ->
  match sample_list py_sum d (Some vs) r with
  | DOk x => draws_reached d' vs r x
  | DErr e => e = DIndexError /\ forall x, ~ draws_reached d' vs r x
  end.
Proof. exact (sample_list_lemma py_sum d d' vs r). Qed.

(** A number draws at most one value, and the shares are determined. *)
Theorem C67_draws_determined {A} (py_sum : list b64 -> b64) (d d1 d2 : list b64) (vs : list A) (r : b64) (x y : A) :
  shares_of py_sum d d1 -> shares_of py_sum d d2 ->
  (draws_above d1 vs r x -> draws_above d2 vs r y -> x = y) /\ (draws_reached d1 vs r x -> draws_reached d2 vs r y -> x = y).
Proof.
  intros H1 H2. rewrite (shares_unique py_sum d d1 d2 H1 H2).
  exact (conj (draws_above_unique d2 vs r x y) (draws_reached_unique d2 vs r x y)).
Qed.

(** [sampleFromCounter] and [sample] of a counter are the same function. *)
Theorem C67_sample_from_counter {A} (py_sum : list b64 -> b64) (sort : list (A * b64) -> list (A * b64)) (c : list (A * b64)) (r : b64) :
  sample_from_counter py_sum sort c r = sample_items py_sum (sort c) r.
Proof. exact (from_counter_lemma py_sum (sort c) r). Qed.

(** [chooseFromDistribution] of pairs: the first whose running sum reaches the number, else None. *)
Theorem C67_choose {A} (dist : list (b64 * A)) (r : b64) :
  match choose_pairs dist r with
  | Some x => exists i, dist.*2 !! i = Some x /\ first_at (fun b => Bleb r b = true) (sums_from (B754_zero false) dist.*1) i
  | None => forall b, b ∈ sums_from (B754_zero false) dist.*1 -> Bleb r b = false
  end.
Proof. exact (choose_loop_spec r dist (B754_zero false)). Qed.

(** [flipCoin] *)
Theorem C67_flip_coin (p r : b64) : is_finite p = true -> random_number r ->
  flip_coin p r = true <-> (B2R r < B2R p)%R.
Proof. intros Hp [Hr _]. exact (lt_R r p Hr Hp). Qed.

(** Without values [sample] of a list always raises: TypeError if a position is drawn, else IndexError. *)
Theorem C67_no_values {A} (py_sum : list b64 -> b64) (d d' : list b64) (r : b64) : shares_of py_sum d d' ->
  match @sample_list py_sum A d None r with
  | DOk _ => False
  | DErr e => e = DTypeError /\ (exists i, draws_reached d' (seq 0 (length d)) r i) \/
      e = DIndexError /\ forall i, ~ draws_reached d' (seq 0 (length d)) r i
  end.
Proof. exact (sample_none py_sum d d' r). Qed.

(** ** Shares of the unit interval, for probabilities that come from counts *)

Theorem C67_sample_shares {A} (py_sum : list b64 -> b64) (cs : list Z) (vs : list A) (r : b64) :
  python_sum py_sum -> Forall (fun c => 0 <= c)%Z cs -> (0 < total_of cs)%Z -> (Z.of_nat (length cs) <= 2 ^ 22 - 2)%Z ->
  length vs = length cs -> random_number r ->
  match sample_list py_sum (fractions cs) (Some vs) r with
  | DOk x => in_part cs vs r x
  | DErr e => e = DIndexError /\ near_end cs r
  end.
Proof. intros Hp HF Hpos Hn Hl. exact (sample_parts cs vs HF Hpos Hn Hl py_sum Hp r). Qed.

Theorem C67_n_sample_shares {A} (py_sum : list b64 -> b64) (cs : list Z) (vs : list A) (rand : list b64) :
  python_sum py_sum -> Forall (fun c => 0 <= c)%Z cs -> (0 < total_of cs)%Z -> (Z.of_nat (length cs) <= 2 ^ 22 - 2)%Z ->
  length vs = length cs -> Forall random_number rand ->
  match n_sample py_sum (fractions cs) vs rand with
  | DOk l => exists sorted, sorted ≡ₚ rand /\ StronglySorted (fun x y => (B2R x <= B2R y)%R) sorted /\ Forall2 (in_part cs vs) sorted l
  | DErr e => e = DIndexError /\ exists r, r ∈ rand /\ near_end cs r
  end.
Proof. intros Hp HF Hpos Hn Hl. exact (n_sample_parts cs vs HF Hpos Hn Hl py_sum Hp rand). Qed.

Theorem C67_choose_shares {A} (cs : list Z) (vs : list A) (r : b64) :
  Forall (fun c => 0 <= c)%Z cs -> (0 < total_of cs)%Z -> (Z.of_nat (length cs) <= 2 ^ 22 - 2)%Z ->
  length vs = length cs -> random_number r ->
  match choose_pairs (zip (fractions cs) vs) r with
  | Some x => in_part cs vs r x
  | None => near_end cs r
  end.
Proof. intros HF Hpos Hn Hl. exact (choose_parts cs vs HF Hpos Hn Hl r). Qed.

(** [getProbability] adds up what belongs to the value. *)
Theorem C67_get_probability {A} `{EqDecision A} (cs : list Z) (vs : list A) (v : A) :
  Forall (fun c => 0 <= c)%Z cs -> (0 < total_of cs)%Z -> (Z.of_nat (length cs) <= 2 ^ 22 - 2)%Z -> length vs = length cs ->
  is_finite (get_probability v (fractions cs) vs) = true /\
  (Rabs (B2R (get_probability v (fractions cs) vs) - IZR (count_for cs vs v) / IZR (total_of cs)) <= slack cs)%R.
Proof. intros HF Hpos Hn Hl. exact (get_probability_lemma cs vs HF Hpos Hn Hl v). Qed.

(** ** Values of weight zero *)

(** [nSample] never draws a value of weight zero. *)
Theorem C67_n_sample_nonzero {A} (py_sum : list b64 -> b64) (d : list b64) (vs : list A) (rand : list b64) (l : list A) (x : A) :
  Forall random_number rand -> n_sample py_sum d vs rand = DOk l -> x ∈ l ->
  exists i p, d !! i = Some p /\ vs !! i = Some x /\ ~ is_zero_weight p.
Proof. exact (n_sample_nonzero py_sum d vs rand l x). Qed.

(** [sample] and [chooseFromDistribution] do when the random number is 0. *)
Theorem C67_zero_weight_refuted : exists (d : list b64) (vs : list nat) (r : b64) (x : nat),
  random_number r /\ NoDup vs /\ length vs = length d /\ (forall i p, d !! i = Some p -> vs !! i = Some x -> is_zero_weight p) /\
  sample_list f_sum d (Some vs) r = DOk x /\ choose_pairs (zip d vs) r = Some x.
Proof.
  exists [f_zero; f_one], [0; 1], f_zero, 0. split; [apply random_b; vm_compute; reflexivity|].
  split; [apply (bool_decide_unpack _); vm_compute; exact I|]. split; [done|]. split; [|split; vm_compute; reflexivity].
  intros [|[|i]] p Hp Hv; simpl in Hp, Hv; [|done|done]. injection Hp as <-. by exists false.
Qed.

(** ** The sums can end below the random number *)

(** Seven equal weights: [sample] raises IndexError, [chooseFromDistribution] returns None. *)
Theorem C67_sample_raises_refuted : exists (cs : list Z) (vs : list nat) (r : b64),
  random_number r /\ length vs = length cs /\ (forall c, c ∈ cs -> c = 1%Z) /\
  sample_list f_sum ((fun c => int_div c 1) <$> cs) (Some vs) r = DErr DIndexError /\
  sample_list f_sum_compensated ((fun c => int_div c 1) <$> cs) (Some vs) r = DErr DIndexError /\
  choose_pairs (zip (fractions cs) vs) r = None.
Proof.
  exists (replicate 7 1%Z), (seq 0 7), below_one. split; [apply random_b; vm_compute; reflexivity|]. split; [done|].
  split; [intros c Hc; by apply elem_of_replicate in Hc as [-> _]|]. split; [vm_compute; reflexivity|]. split; vm_compute; reflexivity.
Qed.

(** Six equal weights are enough for [nSample]. *)
Theorem C67_n_sample_raises_refuted : exists (cs : list Z) (vs : list nat) (r : b64),
  random_number r /\ length vs = length cs /\ (forall c, c ∈ cs -> c = 1%Z) /\
  n_sample f_sum ((fun c => int_div c 1) <$> cs) vs [r] = DErr DIndexError /\
  n_sample f_sum_compensated ((fun c => int_div c 1) <$> cs) vs [r] = DErr DIndexError.
Proof.
  exists (replicate 6 1%Z), (seq 0 6), below_one. split; [apply random_b; vm_compute; reflexivity|]. split; [done|].
  split; [intros c Hc; by apply elem_of_replicate in Hc as [-> _]|]. split; vm_compute; reflexivity.
Qed.

(** ** Cases *)
Definition some_counts : list Z := [3; 0; 5; 2]%Z.
Definition some_values : list nat := [10; 20; 30; 10].
Definition some_numbers : list b64 := [int_div 9 10; f_zero; int_div 1 2; int_div 3 10].
Example C67_case : Forall random_number some_numbers /\ Forall (fun c => 0 <= c)%Z some_counts /\ (0 < total_of some_counts)%Z /\
  length some_values = length some_counts /\ (Z.of_nat (length some_counts) <= 2 ^ 22 - 2)%Z.
Proof.
  split; [|split; [repeat constructor; lia|split; [reflexivity|split; [reflexivity|vm_compute; discriminate]]]].
  unfold some_numbers. repeat (apply List.Forall_cons; [apply random_b; vm_compute; reflexivity|]). constructor.
Qed.
Example C67_case_drawn : n_sample f_sum (fractions some_counts) some_values some_numbers = DOk [10; 30; 30; 10] /\
  sample_list f_sum (fractions some_counts) (Some some_values) (int_div 3 10) = DOk 10 /\
  Beqb (get_probability 10 (fractions some_counts) some_values) (int_div 5 10) = true.
Proof. split; [vm_compute; reflexivity|]. split; vm_compute; reflexivity. Qed.
Example C67_case_shares : shares_of f_sum (fractions some_counts) (fractions some_counts).
Proof. unfold shares_of. replace (Beqb (f_sum (fractions some_counts)) Bone) with true by (vm_compute; reflexivity). reflexivity. Qed.
Example C67_case_halves : exists d' p, shares_of f_sum [f_one; f_one] d' /\ head d' = Some p /\ Beqb p (int_div 1 2) = true.
Proof. exists (normalized f_sum [f_one; f_one]). eexists. split; [apply normalized_shares|]. split; [reflexivity|vm_compute; reflexivity]. Qed.
