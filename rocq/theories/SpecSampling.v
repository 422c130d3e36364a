(** * SpecSampling: specification vocabulary for the sampling functions of the demo (C67) *)

From Coq Require Import ZArith Reals.
From Flocq Require Import IEEE754.BinarySingleNaN.
From stdpp Require Import base list numbers option.
From Verif Require Export SpecAgents.

(** The sums of the first elements of a list of floats, added from left to right. *)
Fixpoint sums_from (t : b64) (l : list b64) : list b64 :=
  match l with [] => [] | x :: l => Bplus mode_NE t x :: sums_from (Bplus mode_NE t x) l end.
Definition running (d : list b64) : list b64 := match d with [] => [] | x :: l => x :: sums_from x l end.

(** [b] is the first number in [bs] that satisfies [P]; it stands at place [i]. *)
Definition first_at (P : b64 -> Prop) (bs : list b64) (i : nat) : Prop :=
  (exists b, bs !! i = Some b /\ P b) /\ forall j b, j < i -> bs !! j = Some b -> ~ P b.

(** The number [r] draws the value whose running sum is the first above [r]; or the first that is not below [r]. *)
Definition draws_above {A} (d : list b64) (vs : list A) (r : b64) (x : A) : Prop :=
  exists i, vs !! i = Some x /\ first_at (fun b => Bltb r b = true) (running d) i.
Definition draws_reached {A} (d : list b64) (vs : list A) (r : b64) (x : A) : Prop :=
  exists i, vs !! i = Some x /\ first_at (fun b => Bltb b r = false) (running d) i.

(** The weights as shares of their sum: left alone if the sum is 1 (or 0). *)
Definition shares_of (py_sum : list b64 -> b64) (d d' : list b64) : Prop :=
  let s := py_sum d in
  if Beqb s Bone || Beqb s (B754_zero false) then d' = d else Forall2 (fun x y => y = Bdiv mode_NE x s) d d'.

(** Zero, of either sign. *)
Definition is_zero_weight (p : b64) : Prop := exists s, p = B754_zero s.

(** Counts [cs] as probabilities, each rounded once. *)
Definition total_of (cs : list Z) : Z := fold_right Z.add 0%Z cs.
Definition fractions (cs : list Z) : list b64 := (fun c => int_div c (total_of cs)) <$> cs.

(** The part of the whole that the first [i] counts make up, and the error allowed. *)
Definition portion (cs : list Z) (i : nat) : R := (IZR (total_of (take i cs)) / IZR (total_of cs))%R.
Definition slack (cs : list Z) : R := ((INR (length cs) + 3) / 2251799813685248)%R.

(** The number [r] lies in the part of the value [x], up to the error. *)
Definition in_part {A} (cs : list Z) (vs : list A) (r : b64) (x : A) : Prop :=
  exists i, vs !! i = Some x /\ (portion cs i - slack cs <= B2R r <= portion cs (i + 1) + slack cs)%R.
(** The number [r] is so large that the sums may end below it. *)
Definition near_end (cs : list Z) (r : b64) : Prop := (1 - slack cs <= B2R r)%R.

(** How much the value [v] counts for. *)
Definition count_for {A} `{EqDecision A} (cs : list Z) (vs : list A) (v : A) : Z :=
  total_of (filter (fun p => p.2 = v) (zip cs vs)).*1.
