(** * SpecScripts: the networks of the two experiments

    A network assigns a number below its cardinality to every variable; [(v, n)] stands for a variable and its
    cardinality. *)
From Verif Require Export SpecNet Nets.

Section spec_nets.
Local Existing Instance StrU.

(** Number of rows of a table over these variables, and the row of an assignment when the last variable changes
    fastest (the layout pgmpy uses for factors and for the evidence of a [TabularCPD]). *)
Fixpoint rows (l : list (Var * nat)) : nat := match l with [] => 1 | (_, n) :: l => n * rows l end.
Fixpoint row_of (l : list (Var * nat)) (b : Var -> nat) : nat :=
  match l with [] => 0 | (v, _) :: l' => b v * rows l' + row_of l' b end.

(** The value names of an assignment. *)
Definition named (b : Var -> nat) (v : Var) : Val := value_name v (b v).

(** The number in a value name. *)
Definition digit (n : nat) (v : Var) (x : Val) : nat :=
  match List.find (fun j => bool_decide (value_name v j = x)) (seq 0 n) with Some j => j | None => 0 end.

(** ** Bayesian networks *)
Section bayes.
Context {T : Type} (scale : T -> res Z).

Definition family (e : Var * cpd T) : list (Var * nat) := zip (given (c_parents e.2)) (given (c_parent_cards e.2)).

(** The table entry for an assignment. *)
Definition entry_of (e : Var * cpd T) (b : Var -> nat) : option T :=
  r ← c_values e.2 !! b e.1; r !! row_of (family e) b.

(** The number of outcomes for it. *)
Definition entry_count (e : Var * cpd T) (b : Var -> nat) : Z :=
  match entry_of e b with Some p => match scale p with Ok c => c | Err _ => 0%Z end | None => 0%Z end.

(** The conditional distribution as a factor: the parents are linked to the variable. *)
Definition bayes_factor (card : Var -> nat) (e : Var * cpd T) : factor := {|
  f_vars := {[e.1]} ∪ list_to_set (given (c_parents e.2));
  f_links := list_to_set ((fun p => (p, e.1, Directed p e.1 ("r" : Rel))) <$> given (c_parents e.2));
  f_table := fun a => entry_count e (fun v => digit (card v) v (a v))
|}.

(** A table for a variable of the network: the evidence is given or not, its variables are others of the network with
    the right cardinality, all entries exist and stand for a positive number of outcomes. *)
Record cpd_ok (card : Var -> nat) (net : list (Var * cpd T)) (e : Var * cpd T) : Prop := {
  ck_card : c_card e.2 = card e.1 /\ 1 <= c_card e.2;
  ck_given : length (given (c_parents e.2)) = length (given (c_parent_cards e.2));
  ck_nodup : NoDup (given (c_parents e.2)) /\ e.1 ∉ given (c_parents e.2);
  ck_parents : forall p n, (p, n) ∈ family e -> p ∈ net.*1 /\ n = card p;
  ck_entries : forall i, i < c_card e.2 -> exists r, c_values e.2 !! i = Some r /\ forall k, k < rows (family e) ->
    exists p c, r !! k = Some p /\ scale p = Ok c /\ (1 <= c)%Z;
  (** No name of the family occurs in the name of a value of another variable of the family. *)
  ck_names : forall v w j, v ∈ e.1 :: given (c_parents e.2) -> w ∈ e.1 :: given (c_parents e.2) -> v <> w ->
    j < card w -> occurs_in v (value_name w j) = false
}.

Record bayes_ok (card : Var -> nat) (net : list (Var * cpd T)) : Prop := {
  bk_some : net <> [];
  bk_keys : NoDup net.*1;
  bk_tables : forall e, e ∈ net -> cpd_ok card net e;
  bk_mutual : forall e e', e ∈ net -> e' ∈ net -> e.1 ∈ given (c_parents e'.2) -> e'.1 ∉ given (c_parents e.2)
}.

(** Numbers for the variables of a network, in their order. *)
Definition tuple_of (card : Var -> nat) (vars : list Var) (t : list nat) : Prop := Forall2 (fun x v => x < card v) t vars.

(** The product of the tables. *)
Definition bayes_product (net : list (Var * cpd T)) (b : Var -> nat) : Z := product ((fun e => entry_count e b) <$> net).

(** The entries of every column of a table add up to [F]. *)
Definition update (b : Var -> nat) (v : Var) (j : nat) : Var -> nat := fun w => if decide (v = w) then j else b w.
Definition columns_sum (card : Var -> nat) (F : Z) (e : Var * cpd T) : Prop :=
  forall b, (forall p, p ∈ given (c_parents e.2) -> b p < card p) ->
    zsum ((fun j => entry_count e (update b e.1 j)) <$> seq 0 (card e.1)) = F.

(** The tables can be listed so that parents come before their children. *)
Definition parents_first (net : list (Var * cpd T)) : Prop :=
  forall k e p, net !! k = Some e -> p ∈ given (c_parents e.2) -> exists l, l < k /\ net.*1 !! l = Some p.
Definition no_cycle (net : list (Var * cpd T)) : Prop := exists net', net' ≡ₚ net /\ parents_first net'.

(** The chain rule: the product of the entries, as probabilities. *)
Definition chain_rule (F : Z) (net : list (Var * cpd T)) (b : Var -> nat) : Qc :=
  foldr Qcmult 1%Qc ((fun e => qdiv (entry_count e b) F) <$> net).

End bayes.

(** ** Markov networks of pairs of binary variables *)

Definition markov_factor (e : Var * Var * list Z) : factor := {|
  f_vars := {[e.1.1; e.1.2]};
  f_links := {[(e.1.1, e.1.2, Plain ("r" : Rel))]};
  f_table := fun a => default 0%Z (e.2 !! (2 * digit 2 e.1.1 (a e.1.1) + digit 2 e.1.2 (a e.1.2)))
|}.

Record markov_ok (nodes : list Var) (edges : list (Var * Var * list Z)) : Prop := {
  mk_nodes : NoDup nodes;
  mk_edges : edges <> [];
  mk_ends : forall v w vals, (v, w, vals) ∈ edges -> v ∈ nodes /\ w ∈ nodes /\ v <> w;
  mk_values : forall v w vals k, (v, w, vals) ∈ edges -> k < 4 -> exists z, vals !! k = Some z /\ (1 <= z)%Z;
  mk_once : forall i j v w vals v' w' vals', edges !! i = Some (v, w, vals) -> edges !! j = Some (v', w', vals') ->
    (v = v' /\ w = w' \/ v = w' /\ w = v') -> i = j
}.

(** The value of a node in a tuple, and the product of the factors. *)
Fixpoint value_at (nodes : list Var) (t : list nat) (v : Var) : nat :=
  match nodes, t with
  | n :: nodes, x :: t => if decide (n = v) then x else value_at nodes t v
  | _, _ => 0
  end.
Definition markov_product (nodes : list Var) (edges : list (Var * Var * list Z)) (t : list nat) : Z :=
  product ((fun e => default 0%Z (e.2 !! (2 * value_at nodes t e.1.1 + value_at nodes t e.1.2))) <$> edges).

Definition binary_tuple (n : nat) (t : list nat) : Prop := length t = n /\ Forall (fun x => x < 2) t.

(** The distribution of positive numbers on a finite set: every number divided by their sum. *)
Definition shares {K} (P : K -> Prop) (w : K -> Z) (look : K -> option Qc) : Prop :=
  forall l, NoDup l -> (forall k, k ∈ l <-> P k) ->
    forall k q, look k = Some q <-> P k /\ q = qdiv (w k) (zsum (w <$> l)).

(** The value names of a tuple, the keys of the distribution of the Bayesian network experiment. *)
Definition key_of (vars : list Var) (t : list nat) : gset Val := list_to_set (zip_with value_name vars t).

(** [m] is the distribution on the tuples with property [P] proportional to [w]. *)
Definition joint_distribution (vars : list Var) (P : list nat -> Prop) (w : list nat -> Z) (m : gmap (gset Val) Qc) : Prop :=
  forall l, NoDup l -> (forall t, t ∈ l <-> P t) ->
    forall X q, m !! X = Some q <-> exists t, P t /\ X = key_of vars t /\ q = qdiv (w t) (zsum (w <$> l)).

(** [m] has the marginals of this distribution: for every variable and every number that it takes, the part of the
    tuples with that number. *)
Definition marginal_distributions (vars : list Var) (P : list nat -> Prop) (w : list nat -> Z) (m : gmap Var (gmap Val Qc)) : Prop :=
  (forall v, is_Some (m !! v) <-> v ∈ vars) /\
  forall v d, m !! v = Some d ->
    (forall x, is_Some (d !! x) <-> exists t, P t /\ x = value_name v (value_at vars t v)) /\
    forall l j q, NoDup l -> (forall t, t ∈ l <-> P t) -> d !! value_name v j = Some q ->
      q = qdiv (zsum (w <$> filter (fun t => value_at vars t v = j) l)) (zsum (w <$> l)).

(** The evidence: numbers for some variables of the network, not two for the same. *)
Definition evidence_ok (card : Var -> nat) (vars : list Var) (ev : list (Var * nat)) : Prop :=
  forall v j, (v, j) ∈ ev -> v ∈ vars /\ j < card v /\ forall k, (v, k) ∈ ev -> k = j.
Definition agrees (vars : list Var) (ev : list (Var * nat)) (t : list nat) : Prop :=
  forall v j, (v, j) ∈ ev -> value_at vars t v = j.

End spec_nets.
