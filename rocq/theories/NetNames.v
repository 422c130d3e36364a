(** * NetNames: value names, combinations and tables of the network experiments. *)

From stdpp Require Import pretty.
From Coq Require Import Ascii String.
From Verif Require Import BaseFacts TextFacts.
From Verif Require Export SpecScripts.

Local Existing Instance StrU.

(** ** Value names *)

Lemma lit_app (a b : string) : lit (a ++ b)%string = lit a ++ lit b.
Proof. unfold lit. induction a as [|c a IH]; simpl; [done|]. unfold lit in *. f_equal. exact IH. Qed.

Lemma value_name_lit v j : reverse (lit (value_name v j)) = N_of_ascii ")" :: reverse (lit (pretty j)) ++ N_of_ascii "(" :: reverse (lit v).
Proof.
  unfold value_name. rewrite !lit_app, !reverse_app. change (reverse (lit ")")) with [N_of_ascii ")"].
  change (reverse (lit "(")) with [N_of_ascii "("]. simpl. by rewrite <- app_assoc.
Qed.

Lemma pretty_nat_free (j : nat) : N_of_ascii "(" ∉ lit (pretty j).
Proof.
  intros H. pose proof (pretty_N_chars (N.of_nat j)) as Hall. rewrite Forall_forall in Hall.
  assert (~ digit_or_minus (N_of_ascii "(")) as Hn by (vm_compute; intuition congruence).
  by apply Hn, Hall.
Qed.

Lemma value_name_inj v w i j : value_name v i = value_name w j -> v = w /\ i = j.
Proof.
  intros H. assert (reverse (lit (value_name v i)) = reverse (lit (value_name w j))) as Hr by (by rewrite H).
  rewrite !value_name_lit in Hr. injection Hr as Hr.
  apply read_to1 in Hr as [Hd Hv].
  - apply (inj reverse) in Hd, Hv. apply lit_inj in Hd, Hv. split; [done|]. by apply (inj (pretty : nat -> string)) in Hd.
  - rewrite elem_of_reverse. apply pretty_nat_free.
  - rewrite elem_of_reverse. apply pretty_nat_free.
Qed.

Lemma prefix_app p s : String.prefix p (p ++ s)%string = true.
Proof. induction p as [|c p IH]; simpl; [by destruct s|]. destruct (ascii_dec c c); [done|congruence]. Qed.

Lemma occurs_own v j : occurs_in v (value_name v j) = true.
Proof. unfold value_name. pose proof (prefix_app v ("(" ++ pretty j ++ ")")) as H. destruct (v ++ _)%string; simpl in *; by rewrite H. Qed.

Lemma digit_named n v j : j < n -> digit n v (value_name v j) = j.
Proof.
  intros Hj. unfold digit. destruct (List.find _ _) as [k|] eqn:Hf.
  - apply List.find_some in Hf as [_ Hf]. apply bool_decide_eq_true in Hf. by apply value_name_inj in Hf as [_ ->].
  - assert (In j (seq 0 n)) as Hin by (apply in_seq; lia). apply (List.find_none _ _ Hf) in Hin.
    by apply bool_decide_eq_false in Hin.
Qed.

(** ** Combinations *)

(** All tuples, the last position changing fastest. *)
Fixpoint tuples (ns : list nat) : list (list nat) :=
  match ns with [] => [[]] | n :: ns => j ← seq 0 n; t ← tuples ns; [j :: t] end.
Fixpoint cells (ns : list nat) : nat := match ns with [] => 1 | n :: ns => n * cells ns end.
Fixpoint code (ns js : list nat) : nat :=
  match ns, js with n :: ns, j :: js => j * cells ns + code ns js | _, _ => 0 end.
Definition below (js ns : list nat) : Prop := Forall2 lt js ns.

Lemma bind_cons {A} (j : A) (L : list (list A)) : (t ← L; [j :: t]) = cons j <$> L.
Proof. induction L as [|t L IH]; [done|]. change ((j :: t) :: (t ← L; [j :: t]) = (j :: t) :: (cons j <$> L)). by rewrite IH. Qed.

Lemma blocks_lookup {A} (F : nat -> list A) (m : nat) : (forall j, length (F j) = m) ->
  forall n s k x, (seq s n ≫= F) !! k = Some x <-> exists j q, j < n /\ q < m /\ k = j * m + q /\ F (s + j) !! q = Some x.
Proof.
  intros HF. induction n as [|n IH]; intros s k x; simpl.
  - split; [done|]. intros (j & q & Hj & _). lia.
  - destruct (decide (k < m)) as [Hk|Hk].
    + rewrite lookup_app_l by (by rewrite HF). split.
      * intros H. exists 0, k. rewrite Nat.add_0_r. split_and!; [lia|lia|lia|done].
      * intros (j & q & Hj & Hq & -> & H). assert (j = 0) as -> by nia. rewrite Nat.add_0_r in H. exact H.
    + rewrite lookup_app_r by (rewrite HF; lia). rewrite HF, IH. split.
      * intros (j & q & Hj & Hq & He & H). exists (S j), q. split_and!; [lia|lia|nia|]. by replace (s + S j) with (S s + j) by lia.
      * intros (j & q & Hj & Hq & He & H). destruct j as [|j]; [lia|]. exists j, q. split_and!; [lia|lia|nia|].
        by replace (S s + j) with (s + S j) by lia.
Qed.

Lemma blocks_length {A} (F : nat -> list A) (m : nat) : (forall j, length (F j) = m) ->
  forall n s, length (seq s n ≫= F) = n * m.
Proof. intros HF. induction n as [|n IH]; intros s; simpl; [done|]. by rewrite app_length, HF, IH. Qed.

Lemma tuples_length ns : length (tuples ns) = cells ns.
Proof.
  induction ns as [|n ns IH]; [done|]. simpl. apply blocks_length. intros j. rewrite bind_cons. by rewrite fmap_length.
Qed.

Lemma code_bound ns js : below js ns -> code ns js < cells ns.
Proof. induction 1; simpl; [lia|nia]. Qed.

Lemma tuples_lookup ns : forall k js, tuples ns !! k = Some js <-> below js ns /\ k = code ns js.
Proof.
  induction ns as [|n ns IH]; intros k js.
  - simpl. split.
    + destruct k; [|done]. intros [= <-]. split; [constructor|done].
    + intros [H ->]. by inversion H.
  - simpl. rewrite (blocks_lookup _ (cells ns)) by (intros j; by rewrite bind_cons, fmap_length, tuples_length). split.
    + intros (j & q & Hj & Hq & -> & H). rewrite bind_cons in H. rewrite list_lookup_fmap in H.
      destruct (tuples ns !! q) as [t|] eqn:Ht; [|done]. simpl in H. injection H as <-. apply IH in Ht as [Hb ->].
      split; [by constructor|done].
    + intros [Hb ->]. inversion Hb as [|j n' js' ns' Hj Hb']; subst. exists j, (code ns js'). split_and!; [done|by apply code_bound|done|].
      rewrite bind_cons, list_lookup_fmap. by rewrite (proj2 (IH _ js')).
Qed.

Lemma tuples_elem ns js : js ∈ tuples ns <-> below js ns.
Proof.
  rewrite elem_of_list_lookup. split.
  - intros [k Hk]. by apply tuples_lookup in Hk as [? _].
  - intros Hb. exists (code ns js). by apply tuples_lookup.
Qed.

Lemma code_inj ns js js' : below js ns -> below js' ns -> code ns js = code ns js' -> js = js'.
Proof.
  intros H H' He. assert (tuples ns !! code ns js = Some js) as H1 by (by apply tuples_lookup).
  rewrite He in H1. rewrite (proj2 (tuples_lookup ns _ js')) in H1 by done. by injection H1.
Qed.

Lemma tuples_NoDup ns : NoDup (tuples ns).
Proof.
  apply NoDup_alt. intros i j t Hi Hj. apply tuples_lookup in Hi as [_ ->]. by apply tuples_lookup in Hj as [_ ->].
Qed.

Lemma joined_values_tuples n : joined_values n = tuples (replicate n 2).
Proof. induction n as [|n IH]; [done|]. simpl. rewrite !bind_cons, app_nil_r. by rewrite <- IH. Qed.

Lemma value_combination_tuples l : l <> [] ->
  value_combination l = (fun js => zip_with value_name l.*1 js) <$> tuples l.*2.
Proof.
  induction l as [|[v n] l IH]; [done|]. intros _. destruct l as [|x l].
  - change ((fun j => [value_name v j]) <$> seq 0 n =
      (fun js => zip_with value_name [v] js) <$> (seq 0 n ≫= (fun j => [[j]]))).
    induction (seq 0 n) as [|j s IHs]; [done|]. simpl. f_equal. exact IHs.
  - change (value_combination ((v, n) :: x :: l)) with (j ← seq 0 n; vs ← value_combination (x :: l); [value_name v j :: vs]).
    rewrite IH by done. change (tuples ((v, n) :: x :: l).*2) with (j ← seq 0 n; t ← tuples (x :: l).*2; [j :: t]).
    generalize (tuples (x :: l).*2) as L. intros L. induction (seq 0 n) as [|j s IHs]; [done|].
    set (F := fun js => zip_with value_name ((v, n) :: x :: l).*1 js) in *.
    set (G := fun js => zip_with value_name (x :: l).*1 js) in *.
    change (((vs ← G <$> L; [value_name v j :: vs]) ++ (j ← s; vs ← G <$> L; [value_name v j :: vs])) =
      F <$> ((t ← L; [j :: t]) ++ (j ← s; t ← L; [j :: t]))).
    rewrite fmap_app. f_equal; [|exact IHs].
    rewrite bind_cons. etransitivity; [exact (bind_cons (value_name v j) (G <$> L))|]. clear. induction L as [|t L IH]; [done|]. simpl. f_equal. exact IH.
Qed.

(** ** Assignments instead of tuples *)

Lemma rows_cells l : rows l = cells l.*2.
Proof. induction l as [|[v n] l IH]; [done|]. simpl. by rewrite IH. Qed.

Lemma row_of_code l b : row_of l b = code l.*2 (b <$> l.*1).
Proof. induction l as [|[v n] l IH]; [done|]. simpl. by rewrite IH, rows_cells. Qed.

Lemma names_of (b : Var -> nat) vs : zip_with value_name vs (b <$> vs) = named b <$> vs.
Proof. induction vs as [|v vs IH]; [done|]. simpl. f_equal. exact IH. Qed.

Lemma below_assign (b : Var -> nat) l : below (b <$> l.*1) l.*2 <-> forall v n, (v, n) ∈ l -> b v < n.
Proof.
  unfold below. induction l as [|[v n] l IH]; simpl.
  - split; [|constructor]. intros _ v n H. by apply elem_of_nil in H.
  - rewrite Forall2_cons, IH. split.
    + intros [H1 H2] v' n' H. apply elem_of_cons in H as [[= -> ->]|H]; [done|by apply H2].
    + intros H. split; [apply H; by left|]. intros v' n' H'. apply H. by right.
Qed.

(** A tuple is an assignment to different variables, also with a given value for one more. *)
Lemma tuple_assign vs js (v : Var) (i : nat) : NoDup vs -> v ∉ vs -> length js = length vs ->
  exists b : Var -> nat, js = b <$> vs /\ b v = i.
Proof.
  revert js. induction vs as [|w vs IH]; intros [|j js] Hnd Hv Hl; try done.
  - by exists (fun _ => i).
  - apply NoDup_cons in Hnd as [Hw Hnd]. apply not_elem_of_cons in Hv as [Hvw Hv].
    destruct (IH js) as (b & Hb & Hi); [done|done|by injection Hl|].
    exists (fun u => if decide (u = w) then j else b u). simpl. rewrite decide_True by done. split; [|by rewrite decide_False].
    f_equal. rewrite Hb. apply list_fmap_ext. intros k u Hk.
    rewrite decide_False; [done|]. intros ->. apply Hw. by eapply elem_of_list_lookup_2.
Qed.
