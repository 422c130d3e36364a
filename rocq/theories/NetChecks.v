(** * NetChecks: checkers for the hypotheses about networks, and the networks of the two experiments. *)

From Coq Require Import String.
From Verif Require Export BayesInfer MarkovInfer ExamplesSets.

Lemma seq_in i n : i < n -> In i (seq 0 n).
Proof. intros H. apply in_seq. lia. Qed.

Section generic.
Context {U : Universe}.

Definition shareb (P : Var -> bool) (f f' : factor) : bool := existsb P (elements (f_vars f ∩ f_vars f')).

Lemma shareb_spec P f f' : shareb P f f' = true <-> exists v, P v = true /\ v ∈ f_vars f /\ v ∈ f_vars f'.
Proof.
  unfold shareb. rewrite existsb_exists. split.
  - intros (v & Hv & HP). apply elem_of_list_In, elem_of_elements, elem_of_intersection in Hv as [H1 H2]. by exists v.
  - intros (v & HP & H1 & H2). exists v. split; [|done]. apply elem_of_list_In, elem_of_elements, elem_of_intersection. done.
Qed.

(** Positions reached from position 0 in [n] rounds. *)
Fixpoint reach (fs : list factor) (n : nat) : list nat :=
  match n with
  | 0 => [0]
  | S n => let l := reach fs n in
      List.filter (fun i => existsb (fun j => bool_decide (i = j) ||
        match fs !! i, fs !! j with Some f, Some f' => shareb (fun _ => true) f f' | _, _ => false end) l) (seq 0 (length fs))
  end.
Definition net_connectedb (fs : list factor) : bool :=
  forallb (fun i => bool_decide (i ∈ reach fs (length fs))) (seq 0 (length fs)).

Lemma reach_chain fs n i : i ∈ reach fs n -> net_chain fs (fun _ => True) 0 i.
Proof.
  revert i. induction n as [|n IH]; intros i Hi.
  - apply elem_of_list_singleton in Hi as ->. apply rtc_refl.
  - cbn [reach] in Hi. apply elem_of_list_In, filter_In in Hi as [_ Hi]. apply existsb_exists in Hi as (j & Hj & Hi).
    apply elem_of_list_In in Hj. specialize (IH j Hj). apply orb_true_iff in Hi as [->%bool_decide_eq_true|Hi]; [done|].
    eapply rtc_r; [exact IH|]. destruct (fs !! i) as [f|] eqn:Hf; [|done]. destruct (fs !! j) as [f'|] eqn:Hf'; [|done].
    apply shareb_spec in Hi as (v & _ & Hv & Hv'). exists f', f, v. done.
Qed.

Lemma net_chain_sym fs P i j : net_chain fs P i j -> net_chain fs P j i.
Proof.
  intros H. unfold net_chain in *. induction H as [i|i k j (f & f' & v & H1 & H2 & H3 & H4 & H5) _ IH]; [apply rtc_refl|].
  eapply rtc_r; [exact IH|]. exists f', f, v. done.
Qed.

Lemma net_connectedb_spec fs : net_connectedb fs = true -> net_connected fs.
Proof.
  unfold net_connectedb. rewrite forallb_forall. intros H i j Hi Hj.
  assert (forall i, i < length fs -> net_chain fs (fun _ => True) 0 i) as H0.
  { intros k Hk. apply (reach_chain fs (length fs)). specialize (H k). apply bool_decide_eq_true in H; [done|].
    apply in_seq. lia. }
  unfold net_chain. etransitivity; [apply net_chain_sym|]; by apply H0.
Qed.

(** Labels of the positions for a variable [v]: the same for factors linked without [v], different for the factors
    with [v]. *)
Definition labels_ok (fs : list factor) (v : Var) (lab : list nat) : bool :=
  forallb (fun i => forallb (fun j =>
    match fs !! i, fs !! j with
    | Some f, Some f' =>
        (negb (shareb (fun w => negb (bool_decide (w = v))) f f') || bool_decide (lab !! i = lab !! j)) &&
        (bool_decide (i = j) || negb (bool_decide (v ∈ f_vars f)) || negb (bool_decide (v ∈ f_vars f')) || negb (bool_decide (lab !! i = lab !! j)))
    | _, _ => true
    end) (seq 0 (length fs))) (seq 0 (length fs)).

Definition relabel (fs : list factor) (v : Var) (lab : list nat) : list nat :=
  (fun i => foldr Nat.min (default i (lab !! i)) (omap (fun j =>
    match fs !! i, fs !! j with
    | Some f, Some f' => if shareb (fun w => negb (bool_decide (w = v))) f f' then lab !! j else None
    | _, _ => None
    end) (seq 0 (length fs)))) <$> seq 0 (length fs).
Definition label (fs : list factor) (v : Var) : list nat := Nat.iter (length fs) (relabel fs v) (seq 0 (length fs)).

Definition net_acyclicb (fs : list factor) : bool :=
  forallb (fun v => labels_ok fs v (label fs v)) (elements (⋃ (f_vars <$> fs))).

Lemma labels_chain fs v lab : labels_ok fs v lab = true -> forall i j, net_chain fs (fun w => w <> v) i j -> lab !! i = lab !! j.
Proof.
  intros H i j Hc. unfold net_chain in Hc. induction Hc as [i|i k j (f & f' & w & H1 & H2 & H3 & H4 & H5) _ IH]; [done|].
  rewrite <- IH. clear IH. unfold labels_ok in H. rewrite forallb_forall in H.
  pose proof (lookup_lt_Some _ _ _ H1) as L1. pose proof (lookup_lt_Some _ _ _ H2) as L2.
  specialize (H i ltac:(apply in_seq; lia)). rewrite forallb_forall in H. specialize (H k ltac:(apply in_seq; lia)).
  rewrite H1, H2 in H. apply andb_true_iff in H as [H _]. apply orb_true_iff in H as [H|H]; [|by apply bool_decide_eq_true in H].
  apply negb_true_iff in H. assert (shareb (fun w => negb (bool_decide (w = v))) f f' = true) as Hs; [|congruence].
  apply shareb_spec. exists w. split_and!; [|done|done]. apply negb_true_iff, bool_decide_eq_false. done.
Qed.

Lemma net_acyclicb_spec fs : net_acyclicb fs = true -> ~ net_cyclic fs.
Proof.
  unfold net_acyclicb. rewrite forallb_forall. intros H (i & j & f & f' & v & Hij & Hi & Hj & Hv & Hv' & Hc).
  assert (labels_ok fs v (label fs v) = true) as Hl.
  { apply H. apply elem_of_list_In, elem_of_elements, elem_of_union_list. exists (f_vars f). split; [|done].
    apply elem_of_list_fmap. exists f. split; [done|]. by eapply elem_of_list_lookup_2. }
  pose proof (labels_chain fs v _ Hl i j Hc) as Heq. unfold labels_ok in Hl. rewrite forallb_forall in Hl.
  pose proof (lookup_lt_Some _ _ _ Hi) as L1. pose proof (lookup_lt_Some _ _ _ Hj) as L2.
  specialize (Hl i ltac:(apply in_seq; lia)). rewrite forallb_forall in Hl. specialize (Hl j ltac:(apply in_seq; lia)).
  rewrite Hi, Hj in Hl. apply andb_true_iff in Hl as [_ Hl].
  rewrite bool_decide_eq_false_2, bool_decide_eq_true_2, bool_decide_eq_true_2, bool_decide_eq_true_2 in Hl by done. done.
Qed.

Definition net_crowdedb (fs : list factor) : bool :=
  existsb (fun i => existsb (fun j => existsb (fun k =>
    match fs !! i, fs !! j, fs !! k with
    | Some f, Some g, Some h => negb (bool_decide (i = j)) && negb (bool_decide (i = k)) && negb (bool_decide (j = k)) &&
        negb (bool_decide (f_vars f ∩ f_vars g ∩ f_vars h = ∅))
    | _, _, _ => false
    end) (seq 0 (length fs))) (seq 0 (length fs))) (seq 0 (length fs)).

Lemma net_crowdedb_spec fs : net_crowdedb fs = false -> ~ net_crowded fs.
Proof.
  intros H (v & i & j & k & f & g & h & Hij & Hik & Hjk & Hi & Hj & Hk & Hf & Hg & Hh).
  assert (net_crowdedb fs = true) as Ht; [|congruence].
  pose proof (lookup_lt_Some _ _ _ Hi) as L1. pose proof (lookup_lt_Some _ _ _ Hj) as L2. pose proof (lookup_lt_Some _ _ _ Hk) as L3.
  unfold net_crowdedb. apply existsb_exists. exists i. split; [apply in_seq; lia|].
  apply existsb_exists. exists j. split; [apply in_seq; lia|]. apply existsb_exists. exists k. split; [apply in_seq; lia|].
  rewrite Hi, Hj, Hk. rewrite !bool_decide_eq_false_2; try done. intros He.
  assert (v ∈ f_vars f ∩ f_vars g ∩ f_vars h) as Hin by (apply elem_of_intersection; split; [by apply elem_of_intersection|done]).
  rewrite He in Hin. by apply elem_of_empty in Hin.
Qed.

End generic.

Local Existing Instance StrU.

(** ** Markov networks *)

Definition markov_okb (nodes : list Var) (edges : list (Var * Var * list Z)) : bool :=
  bool_decide (NoDup nodes) && bool_decide (edges <> []) &&
  forallb (fun '(v, w, vals) => bool_decide (v ∈ nodes) && bool_decide (w ∈ nodes) && bool_decide (v <> w) &&
    forallb (fun k => match vals !! k with Some z => (1 <=? z)%Z | None => false end) (seq 0 4)) edges &&
  forallb (fun i => forallb (fun j => bool_decide (i = j) ||
    match edges !! i, edges !! j with
    | Some (v, w, _), Some (v', w', _) => negb (bool_decide (v = v' /\ w = w' \/ v = w' /\ w = v'))
    | _, _ => true
    end) (seq 0 (length edges))) (seq 0 (length edges)).

Lemma markov_okb_spec nodes edges : markov_okb nodes edges = true -> markov_ok nodes edges.
Proof.
  unfold markov_okb. rewrite !andb_true_iff, !forallb_forall. intros [[[H1 H2] H3] H4]. apply bool_decide_eq_true in H1, H2. split.
  - done.
  - done.
  - intros v w vals Hin. apply elem_of_list_In in Hin. specialize (H3 _ Hin). simpl in H3. rewrite !andb_true_iff, !bool_decide_eq_true in H3. tauto.
  - intros v w vals k Hin Hk. apply elem_of_list_In in Hin. specialize (H3 _ Hin). cbn beta iota in H3. apply andb_true_iff in H3 as [_ H3].
    rewrite forallb_forall in H3. specialize (H3 k ltac:(apply in_seq; lia)). destruct (vals !! k) as [z|]; [|done]. exists z. split; [done|].
    by apply Z.leb_le.
  - intros i j v w vals v' w' vals' Hi Hj Hs. specialize (H4 i (seq_in _ _ (lookup_lt_Some _ _ _ Hi))).
    rewrite forallb_forall in H4. specialize (H4 j (seq_in _ _ (lookup_lt_Some _ _ _ Hj))).
    apply orb_true_iff in H4 as [H4|H4]; [by apply bool_decide_eq_true in H4|]. rewrite Hi, Hj in H4.
    apply negb_true_iff, bool_decide_eq_false in H4. done.
Qed.

Definition markov_coverb (nodes : list Var) (edges : list (Var * Var * list Z)) : bool :=
  forallb (fun v => existsb (fun e => bool_decide (v = e.1.1) || bool_decide (v = e.1.2)) edges) nodes.
Lemma markov_coverb_spec nodes edges : markov_coverb nodes edges = true ->
  forall v, v ∈ nodes -> exists e, e ∈ edges /\ (v = e.1.1 \/ v = e.1.2).
Proof.
  unfold markov_coverb. rewrite forallb_forall. intros H v Hv. apply elem_of_list_In in Hv. specialize (H v Hv).
  apply existsb_exists in H as (e & He & H). exists e. split; [by apply elem_of_list_In|].
  apply orb_true_iff in H as [H|H]; apply bool_decide_eq_true in H; auto.
Qed.

(** comparing_with_markov_network.py:29-35 *)
Definition mk_shipped_nodes : list string := ["A"; "B"; "C"; "D"]%string.
Definition mk_shipped_edges : list (string * string * list Z) :=
  [("A", "B", [30; 5; 1; 10]%Z); ("B", "C", [100; 1; 1; 100]%Z); ("C", "D", [1; 100; 100; 1]%Z); ("D", "A", [100; 1; 1; 100]%Z)]%string.

(** ** Bayesian networks *)
Section bayes.
Context {T : Type} (scale : T -> res Z).

Definition cpd_okb (card : Var -> nat) (net : list (Var * cpd T)) (e : Var * cpd T) : bool :=
  let ps := given (c_parents e.2) in let fam := family e in
  bool_decide (c_card e.2 = card e.1) && (1 <=? c_card e.2)%nat &&
  bool_decide (length ps = length (given (c_parent_cards e.2))) &&
  bool_decide (NoDup ps) && bool_decide (e.1 ∉ ps) &&
  forallb (fun pn => bool_decide (pn.1 ∈ net.*1) && bool_decide (pn.2 = card pn.1)) fam &&
  forallb (fun i => match c_values e.2 !! i with
    | Some r => forallb (fun k => match r !! k with
        | Some p => match scale p with Ok c => (1 <=? c)%Z | Err _ => false end
        | None => false end) (seq 0 (rows fam))
    | None => false end) (seq 0 (c_card e.2)) &&
  forallb (fun v => forallb (fun w => bool_decide (v = w) ||
    forallb (fun j => negb (occurs_in v (value_name w j))) (seq 0 (card w))) (e.1 :: ps)) (e.1 :: ps).

Lemma cpd_okb_spec card net e : cpd_okb card net e = true -> cpd_ok scale card net e.
Proof.
  unfold cpd_okb. rewrite !andb_true_iff, !bool_decide_eq_true. intros [[[[[[[H1 H2] H3] H4] H5] H6] H7] H8]. split.
  - split; [done|]. by apply Nat.leb_le.
  - done.
  - done.
  - intros p n Hp. rewrite forallb_forall in H6. apply elem_of_list_In in Hp. specialize (H6 _ Hp). cbn [fst snd] in H6.
    by rewrite andb_true_iff, !bool_decide_eq_true in H6.
  - intros i Hi. rewrite forallb_forall in H7. specialize (H7 i ltac:(apply in_seq; lia)).
    destruct (c_values e.2 !! i) as [r|]; [|done]. exists r. split; [done|]. intros k Hk. rewrite forallb_forall in H7.
    specialize (H7 k ltac:(apply in_seq; lia)). destruct (r !! k) as [p|]; [|done]. destruct (scale p) as [c|] eqn:Hc; [|done].
    exists p, c. split_and!; [done|done|by apply Z.leb_le].
  - intros v w j Hv Hw Hne Hj. rewrite forallb_forall in H8. apply elem_of_list_In in Hv, Hw. specialize (H8 v Hv).
    rewrite forallb_forall in H8. specialize (H8 w Hw). apply orb_true_iff in H8 as [H8|H8]; [by apply bool_decide_eq_true in H8|].
    rewrite forallb_forall in H8. specialize (H8 j ltac:(apply in_seq; lia)). by apply negb_true_iff in H8.
Qed.

Definition bayes_okb (card : Var -> nat) (net : list (Var * cpd T)) : bool :=
  negb (bool_decide (length net = 0)) && bool_decide (NoDup net.*1) && forallb (cpd_okb card net) net &&
  forallb (fun e => forallb (fun e' => negb (bool_decide (e.1 ∈ given (c_parents e'.2))) || negb (bool_decide (e'.1 ∈ given (c_parents e.2)))) net) net.

Lemma bayes_okb_spec card net : bayes_okb card net = true -> bayes_ok scale card net.
Proof.
  unfold bayes_okb. rewrite !andb_true_iff, !forallb_forall, negb_true_iff, bool_decide_eq_false, bool_decide_eq_true.
  intros [[[H1 H2] H3] H4]. split.
  - by intros ->.
  - done.
  - intros e He. apply cpd_okb_spec, H3. by apply elem_of_list_In.
  - intros e e' He He' Hp Hp'. apply elem_of_list_In in He, He'. specialize (H4 e He). rewrite forallb_forall in H4. specialize (H4 e' He').
    rewrite orb_true_iff, !negb_true_iff, !bool_decide_eq_false in H4. tauto.
Qed.

Definition evidence_okb (card : Var -> nat) (vars : list Var) (ev : list (Var * nat)) : bool :=
  forallb (fun e => bool_decide (e.1 ∈ vars) && (e.2 <? card e.1)%nat &&
    forallb (fun e' => negb (bool_decide (e.1 = e'.1)) || bool_decide (e.2 = e'.2)) ev) ev.
Lemma evidence_okb_spec card vars ev : evidence_okb card vars ev = true -> evidence_ok card vars ev.
Proof.
  unfold evidence_okb. rewrite forallb_forall. intros H v j Hin. apply elem_of_list_In in Hin. specialize (H _ Hin). cbn [fst snd] in H.
  rewrite !andb_true_iff, bool_decide_eq_true in H. destruct H as [[H1 H2] H3]. split_and!; [done|by apply Nat.ltb_lt|].
  intros k Hk. apply elem_of_list_In in Hk. rewrite forallb_forall in H3. specialize (H3 _ Hk). cbn [fst snd] in H3.
  apply orb_true_iff in H3 as [H3|H3]; [apply negb_true_iff, bool_decide_eq_false in H3; done|by apply bool_decide_eq_true in H3].
Qed.

(** Columns: enough to look at the numbers of the parents. *)
Definition columns_sumb (card : Var -> nat) (F : Z) (e : Var * cpd T) : bool :=
  bool_decide (e.1 ∉ given (c_parents e.2)) &&
  forallb (fun k => bool_decide (zsum ((fun j => match r ← c_values e.2 !! j; r !! k with
      | Some p => match scale p with Ok c => c | Err _ => 0%Z end
      | None => 0%Z end) <$> seq 0 (card e.1)) = F)) (seq 0 (rows (family e))).

Lemma row_of_bound (fam : list (Var * nat)) b : (forall v n, (v, n) ∈ fam -> b v < n) -> row_of fam b < rows fam.
Proof.
  induction fam as [|[v n] fam IH]; intros H; [simpl; lia|]. cbn [row_of rows].
  assert (b v < n) by (apply H; left). assert (row_of fam b < rows fam) by (apply IH; intros w m Hw; apply H; by right). nia.
Qed.

Lemma row_of_ext (fam : list (Var * nat)) b b' : (forall v n, (v, n) ∈ fam -> b v = b' v) -> row_of fam b = row_of fam b'.
Proof.
  induction fam as [|[v n] fam IH]; intros H; [done|]. cbn [row_of]. rewrite (H v n ltac:(left)), IH; [done|].
  intros w m Hw. apply (H w m). by right.
Qed.

Lemma columns_sumb_spec card net F e : bayes_ok scale card net -> e ∈ net -> columns_sumb card F e = true -> columns_sum scale card F e.
Proof.
  intros Hok He. unfold columns_sumb. rewrite andb_true_iff, bool_decide_eq_true, forallb_forall. intros [Hn H] b Hb.
  pose proof (bk_tables _ _ _ Hok e He) as Hc.
  assert (forall v n, (v, n) ∈ family e -> v ∈ given (c_parents e.2) /\ n = card v) as Hfam.
  { intros v n Hv. split; [|by apply (ck_parents _ _ _ _ Hc v n)]. unfold family in Hv. apply elem_of_list_In in Hv.
    apply elem_of_list_In. by eapply in_combine_l. }
  specialize (H (row_of (family e) b)). rewrite bool_decide_eq_true in H. rewrite <- H.
  2:{ apply in_seq. split; [lia|]. apply row_of_bound. intros v n Hv. destruct (Hfam v n Hv) as [Hp ->]. by apply Hb. }
  f_equal. apply list_fmap_ext. intros k j Hj. unfold entry_count, entry_of.
  assert (update b e.1 j e.1 = j) as -> by (unfold update; by rewrite decide_True).
  assert (row_of (family e) (update b e.1 j) = row_of (family e) b) as ->; [|done].
  apply row_of_ext. intros v n Hv. destruct (Hfam v n Hv) as [Hp _]. unfold update. rewrite decide_False; [done|]. by intros <-.
Qed.

Definition parents_firstb (net : list (Var * cpd T)) : bool :=
  forallb (fun k => match net !! k with
    | Some e => forallb (fun p => bool_decide (p ∈ (take k net).*1)) (given (c_parents e.2))
    | None => true end) (seq 0 (length net)).
Lemma parents_firstb_spec net : parents_firstb net = true -> no_cycle net.
Proof.
  unfold parents_firstb. rewrite forallb_forall. intros H. exists net. split; [done|]. intros k e p Hk Hp.
  specialize (H k (seq_in _ _ (lookup_lt_Some _ _ _ Hk))). rewrite Hk, forallb_forall in H.
  apply elem_of_list_In in Hp. specialize (H p Hp). apply bool_decide_eq_true in H.
  apply elem_of_list_fmap in H as (e' & -> & H). apply elem_of_list_lookup in H as [l Hl]. apply lookup_take_Some in Hl as [Hl Hlt].
  exists l. split; [done|]. rewrite list_lookup_fmap, Hl. done.
Qed.

End bayes.

(** comparing_with_bayes_network.py:36-47, with the probabilities in hundredths. *)
Definition percent (p : Z) : res Z := Ok p.
Definition table {T} (q : Z -> T) (t : list (list Z)) : list (list T) := map (map q) t.
Definition by_shipped {T} (q : Z -> T) : list (string * cpd T) := [
  ("D", Cpd 2 (table q [[60]; [40]]) None None);
  ("I", Cpd 2 (table q [[70]; [30]]) None None);
  ("G", Cpd 3 (table q [[30; 5; 90; 50]; [40; 25; 8; 30]; [30; 70; 2; 20]]) (Some ["I"; "D"]) (Some [2; 2]%nat));
  ("S", Cpd 2 (table q [[95; 20]; [5; 80]]) (Some ["I"]) (Some [2]%nat));
  ("L", Cpd 2 (table q [[10; 40; 99]; [90; 60; 1]]) (Some ["G"]) (Some [3]%nat))]%string%Z.
Definition by_card (v : string) : nat := if String.eqb v "G" then 3 else 2.
