(** * PropsToys: all small graphs (C61) and the coin toss example (C62) *)

From Coq Require Import ZArith String Ascii.
From Verif Require Import ExamplesSets SpecSubgraphs SubgraphFacts SpecCoins CoinFacts.

Local Notation txt := (list N).

(** ** C61: make_all_sub_graphs *)

(** For every [n >= 2]: if the number of graphs does not fit a float, the exception of the formula is raised; if the
    float formula gives the number of graphs, each graph on the nodes 1 to [n] with typed edges is drawn once;
    otherwise the assertion fails. *)
Theorem C61_draws_all (o : oracle) (n : Z) : (2 <= n)%Z ->
  match counted_size n with
  | Err e => make_all_sub_graphs o n = Err e
  | Ok f =>
      if int_eq_float (all_numbers n + n) f then
        exists net L, make_all_sub_graphs o n = Ok net /\ NoDup L /\ (forall S, S ∈ L <-> typed_graph n S) /\
          Z.of_nat (length L) = (all_numbers n - 1)%Z /\ draws_all n L net
      else make_all_sub_graphs o n = Err AssertionError
  end.
Proof. exact (C61_lemma o n). Qed.

(** For 2 to 8 nodes the formula is right. *)
Theorem C61_up_to_eight (o : oracle) (n : Z) : (2 <= n <= 8)%Z ->
  exists net L, make_all_sub_graphs o n = Ok net /\ NoDup L /\ (forall S, S ∈ L <-> typed_graph n S) /\
    Z.of_nat (length L) = (all_numbers n - 1)%Z /\ draws_all n L net.
Proof. exact (up_to_eight_lemma o n). Qed.

(** Without a pair of nodes the script raises [IndexError]. *)
Theorem C61_too_few (o : oracle) (n : Z) : (n <= 1)%Z -> make_all_sub_graphs o n = Err IndexError.
Proof. exact (small_lemma o n). Qed.

(** For nine nodes the formula is inexact in floats, so the assertion fails. *)
Theorem C61_nine_refuted : exists n, (2 <= n)%Z /\ forall o, make_all_sub_graphs o n = Err AssertionError.
Proof. exists 9%Z. split; [lia|]. exact nine_lemma. Qed.

Example C61_three : typed_graph 3 {[(1, 2, lit "AB"); (2, 3, lit "BA")]}%Z.
Proof.
  split.
  - intros H. assert ((1, 2, lit "AB")%Z ∈ (∅ : gset (Z * Z * txt))) as Hx by (rewrite <- H; set_solver). set_solver +Hx.
  - intros a b t Ht. rewrite elem_of_union, !elem_of_singleton in Ht. destruct Ht as [[= -> -> ->] | [= -> -> ->]]; split_and!; auto; lia.
  - intros a b t t' Ht Ht'. rewrite elem_of_union, !elem_of_singleton in Ht, Ht'.
    destruct Ht as [[= -> -> ->] | [= -> -> ->]], Ht' as [[= ->] | [= ->]]; done.
Qed.
Example C61_two : exists net, make_all_sub_graphs (fun _ => []) 2 = Ok net /\
  nw_edges net = [(named_in 1 1, named_in 1 2, (lit "AB", None)); (named_in 2 1, named_in 2 2, (lit "BA", None))].
Proof.
  destruct (make_all_sub_graphs (fun _ => []) 2) as [net|] eqn:E.
  - exists net. split; [done|].
    assert (H : (match make_all_sub_graphs (fun _ => []) 2 with Ok net => bool_decide (nw_edges net =
      [(named_in 1 1, named_in 1 2, (lit "AB", None)); (named_in 2 1, named_in 2 2, (lit "BA", None))]) | Err _ => false end) = true)
      by (vm_compute; reflexivity).
    rewrite E in H. by apply bool_decide_eq_true in H.
  - exfalso. assert (H : (match make_all_sub_graphs (fun _ => []) 2 with Ok _ => true | Err _ => false end) = true) by (vm_compute; reflexivity).
    by rewrite E in H.
Qed.

(** ** C62: build_relation_net of the coin toss example *)
Section coins.
Local Existing Instance StrU.

(** The network is built exactly if there are reports and all are well formed: then the count of each outcome is the
    number of the reports that mean it. *)
Theorem C62_net (py_int : txt -> option Z) (i : nat) (T : list txt) :
  reads_numbers py_int ->
  match build_relation_net py_int i T with
  | Ok sp => exists l, l <> [] /\ all_reports T l /\
      (forall g c, count_of (sp_out sp) g = Ok c <-> reports_of g l <> [] /\ c = Z.of_nat (length (reports_of g l))) /\
      ss_length (sp_out sp) = Z.of_nat (length T) /\
      cp_vars (sp_cp sp) = {["V1" := {["h1"; "t1"]}; "V2" := {["h2"; "t2"]}; "V3" := {["h3"; "t3"]}]} /\
      cp_rels (sp_cp sp) = {["r1"; "r2"]}
  | Err _ => ~ exists l, l <> [] /\ all_reports T l
  end.
Proof. exact (net_lemma py_int i T). Qed.

(** Two reports mean the same outcome exactly if they report the same tosses in the same order. *)
Theorem C62_distinct (r r' : report) : report_ok r -> report_ok r' -> (meaning r = meaning r' <-> same_tosses r r').
Proof. exact (meaning_lemma r r'). Qed.

(** A text is the writing of at most one report. *)
Theorem C62_unambiguous (r r' : report) : report_ok r -> report_ok r' -> written r = written r' -> r = r'.
Proof. exact (written_inj r r'). Qed.

(** Each outcome is printed once, with its count and its share of the reports. *)
Theorem C62_describe (py_int : txt -> option Z) (o : oracle) (i : nat) (T : list txt) (sp : space) :
  reads_numbers py_int -> build_relation_net py_int i T = Ok sp ->
  exists l, describe_relation_net o sp = Ok l /\ NoDup l.*1.*1 /\
    forall g c p, (g, c, p) ∈ l <-> count_of (sp_out sp) g = Ok c /\ p = qdiv c (Z.of_nat (length T)).
Proof. intros H. exact (describe_lemma py_int H o i T sp). Qed.

(** The reports of the script. *)
Definition the_reports : list report :=
  [Toss Nickel Heads; Toss Penny Heads; Toss Nickel Heads; Toss Quarter Tails; Toss Penny Heads; Toss Nickel Heads;
   Tosses Nickel Heads (lit "then") Quarter Heads; Tosses Penny Heads (lit "then") Nickel Heads;
   Tosses Quarter Tails (lit "then") Nickel Tails; Tosses Penny Tails (lit "then") Nickel Tails].
Example C62_reports : all_reports experiment_results the_reports.
Proof.
  split; [|apply (bool_decide_unpack _); vm_compute; reflexivity].
  assert (32%N ∉ lit "then") as H by (apply (bool_decide_unpack _); vm_compute; exact I).
  repeat constructor; try done.
Qed.
Example C62_reader : reads_numbers read_decimal.
Proof. exact read_decimal_ok. Qed.

Lemma table_ok (R : list report) (L : list (graph * Z)) (g : graph) (c : Z) :
  forallb (fun q => bool_decide (Z.of_nat (length (reports_of q.1 R)) = q.2 /\ (0 < q.2)%Z)) L = true ->
  forallb (fun r => bool_decide (meaning r ∈ L.*1)) R = true ->
  reports_of g R <> [] /\ c = Z.of_nat (length (reports_of g R)) <-> (g, c) ∈ L.
Proof.
  rewrite !forallb_forall. intros H1 H2.
  assert (K1 : forall g c, (g, c) ∈ L -> Z.of_nat (length (reports_of g R)) = c /\ (0 < c)%Z).
  { intros h d Hd. apply elem_of_list_In in Hd. specialize (H1 _ Hd). by apply bool_decide_eq_true in H1. }
  split.
  - intros [Hr ->]. destruct (reports_of g R) as [|r l] eqn:E; [done|].
    assert (r ∈ reports_of g R) as Hin by (rewrite E; left). rewrite <- E.
    apply elem_of_list_filter in Hin as [Hm Hin]. apply elem_of_list_In, H2, bool_decide_eq_true in Hin.
    rewrite Hm in Hin. apply elem_of_list_fmap in Hin as ([h d] & -> & Hd). destruct (K1 _ _ Hd) as [Hl _]. simpl. by rewrite Hl.
  - intros Hg. destruct (K1 _ _ Hg) as [Hl Hp]. split; [|done]. intros E. rewrite E in Hl. simpl in Hl. lia.
Qed.

(** The network of the script: ten reports, three of them of a five cent coin showing heads alone, and so on. *)
Theorem C62_experiment (py_int : txt -> option Z) (i : nat) : reads_numbers py_int ->
  exists sp, build_relation_net py_int i experiment_results = Ok sp /\ ss_length (sp_out sp) = 10%Z /\
    forall g c, count_of (sp_out sp) g = Ok c <->
      (g, c) ∈ [(meaning (Toss Nickel Heads), 3%Z); (meaning (Toss Penny Heads), 2%Z); (meaning (Toss Quarter Tails), 1%Z);
                (meaning (Tosses Nickel Heads [] Quarter Heads), 1%Z); (meaning (Tosses Penny Heads [] Nickel Heads), 1%Z);
                (meaning (Tosses Quarter Tails [] Nickel Tails), 1%Z); (meaning (Tosses Penny Tails [] Nickel Tails), 1%Z)].
Proof.
  intros Hi. pose proof (C62_net py_int i experiment_results Hi) as H.
  destruct (build_relation_net py_int i experiment_results) as [sp|].
  - exists sp. split; [done|]. destruct H as (l & _ & [Hl Hw] & Hc & Hn & _).
    assert (l = the_reports) as -> by (apply (reports_unique _ _ Hl (proj1 C62_reports)); rewrite <- Hw; apply C62_reports).
    split; [exact Hn|]. intros g c. rewrite Hc. apply table_ok; vm_compute; reflexivity.
  - exfalso. apply H. exists the_reports. split; [done|exact C62_reports].
Qed.

(** ** Refutations *)

(** Two tosses of one coin are not accepted. *)
Theorem C62_same_coin_refuted : exists t, t = coin_text Penny ++ lit " H then " ++ coin_text Penny ++ lit " T" /\
  build_relation_net read_decimal 0 [t] = Err AssertionError.
Proof. eexists. split; [reflexivity|]. vm_compute. reflexivity. Qed.
End coins.

Print Assumptions C61_draws_all.
Print Assumptions C61_up_to_eight.
Print Assumptions C61_too_few.
Print Assumptions C61_nine_refuted.
Print Assumptions C62_net.
Print Assumptions C62_distinct.
Print Assumptions C62_unambiguous.
Print Assumptions C62_describe.
Print Assumptions C62_experiment.
Print Assumptions C62_same_coin_refuted.
