(** * PropsNet: properties C49 (Markov network experiment), C50 (Bayesian network experiment) and C51 (chains of
    conditioning and joining)

    The two scripts compare relation graphs with one network each; the theorems are about all networks. *)

From Verif Require Import ExamplesSets BayesInfer MarkovInfer NetChecks Floats NetFloats PropsJoin.

(** ** C51 *)
Section stages.
Context {U : Universe}.

(** Conditioning and joining in any order, ending with joining: the outcomes of the joined space that contain all the
    given values, with their counts. *)
Theorem C51_stages (o o' : oracle) (sp : space) (l : list stage) :
  joinable sp -> ~ disconnected (sp_out sp) -> ~ cyclic (sp_out sp) \/ ~ crowded (sp_out sp) -> coherent (sp_out sp) l ->
  exists r r', make_joined o sp = Ok r /\ run_stages o' sp (l ++ [Joined]) = Ok r' /\
    sp_cp r' = sp_cp sp /\ ss_cp (sp_out r') = sp_cp sp /\
    forall G c, count_of (sp_out r') G = Ok c <-> count_of (sp_out r) G = Ok c /\ forall n, given_in l n -> n ∈ g_nodes G.
Proof. exact (stages_joined o o' sp l). Qed.

(** A joined space can be joined again: nothing changes. *)
Theorem C51_join_twice (o o' : oracle) (sp r : space) :
  joinable sp -> make_joined o sp = Ok r -> make_joined o' r = Ok r.
Proof. intros Hj Hr. destruct (joined_joinable o sp r Hj Hr) as [Hj' Hs]. exact (joined_again o' r Hj' Hs). Qed.

Theorem C51_joined_joinable (o : oracle) (sp r : space) :
  joinable sp -> make_joined o sp = Ok r ->
  joinable r /\ forall n, occurs (sp_out r) n <-> occurs (sp_out sp) n.
Proof. intros Hj Hr. split; [exact (proj1 (joined_joinable o sp r Hj Hr))|]. intros n. exact (joined_occurs_iff o sp r n Hj Hr). Qed.

End stages.

(** Two values given, with joining in between. *)
Example C51_coherent : coherent (sp_out sp_chain) [Given va x1; Joined; Given vc x2].
Proof.
  assert (forall v x (g : @graph TinyU), bool_decide (is_Some (ss_map (sp_out sp_chain) !! g) /\ (v, x) ∈ g_nodes g) = true ->
    occurs (sp_out sp_chain) (v, x)) as Ho.
  { intros v x g [H1 H2]%bool_decide_eq_true. exists g. split; [exact H1|exact H2]. }
  split.
  - intros [v x] H. unfold given_in in H. rewrite !elem_of_cons in H. destruct H as [H|[H|[H|H]]]; [| | |by apply elem_of_nil in H].
    + injection H as -> ->. apply (Ho va x1 t_ab). vm_compute. reflexivity.
    + discriminate H.
    + injection H as -> ->. apply (Ho vc x2 (graph_of [ted vb x1 vc x2])). vm_compute. reflexivity.
  - intros v x y Hx Hy. unfold given_in in Hx, Hy. rewrite !elem_of_cons, elem_of_nil in Hx, Hy.
    destruct Hx as [Hx|[Hx|[Hx|[]]]], Hy as [Hy|[Hy|[Hy|[]]]]; try discriminate Hx; try discriminate Hy;
      injection Hx; injection Hy; clear Hx Hy; intros; subst; first [reflexivity|discriminate].
Qed.

Local Existing Instance StrU.

(** ** C49: Markov networks of pairs of binary variables

    What [comparing_variable_joint_probability], [comparing_inference] and [relation_graph_separation] compute from
    the relation graph is the distribution proportional to the product of the factors, restricted to the evidence. *)
Section markov.
Context (nodes : list Var) (edges : list (Var * Var * list Z)) (i : nat).

Theorem C49_markov_joint (o o' : oracle) :
  markov_ok nodes edges -> (forall v, v ∈ nodes -> exists e, e ∈ edges /\ (v = e.1.1 \/ v = e.1.2)) ->
  net_connected (markov_factor <$> edges) ->
  (~ net_cyclic (markov_factor <$> edges) \/ ~ net_crowded (markov_factor <$> edges)) ->
  exists sp r m, make_markov_graph i nodes edges = Ok sp /\ make_joined o sp = Ok r /\
    relation_graph_prop o' nodes r = Ok m /\
    shares (binary_tuple (length nodes)) (markov_product nodes edges) (fun t => m !! t).
Proof. intros Hok Hcov Hconn Htree. exact (markov_joint nodes edges Hok i Hcov Hconn Htree o o'). Qed.

Theorem C49_markov_inference (o o' : oracle) (v : Var) (j : nat) :
  markov_ok nodes edges -> (forall v, v ∈ nodes -> exists e, e ∈ edges /\ (v = e.1.1 \/ v = e.1.2)) ->
  net_connected (markov_factor <$> edges) ->
  (~ net_cyclic (markov_factor <$> edges) \/ ~ net_crowded (markov_factor <$> edges)) ->
  v ∈ nodes -> j < 2 ->
  exists sp ev cg r m, make_markov_graph i nodes edges = Ok sp /\
    build_single_node (new_builder (sp_cp sp)) v (value_name v j) = Ok ev /\ conditional_graph sp ev = Ok cg /\
    make_joined o (sp_relation_graph (cg_space cg)) = Ok r /\ relation_graph_prop o' nodes (sp_relation_graph r) = Ok m /\
    shares (fun t => binary_tuple (length nodes) t /\ value_at nodes t v = j) (markov_product nodes edges) (fun t => m !! t).
Proof. intros Hok Hcov Hconn Htree. exact (markov_inference nodes edges Hok i Hcov Hconn Htree o o' v j). Qed.

Theorem C49_markov_stages (o o' : oracle) (l : list stage) :
  markov_ok nodes edges -> (forall v, v ∈ nodes -> exists e, e ∈ edges /\ (v = e.1.1 \/ v = e.1.2)) ->
  net_connected (markov_factor <$> edges) ->
  (~ net_cyclic (markov_factor <$> edges) \/ ~ net_crowded (markov_factor <$> edges)) ->
  (forall v x, given_in l (v, x) -> v ∈ nodes /\ exists j, j < 2 /\ x = value_name v j) ->
  (forall v x y, given_in l (v, x) -> given_in l (v, y) -> x = y) ->
  exists sp r m, make_markov_graph i nodes edges = Ok sp /\ run_stages o sp (l ++ [Joined]) = Ok r /\
    relation_graph_prop o' nodes r = Ok m /\
    shares (fun t => binary_tuple (length nodes) t /\ forall v j, given_in l (v, value_name v j) -> value_at nodes t v = j)
      (markov_product nodes edges) (fun t => m !! t).
Proof. intros Hok Hcov Hconn Htree. exact (markov_stages nodes edges Hok i Hcov Hconn Htree o o' l). Qed.

End markov.

(** The network of the script: a ring, so the second alternative is needed. *)
Example C49_shipped :
  markov_ok mk_shipped_nodes mk_shipped_edges /\
  (forall v, v ∈ mk_shipped_nodes -> exists e, e ∈ mk_shipped_edges /\ (v = e.1.1 \/ v = e.1.2)) /\
  net_connected (markov_factor <$> mk_shipped_edges) /\ ~ net_crowded (markov_factor <$> mk_shipped_edges).
Proof.
  split_and!.
  - apply markov_okb_spec. vm_compute. reflexivity.
  - apply markov_coverb_spec. vm_compute. reflexivity.
  - apply net_connectedb_spec. vm_compute. reflexivity.
  - apply net_crowdedb_spec. vm_compute. reflexivity.
Qed.

(** The weights of two of its tuples: A=B=C=0, D=1 has 30 * 100 * 100 * 1, all ones has 10 * 100 * 1 * 100. *)
Example C49_shipped_weights :
  map (markov_product mk_shipped_nodes mk_shipped_edges) [[0; 0; 0; 1]; [1; 1; 1; 1]]%nat = [300000; 100000]%Z.
Proof. vm_compute. reflexivity. Qed.

Lemma res_bind_inv {A B} (x : res A) (f : A -> res B) b : x ≫= f = Ok b -> exists a, x = Ok a /\ f a = Ok b.
Proof. destruct x as [a|]; [|done]. by exists a. Qed.

(** Two factors for the same pair of variables are added, not multiplied. *)
Definition mk_twice : list (Var * Var * list Z) := [("A", "B", [1; 2; 1; 1]); ("B", "A", [1; 1; 1; 1])]%string%Z.
Theorem C49_repeated_pair_refuted : exists (o : oracle) (nodes : list Var) (edges : list (Var * Var * list Z)) (sp r : space) (m : gmap (list nat) Qc),
  NoDup nodes /\ edges <> [] /\ (forall v w vals, (v, w, vals) ∈ edges -> v ∈ nodes /\ w ∈ nodes /\ v <> w) /\
  (forall v w vals k, (v, w, vals) ∈ edges -> k < 4 -> exists z, vals !! k = Some z /\ (1 <= z)%Z) /\
  make_markov_graph 7 nodes edges = Ok sp /\ make_joined o sp = Ok r /\ relation_graph_prop o nodes r = Ok m /\
  ~ shares (binary_tuple (length nodes)) (markov_product nodes edges) (fun t => m !! t).
Proof.
  destruct (ok_inv (sp ← make_markov_graph 7 ["A"; "B"]%string mk_twice; r ← make_joined (oc []) sp; m ← relation_graph_prop (oc []) ["A"; "B"]%string r; Ok (sp, r, m))
    (fun x => bool_decide (x.2 !! [0; 1]%nat = Some (qdiv 3 9)))) as ([[sp r] m] & Hr & Hm); [vm_compute; reflexivity|].
  apply res_bind_inv in Hr as (sp' & Hsp & Hr). apply res_bind_inv in Hr as (r' & Hr' & Hr). apply res_bind_inv in Hr as (m' & Hm' & Hr).
  injection Hr as -> -> ->. apply bool_decide_eq_true in Hm. cbn [snd] in Hm.
  exists (oc []), ["A"; "B"]%string, mk_twice, sp, r, m. split_and!; [|discriminate| | |exact Hsp|exact Hr'|exact Hm'|].
  - apply (bool_decide_eq_true_1 _). vm_compute. reflexivity.
  - intros v w vals H. unfold mk_twice in H. rewrite !elem_of_cons, elem_of_nil in H.
    destruct H as [H|[H|[]]]; injection H as -> -> ->; rewrite !elem_of_cons; (split_and!; [auto|auto|discriminate]).
  - intros v w vals k H Hk. unfold mk_twice in H. rewrite !elem_of_cons, elem_of_nil in H.
    destruct H as [H|[H|[]]]; injection H as -> -> ->; destruct k as [|[|[|[|k]]]]; try lia; (eexists; split; [reflexivity|lia]).
  - intros Hs. specialize (Hs (joined_values 2)). destruct (Hs) with (k := [0; 1]%nat) (q := qdiv 3 9) as [Hq _].
    + apply (bool_decide_eq_true_1 _). vm_compute. reflexivity.
    + intros t. unfold binary_tuple. cbn. rewrite !elem_of_cons, elem_of_nil. split.
      * intros H. destruct H as [->|[->|[->|[->|[]]]]]; (split; [done|]); repeat constructor.
      * intros [Hl Hb]. destruct t as [|a [|b [|? ?]]]; try discriminate Hl. apply Forall_cons in Hb as [Ha Hb]. apply Forall_cons in Hb as [Hb _].
        destruct a as [|[|a]]; [| |lia]; (destruct b as [|[|b]]; [| |lia]); tauto.
    + apply Hq in Hm as [_ Hm]. revert Hm. apply (bool_decide_eq_false_1 _). vm_compute. reflexivity.
Qed.

(** ** C50: Bayesian networks *)
Section bayes.
Context {T : Type} (scale : T -> res Z) (card : Var -> nat) (net : list (Var * cpd T)) (i : nat).

(** The joined graph has one outcome per assignment, the normalised counts are the product of the tables, and the
    marginals are the sums of it. *)
Theorem C50_bayes_joint (o o' : oracle) :
  bayes_ok scale card net -> net_connected (bayes_factor scale card <$> net) ->
  (~ net_cyclic (bayes_factor scale card <$> net) \/ ~ net_crowded (bayes_factor scale card <$> net)) ->
  exists sp r, make_bayes_graph scale o i net = Ok sp /\ make_joined o' sp = Ok r /\
    (forall o1, length (ss_items o1 (sp_out r)) = foldr Nat.mul 1 (card <$> net.*1)) /\
    (forall o1, exists m, normalize (value_map_from_graph o1 r) = Ok m /\
       joint_distribution net.*1 (tuple_of card net.*1) (fun t => bayes_product scale net (value_at net.*1 t)) m) /\
    forall o1, exists m, marginal_variables_probability o1 r None false = Ok m /\
       marginal_distributions net.*1 (tuple_of card net.*1) (fun t => bayes_product scale net (value_at net.*1 t)) m.
Proof. intros Hok Hconn Htree. exact (bayes_joint scale card net Hok i Hconn Htree o o'). Qed.

(** When every column of every table adds up to [F] and no variable depends on itself, no normalisation is left: the
    joint probability is the product of the conditional probabilities. *)
Theorem C50_chain_rule (F : Z) (m : gmap (gset Val) Qc) (t : list nat) :
  bayes_ok scale card net -> no_cycle net -> (forall e, e ∈ net -> columns_sum scale card F e) ->
  joint_distribution net.*1 (tuple_of card net.*1) (fun t => bayes_product scale net (value_at net.*1 t)) m ->
  tuple_of card net.*1 t -> m !! key_of net.*1 t = Some (chain_rule scale F net (value_at net.*1 t)).
Proof. intros Hok Hcy Hcol Hm. exact (bayes_chain scale card net Hok F m Hcy Hcol Hm t). Qed.

(** Inference on any evidence gives the conditional distribution and its marginals. *)
Theorem C50_bayes_inference (o o' : oracle) (ev : list (Var * nat)) :
  bayes_ok scale card net -> net_connected (bayes_factor scale card <$> net) ->
  (~ net_cyclic (bayes_factor scale card <$> net) \/ ~ net_crowded (bayes_factor scale card <$> net)) ->
  ev <> [] -> evidence_ok card net.*1 ev ->
  exists sp r, make_bayes_graph scale o i net = Ok sp /\ run_inference o' sp ev = Ok r /\
    (forall o1, exists m, normalize (value_map_from_graph o1 r) = Ok m /\
       joint_distribution net.*1 (fun t => tuple_of card net.*1 t /\ agrees net.*1 ev t)
         (fun t => bayes_product scale net (value_at net.*1 t)) m) /\
    forall o1, exists m, marginal_variables_probability o1 r None false = Ok m /\
       marginal_distributions net.*1 (fun t => tuple_of card net.*1 t /\ agrees net.*1 ev t)
         (fun t => bayes_product scale net (value_at net.*1 t)) m.
Proof. intros Hok Hconn Htree. exact (bayes_inference scale card net Hok i Hconn Htree o o' ev). Qed.

End bayes.

(** The conversion of a float probability to a number of outcomes: when the assertion holds for the float nearest to
    [a / b], the number is exactly [100 a / b]. *)
Theorem C50_float_counts (a b c : Z) :
  (0 <= a <= b)%Z -> (0 < b <= 2 ^ 40)%Z -> scale_f (int_div a b) = Ok c -> (100 * a = c * b)%Z.
Proof. exact (scale_f_exact a b c). Qed.

(** Of the probabilities with two digits exactly .07, .14, .28, .29, .55, .56, .57 and .58 raise. *)
Theorem C50_float_hundredths (k : Z) : (0 <= k <= 100)%Z ->
  scale_f (int_div k 100) = if decide (k ∈ [7; 14; 28; 29; 55; 56; 57; 58]%Z) then Err AssertionError else Ok k.
Proof. exact (scale_f_hundredths k). Qed.

(** The network of the script, with its floats. *)
Example C50_shipped_ok : bayes_ok scale_f by_card (by_shipped hundredths).
Proof. apply bayes_okb_spec. vm_compute. reflexivity. Qed.
Example C50_shipped_connected : net_connected (bayes_factor scale_f by_card <$> by_shipped hundredths).
Proof. apply net_connectedb_spec. vm_compute. reflexivity. Qed.
Example C50_shipped_acyclic : ~ net_cyclic (bayes_factor scale_f by_card <$> by_shipped hundredths).
Proof. apply net_acyclicb_spec. vm_compute. reflexivity. Qed.
Example C50_shipped_columns e : e ∈ by_shipped hundredths -> columns_sum scale_f by_card 100 e.
Proof.
  intros He. apply (columns_sumb_spec scale_f by_card (by_shipped hundredths)); [apply C50_shipped_ok|done|].
  assert (forallb (columns_sumb scale_f by_card 100) (by_shipped hundredths) = true) as H by (vm_compute; reflexivity).
  rewrite forallb_forall in H. apply H. by apply elem_of_list_In.
Qed.
Example C50_shipped_no_cycle : no_cycle (by_shipped hundredths).
Proof. apply parents_firstb_spec. vm_compute. reflexivity. Qed.
(** For example, evidence on L and then on G. *)
Example C50_shipped_evidence : evidence_ok by_card (by_shipped hundredths).*1 [("L", 0); ("G", 2)]%string%nat.
Proof. apply evidence_okb_spec. vm_compute. reflexivity. Qed.

(** Names: the parent of a value is found by looking for the name of the variable in the name of the value, so a name
    that is part of another one raises, depending on the order of a set. *)
Definition by_sub : list (Var * cpd Z) :=
  [("A", Cpd 1 [[1%Z]] None None); ("AB", Cpd 1 [[1%Z]] (Some ["A"]) (Some [1]))]%string.
Theorem C50_substring_names_refuted : exists (o o' : oracle) (net : list (Var * cpd Z)) (sp : space),
  NoDup net.*1 /\ make_bayes_graph percent o 7 net = Ok sp /\ make_bayes_graph percent o' 7 net = Err AssertionError.
Proof.
  exists (oc []), (oc [1]), by_sub.
  destruct (ok_inv (make_bayes_graph percent (oc []) 7 by_sub) (fun _ => true)) as (sp & Hsp & _); [vm_compute; reflexivity|].
  exists sp. split_and!; [|exact Hsp|apply raises_inv; vm_compute; reflexivity].
  apply (bool_decide_eq_true_1 _). vm_compute. reflexivity.
Qed.

Print Assumptions C51_stages.
Print Assumptions C51_join_twice.
Print Assumptions C51_joined_joinable.
Print Assumptions C49_markov_joint.
Print Assumptions C49_markov_inference.
Print Assumptions C49_markov_stages.
Print Assumptions C49_repeated_pair_refuted.
Print Assumptions C50_bayes_joint.
Print Assumptions C50_chain_rule.
Print Assumptions C50_bayes_inference.
Print Assumptions C50_float_counts.
Print Assumptions C50_float_hundredths.
Print Assumptions C50_substring_names_refuted.
