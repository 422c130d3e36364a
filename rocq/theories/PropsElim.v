(** * PropsElim: joining any factorized space (C39, C40), the joint and conditional network of the coin example (C62) *)

From Coq Require Import ZArith String Ascii.
From Verif Require Import ExamplesSets SpecCoins CoinFacts PropsToys PropsRel PropsJoin ElimFacts.

Section theorems.
Context {U : Universe}.

(** ** C39, C40: make_joined on any factorized space *)

(** The variables are visited in some order, each that occurs once; every such order is possible. *)
Theorem C40_visited (o : oracle) (sp : space) : NoDup (visited o sp) /\ forall v, v ∈ visited o sp <-> occurs_var (sp_out sp) v.
Proof. exact (visited_spec o sp). Qed.

Theorem C40_any_order (sp : space) (vs : list Var) : NoDup vs -> (forall v, v ∈ vs <-> occurs_var (sp_out sp) v) ->
  exists o, visited o sp = vs.
Proof. exact (visited_complete sp vs). Qed.

(** Whether the space has full support or not: make_joined returns [r] exactly if eliminating the variables in this order
    from the factors of the space, by the value they have in the outcomes, is possible and leaves at most one factor, that
    of [r]. *)
Theorem C39_any_support (o : oracle) (sp r : space) :
  ss_cp (sp_out sp) = sp_cp sp -> all_wf (sp_cp sp) (sp_out sp) -> one_valued (sp_out sp) -> all_simple (sp_out sp) ->
  factorable (sp_out sp) ->
  make_joined o sp = Ok r <->
  exists S S' D, (forall m, m ∈ S <-> exists g, contains (sp_out sp) g /\ factor_of (sp_out sp) g m) /\
    elimination (fun v x => occurs (sp_out sp) (v, x)) S (visited o sp) S' /\ (S' = ∅ /\ D = ∅ \/ S' = {[D]}) /\
    r = Space (sp_cp sp) (Samples (sp_cp sp) D).
Proof. exact (make_joined_elim o sp r). Qed.

(** So of all iteration orders only that of the variables matters. *)
Theorem C40_variable_order (o o' : oracle) (sp r : space) :
  ss_cp (sp_out sp) = sp_cp sp -> all_wf (sp_cp sp) (sp_out sp) -> one_valued (sp_out sp) -> all_simple (sp_out sp) ->
  factorable (sp_out sp) -> visited o sp = visited o' sp -> make_joined o sp = Ok r -> make_joined o' sp = Ok r.
Proof. exact (visited_order o o' sp r). Qed.

(** ** Checking all orders *)

Definition tameb (sp : space) : bool :=
  bool_decide (ss_cp (sp_out sp) = sp_cp sp) && set_wfb (sp_out sp) && set_singleb (sp_out sp) && all_simpleb (sp_out sp) && factorableb (sp_out sp).
Definition in_all_ordersb (t : gmap graph Z) (sp : space) : bool :=
  tameb sp && match factorized (fun _ => []) sp with
  | Ok X => forallb (fun vs => bool_decide (run_list (sp_cp sp) (sp_included_variables (fun _ => []) sp) (elements X) vs = Some [t]))
              (permutations (visited (fun _ => []) sp))
  | Err _ => false
  end.

Lemma in_all_orders (t : gmap graph Z) sp : in_all_ordersb t sp = true ->
  forall o, make_joined o sp = Ok (Space (sp_cp sp) (Samples (sp_cp sp) t)).
Proof.
  unfold in_all_ordersb, tameb. rewrite !andb_true_iff. intros [[[[[H1%bool_decide_eq_true H2] H3] H4] H5] H6].
  apply run_joined; [done| | | | |exact H6].
  - intros g Hg. rewrite <- H1. by apply set_wfb_spec.
  - intros g Hg. by apply (set_singleb_spec (sp_out sp)).
  - by apply all_simpleb_spec.
  - by apply factorableb_spec.
Qed.

End theorems.

(** The space without full support of [C39_missing_value_refuted] meets the hypotheses; visiting b last, in two ways. *)
Example C39_tame : tameb sp_miss = true.
Proof. vm_compute. reflexivity. Qed.
Example C40_same_variable_order : exists o o', visited o sp_miss = visited o' sp_miss /\ o [0] <> o' [0] /\ is_ok (make_joined o sp_miss) = true.
Proof.
  exists (oc [1; 1]), (fun p => match p with 2 :: _ => [1; 1] | _ => [] end). split_and!; [|done|vm_compute; reflexivity].
  apply (bool_decide_eq_true_1 _). vm_compute. reflexivity.
Qed.

(** ** C62: examples/building_net_with_joint_probability.py, examples/building_net_with_conditional_probability.py *)
Section coins.
Local Existing Instance StrU.
Local Notation txt := (list N).

Lemma two_entries (m : gmap graph Z) (G G' : graph) (a b : Z) (g : graph) (c : Z) : G <> G' -> m = list_to_map [(G, a); (G', b)] ->
  m !! g = Some c <-> (g, c) = (G, a) \/ (g, c) = (G', b).
Proof.
  intros Hne ->. cbn [list_to_map foldr fst snd].
  destruct (decide (g = G)) as [->|H1]; [rewrite lookup_insert; naive_solver|]. rewrite lookup_insert_ne by done.
  destruct (decide (g = G')) as [->|H2]; [rewrite lookup_insert; naive_solver|]. rewrite lookup_insert_ne by done. rewrite lookup_empty. naive_solver.
Qed.

Lemma for_mut_ext {S A} (f f' : oracle -> S -> A -> S * res unit) l : (forall o s x, x ∈ l -> f o s x = f' o s x) ->
  forall o s, for_mut f o s l = for_mut f' o s l.
Proof.
  intros H. induction l as [|x l IH]; intros o s; [done|]. cbn [for_mut]. rewrite (H _ _ x) by left.
  destruct (f' (sub o 1) s x) as [s' [u|e]]; [|done]. apply IH. intros o' s0 y Hy. apply H. by right.
Qed.

Lemma outcome_ext (py py' : txt -> option Z) (t : txt) (b : builder) :
  match split_spaces t with
  | [a; _; _; c; _] => py (removelast a) = py' (removelast a) /\ py (removelast c) = py' (removelast c)
  | _ => True
  end -> build_outcome py t b = build_outcome py' t b.
Proof.
  unfold build_outcome, read_int. destruct (split_spaces t) as [|w1 [|w2 [|w3 [|w4 [|w5 [|w6 l]]]]]]; try done.
  by intros [-> ->].
Qed.

Lemma net_reader (py : txt -> option Z) (i : nat) : reads_numbers py ->
  build_relation_net py i experiment_results = build_relation_net read_decimal i experiment_results.
Proof.
  intros Hpy. unfold build_relation_net. destruct (rgb_init _ _ _ _ _) as [b|e]; [|done]. cbn [mbind res_bind].
  rewrite (for_mut_ext _ (fun _ b t => add_report read_decimal b t)); [done|]. intros o s t Ht. unfold add_report.
  rewrite (outcome_ext py read_decimal); [done|].
  assert (py (lit "1") = Some 1%Z /\ py (lit "5") = Some 5%Z /\ py (lit "25") = Some 25%Z) as (H1 & H5 & H25).
  { split_and!; [apply (Hpy 1%Z)|apply (Hpy 5%Z)|apply (Hpy 25%Z)]; lia. }
  revert t Ht. apply Forall_forall. unfold experiment_results.
  repeat (apply Forall_cons_2; [first [exact I | split; first [exact H1|exact H5|exact H25]]|]). apply Forall_nil_2.
Qed.

(** Joining the network of the script gives two outcomes, in every iteration order: all heads with count 6 and all tails
    with count 1.  (A five cent coin showing tails was never tossed alone: this counts as 1, not as 0.) *)
Theorem C62_joint (py_int : txt -> option Z) : reads_numbers py_int ->
  exists sp G1 G2, build_relation_net py_int 0 experiment_results = Ok sp /\
    merged [meaning (Tosses Penny Heads [] Nickel Heads); meaning (Tosses Nickel Heads [] Quarter Heads)] G1 /\
    merged [meaning (Tosses Penny Tails [] Nickel Tails); meaning (Tosses Quarter Tails [] Nickel Tails)] G2 /\
    forall o, exists r, make_joined o sp = Ok r /\ forall g c, count_of (sp_out r) g = Ok c <-> (g, c) = (G1, 6%Z) \/ (g, c) = (G2, 1%Z).
Proof.
  intros Hi. rewrite net_reader by done.
  set (H := merge [meaning (Tosses Penny Heads [] Nickel Heads); meaning (Tosses Nickel Heads [] Quarter Heads)]).
  set (T := merge [meaning (Tosses Penny Tails [] Nickel Tails); meaning (Tosses Quarter Tails [] Nickel Tails)]).
  destruct (ok_inv (build_relation_net read_decimal 0 experiment_results)
    (fun sp => in_all_ordersb (list_to_map [(H, 6%Z); (T, 1%Z)]) sp && bool_decide (H <> T))) as (sp & Hsp & Hc); [vm_compute; reflexivity|].
  apply andb_prop in Hc as [Ho Hne%bool_decide_eq_true]. pose proof (in_all_orders _ sp Ho) as Hj. clear Ho. exists sp, H, T. split; [exact Hsp|].
  split; [apply merge_spec|]. split; [apply merge_spec|]. clear Hsp. clearbody H T. intros o. eexists. split; [apply Hj|].
  intros g c. rewrite count_of_lookup. apply two_entries; [exact Hne|reflexivity].
Qed.

(** Given the outcome of a one and then a five cent coin, both heads, the network keeps that outcome and the one that
    shares no coin with it. *)
Theorem C62_given (py_int : txt -> option Z) : reads_numbers py_int ->
  exists sp ev cg, build_relation_net py_int 0 experiment_results = Ok sp /\ heads_evidence sp = Ok ev /\
    g_nodes (s_g ev) = {[("V1", "h1"); ("V2", "h2")]} /\
    conditional_graph sp ev = Ok cg /\ ss_length (sp_out (cg_space cg)) = 2%Z /\
    forall g c, count_of (sp_out (cg_space cg)) g = Ok c <->
      (g, c) ∈ [(meaning (Tosses Penny Heads [] Nickel Heads), 1%Z); (meaning (Toss Quarter Tails), 1%Z)].
Proof.
  intros Hi. destruct (C62_experiment py_int 0 Hi) as (sp & Hsp & _ & Hc).
  set (L := [(meaning (Tosses Penny Heads [] Nickel Heads), 1%Z); (meaning (Toss Quarter Tails), 1%Z)]).
  destruct (ok_inv (build_relation_net read_decimal 0 experiment_results) (fun sp =>
    match heads_evidence sp with
    | Ok ev => match conditional_graph sp ev with
               | Ok cg => bool_decide (g_nodes (s_g ev) = {[("V1", "h1"); ("V2", "h2")]}) && bool_decide (ss_map (sp_out (cg_space cg)) = list_to_map L) &&
                          bool_decide (ss_length (sp_out (cg_space cg)) = 2%Z)
               | Err _ => false end
    | Err _ => false end)) as (sp' & Hsp' & Ht); [vm_compute; reflexivity|].
  rewrite <- (net_reader py_int 0 Hi), Hsp in Hsp'. injection Hsp' as <-.
  destruct (heads_evidence sp) as [ev|e] eqn:Hev; [|done]. destruct (conditional_graph sp ev) as [cg|e] eqn:Hcg; [|done].
  apply andb_prop in Ht as [[He%bool_decide_eq_true Hm%bool_decide_eq_true]%andb_prop Hn%bool_decide_eq_true].
  exists sp, ev, cg. split_and!; [exact Hsp|exact Hev|exact He|exact Hcg|exact Hn|].
  intros g c. rewrite count_of_lookup, Hm. symmetry. apply elem_of_list_to_map.
  apply (bool_decide_eq_true_1 _). vm_compute. reflexivity.
Qed.
End coins.

Print Assumptions C40_visited.
Print Assumptions C40_any_order.
Print Assumptions C39_any_support.
Print Assumptions C40_variable_order.
Print Assumptions C62_joint.
Print Assumptions C62_given.
