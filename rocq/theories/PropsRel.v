(** * PropsRel: properties of relation graphs and their builder (C32-C36)

    Vocabulary: SpecRel.v. *)

From Verif Require Import ExamplesSets BuildFacts GenFacts UniformFacts Experiments CountFacts PowerFacts.

Section theorems.
Context {U : Universe}.

(** ** C32: any history of calls on a new builder. *)
Theorem C32_accumulates (cp : provider) (ops : list rg_op) :
  exists h, rg_steps cp ops (run_rg_ops (RGBuilder cp (ssb_new cp)) ops).2 h /\
    rgb_build (run_rg_ops (RGBuilder cp (ssb_new cp)) ops).1 =
      (if decide (h = []) then Err AssertionError
       else Ok (Space cp (rb_out (run_rg_ops (RGBuilder cp (ssb_new cp)) ops).1))) /\
    let out := rb_out (run_rg_ops (RGBuilder cp (ssb_new cp)) ops).1 in
    ss_cp out = cp /\
    (forall g, contains out g <-> g ∈ h.*1) /\
    (forall g c, count_of out g = Ok c <-> g ∈ h.*1 /\ c = accepted_count h g) /\
    (forall g c, count_of out g = Ok c -> 1 <= c)%Z /\
    ss_length out = zsum h.*2.
Proof. exact (C32_lemma cp ops). Qed.

(** The answers and accepted pairs of a history are determined by the calls. *)
Theorem C32_history_determined (cp : provider) (ops : list rg_op) rs rs' h h' :
  rg_steps cp ops rs h -> rg_steps cp ops rs' h' -> rs = rs' /\ h = h'.
Proof. exact (rg_steps_fun cp ops rs rs' h h'). Qed.

(** Going on from a built relation graph. *)
Theorem C32_continue (sp : space) (ops : list rg_op) :
  ss_cp (sp_out sp) = sp_cp sp ->
  exists b h, sp_builder sp = Ok b /\ rg_steps (sp_cp sp) ops (run_rg_ops b ops).2 h /\
    rb_cp (run_rg_ops b ops).1 = sp_cp sp /\ ss_cp (rb_out (run_rg_ops b ops).1) = sp_cp sp /\
    (forall g, times_in (rb_out (run_rg_ops b ops).1) g = times_in (sp_out sp) g + accepted_count h g)%Z /\
    (forall g, contains (rb_out (run_rg_ops b ops).1) g <-> contains (sp_out sp) g \/ g ∈ h.*1).
Proof.
  intros Hcp. destruct (builder_always_ok sp) as [b Hb].
  destruct (C32_continue_lemma sp ops b Hcp Hb) as (h & H). by exists b, h.
Qed.

(** Which constructor arguments are accepted. *)
Theorem C32_constructor (i : nat) (vs : option (gmap Var (gset Val))) (rs : option (gset Rel)) :
  rgb_init i vs rs None None =
  match vs, rs with
  | Some V, Some R =>
      if decide (V <> ∅ /\ R <> ∅ /\ map_Forall (fun _ X => X <> ∅) V)
      then Ok (RGBuilder (Provider i V R) (ssb_new (Provider i V R))) else Err AssertionError
  | _, _ => Err AssertionError
  end.
Proof. exact (rgb_init_lemma i vs rs). Qed.

(** ** C33: every possible outcome, exactly once, for every order. *)
Theorem C33_generates_all (o : oracle) (cp : provider) :
  (forall v X, cp_vars cp !! v = Some X -> X <> ∅) ->
  exists b, generate_all_possible_outcomes o (RGBuilder cp (ssb_new cp)) = (b, Ok tt) /\
    rb_cp b = cp /\ ss_cp (rb_out b) = cp /\
    forall g c, count_of (rb_out b) g = Ok c <-> c = 1%Z /\ possible cp g.
Proof. exact (C33_lemma o cp). Qed.

Theorem C33_order_independent (o o' : oracle) (cp : provider) :
  (forall v X, cp_vars cp !! v = Some X -> X <> ∅) ->
  generate_all_possible_outcomes o (RGBuilder cp (ssb_new cp)) = generate_all_possible_outcomes o' (RGBuilder cp (ssb_new cp)).
Proof. exact (C33_order_lemma o o' cp). Qed.

Theorem C33_nonempty_builder (o : oracle) (b : rgbuilder) :
  ss_map (rb_out b) <> ∅ -> generate_all_possible_outcomes o b = (b, Err AssertionError).
Proof. exact (C33_nonempty_lemma o b). Qed.

(** ** C34: the number of outcomes is the one the experiment computes. *)
Theorem C34_number_of_outcomes (o : oracle) (cp : provider) (m : nat) :
  m <> 0%nat -> (forall v X, cp_vars cp !! v = Some X -> size X = m) ->
  exists b, generate_all_possible_outcomes o (RGBuilder cp (ssb_new cp)) = (b, Ok tt) /\
    zq (ss_length (rb_out b)) = calc_number_of_outcomes (size (cp_vars cp)) (S m) (size (cp_rels cp)).
Proof. exact (C34_total_lemma o cp m). Qed.

(** [comb] is the binomial coefficient. *)
Theorem C34_comb (n k : nat) :
  (if decide (k <= n)%nat then comb n k * (Z.of_nat (fact k) * Z.of_nat (fact (n - k))) = Z.of_nat (fact n) else comb n k = 0)%Z.
Proof. exact (comb_lemma n k). Qed.

(** ** C35: values over all possible outcomes. *)
Theorem C35_uniform (o o' : oracle) (cp : provider) :
  (forall v X, cp_vars cp !! v = Some X -> X <> ∅) ->
  exists b, generate_all_possible_outcomes o (RGBuilder cp (ssb_new cp)) = (b, Ok tt) /\
    (forall v x y a, declared cp (v, x) -> declared cp (v, y) ->
       weight (rb_out b) (has v x) a -> weight (rb_out b) (has v y) a) /\
    (cp_vars cp <> ∅ -> exists sp, rgb_build b = Ok sp /\
       forall v X, cp_vars cp !! v = Some X ->
         exists m d, marginal_variables_probability o' sp None false = Ok m /\ m !! v = Some d /\ uniform_on X d).
Proof. exact (C35_lemma o o' cp). Qed.

(** What the experiment checks: in the folded graph all values have one probability, and it is larger than
    that of the variable being unobserved. *)
Theorem C35_experiment (o o' : oracle) (sp : space) (v : Var) (X : gset Val) :
  complete (sp_cp sp) (sp_out sp) -> cp_rels (sp_cp sp) <> ∅ -> cp_vars (sp_cp sp) !! v = Some X -> X <> ∅ -> val_unobserved ∉ X ->
  exists fg fn d p u, folded_graph o sp = Ok fg /\ folded_node fg v = Some fn /\ marginal_distribution o' fn = Ok d /\
    d !! val_unobserved = Some u /\ (u < p)%Qc /\
    forall x, x <> val_unobserved -> d !! x = if decide (x ∈ X) then Some p else None.
Proof. exact (experiment_lemma o o' sp v X). Qed.

(** ** C36: conditioning. *)
Theorem C36_conditional (sp : space) (ev : sample) :
  match conditional_graph sp ev with
  | Ok cg => s_cp ev = cp_id (sp_cp sp) /\ cg_evidence cg = ev /\ sp_cp (cg_space cg) = sp_cp sp /\
      ss_cp (sp_out (cg_space cg)) = sp_cp sp /\
      forall g c, count_of (sp_out (cg_space cg)) g = Ok c <->
                  count_of (sp_out sp) g = Ok c /\ consistent_or_unrelated (s_g ev) g
  | Err x => x = AssertionError /\ s_cp ev <> cp_id (sp_cp sp)
  end.
Proof. exact (C36_lemma sp ev). Qed.

Theorem C36_idempotent (sp : space) (ev : sample) (cg : cgraph) :
  conditional_graph sp ev = Ok cg -> conditional_graph (sp_relation_graph (cg_space cg)) ev = Ok cg.
Proof. exact (conditional_idem sp ev cg). Qed.

Theorem C36_commute (sp : space) (ev ev' : sample) (cg cg' cga cgb : cgraph) :
  conditional_graph sp ev = Ok cg -> conditional_graph (sp_relation_graph (cg_space cg)) ev' = Ok cga ->
  conditional_graph sp ev' = Ok cg' -> conditional_graph (sp_relation_graph (cg_space cg')) ev = Ok cgb ->
  cg_space cga = cg_space cgb.
Proof. exact (conditional_comm sp ev ev' cg cg' cga cgb). Qed.

Theorem C36_length (sp : space) (ev : sample) (cg : cgraph) :
  pos_counts (sp_out sp) -> conditional_graph sp ev = Ok cg ->
  (ss_length (sp_out (cg_space cg)) <= ss_length (sp_out sp))%Z /\
  (ss_length (sp_out (cg_space cg)) = ss_length (sp_out sp) <->
   forall g, contains (sp_out sp) g -> consistent_or_unrelated (s_g ev) g).
Proof. exact (conditional_length sp ev cg). Qed.

End theorems.

(** ** The hypotheses are satisfiable *)

Example C32_example :
  let r := run_rg_ops (RGBuilder cpx (ssb_new cpx))
    [RAdd (smp g_ab) 2; RAdd (smp g_cd) 0; RAdd (Sample 8 g_ab) 1; RAddMany [smp g_ab; Sample 8 g_cd; smp g_cd] 3;
     RBuildSample (fun sb => build_single_node sb ("a" : @Var StrU) "1"); RBuildSample (fun sb => build_single_node sb ("a" : @Var StrU) "7")] in
  r.2 = [Ok tt; Err AssertionError; Err AssertionError; Err AssertionError; Ok tt; Err AssertionError] /\
  match rgb_build r.1 with
  | Ok sp => bool_decide (sp_out sp = set_of [(g_ab, 5%Z); (single "a" "1", 1%Z)]) | Err _ => false end = true.
Proof. split; [by_vm|vm_compute; reflexivity]. Qed.

Example C32_empty : match rgb_build (RGBuilder cpx (ssb_new cpx)) with Err AssertionError => true | _ => false end = true.
Proof. vm_compute. reflexivity. Qed.

(** Two variables, one of them with two values, two relations. *)
Definition cps : provider := Provider 7 (list_to_map [("a", {["1"; "2"]}); ("b", {["1"]})]) {["r"; "q"]}.
Definition e_a1 : edge := ed "a" "1" "b" "1" "r".

Example C33_example :
  let p := generate_all_possible_outcomes o1 (RGBuilder cps (ssb_new cps)) in
  p.2 = Ok tt /\
  bool_decide (ss_map (rb_out p.1) = list_to_map ((fun g => (g, 1%Z)) <$>
    [single "a" "1"; single "a" "2"; single "b" "1"; graph_of [e_a1]; graph_of [ed "a" "2" "b" "1" "r"];
     graph_of [ed "a" "1" "b" "1" "q"]; graph_of [ed "a" "2" "b" "1" "q"]])) = true.
Proof. split; [by_vm|vm_compute; reflexivity]. Qed.

Example C33_hypothesis : forall v X, cp_vars cps !! v = Some X -> X <> ∅.
Proof.
  assert (bool_decide (map_Forall (fun _ X => X <> ∅) (cp_vars cps)) = true) as H by (vm_compute; reflexivity).
  apply bool_decide_eq_true in H. exact H.
Qed.

(** Three variables with two values each, one relation: 6 + 3*4 + 8*4. *)
Definition cp3 : provider :=
  Provider 7 (list_to_map [("a", {["1"; "2"]}); ("b", {["1"; "2"]}); ("c", {["1"; "2"]})]) {["r"]}.
Example C34_example : calc_number_of_outcomes 3 3 1 = zq 50 /\
  bool_decide (map_Forall (fun _ X => size X = 2%nat) (cp_vars cp3)) = true /\
  ss_length (rb_out (generate_all_possible_outcomes o1 (RGBuilder cp3 (ssb_new cp3))).1) = 50%Z.
Proof. split_and!; vm_compute; reflexivity. Qed.

Example C35_example : match rgb_build (generate_all_possible_outcomes o1 (RGBuilder cps (ssb_new cps))).1 with
  | Ok sp => match marginal_variables_probability o0 sp None false with
             | Ok m => match m !! ("a" : @Var StrU) with
                       | Some d => bool_decide (d = list_to_map [("1", qdiv 1 2); ("2", qdiv 1 2)])
                       | None => false end
             | Err _ => false end
  | Err _ => false end = true.
Proof. vm_compute. reflexivity. Qed.

Definition sp36 : space := Space cpx (set_of [(g_ab, 2%Z); (g_path, 3%Z); (graph_of [ed "a" "2" "b" "1" "q"], 3%Z); (g_cd, 1%Z)]).
Example C36_example : match conditional_graph sp36 (smp g_ab) with
  | Ok cg => bool_decide (sp_out (cg_space cg) = set_of [(g_ab, 2%Z); (g_path, 3%Z); (g_cd, 1%Z)]) | Err _ => false end = true.
Proof. vm_compute. reflexivity. Qed.
Example C36_foreign : match conditional_graph sp36 (Sample 8 g_ab) with Err AssertionError => true | _ => false end = true.
Proof. vm_compute. reflexivity. Qed.
Example C36_pos : pos_counts (sp_out sp36).
Proof. refine (set_posb_spec _ _). vm_compute; reflexivity. Qed.

Print Assumptions C32_accumulates.
Print Assumptions C32_history_determined.
Print Assumptions C32_continue.
Print Assumptions C32_constructor.
Print Assumptions C33_generates_all.
Print Assumptions C33_order_independent.
Print Assumptions C33_nonempty_builder.
Print Assumptions C34_number_of_outcomes.
Print Assumptions C34_comb.
Print Assumptions C35_uniform.
Print Assumptions C35_experiment.
Print Assumptions C36_conditional.
Print Assumptions C36_idempotent.
Print Assumptions C36_commute.
Print Assumptions C36_length.
