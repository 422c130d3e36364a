(** * PropsActFloat: activation graphs in floats (C54) *)

From Coq Require Import ZArith Reals Lra Lia String.
From Flocq Require Import Core.Core IEEE754.BinarySingleNaN.
From Verif Require Import SpecActFloat ExamplesSets PropsAct PropsJoin PropsProb BuildFacts ActFacts FloatFacts ActFloatMain ActColor.

Section close.
Context {U : Universe}.
Lemma C54_close_lemma (o : oracle) (sp : space) (ev : sample) (cg : cgraph) (f : option (gset relation)) :
  conditional_graph sp ev = Ok cg -> all_wf (sp_cp sp) (sp_out sp) -> one_valued (sp_out sp) -> pos_counts (sp_out sp) ->
  wf_graph (sp_cp sp) (s_g ev) -> single_valued (g_nodes (s_g ev)) -> g_nodes (s_g ev) <> ∅ ->
  ss_map (sp_out (cg_space cg)) <> ∅ -> (ss_length (sp_out (cg_space cg)) <= 2 ^ 53)%Z ->
  exists fg ag, activation_graph_f o cg f = Ok fg /\ activation_ok cg f ag /\
                float_graph_ok (size (ss_map (sp_out (cg_space cg)))) fg ag.
Proof.
  intros Hc H1 H2 H3 H4 H5 H6 H7 HL. destruct (C37_activation o sp ev cg f Hc H1 H2 H3 H4 H5 H6 H7) as (ag & Ha & Hok).
  assert (pos_counts (sp_out (cg_space cg))) as Hp by (by destruct (conditional_good sp ev cg Hc H1 H2 H3) as (_ & _ & _ & ?)).
  pose proof (activation_float o cg f Hp HL) as Hs. rewrite Ha in Hs. destruct (activation_graph_f o cg f) as [fg|]; [|done].
  by exists fg, ag.
Qed.
End close.

Section theorems.
Context {U : Universe}.

(** ** C54: up to [2^53] samples, [activation_graph] in floats ends like the exact computation in all cases, and its
    weights are from 0 to 1 and close to the exact ones. *)
Theorem C54_activation_floats (o : oracle) (cg : cgraph) (f : option (gset relation)) :
  pos_counts (sp_out (cg_space cg)) -> (ss_length (sp_out (cg_space cg)) <= 2 ^ 53)%Z ->
  same_outcome (float_graph_ok (size (ss_map (sp_out (cg_space cg))))) (activation_graph_f o cg f) (activation_graph o cg f).
Proof. exact (activation_float o cg f). Qed.

(** So conditioning and asking for the activation graph gives nearly the weights of C37. *)
Theorem C54_close_to_spec (o : oracle) (sp : space) (ev : sample) (cg : cgraph) (f : option (gset relation)) :
  conditional_graph sp ev = Ok cg -> all_wf (sp_cp sp) (sp_out sp) -> one_valued (sp_out sp) -> pos_counts (sp_out sp) ->
  wf_graph (sp_cp sp) (s_g ev) -> single_valued (g_nodes (s_g ev)) -> g_nodes (s_g ev) <> ∅ ->
  ss_map (sp_out (cg_space cg)) <> ∅ -> (ss_length (sp_out (cg_space cg)) <= 2 ^ 53)%Z ->
  exists fg ag, activation_graph_f o cg f = Ok fg /\ activation_ok cg f ag /\
                float_graph_ok (size (ss_map (sp_out (cg_space cg)))) fg ag.
Proof. exact (C54_close_lemma o sp ev cg f). Qed.

(** The colour of a node: a shade of red by its largest weight, or green if the variable is in the evidence. *)
Theorem C54_color (o : oracle) (a : fanode) :
  fa_in_query a = false -> fa_values a <> ∅ -> (forall x w, fa_values a !! x = Some w -> unit_double w) ->
  exists w n s, largest a w /\ (0 <= n <= 255)%Z /\ (IZR n - / 2 ^ 40 <= 255 * B2R w < IZR n + 1)%R /\ red_shade n s /\
                node_color o a = Ok s.
Proof. exact (color_lemma o a). Qed.
Theorem C54_color_evidence (o : oracle) (a : fanode) : fa_in_query a = true -> node_color o a = Ok "green"%string.
Proof. exact (color_query o a). Qed.
Theorem C54_color_order (o o' : oracle) (a : fanode) :
  (forall x w, fa_values a !! x = Some w -> unit_double w) -> node_color o a = node_color o' a.
Proof. exact (color_order o o' a). Qed.
Theorem C54_color_no_values (o : oracle) (a : fanode) :
  fa_values a = ∅ -> fa_in_query a = false -> node_color o a = Err ValueError.
Proof. exact (color_empty o a). Qed.

End theorems.

(** ** The order of the outcomes shows in the last digit *)
#[local] Existing Instance TinyU.
Definition sp_digits : space := Space tcp (tset
  [(graph_of [ted va x1 vb x1], 1%Z); (graph_of [ted va x1 vb x1; ted vb x1 vc x1], 2%Z);
   (graph_of [ted va x1 vb x1; ted vb x1 vc x2], 3%Z)]).
Definition cg_digits : cgraph := CGraph sp_digits (tsmp (tsingle va x1)).

Definition weight_at (r : res fagraph) (v : @Var TinyU) (x : @Val TinyU) : b64 :=
  match r with
  | Ok fg => match fa_nodes fg !! v with
             | Some a => match fa_values a !! x with Some w => w | None => f_zero end
             | None => f_zero
             end
  | Err _ => f_zero
  end.
Lemma weight_at_ok r v x w : weight_at r v x = w -> B2R w <> 0%R ->
  exists fg a, r = Ok fg /\ fa_nodes fg !! v = Some a /\ fa_values a !! x = Some w.
Proof.
  unfold weight_at. intros Hw Hne. destruct r as [fg|]; [|by subst w]. destruct (fa_nodes fg !! v) as [a|] eqn:Ha; [|by subst w].
  destruct (fa_values a !! x) as [w'|] eqn:Hx; [|by subst w]. subst w'. by exists fg, a.
Qed.
Lemma neq_of_bool (x y : b64) : is_finite x && is_finite y && negb (Beqb x y) = true -> B2R x <> B2R y.
Proof.
  intros [[Hx Hy]%andb_true_iff Hn]%andb_true_iff He. rewrite (Beqb_correct 53 1024 x y Hx Hy) in Hn.
  rewrite Req_bool_true in Hn by done. done.
Qed.

Theorem C54_order_refuted : exists (sp : space) (ev : sample) (cg : cgraph) (o o' : oracle) (fg fg' : fagraph) (v : Var) (x : Val) (a a' : fanode) (w w' : b64),
  conditional_graph sp ev = Ok cg /\ all_wf (sp_cp sp) (sp_out sp) /\ pos_counts (sp_out sp) /\
  activation_graph_f o cg None = Ok fg /\ activation_graph_f o' cg None = Ok fg' /\
  fa_nodes fg !! v = Some a /\ fa_values a !! x = Some w /\ fa_nodes fg' !! v = Some a' /\ fa_values a' !! x = Some w' /\ B2R w <> B2R w'.
Proof.
  assert (conditional_graph sp_digits (tsmp (tsingle va x1)) = Ok cg_digits) as Hcg.
  { assert (match conditional_graph sp_digits (tsmp (tsingle va x1)) with
      | Ok cg => bool_decide (ss_map (sp_out (cg_space cg)) = ss_map (sp_out sp_digits)) | Err _ => false end = true) as H
      by (vm_compute; reflexivity).
    pose proof (C36_lemma sp_digits (tsmp (tsingle va x1))) as HC.
    destruct (conditional_graph sp_digits (tsmp (tsingle va x1))) as [cg|] eqn:Hcg; [|discriminate H].
    apply bool_decide_eq_true in H. destruct HC as (_ & He & Hcp & Hss & _).
    destruct cg as [[cp [cp' m]] e]. cbn [cg_space cg_evidence sp_cp sp_out ss_map ss_cp] in He, Hcp, Hss, H. subst. reflexivity. }
  destruct (weight_at_ok (activation_graph_f o0 cg_digits None) vb x1 _ eq_refl) as (fg & a & H1 & H2 & H3).
  { apply (neq_of_bool _ f_zero). vm_compute. reflexivity. }
  destruct (weight_at_ok (activation_graph_f (oc [2; 0; 0]%nat) cg_digits None) vb x1 _ eq_refl) as (fg' & a' & H1' & H2' & H3').
  { apply (neq_of_bool _ f_zero). vm_compute. reflexivity. }
  exists sp_digits, (tsmp (tsingle va x1)), cg_digits, o0, (oc [2; 0; 0]%nat), fg, fg', vb, x1, a, a'. do 2 eexists.
  split; [exact Hcg|]. split. { refine (set_wfb_spec _ _). vm_compute; reflexivity. }
  split. { refine (set_posb_spec _ _). vm_compute; reflexivity. }
  split; [exact H1|]. split; [exact H1'|]. split; [exact H2|]. split; [exact H3|]. split; [exact H2'|]. split; [exact H3'|].
  apply neq_of_bool. vm_compute. reflexivity.
Qed.

(** ** The hypotheses are satisfiable *)
Example C54_hypotheses : pos_counts (sp_out (cg_space cg_digits)) /\ (ss_length (sp_out (cg_space cg_digits)) <= 2 ^ 53)%Z /\
  one_valued (sp_out sp_digits) /\ wf_graph tcp (tsingle va x1) /\ single_valued (g_nodes (tsingle va x1)).
Proof.
  split. { refine (set_posb_spec _ _). vm_compute; reflexivity. }
  split. { apply Z.leb_le. vm_compute; reflexivity. }
  split. { refine (set_singleb_spec _ _). vm_compute; reflexivity. }
  split. { apply wf_graphb_spec. vm_compute; reflexivity. }
  apply single_valuedb_spec. vm_compute; reflexivity.
Qed.

(** The exact weight of b=1 is 4/9 / 2 = 2/9; its colour is 38 = int(255 * 2/9), which is 56 in decimal. *)
Example C54_exact_value : match activation_graph o0 cg_digits None with
  | Ok ag => match ag_nodes ag !! vb with
             | Some a => match an_values a !! x1 with Some w => bool_decide (w = qdiv 2 9) | None => false end
             | None => false end
  | Err _ => false end = true.
Proof. vm_compute. reflexivity. Qed.
Definition color_at (o : oracle) (r : res fagraph) (v : @Var TinyU) : string :=
  match r with
  | Ok fg => match fa_nodes fg !! v with
             | Some a => match node_color o a with Ok s => s | Err _ => "" end
             | None => "" end
  | Err _ => "" end.
Example C54_color_value :
  String.eqb (color_at o0 (activation_graph_f o0 cg_digits None) vb) "#380000" &&
  String.eqb (color_at o0 (activation_graph_f o0 cg_digits None) va) "green" = true.
Proof. vm_compute. reflexivity. Qed.

Print Assumptions C54_activation_floats.
Print Assumptions C54_close_to_spec.
Print Assumptions C54_color.
Print Assumptions C54_color_evidence.
Print Assumptions C54_color_order.
Print Assumptions C54_color_no_values.
Print Assumptions C54_order_refuted.
