(** * DrawMain: drawing the activation graph of a conditional graph; readable names *)

From Coq Require Import Ascii String.
From Flocq Require Import IEEE754.BinarySingleNaN.
From Verif Require Import FoldFacts FoldEq PropsAct PropsActFloat ActFacts ActColor SpecDraw BaseFacts TextFacts DrawFacts DrawSample DrawVars.

Local Notation txt := (list N).

Section draw.
Context {U : Universe}.
Context (sv : Var -> txt) (sx : Val -> txt) (sr : Rel -> txt) (sw : b64 -> txt).

Lemma readable_names cp : readable sv sx sr cp -> distinct_names sv sx cp.
Proof.
  intros R v x w y Hv Hw Hq. unfold called in Hq.
  destruct (declared_parts cp _ Hv) as [V X], (declared_parts cp _ Hw) as [V' X']. cbn in V, X, V', X'.
  apply read_lit in Hq; [|apply (rd_var_free _ _ _ _ R _ V)|apply (rd_var_free _ _ _ _ R _ V')].
  destruct Hq as [H1 H2]. f_equal; [by apply (rd_var _ _ _ _ R)|by apply (rd_val _ _ _ _ R)].
Qed.

Section conditional.
Context (o0 : oracle) (sp : space) (ev : sample) (cg : cgraph) (f : option (gset relation)) (fg : fagraph).
Context (Hc : conditional_graph sp ev = Ok cg) (W : all_wf (sp_cp sp) (sp_out sp)) (O : one_valued (sp_out sp)) (P : pos_counts (sp_out sp)).
Context (We : wf_graph (sp_cp sp) (s_g ev)) (Oe : single_valued (g_nodes (s_g ev))) (Ne : g_nodes (s_g ev) <> ∅).
Context (Nc : ss_map (sp_out (cg_space cg)) <> ∅) (L : (ss_length (sp_out (cg_space cg)) <= 2 ^ 53)%Z).
Context (F : activation_graph_f o0 cg f = Ok fg).
Notation cp := (sp_cp sp).

Lemma act_shape :
  (forall v, is_Some (fa_nodes fg !! v) <-> declared_var cp v) /\
  (forall v a x w, fa_nodes fg !! v = Some a -> fa_values a !! x = Some w -> unit_double w) /\
  (forall X m, fa_edges fg !! X = Some m -> exists a b, a <> b /\ X = {[a; b]} /\ declared_var cp a /\ declared_var cp b) /\
  (forall v a X, fa_nodes fg !! v = Some a -> cp_vars cp !! v = Some X ->
     (fa_in_query a = true <-> has_var (g_nodes (s_g ev)) v) /\ forall x, is_Some (fa_values a !! x) <-> x ∈ X).
Proof.
  destruct (C54_close_to_spec o0 sp ev cg f Hc W O P We Oe Ne Nc L) as (fg' & ag & F' & Hok & (_ & Hed & Hnd)).
  rewrite F in F'. injection F' as <-.
  destruct (conditional_good sp ev cg Hc W O P) as (Hev & Hcp & Hgood & _).
  pose proof (ao_nodes _ _ _ Hok) as HN. cbv zeta in HN. rewrite Hcp, Hev in HN.
  assert (forall v, match fa_nodes fg !! v, ag_nodes ag !! v, cp_vars cp !! v with
    | Some a, Some b, Some X => node_ok (size (ss_map (sp_out (cg_space cg)))) a b /\
        (an_in_query b = true <-> has_var (g_nodes (s_g ev)) v) /\ forall x, is_Some (an_values b !! x) <-> x ∈ X
    | None, None, None => True
    | _, _, _ => False end) as HV.
  { intros v. pose proof (HN v) as H1. pose proof (Hnd v) as H2. destruct (fa_nodes fg !! v), (ag_nodes ag !! v), (cp_vars cp !! v); try done.
    destruct H1 as [Hq Hx]. split; [done|]. split; [done|]. intros x. specialize (Hx x). destruct (an_values a !! x).
    - destruct Hx as [Hx _]. split; [done|eauto].
    - split; [intros [? ?]; done|done]. }
  split; [|split; [|split]].
  - intros v. pose proof (HV v) as H. unfold declared_var. destruct (fa_nodes fg !! v), (ag_nodes ag !! v), (cp_vars cp !! v); try done.
    + split; eauto.
    + split; [by intros [? ?]|intros [? ?]; done].
  - intros v a x w Ha Hw. pose proof (HV v) as H. rewrite Ha in H. destruct (ag_nodes ag !! v) as [b|]; [|done].
    destruct (cp_vars cp !! v); [|done]. destruct H as [[_ Hk] _]. specialize (Hk x). rewrite Hw in Hk.
    destruct (an_values b !! x); [|done]. by destruct Hk.
  - intros X m HX. pose proof (ao_edges _ _ _ Hok X) as HE. cbv zeta in HE. rewrite Hed in HX. rewrite HX, Hev in HE.
    destruct HE as [(g & r & Hg & e & HeX & _ & Hin) _].
    assert (edge_legal cp e) as (Htwo & Hdecl & _).
    { destruct Hin as [Hin|(n & Hin & _)]; [by apply (wf_edges _ _ We)|]. destruct (Hgood g Hg) as [Wg _]. by apply (wf_edges _ _ Wg). }
    destruct Htwo as (x & y & Hxy & Hne). exists x.1, y.1. split; [done|]. split.
    + apply set_eq. intros v. rewrite (HeX v). unfold has_var. rewrite Hxy. split.
      * intros (z & [Hz%elem_of_singleton|Hz%elem_of_singleton]%elem_of_union); rewrite <- Hz; apply elem_of_union; [left|right]; by apply elem_of_singleton.
      * intros [->%elem_of_singleton| ->%elem_of_singleton]%elem_of_union;
          [exists x.2|exists y.2]; rewrite <- surjective_pairing; apply elem_of_union; [left|right]; by apply elem_of_singleton.
    + split; [destruct (Hdecl x) as (X1 & HX1 & _)|destruct (Hdecl y) as (X1 & HX1 & _)]; [|by exists X1| |by exists X1];
        rewrite Hxy; apply elem_of_union; [left|right]; by apply elem_of_singleton.
  - intros v a X Ha HX. pose proof (HV v) as H. rewrite Ha, HX in H. destruct (ag_nodes ag !! v) as [b|]; [|done].
    destruct H as ([Hq Hk] & Hq' & Hx). rewrite Hq. split; [done|]. intros x. rewrite <- (Hx x). specialize (Hk x).
    destruct (fa_values a !! x), (an_values b !! x); try done; split; eauto; by intros [? ?].
Qed.

Lemma active_lemma (dr : Var -> bool) o :
  (forall v, declared_var cp v -> dr v = true) -> (forall v X, cp_vars cp !! v = Some X -> X <> ∅) ->
  exists net, active_visualize sv sx sr sw dr o cp fg = Ok net /\
    pictures net (active_point sv sx sw fg) (active_line sv sr fg) /\ (forall v, v ∈ (nw_nodes net).*1 <-> declared_var cp v).
Proof.
  intros Hd HX. destruct act_shape as (H1 & H2 & H3 & H4). apply (active_pictures sv sx sr sw dr o cp fg H1 H2 H3 Hd).
  intros v a Ha. right. destruct (proj1 (H1 v)) as [X Hv]; [by exists a|]. destruct (set_choose_L X (HX v X Hv)) as [x Hx].
  apply (proj2 (H4 v a X Ha Hv) x) in Hx as [w Hw]. intros He. by rewrite He, lookup_empty in Hw.
Qed.

(** A variable without values. *)
Lemma loop_no_values (dr : Var -> bool) v : cp_vars cp !! v = Some ∅ -> (forall v, declared_var cp v -> dr v = true) ->
  forall l o' net, (forall v X, (v, X) ∈ l -> declared_var cp v) -> v ∈ l.*1 ->
  for_res (fun o' net '(v, X) => c ← active_node_call sv sx sw o' fg v X; do_call dr net c) o' net l = Err ValueError.
Proof.
  intros Hv Hd. destruct act_shape as (H1 & H2 & H3 & H4).
  assert (forall w X o', declared_var cp w -> active_node_call sv sx sw o' fg w X = Err ValueError \/
    v <> w /\ exists t k, active_node_call sv sx sw o' fg w X = Ok (DNode w t k)) as Hcall.
  { intros w X o' Hw. destruct (proj2 (H1 w) Hw) as [a Ha]. destruct Hw as [Y HY]. destruct (H4 w a Y Ha HY) as [Hq Hx].
    destruct (decide (Y = ∅)) as [->|HYne].
    - left. unfold active_node_call. rewrite Ha. rewrite color_empty; [done| |].
      + apply map_eq. intros x. rewrite lookup_empty. destruct (fa_values a !! x) as [z|] eqn:Hz; [|done].
        assert (x ∈ (∅ : gset Val)) as Hbad by (apply Hx; by exists z). by apply elem_of_empty in Hbad.
      + destruct (fa_in_query a) eqn:Hqa; [|done]. destruct (proj1 Hq eq_refl) as [x Hin].
        destruct (wf_nodes _ _ We _ Hin) as (Z & HZ & HZx). cbn in HZ, HZx. rewrite HY in HZ. injection HZ as <-. by apply elem_of_empty in HZx.
    - right. split; [intros ->; rewrite HY in Hv; by injection Hv|].
      destruct (node_call_ok sv sx sw fg H2 o' w X a Ha) as (t & k & Hk & _); [|by exists t, k].
      right. destruct (set_choose_L Y HYne) as [x Hin]. apply Hx in Hin as [z Hz]. intros He. by rewrite He, lookup_empty in Hz. }
  induction l as [|[w X] l IH]; intros o' net Hl Hin; [by apply elem_of_nil in Hin|]. cbn.
  assert (declared_var cp w) as Hw by (apply (Hl w X); left).
  destruct (Hcall w X (sub o' 1) Hw) as [->|(Hne & t & k & ->)]; [done|]. cbn. rewrite (Hd w Hw). cbn.
  apply IH; [intros v' X' H; apply (Hl v' X'); by right|]. cbn in Hin. by apply elem_of_cons in Hin as [?|?].
Qed.
Lemma active_no_values (dr : Var -> bool) o v :
  cp_vars cp !! v = Some ∅ -> (forall v, declared_var cp v -> dr v = true) ->
  active_visualize sv sx sr sw dr o cp fg = Err ValueError.
Proof.
  intros Hv Hd. unfold active_visualize.
  rewrite (loop_no_values dr v Hv Hd); [done| |].
  - intros w X Hin%elem_of_iter_map. by exists X.
  - apply elem_of_list_fmap. exists (v, ∅). split; [done|]. by apply elem_of_iter_map.
Qed.

(** A variable that is neither a string nor an integer. *)
Lemma loop_undrawable (dr : Var -> bool) v : dr v = false -> (forall v X, cp_vars cp !! v = Some X -> X <> ∅) ->
  forall l o' net, (forall v X, (v, X) ∈ l -> declared_var cp v) -> v ∈ l.*1 ->
  for_res (fun o' net '(v, X) => c ← active_node_call sv sx sw o' fg v X; do_call dr net c) o' net l = Err AssertionError.
Proof.
  intros Hv HX. destruct act_shape as (H1 & H2 & H3 & H4).
  induction l as [|[w X] l IH]; intros o' net Hl Hin; [by apply elem_of_nil in Hin|]. cbn.
  assert (declared_var cp w) as Hw by (apply (Hl w X); left). destruct (proj2 (H1 w) Hw) as [a Ha].
  destruct (node_call_ok sv sx sw fg H2 (sub o' 1) w X a Ha) as (t & k & -> & _).
  { right. destruct Hw as [Y HY]. destruct (set_choose_L Y (HX w Y HY)) as [x Hx]. apply (proj2 (H4 w a Y Ha HY) x) in Hx as [z Hz].
    intros He. by rewrite He, lookup_empty in Hz. }
  cbn. destruct (dr w) eqn:Hdw; cbn; [|done]. apply IH; [intros v' X' H; apply (Hl v' X'); by right|].
  cbn in Hin. apply elem_of_cons in Hin as [->|?]; [congruence|done].
Qed.
Lemma active_undrawable (dr : Var -> bool) o v :
  declared_var cp v -> dr v = false -> (forall v X, cp_vars cp !! v = Some X -> X <> ∅) ->
  active_visualize sv sx sr sw dr o cp fg = Err AssertionError.
Proof.
  intros [X Hv] Hd HX. unfold active_visualize.
  rewrite (loop_undrawable dr v Hd HX); [done| |].
  - intros w Y Hin%elem_of_iter_map. by exists Y.
  - apply elem_of_list_fmap. exists (v, X). split; [done|]. by apply elem_of_iter_map.
Qed.
End conditional.
End draw.
