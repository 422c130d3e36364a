(** * StageFacts: chains of conditioning and joining. *)

From Verif Require Import BaseFacts BuilderFacts CondJoinFacts.
From Verif Require Import JoinFacts ClusterFacts JoinOnFacts JoinedFacts NetInfer.
From Verif Require Export SpecStages.

Section stage_facts.
Context {U : Universe}.

Implicit Types (G g h : graph).

Lemma joinable_declared sp n : joinable sp -> occurs (sp_out sp) n -> declared (sp_cp sp) n.
Proof. intros Hj (g & Hg & Hn). by apply (wf_nodes _ _ (jn_wf _ Hj g Hg)). Qed.

(** An outcome of the joined space with given values. *)
Lemma joined_pick o sp r (a : Var -> Val) : joinable sp -> make_joined o sp = Ok r -> (exists h, contains (sp_out sp) h) ->
  (forall v, occurs_var (sp_out sp) v -> occurs (sp_out sp) (v, a v)) ->
  exists G, contains (sp_out r) G /\ forall v x, has v x G <-> occurs_var (sp_out sp) v /\ x = a v.
Proof.
  intros Hj Hr Hne Ha. pose proof Hj as [H1 H2 H3 H4 H5 H6].
  destruct (space_factors (fun _ => []) sp H1 H2 H3 H4 H5) as (S & _ & Hss). pose proof (fo_list _ _ _ Hss) as Hf0.
  destruct (picks_full (sp_cp sp) (sp_out sp) (elements S) a (elements S) Hss H6) as (sel & Hp & Hpa); [done| |].
  { intros F v HF (g & Hg & x & Hx). apply Ha. exists x, g. split; [|done]. apply (factors_contains _ _ _ g Hss). eauto. }
  pose proof (consistent_picks (sp_cp sp) (elements S) a (elements S) sel Hf0 (fun _ H => H) Hp Hpa) as Hc.
  assert (prod_of (elements S) (JoinFacts.merge sel.*1) (product sel.*2)) as HP.
  { apply prod_of_unfold. exists sel. split_and!; [done|done| |done]. intros v x y Hx Hy. by rewrite (Hc v x Hx), (Hc v y Hy). }
  apply (feasible_joint _ _ _ Hss) in HP.
  pose proof (joined_spec o sp Hj) as Hs. rewrite Hr in Hs. destruct Hs as (_ & _ & _ & Hs).
  assert (contains (sp_out r) (JoinFacts.merge sel.*1)) as Hcon by (eexists; apply count_of_lookup, Hs; by split).
  exists (JoinFacts.merge sel.*1). split; [done|]. destruct (joined_covers o sp r _ Hj Hr Hcon) as [_ Hcov].
  intros v x. split.
  - intros Hx. split; [apply Hcov; by exists x|by apply Hc].
  - intros [Hv ->]. apply Hcov in Hv as [y Hy]. by rewrite <- (Hc v y Hy).
Qed.

Lemma joined_occurs_iff o sp r n : joinable sp -> make_joined o sp = Ok r -> occurs (sp_out r) n <-> occurs (sp_out sp) n.
Proof.
  intros Hj Hr. pose proof (joined_spec o sp Hj) as Hs. rewrite Hr in Hs. destruct Hs as (_ & _ & _ & Hs). split.
  - intros (G & [c Hc] & Hn). apply count_of_lookup, Hs in Hc as [_ (sel & (_ & Hin & _) & [HG _] & _)].
    apply HG in Hn as (g & Hg & Hn). apply elem_of_list_fmap in Hg as ([g' d] & -> & Hg). destruct (Hin g' d Hg) as [Hl _].
    exists g'. split; [by eexists|done].
  - intros Ho. destruct n as [v x]. destruct (space_values (sp_out sp)) as [m Hm].
    destruct (joined_pick o sp r (fun w => if decide (w = v) then x else default x (m !! w)) Hj Hr) as (G & HG & Hhas).
    + destruct Ho as (g & Hg & _). by exists g.
    + intros w [y Hy]. case_decide as Hd; [by subst|]. destruct (Hm w) as [Hw Hw'].
      destruct (m !! w) as [z|]; [by apply Hw|]. by destruct (Hw' eq_refl y).
    + exists G. split; [done|]. apply Hhas. rewrite decide_True by done. split; [by exists x|done].
Qed.

Lemma joined_joinable o sp r : joinable sp -> make_joined o sp = Ok r ->
  joinable r /\ forall g h, contains (sp_out r) g -> contains (sp_out r) h -> same_pairs g h.
Proof.
  intros Hj Hr. pose proof Hj as [H1 H2 H3 H4 H5 H6]. pose proof (C39_full o sp H1 H2 H3 H4 H5 H6) as Hs. rewrite Hr in Hs.
  destruct Hs as (Hcp & Hcp' & _ & Hs & Ds & Hlen & HDs).
  pose proof (fo_list _ _ _ HDs) as Hf.
  assert (forall g, contains (sp_out r) g -> good_graph (sp_cp sp) g /\ single_valued (g_nodes g)) as Hgood.
  { intros g Hg. apply (factors_contains _ _ _ g HDs) in Hg as (D & HD & Hg).
    split; [by apply (fl_graph _ Ds D)|by apply (fl_sv _ _ Hf D)]. }
  assert (forall g h, contains (sp_out r) g -> contains (sp_out r) h -> same_pairs g h) as Hsame.
  { intros g h Hg Hh. apply (factors_contains _ _ _ _ HDs) in Hg as (D & HD & Hg), Hh as (D' & HD' & Hh).
    apply (fl_hom _ _ Hf D); [done|done|]. destruct Ds as [|D0 [|]]; [by apply elem_of_nil in HD| |simpl in Hlen; lia].
    apply elem_of_list_singleton in HD as ->, HD' as ->. done. }
  split; [|done]. rewrite <- Hcp in *. split.
  - done.
  - intros g Hg. by apply Hgood.
  - intros g Hg. by apply Hgood.
  - intros g Hg. by apply Hgood.
  - split; [|intros g h Hg Hh _; by apply Hsame]. intros g Hg. by apply Hgood.
  - intros g a Hg Ha. destruct (joined_covers o sp r g Hj Hr Hg) as [_ Hcov].
    destruct (joined_pick o sp r a Hj Hr) as (G & HG & Hhas).
    + destruct (Hgood g Hg) as [Hgg _]. destruct (set_choose_L _ (gg_ne _ _ Hgg)) as [n Hn].
      assert (occurs (sp_out r) n) as Ho by by exists g. apply (joined_occurs_iff o sp r n Hj Hr) in Ho as (h & Hh & _). by exists h.
    + intros v Hv. apply (joined_occurs_iff o sp r _ Hj Hr), Ha. by apply Hcov.
    + exists G. split_and!; [done|by apply Hsame|]. intros v [x Hx]. pose proof Hx as Hx'. apply Hhas in Hx' as [_ ->]. done.
Qed.

(** A space with a single kind of outcomes is already joined. *)
Lemma joined_again o sp : joinable sp -> (forall g h, contains (sp_out sp) g -> contains (sp_out sp) h -> same_pairs g h) ->
  make_joined o sp = Ok sp.
Proof.
  intros Hj Hsame. pose proof (joined_spec o sp Hj) as Hs. destruct (make_joined o sp) as [r|] eqn:Hr.
  - destruct Hs as (Hcp & Hcp' & _ & Hs). f_equal. pose proof (jn_cp _ Hj) as Hcps.
    destruct r as [c1 [c2 m]], sp as [d1 [d2 m']]. simpl in *. subst. f_equal. f_equal.
    apply map_eq. intros G. apply option_eq. intros c. specialize (Hs G c). rewrite count_of_lookup in Hs. simpl in Hs. rewrite Hs.
    split.
    + intros [(h & Hh) (sel & (Hnd & Hin & Hcov & Huni) & HG & _ & ->)].
      destruct (Hcov h Hh I) as (g & Hg & _).
      assert (forall g', g' ∈ sel.*1 -> g' = g) as Hall.
      { intros g' Hg'. apply Huni; [done|done|]. apply Hsame.
        - apply elem_of_list_fmap in Hg' as ([g1 d] & -> & Hg'). destruct (Hin g1 d Hg') as [Hl _]. by eexists.
        - apply elem_of_list_fmap in Hg as ([g1 d] & -> & Hg). destruct (Hin g1 d Hg) as [Hl _]. by eexists. }
      destruct sel as [|[g1 d1'] [|[g2 d2'] sel]].
      * by apply elem_of_nil in Hg.
      * apply merged_merge in HG as ->. assert (JoinFacts.merge [g1] = g1) as Hm.
        { apply (merge_single g1). }
        simpl. rewrite Hm. destruct (Hin g1 d1') as [Hl _]; [left|]. simpl in Hl. rewrite Hl. f_equal. lia.
      * exfalso. apply NoDup_cons in Hnd as [Hnd _]. apply Hnd. simpl. rewrite (Hall g1), (Hall g2); [left| |]; [right; left|left].
    + intros Hl. split; [by exists G, c|]. exists [(G, c)]. split_and!.
      * split_and!.
        -- apply NoDup_singleton.
        -- intros g d Hg. apply elem_of_list_singleton in Hg as [= -> ->]. done.
        -- intros h Hh _. exists G. split; [left|]. apply Hsame; [done|by exists c].
        -- intros g g' Hg Hg' _. apply elem_of_list_singleton in Hg as ->, Hg' as ->. done.
      * split; intros n; setoid_rewrite elem_of_list_singleton; naive_solver.
      * apply (jn_ov _ Hj). by exists c.
      * simpl. lia.
  - exfalso. destruct Hs as [_ [(g & h & Hg & Hh & Hd)|[(v & V & g & h & _ & Hg & Hh & _ & _ & Hn & _) _]]].
    + apply (Hd ∅). apply rtc_once. split; [done|]. left. by apply Hsame.
    + by apply Hn, Hsame.
Qed.

(** What the rest of a chain needs. *)
Record stage_inv (o : oracle) (sp : space) (ev : node -> Prop) (cur : space) : Prop := {
  si_joinable : joinable cur;
  si_ok : forall o', is_ok (make_joined o' cur) = true;
  si_fine : ~ disconnected (sp_out cur) /\ (~ cyclic (sp_out cur) \/ ~ crowded (sp_out cur));
  si_cp : sp_cp cur = sp_cp sp;
  si_counts : forall o' r r', make_joined o sp = Ok r -> make_joined o' cur = Ok r' ->
    forall G c, count_of (sp_out r') G = Ok c <-> count_of (sp_out r) G = Ok c /\ forall n, ev n -> n ∈ g_nodes G;
  si_occurs : forall n, occurs (sp_out sp) n -> (forall y, ev (n.1, y) -> y = n.2) -> occurs (sp_out cur) n
}.

Lemma fine_total o sp : joinable sp -> ~ disconnected (sp_out sp) /\ (~ cyclic (sp_out sp) \/ ~ crowded (sp_out sp)) ->
  is_ok (make_joined o sp) = true.
Proof. intros Hj [Hd [Hc|Hc]]; [by apply joined_total|by apply joined_total_two]. Qed.

Lemma stage_given o sp ev cur o' v x : stage_inv o sp ev cur -> occurs (sp_out sp) (v, x) -> (forall y, ev (v, y) -> y = x) ->
  exists cur', run_stage o' cur (Given v x) = Ok cur' /\ stage_inv o sp (fun n => ev n \/ n = (v, x)) cur'.
Proof.
  intros [I1 I2 I3 I4 I5 I6] Ho Hev. pose proof (I6 (v, x) Ho Hev) as Ho'.
  pose proof (joinable_declared cur (v, x) I1 Ho') as Hd. unfold run_stage, sp_sample_builder. rewrite (single_built _ _ _ Hd). cbn [mbind res_bind].
  set (e := Sample (cp_id (sp_cp cur)) (Graph {[(v, x)]} ∅)).
  pose proof (C36_lemma cur e) as Hcg'. destruct (conditional_graph cur e) as [cg|] eqn:Hcg; [|by destruct Hcg' as [_ []]]. clear Hcg'.
  cbn [mbind res_bind]. eexists. split; [done|].
  destruct (conditioned_joinable cur e cg v x I1 Hcg eq_refl eq_refl Ho') as (Hj' & Hdis & Hcyc & Hcro).
  destruct (conditioned_lookup cur e cg v x Hcg eq_refl eq_refl) as (C1 & C2 & C3).
  assert (~ disconnected (sp_out (cg_space cg)) /\ (~ cyclic (sp_out (cg_space cg)) \/ ~ crowded (sp_out (cg_space cg)))) as Hfine by tauto.
  split.
  - done.
  - intros o1. by apply fine_total.
  - done.
  - etransitivity; [exact C1|done].
  - intros o1 r r' Hr Hr' G c. pose proof (I2 o1) as Hok. destruct (make_joined o1 cur) as [rc|] eqn:Hrc; [|done].
    destruct (C44_lemma o1 o1 cur e cg v x rc r' I1 Hcg eq_refl eq_refl Ho' Hrc Hr') as [_ HG].
    rewrite HG, (I5 o1 r rc Hr Hrc). unfold has. split.
    + intros [[Hc Hn] Hx]. split; [done|]. intros n [Hn'| ->]; [by apply Hn|done].
    + intros [Hc Hn]. split; [split; [done|]|]; [intros n Hn'; apply Hn; by left|]. apply Hn. by right.
  - intros [w y] Hw Hwy. cbn [fst snd] in Hwy.
    assert (forall g, contains (sp_out (cg_space cg)) g <-> contains (sp_out cur) g /\ (has v x g \/ lacking v g)) as Hcon.
    { intros g. unfold contains, is_Some. setoid_rewrite C3. naive_solver. }
    assert (occurs (sp_out cur) (w, y)) as (g & Hg & Hgy) by (apply I6; [done|]; intros z Hz; apply Hwy; by left).
    destruct (decide (v ∈ included_variables g)) as [Hvg|Hvg]; rewrite included_variables_spec in Hvg.
    2:{ exists g. split; [|done]. apply Hcon. split; [done|by right]. }
    destruct (decide (w = v)) as [->|Hwv].
    { assert (y = x) as -> by (symmetry; apply Hwy; by right). exists g. split; [|done]. apply Hcon. split; [done|by left]. }
    destruct (space_values (sp_out cur)) as [m Hm].
    destruct (jn_full _ I1 g (fun u => if decide (u = v) then x else if decide (u = w) then y else default x (m !! u)) Hg)
      as (h & Hh & Hsp & Hhas).
    { intros u [z Hz]. case_decide as Hd1; [by subst|]. case_decide as Hd2; [subst; by exists g|].
      destruct (Hm u) as [Hu Hu']. destruct (m !! u) as [z'|]; [by apply Hu|]. destruct (Hu' eq_refl z). by exists g. }
    assert (forall u, having u g -> having u h) as Hvars.
    { intros u. exact (proj1 (same_pairs_vars (sp_cp cur) g h u (jn_wf _ I1 g Hg) (jn_wf _ I1 h Hh) Hsp)). }
    exists h. split.
    + apply Hcon. split; [done|]. left. specialize (Hhas v (Hvars v Hvg)). by rewrite decide_True in Hhas.
    + specialize (Hhas w (Hvars w (ex_intro _ y Hgy))). rewrite decide_False, decide_True in Hhas by done. done.
Qed.

Lemma stage_joined o sp ev cur o' : stage_inv o sp ev cur ->
  exists cur', run_stage o' cur Joined = Ok cur' /\ stage_inv o sp ev cur'.
Proof.
  intros [I1 I2 I3 I4 I5 I6]. simpl. pose proof (I2 o') as Hok. destruct (make_joined o' cur) as [r|] eqn:Hr; [|done].
  exists r. split; [done|]. destruct (joined_joinable o' cur r I1 Hr) as [Hj Hsame].
  pose proof (joined_spec o' cur I1) as Hs. rewrite Hr in Hs. destruct Hs as (Hcp & _).
  split.
  - done.
  - intros o1. by rewrite joined_again.
  - split.
    + intros (g & h & Hg & Hh & Hd). apply (Hd ∅). apply rtc_once. split; [done|]. left. by apply Hsame.
    + left. intros (v & V & g & h & _ & Hg & Hh & _ & _ & Hn & _). by apply Hn, Hsame.
  - congruence.
  - intros o1 r1 r' Hr1 Hr'. rewrite joined_again in Hr' by done. injection Hr' as <-. by apply (I5 o').
  - intros n Hn Hev. apply (joined_occurs_iff o' cur r n I1 Hr). by apply I6.
Qed.

Lemma stages_run o sp o' l : forall ev cur, stage_inv o sp ev cur ->
  (forall n, given_in l n -> occurs (sp_out sp) n) ->
  (forall v x y, given_in l (v, x) -> given_in l (v, y) \/ ev (v, y) -> y = x) ->
  exists cur', run_stages o' cur l = Ok cur' /\ stage_inv o sp (fun n => ev n \/ given_in l n) cur'.
Proof.
  unfold run_stages. revert o'. induction l as [|st l IH]; intros o' ev cur Hinv Hocc Hco.
  - exists cur. split; [done|]. destruct Hinv as [I1 I2 I3 I4 I5 I6].
    assert (forall n, ~ given_in [] n) as Hno by (intros n Hn; by apply elem_of_nil in Hn).
    split; [done..| |].
    + intros o1 r r' Hr Hr' G c. rewrite (I5 o1 r r' Hr Hr'). naive_solver.
    + intros n Hn Hev. apply I6; [done|]. intros y Hy. apply Hev. by left.
  - assert (exists cur', run_stage (sub o' 1) cur st = Ok cur' /\ stage_inv o sp (fun n => ev n \/ st = Given n.1 n.2) cur') as (cur' & Hrun & Hinv').
    { destruct st as [v x|].
      - destruct (stage_given o sp ev cur (sub o' 1) v x Hinv) as (cur' & Hrun & Hinv').
        + apply Hocc. left.
        + intros y Hy. apply (Hco v x y); [left|by right].
        + exists cur'. split; [done|]. destruct Hinv' as [I1 I2 I3 I4 I5 I6]. split; [done..| |].
          * intros o1 r r' Hr Hr' G c. rewrite (I5 o1 r r' Hr Hr'). f_equiv. split; intros H [w y] Hn; apply H; simpl in *.
            -- destruct Hn as [Hn|[= -> ->]]; [by left|by right].
            -- destruct Hn as [Hn|[= -> ->]]; [by left|by right].
          * intros n Hn Hev. apply I6; [done|]. intros y [Hy|[= Hv ->]]; [apply Hev; by left|]. apply Hev. right. simpl. by rewrite Hv.
      - destruct (stage_joined o sp ev cur (sub o' 1) Hinv) as (cur' & Hrun & [I1 I2 I3 I4 I5 I6]). exists cur'. split; [done|]. split; [done..| |].
        + intros o1 r r' Hr Hr' G c. rewrite (I5 o1 r r' Hr Hr'). f_equiv. split; intros H n Hn; apply H; [by destruct Hn|by left].
        + intros n Hn Hev. apply I6; [done|]. intros y Hy. apply Hev. by left. }
    cbn [for_res].
    destruct (IH (sub o' 0) _ cur' Hinv') as (cur2 & Hrun2 & [I1 I2 I3 I4 I5 I6]).
    + intros n Hn. apply Hocc. by right.
    + intros v x y Hx Hy. apply (Hco v x y); [by right|]. destruct Hy as [Hy|[Hy|Hy]]; [left; by right|by right|left; simpl in Hy; subst; left].
    + exists cur2. split; [by rewrite Hrun|]. split; [done..| |].
      * intros o1 r r' Hr Hr' G c. rewrite (I5 o1 r r' Hr Hr'). f_equiv. unfold given_in.
        split; intros H n Hn; apply H; rewrite elem_of_cons in *; naive_solver.
      * intros n Hn Hev. apply I6; [done|]. unfold given_in in *. setoid_rewrite elem_of_cons in Hev. naive_solver.
Qed.
Lemma stage_start o sp : joinable sp -> ~ disconnected (sp_out sp) -> ~ cyclic (sp_out sp) \/ ~ crowded (sp_out sp) ->
  stage_inv o sp (fun _ => False) sp.
Proof.
  intros Hj Hd Hc. split; [done| |done|done| |].
  - intros o'. by apply fine_total.
  - intros o' r r' Hr Hr' G c. rewrite (joined_order o' o sp r' r Hj Hr' Hr). naive_solver.
  - done.
Qed.

Lemma run_stages_app o sp l l' : exists o', forall cur, run_stages o sp l = Ok cur -> run_stages o sp (l ++ l') = run_stages o' cur l'.
Proof.
  unfold run_stages. revert o sp. induction l as [|st l IH]; intros o sp.
  - exists o. intros cur Hc. simpl in *. by injection Hc as ->.
  - cbn [for_res app]. destruct (run_stage (sub o 1) sp st) as [sp'|]; [apply IH|]. exists o. intros cur Hc. done.
Qed.

(** A chain that ends with joining gives the outcomes of the joined space that have the given values. *)
Lemma stages_joined o o' sp l : joinable sp -> ~ disconnected (sp_out sp) -> ~ cyclic (sp_out sp) \/ ~ crowded (sp_out sp) ->
  coherent (sp_out sp) l ->
  exists r r', make_joined o sp = Ok r /\ run_stages o' sp (l ++ [Joined]) = Ok r' /\
    sp_cp r' = sp_cp sp /\ ss_cp (sp_out r') = sp_cp sp /\
    forall G c, count_of (sp_out r') G = Ok c <-> count_of (sp_out r) G = Ok c /\ forall n, given_in l n -> n ∈ g_nodes G.
Proof.
  intros Hj Hd Hc [Hocc Hco]. pose proof (fine_total o sp Hj (conj Hd Hc)) as Hok.
  destruct (make_joined o sp) as [r|] eqn:Hr; [|done]. exists r.
  destruct (stages_run o sp o' l _ sp (stage_start o sp Hj Hd Hc)) as (cur & Hrun & [I1 I2 I3 I4 I5 I6]).
  { done. }
  { intros v x y Hx [Hy|[]]. by apply (Hco v). }
  destruct (run_stages_app o' sp l [Joined]) as [o1 H1]. specialize (H1 cur Hrun). rewrite H1.
  unfold run_stages. cbn [for_res run_stage]. pose proof (I2 (sub o1 1)) as Hok'. destruct (make_joined (sub o1 1) cur) as [r'|] eqn:Hr'; [|done].
  exists r'. pose proof (joined_spec (sub o1 1) cur I1) as Hs. rewrite Hr' in Hs. destruct Hs as (Hs1 & Hs2 & _).
  split_and!; [done|done|congruence|congruence|]. intros G c. rewrite (I5 _ r r' Hr Hr'). naive_solver.
Qed.

End stage_facts.
