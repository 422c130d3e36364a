(** * BuildFacts: relation graph builder histories, conditioning *)

From Verif Require Export SpecRel FactorFacts.

Section build_facts.
Context {U : Universe}.
Implicit Types (g : graph) (ss : samples) (sp : space) (b : rgbuilder).

(** ** C32 *)

(** State reached from [b] by accepting [h]. *)
Definition grown b (h : list (graph * Z)) b' : Prop :=
  rb_cp b' = rb_cp b /\ ss_cp (rb_out b') = ss_cp (rb_out b) /\
  (forall g, times_in (rb_out b') g = times_in (rb_out b) g + accepted_count h g)%Z /\
  (forall g, contains (rb_out b') g <-> contains (rb_out b) g \/ g ∈ h.*1).

Lemma accepted_app h h' g : accepted_count (h ++ h') g = (accepted_count h g + accepted_count h' g)%Z.
Proof. unfold accepted_count. by rewrite omap_app, zsum_app. Qed.

Lemma grown_refl b : grown b [] b.
Proof. split_and!; [done|done|intros; unfold accepted_count; simpl; lia|set_solver +]. Qed.

Lemma grown_trans b h b' h' b'' : grown b h b' -> grown b' h' b'' -> grown b (h ++ h') b''.
Proof.
  intros (H1 & H2 & H3 & H4) (J1 & J2 & J3 & J4). split_and!; [congruence|congruence|..]; intros g.
  - rewrite J3, H3, accepted_app. lia.
  - rewrite J4, H4, fmap_app, elem_of_app. tauto.
Qed.

Definition okb b : Prop := ss_cp (rb_out b) = rb_cp b /\ forall g c, ss_map (rb_out b) !! g = Some c -> (1 <= c)%Z.

Lemma okb_grown b h b' : okb b -> grown b h b' -> (forall kv, kv ∈ h -> 1 <= kv.2)%Z -> okb b'.
Proof.
  intros [Hcp Hp] (H1 & H2 & H3 & H4) Hh. split; [congruence|]. intros g c Hc.
  assert (0 <= accepted_count h g)%Z as H0.
  { unfold accepted_count. clear -Hh. induction h as [|[g' z] h IH]; [done|]. cbn [omap list_omap fst snd].
    assert (1 <= z)%Z by (apply (Hh (g', z)); left).
    assert (0 <= zsum (omap (fun kv : graph * Z => if decide (kv.1 = g) then Some kv.2 else None) h))%Z.
    { apply IH. intros kv Hkv. apply Hh. by right. }
    case_decide; simpl; lia. }
  assert (times_in (rb_out b') g = c) as Hc' by (unfold times_in; by rewrite Hc). rewrite H3 in Hc'.
  destruct (ss_map (rb_out b) !! g) as [c0|] eqn:Hc0.
  - pose proof (Hp g c0 Hc0). unfold times_in in Hc'. rewrite Hc0 in Hc'. simpl in Hc'. lia.
  - unfold times_in in Hc'. rewrite Hc0 in Hc'. simpl in Hc'.
    assert (g ∈ h.*1) as Hg.
    { destruct (proj1 (H4 g)) as [[? ?]|]; [by exists c|congruence|done]. }
    clear -Hg Hh Hc' H0. subst c. apply elem_of_list_fmap in Hg as ([g' z] & -> & Hin). simpl.
    apply elem_of_list_split in Hin as (l1 & l2 & ->). rewrite accepted_app.
    assert (forall l, (forall kv : graph * Z, kv ∈ l -> (1 <= kv.2)%Z) -> (0 <= accepted_count l g')%Z) as Hnn.
    { intros l. unfold accepted_count. induction l as [|[g'' y] l IH]; [done|]. intros Hl. cbn [omap list_omap fst snd].
      assert (1 <= y)%Z by (apply (Hl (g'', y)); left).
      assert (0 <= zsum (omap (fun kv : graph * Z => if decide (kv.1 = g') then Some kv.2 else None) l))%Z.
      { apply IH. intros kv Hkv. apply Hl. by right. }
      case_decide; simpl; lia. }
    change ((g', z) :: l2) with ([(g', z)] ++ l2). rewrite accepted_app.
    assert (accepted_count [(g', z)] g' = z) as ->.
    { unfold accepted_count. simpl. rewrite decide_True by done. simpl. lia. }
    assert (0 <= accepted_count l1 g')%Z by (apply Hnn; set_solver +Hh).
    assert (0 <= accepted_count l2 g')%Z by (apply Hnn; set_solver +Hh).
    assert (1 <= z)%Z by (apply (Hh (g', z)); set_solver +). lia.
Qed.

Lemma add_outcome_spec b s c : ss_cp (rb_out b) = rb_cp b ->
  exists r h, (add_outcome b s c).2 = r /\ rg_step (rb_cp b) (RAdd s c) r h /\ grown b h (add_outcome b s c).1 /\
    (forall kv, kv ∈ h -> 1 <= kv.2)%Z.
Proof.
  intros Hcp. unfold add_outcome, is_compatible. destruct (decide (acceptable (rb_cp b) c s)) as [[H1 H2]|Hno].
  - rewrite bool_decide_true by done. rewrite bool_decide_true by done. cbn [andb].
    unfold ssb_add, is_compatible. rewrite Hcp, bool_decide_true by done. cbn [fst snd].
    exists (Ok tt), [(s_g s, c)]. split_and!; [done|by constructor| |].
    + split_and!; [done|done|..]; intros g; cbn [rb_out].
      * unfold times_in, accepted_count. cbn [ss_map]. destruct (decide (s_g s = g)) as [<-|Hne].
        -- simpl. rewrite decide_True by done. destruct (ss_map (rb_out b) !! s_g s) as [c0|]; rewrite lookup_insert; simpl; lia.
        -- simpl. rewrite decide_False by done. destruct (ss_map (rb_out b) !! s_g s) as [c0|]; rewrite lookup_insert_ne by done; simpl; lia.
      * destruct (ss_map (rb_out b) !! s_g s) as [c0|]; rewrite contains_insert; unfold contains; cbn [ss_map];
          cbn [fmap list_fmap fst]; rewrite elem_of_list_singleton; tauto.
    + intros kv ->%elem_of_list_singleton. done.
  - replace (bool_decide (s_cp s = cp_id (rb_cp b)) && bool_decide (1 <= c)%Z) with false.
    + exists (Err AssertionError), []. split_and!; [done|by constructor|apply grown_refl|by intros kv ?%elem_of_nil].
    + symmetry. apply andb_false_iff. rewrite !bool_decide_eq_false. unfold acceptable in Hno.
      destruct (decide (s_cp s = cp_id (rb_cp b))); [right|by left]. tauto.
Qed.

Lemma rg_add_inv cp s c r h : rg_step cp (RAdd s c) r h ->
  (acceptable cp c s /\ r = Ok tt /\ h = [(s_g s, c)]) \/ (~ acceptable cp c s /\ r = Err AssertionError /\ h = []).
Proof. intros H. inversion H; subst; tauto. Qed.

Lemma add_outcomes_spec l b c : ss_cp (rb_out b) = rb_cp b ->
  exists r h, (add_outcomes b l c).2 = r /\ rg_step (rb_cp b) (RAddMany l c) r h /\ grown b h (add_outcomes b l c).1 /\
    (forall kv, kv ∈ h -> 1 <= kv.2)%Z.
Proof.
  revert b. induction l as [|s l IH]; intros b Hcp; cbn [add_outcomes].
  - exists (Ok tt), []. split_and!; [done| |apply grown_refl|by intros kv ?%elem_of_nil].
    apply (rg_many _ []). by intros s ?%elem_of_nil.
  - destruct (add_outcome_spec b s c Hcp) as (r & h & Hr & Hs & Hg & Hh).
    destruct (add_outcome b s c) as [b' r']. cbn [fst snd] in *. subst r'.
    apply rg_add_inv in Hs as [(Ha & -> & ->)|(Ha & -> & ->)].
    + assert (rb_cp b' = rb_cp b) as Hcp' by apply Hg.
      destruct (IH b') as (r & h & Hr & Hs & Hg' & Hh'). { destruct Hg as (-> & -> & _). done. }
      exists r, ((s_g s, c) :: h). rewrite Hcp' in Hs.
      split_and!; [done| |by apply (grown_trans b [_] b')|].
      * inversion Hs; subst.
        -- apply (rg_many _ (s :: l)). intros s'. rewrite elem_of_cons. naive_solver.
        -- apply (rg_many_no _ (s :: pre)); [|done]. intros s'. rewrite elem_of_cons. naive_solver.
      * intros kv. rewrite elem_of_cons. intros [->|Hkv]; [apply Ha|by apply Hh'].
    + exists (Err AssertionError), []. split_and!; [done| |done|done]. by apply (rg_many_no _ []); [intros ? ?%elem_of_nil|].
Qed.

Lemma run_rg_op_spec b op : ss_cp (rb_out b) = rb_cp b ->
  exists h, rg_step (rb_cp b) op (run_rg_op b op).2 h /\ grown b h (run_rg_op b op).1 /\ (forall kv, kv ∈ h -> 1 <= kv.2)%Z.
Proof.
  intros Hcp. destruct op as [s c|l c|f]; cbn [run_rg_op].
  - destruct (add_outcome_spec b s c Hcp) as (r & h & <- & ?). eauto.
  - destruct (add_outcomes_spec l b c Hcp) as (r & h & <- & ?). eauto.
  - unfold build_sample. destruct (f (new_builder (rb_cp b))) as [s|e] eqn:Hf.
    + destruct (add_outcome_spec b s 1 Hcp) as (r & h & <- & H1 & H2 & H3). exists h. split_and!; [|done|done].
      by eapply rg_build.
    + exists []. split_and!; [by constructor|apply grown_refl|by intros kv ?%elem_of_nil].
Qed.

Lemma run_rg_ops_spec ops b : ss_cp (rb_out b) = rb_cp b ->
  exists h, rg_steps (rb_cp b) ops (run_rg_ops b ops).2 h /\ grown b h (run_rg_ops b ops).1 /\ (forall kv, kv ∈ h -> 1 <= kv.2)%Z.
Proof.
  revert b. induction ops as [|op ops IH]; intros b Hcp; cbn [run_rg_ops].
  - exists []. split_and!; [constructor|apply grown_refl|by intros kv ?%elem_of_nil].
  - destruct (run_rg_op_spec b op Hcp) as (h & Hs & Hg & Hh).
    destruct (run_rg_op b op) as [b' r]. cbn [fst snd] in *.
    destruct (IH b') as (h' & Hs' & Hg' & Hh'). { destruct Hg as (-> & -> & _). done. }
    destruct (run_rg_ops b' ops) as [b'' rs]. cbn [fst snd] in *.
    exists (h ++ h'). assert (rb_cp b' = rb_cp b) as Hcp' by apply Hg. rewrite Hcp' in Hs'.
    split_and!; [by constructor|by eapply grown_trans|].
    intros kv [?|?]%elem_of_app; auto.
Qed.

Lemma grown_length b h b' : grown b h b' -> ss_length (rb_out b') = (ss_length (rb_out b) + zsum h.*2)%Z.
Proof.
  intros (_ & _ & H3 & H4).
  pose (l := remove_dups (elements (ss_samples (rb_out b)) ++ h.*1)).
  assert (forall g, contains (rb_out b) g -> g ∈ l) as Hl.
  { intros g Hg. apply elem_of_remove_dups, elem_of_app. left. apply elem_of_elements. by apply elem_of_dom. }
  rewrite (length_over (rb_out b') l), (length_over (rb_out b) l).
  - rewrite (list_fmap_ext _ (fun g => times_in (rb_out b) g + accepted_count h g)%Z l) by (intros; apply H3).
    rewrite zsum_add_fmap. f_equal.
    assert (NoDup l) as Hnd by apply NoDup_remove_dups.
    assert (forall g, g ∈ h.*1 -> g ∈ l) as Hin.
    { intros g Hg. apply elem_of_remove_dups, elem_of_app. by right. }
    clear -Hnd Hin. clearbody l. induction h as [|[g c] h IH].
    + clear. induction l as [|x l IH]; [done|]. exact IH.
    + rewrite fmap_cons in *. cbn [fst snd] in *. change (zsum (c :: h.*2)) with (c + zsum h.*2)%Z.
      rewrite <- IH by (intros; apply Hin; by right).
      rewrite (list_fmap_ext _ (fun g' => accepted_count [(g, c)] g' + accepted_count h g')%Z l)
        by (intros; apply (accepted_app [(g, c)] h)).
      rewrite zsum_add_fmap. f_equal.
      assert (g ∈ l) as Hg by (apply Hin; left). clear -Hg Hnd.
      apply elem_of_list_split in Hg as (l1 & l2 & ->).
      assert (forall l', g ∉ l' -> zsum ((fun g' => accepted_count [(g, c)] g') <$> l') = 0%Z) as Hz.
      { clear. induction l' as [|x l' IH]; [done|]. intros Hx. rewrite not_elem_of_cons in Hx. rewrite fmap_cons.
        unfold zsum in *. cbn [foldr]. rewrite IH by tauto. unfold accepted_count. simpl. rewrite decide_False by naive_solver. simpl. lia. }
      rewrite fmap_app, zsum_app. apply NoDup_app in Hnd as (_ & Hn & Hnd). apply NoDup_cons in Hnd as [Hn2 _].
      rewrite Hz by (intros Hg; apply (Hn g Hg); left). rewrite fmap_cons.
      change (zsum (?x :: ?y)) with (x + zsum y)%Z. rewrite Hz by done.
      unfold accepted_count. simpl. rewrite decide_True by done. simpl. lia.
  - apply NoDup_remove_dups.
  - done.
  - apply NoDup_remove_dups.
  - intros g Hg. apply H4 in Hg as [Hg|Hg]; [by apply Hl|]. apply elem_of_remove_dups, elem_of_app. by right.
Qed.

Lemma C32_lemma cp ops :
  exists h, rg_steps cp ops (run_rg_ops (RGBuilder cp (ssb_new cp)) ops).2 h /\
    rgb_build (run_rg_ops (RGBuilder cp (ssb_new cp)) ops).1 =
      (if decide (h = []) then Err AssertionError
       else Ok (Space cp (rb_out (run_rg_ops (RGBuilder cp (ssb_new cp)) ops).1))) /\
    let out := rb_out (run_rg_ops (RGBuilder cp (ssb_new cp)) ops).1 in
    ss_cp out = cp /\
    (forall g, contains out g <-> g ∈ h.*1) /\
    (forall g c, count_of out g = Ok c <-> g ∈ h.*1 /\ c = accepted_count h g) /\
    (forall g c, count_of out g = Ok c -> 1 <= c)%Z /\
    ss_length out = zsum h.*2.
Proof.
  destruct (run_rg_ops_spec ops (RGBuilder cp (ssb_new cp)) eq_refl) as (h & Hs & Hg & Hh).
  assert (okb (RGBuilder cp (ssb_new cp))) as Hok.
  { split; [done|]. intros g c. cbn [rb_out ssb_new ss_map]. by rewrite lookup_empty. }
  pose proof (okb_grown _ _ _ Hok Hg Hh) as [Hcp Hpos]. pose proof (grown_length _ _ _ Hg) as Hlen.
  destruct Hg as (H1 & H2 & H3 & H4).
  destruct (run_rg_ops (RGBuilder cp (ssb_new cp)) ops) as [b rs]. cbn [fst snd rb_cp rb_out] in *.
  assert (forall g, contains (rb_out b) g <-> g ∈ h.*1) as Hc.
  { intros g. rewrite H4. split; [|by right]. intros [Hg|]; [by apply contains_new in Hg|done]. }
  exists h. split_and!; [done| |done|done| | |].
  - unfold rgb_build, ss_bool, ss_length in *. rewrite H1.
    case_decide as Hd.
    + subst h. assert (ss_map (rb_out b) = ∅) as Hm.
      { apply map_empty. intros g. destruct (ss_map (rb_out b) !! g) as [c|] eqn:Hgc; [|done].
        assert (g ∈ ([] : list (graph * Z)).*1) as []%elem_of_nil. apply Hc. by exists c. }
      rewrite bool_decide_false by (intros Hx; by apply Hx). done.
    + rewrite bool_decide_true; [done|]. intros Hm. destruct h as [|[g c] h]; [done|].
      assert (contains (rb_out b) g) as [c' Hc'] by (apply Hc; left). by rewrite Hm, lookup_empty in Hc'.
  - intros g c. rewrite count_of_lookup, <- Hc. specialize (H3 g). rewrite times_new in H3. unfold times_in in H3. split.
    + intros Hgc. split; [by exists c|]. rewrite Hgc in H3. simpl in H3. lia.
    + intros [[c' Hc'] ->]. rewrite Hc' in H3 |- *. simpl in H3. f_equal. lia.
  - intros g c. rewrite count_of_lookup. apply Hpos.
  - rewrite Hlen. unfold ss_length. simpl. done.
Qed.

(** Continuing from a built relation graph ([SampleSpace.builder]). *)
Lemma C32_continue_lemma sp ops b :
  ss_cp (sp_out sp) = sp_cp sp -> sp_builder sp = Ok b ->
  exists h, rg_steps (sp_cp sp) ops (run_rg_ops b ops).2 h /\
    rb_cp (run_rg_ops b ops).1 = sp_cp sp /\ ss_cp (rb_out (run_rg_ops b ops).1) = sp_cp sp /\
    (forall g, times_in (rb_out (run_rg_ops b ops).1) g = times_in (sp_out sp) g + accepted_count h g)%Z /\
    (forall g, contains (rb_out (run_rg_ops b ops).1) g <-> contains (sp_out sp) g \/ g ∈ h.*1).
Proof.
  intros Hcp Hb. unfold sp_builder, rgb_init in Hb. cbn [mbind res_bind] in Hb. injection Hb as <-.
  assert ((if ss_bool (sp_out sp) then sp_out sp else ssb_new (sp_cp sp)) = sp_out sp) as ->.
  { unfold ss_bool. case_bool_decide as Hm; [done|]. destruct (sp_out sp) as [cp m]. simpl in *. subst cp.
    unfold ssb_new. f_equal. destruct (decide (m = ∅)); [done|tauto]. }
  destruct (run_rg_ops_spec ops (RGBuilder (sp_cp sp) (sp_out sp)) Hcp) as (h & Hs & (H1 & H2 & H3 & H4) & Hh).
  cbn [rb_cp rb_out] in *. exists h. split_and!; [done|done|congruence|done|done].
Qed.

Lemma builder_always_ok sp : exists b, sp_builder sp = Ok b.
Proof. unfold sp_builder, rgb_init. cbn [mbind res_bind]. by eexists. Qed.

Lemma rgb_init_lemma i vs rs :
  rgb_init i vs rs None None =
  match vs, rs with
  | Some V, Some R =>
      if decide (V <> ∅ /\ R <> ∅ /\ map_Forall (fun _ X => X <> ∅) V)
      then Ok (RGBuilder (Provider i V R) (ssb_new (Provider i V R))) else Err AssertionError
  | _, _ => Err AssertionError
  end.
Proof.
  unfold rgb_init. destruct vs as [V|], rs as [R|]; try done. unfold provider_init.
  case_decide as Hd; destruct (decide (V = ∅)) as [HV|HV], (decide (R = ∅)) as [HR|HR];
    rewrite ?(bool_decide_true (V ≠ ∅)), ?(bool_decide_false (V ≠ ∅)), ?(bool_decide_true (R ≠ ∅)), ?(bool_decide_false (R ≠ ∅)) by tauto;
    try done; try tauto; cbn [andb passert mbind res_bind].
  - rewrite bool_decide_true by (intros v X HX; by apply (proj2 (proj2 Hd)  v X)). done.
  - rewrite bool_decide_false; [done|]. intros Hf. apply Hd. split_and!; [done|done|]. intros v X HX. by apply (Hf v X).
Qed.

Lemma rg_add_fun cp s c r r' h h' : rg_step cp (RAdd s c) r h -> rg_step cp (RAdd s c) r' h' -> r = r' /\ h = h'.
Proof. inversion 1; inversion 1; subst; by (done || exfalso; auto). Qed.

Lemma many_fun cp c (pre pre' : list sample) s s' post post' :
  (forall s, s ∈ pre -> acceptable cp c s) -> (forall s, s ∈ pre' -> acceptable cp c s) ->
  ~ acceptable cp c s -> ~ acceptable cp c s' -> pre ++ s :: post = pre' ++ s' :: post' -> pre = pre'.
Proof.
  revert pre'. induction pre as [|x pre IH]; intros [|x' pre'] H1 H2 H3 H4 Heq; [done|..].
  - injection Heq as -> _. exfalso. apply H3, H2. left.
  - injection Heq as <- _. exfalso. apply H4, H1. left.
  - injection Heq as <- Heq. f_equal. apply IH; [|intros; apply H2; by right|done|done|done]. intros; apply H1; by right.
Qed.

Lemma rg_step_fun cp op r r' h h' : rg_step cp op r h -> rg_step cp op r' h' -> r = r' /\ h = h'.
Proof.
  destruct op as [s c|l c|f]; [apply rg_add_fun|..]; intros H1 H2; inversion H1; subst; inversion H2; subst.
  - done.
  - exfalso. match goal with H : ~ acceptable _ _ _ |- _ => apply H end. match goal with H : forall s, s ∈ _ ++ _ -> _ |- _ => apply H end.
    apply elem_of_app. right. left.
  - exfalso. match goal with H : ~ acceptable _ _ _ |- _ => apply H end. match goal with H : forall s, s ∈ _ ++ _ -> _ |- _ => apply H end.
    apply elem_of_app. right. left.
  - match goal with H : _ ++ _ = _ ++ _ |- _ => apply (many_fun cp c) in H; [|done..] end. by subst.
  - match goal with H : f _ = Ok _, H' : f _ = Ok _ |- _ => rewrite H in H'; injection H' as <- end. by eapply rg_add_fun.
  - congruence.
  - congruence.
  - split; congruence.
Qed.

Lemma rg_steps_fun cp ops rs rs' h h' : rg_steps cp ops rs h -> rg_steps cp ops rs' h' -> rs = rs' /\ h = h'.
Proof.
  intros H. revert rs' h'. induction H as [|op ops r rs h1 h2 Hop Hops IH]; intros rs' h'; inversion 1; subst; [done|].
  match goal with H : rg_step _ op _ _ |- _ => destruct (rg_step_fun _ _ _ _ _ _ Hop H) as [-> ->] end.
  match goal with H : rg_steps _ ops _ _ |- _ => destruct (IH _ _ H) as [-> ->] end. done.
Qed.

(** ** C36 *)

Lemma C36_lemma sp ev :
  match conditional_graph sp ev with
  | Ok cg => s_cp ev = cp_id (sp_cp sp) /\ cg_evidence cg = ev /\ sp_cp (cg_space cg) = sp_cp sp /\
      ss_cp (sp_out (cg_space cg)) = sp_cp sp /\
      forall g c, count_of (sp_out (cg_space cg)) g = Ok c <->
                  count_of (sp_out sp) g = Ok c /\ consistent_or_unrelated (s_g ev) g
  | Err x => x = AssertionError /\ s_cp ev <> cp_id (sp_cp sp)
  end.
Proof.
  unfold conditional_graph, is_compatible. destruct (decide (s_cp ev = cp_id (sp_cp sp))) as [Hid|Hid].
  2:{ by rewrite bool_decide_false by done. }
  rewrite bool_decide_true by done. cbn [passert mbind res_bind cg_space sp_out cg_evidence sp_cp ss_cp].
  split_and!; [done..|]. intros g c. rewrite !count_of_lookup. cbn [ss_map]. rewrite map_filter_lookup_Some. cbn [fst].
  rewrite orb_true_iff, C12_lemma. unfold consistent_or_unrelated.
  assert (bool_decide (included_variables (s_g ev) ∩ included_variables g = ∅) = true <->
          (forall v, has_var (g_nodes (s_g ev)) v -> ~ has_var (g_nodes g) v)) as Hd; [|by rewrite Hd].
  rewrite bool_decide_eq_true. setoid_rewrite <- included_variables_spec. split.
  - intros H0 v H1 H2. apply (not_elem_of_empty (C:=gset Var) v). rewrite <- H0. by apply elem_of_intersection.
  - intros H0. apply set_eq. intros v. rewrite elem_of_intersection. split; [|by intros ?%elem_of_empty].
    intros [H1 H2]. exfalso. by apply (H0 v).
Qed.

Lemma conditional_outcomes sp ev cg : conditional_graph sp ev = Ok cg ->
  s_cp ev = cp_id (sp_cp sp) /\ cg_evidence cg = ev /\ sp_cp (cg_space cg) = sp_cp sp /\ ss_cp (sp_out (cg_space cg)) = sp_cp sp /\
  forall g c, ss_map (sp_out (cg_space cg)) !! g = Some c <-> ss_map (sp_out sp) !! g = Some c /\ consistent_or_unrelated (s_g ev) g.
Proof.
  intros Hc. pose proof (C36_lemma sp ev) as H. rewrite Hc in H. destruct H as (H1 & H2 & H3 & H4 & H5).
  split_and!; [done..|]. intros g c. by rewrite <- !count_of_lookup.
Qed.

Lemma cgraph_ext cg cg' :
  cg_evidence cg = cg_evidence cg' -> sp_cp (cg_space cg) = sp_cp (cg_space cg') ->
  ss_cp (sp_out (cg_space cg)) = ss_cp (sp_out (cg_space cg')) ->
  (forall g c, ss_map (sp_out (cg_space cg)) !! g = Some c <-> ss_map (sp_out (cg_space cg')) !! g = Some c) -> cg = cg'.
Proof.
  destruct cg as [[cp [cp1 m]] ev], cg' as [[cp' [cp1' m']] ev']. cbn [cg_space cg_evidence sp_cp sp_out ss_cp ss_map].
  intros -> -> -> Hm. do 3 f_equal. apply map_eq. intros g. apply option_eq. apply Hm.
Qed.

Lemma conditional_idem sp ev cg :
  conditional_graph sp ev = Ok cg -> conditional_graph (sp_relation_graph (cg_space cg)) ev = Ok cg.
Proof.
  intros Hc. pose proof (conditional_outcomes _ _ _ Hc) as (H1 & H2 & H3 & H4 & H5).
  pose proof (C36_lemma (sp_relation_graph (cg_space cg)) ev) as Hc'.
  destruct (conditional_graph (sp_relation_graph (cg_space cg)) ev) as [cg'|x] eqn:Hcg.
  2:{ exfalso. apply (proj2 Hc'). simpl. congruence. }
  clear Hc'. apply conditional_outcomes in Hcg as (J1 & J2 & J3 & J4 & J5). simpl in *. f_equal. apply cgraph_ext; [congruence..|].
  intros g c. rewrite J5, H5. tauto.
Qed.

Lemma conditional_comm sp ev ev' cg cg' cga cgb :
  conditional_graph sp ev = Ok cg -> conditional_graph (sp_relation_graph (cg_space cg)) ev' = Ok cga ->
  conditional_graph sp ev' = Ok cg' -> conditional_graph (sp_relation_graph (cg_space cg')) ev = Ok cgb ->
  cg_space cga = cg_space cgb.
Proof.
  intros (H1 & H2 & H3 & H4 & H5)%conditional_outcomes (I1 & I2 & I3 & I4 & I5)%conditional_outcomes
         (J1 & J2 & J3 & J4 & J5)%conditional_outcomes (K1 & K2 & K3 & K4 & K5)%conditional_outcomes. simpl in *.
  assert (CGraph (cg_space cga) ev = CGraph (cg_space cgb) ev) as [=]; [|done].
  apply cgraph_ext; simpl; [congruence..|]. intros g c. rewrite I5, H5, K5, J5. tauto.
Qed.

Lemma msum_union `{Countable K} {A} (f : K -> A -> Z) (m1 m2 : gmap K A) :
  m1 ##ₘ m2 -> msum f (m1 ∪ m2) = (msum f m1 + msum f m2)%Z.
Proof.
  induction m1 as [|k a m1 Hk IH] using map_ind; intros Hd.
  - by rewrite (left_id_L ∅ (∪)), msum_empty.
  - apply map_disjoint_insert_l in Hd as [Hk2 Hd]. rewrite <- insert_union_l.
    rewrite !msum_insert, IH by (done || by apply lookup_union_None). lia.
Qed.

Lemma conditional_length sp ev cg :
  pos_counts (sp_out sp) -> conditional_graph sp ev = Ok cg ->
  (ss_length (sp_out (cg_space cg)) <= ss_length (sp_out sp))%Z /\
  (ss_length (sp_out (cg_space cg)) = ss_length (sp_out sp) <->
   forall g, contains (sp_out sp) g -> consistent_or_unrelated (s_g ev) g).
Proof.
  intros Hpos (H1 & H2 & H3 & H4 & H5)%conditional_outcomes.
  set (m := ss_map (sp_out sp)) in *. set (m' := ss_map (sp_out (cg_space cg))) in *.
  assert (m' ⊆ m) as Hsub by (apply map_subseteq_spec; intros g c; apply H5).
  assert (m = m' ∪ (m ∖ m')) as Hm by (by rewrite map_difference_union).
  assert (ss_length (sp_out sp) = ss_length (sp_out (cg_space cg)) + msum (fun _ c => c) (m ∖ m'))%Z as Hl.
  { rewrite !ss_length_msum. fold m m'. rewrite Hm at 1. apply msum_union. apply map_disjoint_difference_r. done. }
  assert (forall g c, (m ∖ m') !! g = Some c -> 0 < c)%Z as Hp.
  { intros g c [Hg _]%lookup_difference_Some. by apply (Hpos g). }
  assert (0 <= msum (fun _ c => c) (m ∖ m'))%Z as Hnn.
  { apply msum_nonneg. intros g c Hg. pose proof (Hp g c Hg). lia. }
  split; [lia|]. split.
  - intros Heq g [c Hg]. destruct (m' !! g) as [c'|] eqn:Hg'; [by apply (proj1 (H5 g c'))|]. exfalso.
    assert ((m ∖ m') !! g = Some c) as Hd by (by apply lookup_difference_Some).
    assert (c <= msum (fun _ c => c) (m ∖ m'))%Z.
    { rewrite <- (insert_delete _ _ _ Hd). rewrite msum_insert by apply lookup_delete.
      assert (0 <= msum (fun _ c => c) (delete g (m ∖ m')))%Z; [|lia]. apply msum_nonneg.
      intros g' z [_ Hz]%lookup_delete_Some. pose proof (Hp g' z Hz). lia. }
    pose proof (Hp g c Hd). lia.
  - intros Hall. assert (m ∖ m' = ∅) as Hz.
    { apply map_empty. intros g. apply lookup_difference_None. destruct (m !! g) as [c|] eqn:Hg; [right|by left].
      exists c. apply H5. split; [done|]. apply Hall. by exists c. }
    rewrite Hz in Hl. rewrite msum_empty in Hl. lia.
Qed.

End build_facts.
