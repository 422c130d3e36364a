(** * BayesBuild: the Bayesian network experiment, from the tables to the joined graph. *)

From stdpp Require Import pretty.
From Verif Require Import BaseFacts BuilderFacts BuildFacts.
From Verif Require Export BayesFacts.

Local Existing Instance StrU.

Section bayes.
Context {T : Type} (scale : T -> res Z) (card : Var -> nat) (net : list (Var * cpd T)) (Hok : bayes_ok scale card net) (i : nat).

Local Notation fac := (bayes_factor scale card).
Local Notation cp := (bayes_cp net i).

Lemma first_with_spec e b v o : e ∈ net -> in_range card e b -> v ∈ e.1 :: given (c_parents e.2) ->
  first_with v (iter_set o (key e b)) = Ok (named b v).
Proof.
  intros He Hb Hv. unfold first_with. destruct (List.find _ _) as [x|] eqn:Hf.
  - apply find_some in Hf as [Hin Hocc]. apply elem_of_list_In, elem_of_iter_set, key_in in Hin as (w & Hw & ->).
    destruct (decide (v = w)) as [<-|Hne]; [done|]. exfalso.
    assert (occurs_in v (value_name w (b w)) = false) as Hno.
    { apply (ck_names _ _ _ _ (bk_tables _ _ _ Hok e He)); [done|done|done|]. by apply Hb. }
    unfold named in Hocc. by rewrite Hno in Hocc.
  - exfalso. assert (List.In (named b v) (iter_set o (key e b))) as Hin.
    { apply elem_of_list_In, elem_of_iter_set, key_in. by exists v. }
    pose proof (find_none _ _ Hf _ Hin) as H. unfold named in H. by rewrite occurs_own in H.
Qed.

Lemma named_declared e b v : e ∈ net -> in_range card e b -> v ∈ e.1 :: given (c_parents e.2) -> declared cp (v, named b v).
Proof.
  intros He Hb Hv. apply (bayes_declared scale card net Hok). split; [by apply (family_in_net scale card net Hok e)|].
  exists (b v). split; [by apply Hb|done].
Qed.

Lemma build_outcome_spec rgb e b o : e ∈ net -> in_range card e b -> rb_cp rgb = cp ->
  build_outcome rgb e.1 (c_parents e.2) (iter_set o (key e b)) = Ok (Sample i (f_graph (fac e) (named b))).
Proof.
  intros He Hb Hcp. unfold build_outcome. pose proof (bk_tables _ _ _ Hok e He) as Hc. destruct (ck_nodup _ _ _ _ Hc) as [Hnd Hself].
  destruct (given (c_parents e.2)) as [|p0 ps] eqn:Hps.
  - assert (key e b = {[named b e.1]}) as -> by (unfold key; rewrite Hps; simpl; by rewrite (right_id_L ∅ (∪))).
    rewrite iter_set_singleton. cbn [length passert bool_decide mbind res_bind]. rewrite bool_decide_true by done. cbn [passert mbind res_bind item lookup].
    change (build_single_node (new_builder (rb_cp rgb)) e.1 (named b e.1) = Ok (Sample i (f_graph (fac e) (named b)))).
    rewrite Hcp, (single_built cp).
    + f_equal. f_equal. unfold f_graph. f_equal.
      * unfold bayes_factor. rewrite Hps. simpl. rewrite (right_id_L ∅ (∪)). by rewrite set_map_singleton_L.
      * unfold bayes_factor. rewrite Hps. simpl. by rewrite set_map_empty.
    + apply (named_declared e b); [done|done|]. by left.
  - rewrite <- Hps in *.
    match goal with |- context [for_res ?F ?o ?s _] => set (step := F) end. rewrite Hcp.
    destruct (star_loop (U := StrU) cp e.1 "r" (named b) step (fun _ => []) (given (c_parents e.2))) as (sb & Hsb & Hst).
    + by apply elem_of_singleton.
    + apply (named_declared e b); [done|done|]. by left.
    + intros p Hp. split; [apply (named_declared e b); [done|done|by right]|]. intros ->. done.
    + done.
    + intros o' b' p Hp. unfold step. rewrite (first_with_spec e b p o He Hb) by (by right). cbn [mbind res_bind].
      rewrite (first_with_spec e b e.1 o He Hb) by (by left). done.
    + rewrite Hsb. cbn [mbind res_bind]. apply (star_graph (U := StrU) cp e.1 "r" (named b) (given (c_parents e.2))); [by rewrite Hps|done| |].
      * intros v. rewrite bf_vars. apply elem_of_cons.
      * intros v w r. apply bf_links.
Qed.

Lemma digit_in_range (e : Var * cpd T) b v : in_range card e b -> v ∈ e.1 :: given (c_parents e.2) -> digit (card v) v (named b v) = b v.
Proof. intros Hb Hv. unfold named. apply digit_named. by apply Hb. Qed.

Lemma fac_table e b : e ∈ net -> in_range card e b -> f_table (fac e) (named b) = entry_count scale e b.
Proof.
  intros He Hb. simpl. apply (entry_count_ext scale card net Hok); [done|]. intros v Hv. by apply (digit_in_range e).
Qed.

(** Admissible assignments of values are named assignments of numbers. *)
Lemma admissible_named e a : e ∈ net -> admissible cp (f_vars (fac e)) a ->
  exists b, in_range card e b /\ forall v, v ∈ f_vars (fac e) -> a v = named b v.
Proof.
  intros He Ha. exists (fun v => digit (card v) v (a v)).
  assert (forall v, v ∈ e.1 :: given (c_parents e.2) -> exists j, j < card v /\ a v = value_name v j) as H.
  { intros v Hv. specialize (Ha v (proj2 (bf_vars scale card e v) Hv)). by apply (bayes_declared scale card net Hok) in Ha as [_ Hj]. }
  split.
  - intros v Hv. destruct (H v Hv) as (j & Hj & ->). by rewrite digit_named.
  - intros v Hv. apply bf_vars in Hv. destruct (H v Hv) as (j & Hj & Heq). unfold named. rewrite Heq, digit_named; done.
Qed.

Lemma cpd_hist e m o l hs : e ∈ net -> value_map_from_cpd e.1 e.2 = Ok m -> l = iter_map o m ->
  Forall2 (fun x h => exists b, in_range card e b /\ x.1 = key e b /\ h = [(f_graph (fac e) (named b), entry_count scale e b)]) l hs ->
  factor_hist cp (fac e) (concat hs).
Proof.
  intros He Hm Hl HF. destruct (value_map_spec scale card net Hok i e He) as (m' & Hm' & Hspec). rewrite Hm in Hm'. injection Hm' as <-.
  split.
  - apply concat_NoDup.
    + intros h Hh. destruct (elem_of_list_lookup_1 _ _ Hh) as [k Hk]. destruct (Forall2_lookup_r _ _ _ _ _ HF Hk) as (x & _ & b & _ & _ & ->).
      apply NoDup_singleton.
    + intros k k' h h' g Hk Hk' Hg Hg'.
      destruct (Forall2_lookup_r _ _ _ _ _ HF Hk) as (x & Hx & b & Hb & Hxk & ->).
      destruct (Forall2_lookup_r _ _ _ _ _ HF Hk') as (x' & Hx' & b' & Hb' & Hxk' & ->).
      simpl in Hg, Hg'. apply elem_of_list_singleton in Hg, Hg'. subst g.
      assert (x.1 = x'.1) as Heq.
      { rewrite Hxk, Hxk'. unfold key. f_equal. apply list_fmap_ext. intros q v Hv. apply elem_of_list_lookup_2 in Hv.
        exact (f_graph_inj _ _ _ v Hg' (proj2 (bf_vars scale card e v) Hv)). }
      assert (NoDup l.*1) as Hnd by (rewrite Hl; apply NoDup_fst_iter_map).
      eapply NoDup_lookup; [exact Hnd| |].
      * rewrite list_lookup_fmap, Hx. done.
      * rewrite list_lookup_fmap, Hx'. exact (f_equal Some (eq_sym Heq)).
  - intros g c. rewrite elem_of_list_In, in_concat. split.
    + intros (h & Hh & Hin). apply elem_of_list_In in Hh, Hin. destruct (elem_of_list_lookup_1 _ _ Hh) as [k Hk].
      destruct (Forall2_lookup_r _ _ _ _ _ HF Hk) as (x & _ & b & Hb & _ & ->). apply elem_of_list_singleton in Hin. injection Hin as -> ->.
      exists (named b). split_and!; [|done|by rewrite fac_table]. intros v Hv. apply bf_vars in Hv. by apply (named_declared e b).
    + intros (a & Ha & -> & ->). destruct (admissible_named e a He Ha) as (b & Hb & Hab).
      destruct (entry_some scale card net Hok e b He Hb) as (p & c & Hp & _).
      assert ((key e b, p) ∈ l) as Hin by (rewrite Hl; apply elem_of_iter_map, Hspec; by exists b).
      destruct (elem_of_list_lookup_1 _ _ Hin) as [k Hk]. destruct (Forall2_lookup_l _ _ _ _ _ HF Hk) as (h & Hh & b' & Hb' & Hkey & ->).
      simpl in Hkey.
      assert (forall v, v ∈ f_vars (fac e) -> named b v = named b' v) as Hbb.
      { intros v Hv. apply bf_vars in Hv. unfold named. by rewrite (key_inj e b b' v Hkey Hv). }
      exists [(f_graph (fac e) (named b'), entry_count scale e b')]. split.
      * apply elem_of_list_In. by eapply elem_of_list_lookup_2.
      * apply elem_of_list_In, elem_of_list_singleton.
        assert (factor_ok cp (fac e)) as Hfk by (apply (nt_factors _ _ (bayes_net_ok scale card net Hok i)), elem_of_list_fmap; by exists e).
        f_equal.
        -- apply (f_graph_ext cp); [done|]. intros v Hv. rewrite (Hab v Hv). by apply Hbb.
        -- rewrite <- (fac_table e b') by done. apply (fk_table _ _ Hfk). intros v Hv. rewrite (Hab v Hv). by apply Hbb.
Qed.

Lemma bayes_built o : exists sp, make_bayes_graph scale o i net = Ok sp /\ sp_cp sp = cp /\ holds_net sp (fac <$> net).
Proof.
  unfold make_bayes_graph.
  assert (rgb_init i (Some (bayes_vars net)) (Some {["r" : Rel]}) None None = Ok (RGBuilder cp (ssb_new cp))) as Hinit.
  { rewrite rgb_init_lemma. rewrite decide_True; [done|]. split_and!.
    - intros He. assert (exists v, v ∈ net.*1) as [v Hv].
      { pose proof (bk_some _ _ _ Hok). destruct net as [|e l]; [done|exists e.1; by left]. }
      pose proof (proj2 (bayes_vars_spec scale card net Hok v _) (conj Hv eq_refl)) as Hm. by rewrite He, lookup_empty in Hm.
    - intros He. assert (("r" : Rel) ∈ ({["r" : Rel]} : gset Rel)) as Hr by (by apply elem_of_singleton). rewrite He in Hr. by apply not_elem_of_empty in Hr.
    - intros v X HX. apply (bayes_vars_spec scale card net Hok) in HX as [Hv ->]. intros He.
      assert (value_name v 0 ∈ (list_to_set (value_name v <$> seq 0 (card v)) : gset Val)) as Hr.
      { apply elem_of_list_to_set, elem_of_list_fmap. exists 0. split; [done|]. apply elem_of_seq.
        pose proof (card_pos scale card net Hok v Hv). lia. }
      rewrite He in Hr. by apply not_elem_of_empty in Hr. }
  change (list_to_map ((fun '(var, c) => (var, list_to_set (value_name var <$> seq 0 (c_card c)))) <$> net)) with (bayes_vars net).
  rewrite Hinit. cbn [mbind res_bind].
  match goal with |- context [for_res ?F _ _ net] => set (step := F) end.
  destruct (for_res_grown step (fun e h => factor_hist cp (fac e) h) cp net) with (o := o)
    (b := RGBuilder cp (ssb_new cp)) as (b' & hs & Hr & HF & Hg); [|done|done|].
  - intros o1 b [var c] He Hb1 Hb2. unfold step.
    destruct (value_map_spec scale card net Hok i (var, c) He) as (m & Hm & Hspec). cbn [fst snd] in Hm. rewrite Hm. cbn [mbind res_bind].
    match goal with |- context [for_res ?F _ _ _] => set (inner := F) end.
    destruct (for_res_grown inner (fun x h => exists b, in_range card (var, c) b /\ x.1 = key (var, c) b /\
        h = [(f_graph (fac (var, c)) (named b), entry_count scale (var, c) b)]) cp (iter_map (sub o1 1) m)) with (o := sub o1 0) (b := b)
      as (b' & hs & Hr & HF & Hg); [|done|done|].
    + intros o' b1 [X p] Hx Hc1 Hc2. apply elem_of_iter_map, Hspec in Hx as (bb & Hbb & -> & Hent). unfold inner.
      pose proof (build_outcome_spec b1 (var, c) bb o' He Hbb Hc1) as Hbo. cbn [fst snd] in Hbo. rewrite Hbo. cbn [mbind res_bind].
      destruct (entry_some scale card net Hok (var, c) bb He Hbb) as (p' & z & Hp' & Hs & Hpos & Hcnt).
      rewrite Hent in Hp'. injection Hp' as <-. rewrite Hs. cbn [mbind res_bind].
      destruct (add_outcome_ok b1 (Sample i (f_graph (fac (var, c)) (named bb))) z) as (b2 & Ha & Hg2);
        [congruence|by rewrite Hc1|done|].
      rewrite Ha. exists b2. eexists. split_and!; [done|exact Hg2|]. exists bb. split_and!; [done|done|]. by rewrite Hcnt.
    + exists b', (concat hs). split_and!; [exact Hr|done|].
      by apply (cpd_hist (var, c) m (sub o1 1) (iter_map (sub o1 1) m) hs).
  - rewrite Hr. cbn [mbind res_bind].
    destruct (holds_built cp (fac <$> net) hs b') as (sp & Hsp); [|apply (bayes_net_ok scale card net Hok)| |done|by exists sp].
    + pose proof (bk_some _ _ _ Hok). by destruct net.
    + apply Forall2_fmap_l. exact HF.
Qed.

(** ** The joint distribution *)

(** An assignment of a number below its cardinality to every variable. *)
Definition ranged (b : Var -> nat) : Prop := forall v, v ∈ net.*1 -> b v < card v.

Lemma bayes_net_vars v : net_vars (fac <$> net) v <-> v ∈ net.*1.
Proof.
  split.
  - intros (f & Hf & Hv). apply elem_of_list_fmap in Hf as (e & -> & He). apply bf_vars in Hv. by apply (family_in_net scale card net Hok e).
  - intros Hv. apply in_net in Hv as [c Hc]. exists (fac (v, c)). split; [apply elem_of_list_fmap; by exists (v, c)|].
    apply bf_vars. by left.
Qed.

Lemma ranged_in_range e b : e ∈ net -> ranged b -> in_range card e b.
Proof. intros He Hb v Hv. apply Hb. by apply (family_in_net scale card net Hok e). Qed.

Lemma bayes_net_product b : ranged b -> net_product (fac <$> net) (named b) = bayes_product scale net b.
Proof.
  intros Hb. unfold net_product, bayes_product. f_equal. rewrite <- list_fmap_compose. apply list_fmap_ext. intros k e He.
  apply elem_of_list_lookup_2 in He. apply (fac_table e b He). by apply ranged_in_range.
Qed.

Lemma bayes_outcomes (a : Var -> Val) : (forall v, v ∈ net.*1 -> declared cp (v, a v)) ->
  exists b, ranged b /\ forall v, v ∈ net.*1 -> a v = named b v.
Proof.
  intros Ha. exists (fun v => digit (card v) v (a v)).
  assert (forall v, v ∈ net.*1 -> exists j, j < card v /\ a v = value_name v j) as H.
  { intros v Hv. specialize (Ha v Hv). by apply (bayes_declared scale card net Hok) in Ha as [_ Hj]. }
  split.
  - intros v Hv. destruct (H v Hv) as (j & Hj & ->). by rewrite digit_named.
  - intros v Hv. destruct (H v Hv) as (j & Hj & Heq). unfold named. rewrite Heq, digit_named; done.
Qed.

Lemma bayes_counts (E : (Var -> Val) -> Prop) G c :
  (forall a b, (forall v, v ∈ net.*1 -> a v = b v) -> E a -> E b) ->
  (exists a, (forall v, v ∈ net.*1 -> declared cp (v, a v)) /\ E a /\ G = net_graph (fac <$> net) a /\ c = net_product (fac <$> net) a) <->
  (exists b, ranged b /\ E (named b) /\ G = net_graph (fac <$> net) (named b) /\ c = bayes_product scale net b).
Proof.
  intros HE. pose proof (bayes_net_ok scale card net Hok i) as Hnet. split.
  - intros (a & Ha & Hea & -> & ->). destruct (bayes_outcomes a Ha) as (b & Hb & Hab). exists b.
    assert (forall v, net_vars (fac <$> net) v -> a v = named b v) as Hab' by (intros v Hv; by apply Hab, bayes_net_vars).
    split_and!; [done|by apply (HE a)|exact (net_graph_ext _ _ _ _ Hnet Hab')|].
    rewrite <- (bayes_net_product b Hb). exact (net_product_ext _ _ _ _ Hnet Hab').
  - intros (b & Hb & Hea & -> & ->). exists (named b). split_and!; [|done|done|by rewrite bayes_net_product].
    intros v Hv. apply (bayes_declared scale card net Hok). split; [done|]. exists (b v). split; [by apply Hb|done].
Qed.

Context (Hconn : net_connected (fac <$> net)) (Htree : ~ net_cyclic (fac <$> net) \/ ~ net_crowded (fac <$> net)).

Lemma net_factors : fac <$> net <> [].
Proof. pose proof (bk_some _ _ _ Hok). by destruct net. Qed.

Lemma bayes_joined o o' : exists sp r, make_bayes_graph scale o i net = Ok sp /\ make_joined o' sp = Ok r /\
  sp_cp sp = cp /\ sp_cp r = cp /\ ss_cp (sp_out r) = cp /\
  forall G c, count_of (sp_out r) G = Ok c <->
    exists b, ranged b /\ G = net_graph (fac <$> net) (named b) /\ c = bayes_product scale net b.
Proof.
  destruct (bayes_built o) as (sp & Hsp & Hcp & Hholds).
  assert (net_ok (sp_cp sp) (fac <$> net)) as Hnet by (rewrite Hcp; apply (bayes_net_ok scale card net Hok)).
  destruct (net_joined sp _ Hnet Hholds o' net_factors Hconn Htree) as (r & Hr & Hrcp & Hrcp' & HG).
  exists sp, r. split_and!; [done|done|done|congruence|congruence|]. intros G c. rewrite HG.
  etransitivity; [|etransitivity; [exact (bayes_counts (fun _ => True) G c (fun _ _ _ H => H))|]].
  - split; intros (a & Ha & H); exists a.
    + split; [|tauto]. intros v Hv. rewrite <- Hcp. by apply Ha, bayes_net_vars.
    + split; [|tauto]. intros v Hv. rewrite Hcp. by apply Ha, bayes_net_vars.
  - split; intros (b & H); exists b; tauto.
Qed.

Lemma bayes_inferred o o' v j : v ∈ net.*1 -> j < card v ->
  exists sp ev cg r, make_bayes_graph scale o i net = Ok sp /\
  build_single_node (new_builder (sp_cp sp)) v (value_name v j) = Ok ev /\ conditional_graph sp ev = Ok cg /\
  make_joined o' (sp_relation_graph (cg_space cg)) = Ok r /\ sp_cp r = cp /\ ss_cp (sp_out r) = cp /\
  forall G c, count_of (sp_out r) G = Ok c <->
    exists b, ranged b /\ b v = j /\ G = net_graph (fac <$> net) (named b) /\ c = bayes_product scale net b.
Proof.
  intros Hv Hj. destruct (bayes_built o) as (sp & Hsp & Hcp & Hholds).
  assert (net_ok (sp_cp sp) (fac <$> net)) as Hnet by (rewrite Hcp; apply (bayes_net_ok scale card net Hok)).
  assert (declared (sp_cp sp) (v, value_name v j)) as Hd by (rewrite Hcp; apply (bayes_declared scale card net Hok); split; [done|by exists j]).
  destruct (net_inferred sp _ Hnet Hholds o' v (value_name v j) net_factors Hconn Htree (proj2 (bayes_net_vars v) Hv) Hd)
    as (ev & cg & r & Hev & Hcg & Hr & Hrcp & Hrcp' & HG).
  exists sp, ev, cg, r. split_and!; [done|done|done|done|congruence|congruence|]. intros G c. rewrite HG.
  etransitivity; [|etransitivity; [apply (bayes_counts (fun a => a v = value_name v j) G c)|]].
  - split; intros (a & Ha & H); exists a.
    + split; [|tauto]. intros w Hw. rewrite <- Hcp. by apply Ha, bayes_net_vars.
    + split; [|tauto]. intros w Hw. rewrite Hcp. by apply Ha, bayes_net_vars.
  - intros a b Hab Ha. rewrite <- Hab; done.
  - assert (forall b : Var -> nat, named b v = value_name v j <-> b v = j) as Hn.
    { intros b. unfold named. split; [|by intros ->]. intros H. exact (proj2 (value_name_inj _ _ _ _ H)). }
    split; intros (b & H1 & H2 & H); exists b; (split; [done|split; [by apply Hn|done]]).
Qed.

End bayes.
