(** * BayesFacts: the Bayesian network experiment, building the relation graph. *)

From stdpp Require Import pretty.
From Verif Require Import BaseFacts BuilderFacts BuildFacts.
From Verif Require Export StarBuild NetNames.

Local Existing Instance StrU.

Lemma lt_step x y : x < y + 1 -> x <> y -> x < y. Proof. lia. Qed.
Lemma lt_up x y : x < y -> x < y + 1. Proof. lia. Qed.
Lemma eq_up x y : x = y -> x < y + 1. Proof. lia. Qed.

Section bayes.
Context {T : Type} (scale : T -> res Z) (card : Var -> nat) (net : list (Var * cpd T)) (Hok : bayes_ok scale card net) (i : nat).

Local Notation fac := (bayes_factor scale card).

Definition bayes_vars : gmap Var (gset Val) :=
  list_to_map ((fun '(var, c) => (var, list_to_set (value_name var <$> seq 0 (c_card c)))) <$> net).
Definition bayes_cp : provider := Provider i bayes_vars {["r" : Rel]}.

Lemma in_net v : v ∈ net.*1 <-> exists c, (v, c) ∈ net.
Proof.
  rewrite elem_of_list_fmap. split; [intros ([w c] & -> & H); by exists c|]. intros [c H]. by exists (v, c).
Qed.

Lemma net_card v c : (v, c) ∈ net -> c_card c = card v.
Proof. intros H. exact (proj1 (ck_card _ _ _ _ (bk_tables _ _ _ Hok (v, c) H))). Qed.

Lemma bayes_vars_spec v X : bayes_vars !! v = Some X <-> v ∈ net.*1 /\ X = list_to_set (value_name v <$> seq 0 (card v)).
Proof.
  unfold bayes_vars. rewrite <- elem_of_list_to_map.
  - rewrite elem_of_list_fmap. split.
    + intros ([w c] & [= -> ->] & Hn). split; [apply in_net; by exists c|]. by rewrite (net_card w c Hn).
    + intros [Hv ->]. apply in_net in Hv as [c Hc]. exists (v, c). split; [|done].
      by rewrite (net_card v c Hc).
  - rewrite <- list_fmap_compose. erewrite list_fmap_ext; [apply (bk_keys _ _ _ Hok)|]. by intros k [v' c] _.
Qed.

Lemma bayes_declared v x : declared bayes_cp (v, x) <-> v ∈ net.*1 /\ exists j, j < card v /\ x = value_name v j.
Proof.
  assert (forall y : Val, y ∈ (list_to_set (value_name v <$> seq 0 (card v)) : gset Val) <-> exists j, j < card v /\ y = value_name v j) as HX.
  { intros y. rewrite elem_of_list_to_set, elem_of_list_fmap. split.
    - intros (j & -> & Hj). exists j. split; [|done]. apply elem_of_seq in Hj. lia.
    - intros (j & Hj & ->). exists j. split; [done|]. apply elem_of_seq. lia. }
  unfold declared. simpl. split.
  - intros (X & Hl & Hx). apply bayes_vars_spec in Hl as [Hv ->]. split; [done|]. by apply HX.
  - intros [Hv Hx]. eexists. split; [by apply bayes_vars_spec|]. by apply HX.
Qed.

Lemma family_parents e : e ∈ net -> forall p, p ∈ given (c_parents e.2) <-> (p, card p) ∈ family e.
Proof.
  intros He p. pose proof (bk_tables _ _ _ Hok e He) as Hc. split.
  - intros Hp. apply elem_of_list_lookup in Hp as [k Hk].
    destruct (lookup_lt_is_Some_2 (given (c_parent_cards e.2)) k) as [n Hn].
    { rewrite <- (ck_given _ _ _ _ Hc). by eapply lookup_lt_Some. }
    assert ((p, n) ∈ family e) as Hin.
    { apply elem_of_list_lookup. exists k. unfold family. apply lookup_zip_with_Some. by exists p, n. }
    pose proof (ck_parents _ _ _ _ Hc p n Hin) as [_ ->]. done.
  - intros H. unfold family in H. by apply elem_of_zip_l in H.
Qed.

Lemma family_card e p n : e ∈ net -> (p, n) ∈ family e -> n = card p /\ p ∈ given (c_parents e.2) /\ p ∈ net.*1.
Proof.
  intros He H. destruct (ck_parents _ _ _ _ (bk_tables _ _ _ Hok e He) p n H) as [H1 H2]. split_and!; [done| |done].
  unfold family in H. by apply elem_of_zip_l in H.
Qed.

Lemma family_fst e : e ∈ net -> (family e).*1 = given (c_parents e.2).
Proof. intros He. apply fst_zip. rewrite (ck_given _ _ _ _ (bk_tables _ _ _ Hok e He)). done. Qed.

(** Assignments of numbers to a variable and its parents. *)
Definition in_range (e : Var * cpd T) (b : Var -> nat) : Prop := forall v, v ∈ e.1 :: given (c_parents e.2) -> b v < card v.

Lemma row_of_ext l (b b' : Var -> nat) : (forall v, v ∈ l.*1 -> b v = b' v) -> row_of l b = row_of l b'.
Proof.
  induction l as [|[v n] l IH]; intros H; [done|]. simpl. rewrite (H v) by (by left). f_equal. apply IH. intros w Hw. apply H. by right.
Qed.

Lemma row_of_bound l (b : Var -> nat) : (forall v n, (v, n) ∈ l -> b v < n) -> row_of l b < rows l.
Proof.
  induction l as [|[v n] l IH]; intros H; simpl; [lia|].
  assert (b v < n) by (apply H; by left). assert (row_of l b < rows l) by (apply IH; intros w m Hw; apply H; by right). nia.
Qed.

Lemma entry_of_ext e b b' : e ∈ net -> (forall v, v ∈ e.1 :: given (c_parents e.2) -> b v = b' v) -> entry_of e b = entry_of e b'.
Proof.
  intros He H. unfold entry_of. rewrite (H e.1) by (by left). rewrite (row_of_ext _ b b'); [done|].
  intros v Hv. rewrite (family_fst e He) in Hv. apply H. by right.
Qed.

Lemma entry_count_ext e b b' : e ∈ net -> (forall v, v ∈ e.1 :: given (c_parents e.2) -> b v = b' v) ->
  entry_count scale e b = entry_count scale e b'.
Proof. intros He H. unfold entry_count. by rewrite (entry_of_ext e b b' He H). Qed.

Lemma in_range_family e b : e ∈ net -> in_range e b <-> b e.1 < card e.1 /\ forall v n, (v, n) ∈ family e -> b v < n.
Proof.
  intros He. unfold in_range. split.
  - intros H. split; [apply H; by left|]. intros v n Hv. destruct (family_card e v n He Hv) as (-> & Hp & _). apply H. by right.
  - intros [H1 H2] v Hv. apply elem_of_cons in Hv as [->|Hv]; [done|]. apply H2. by apply family_parents.
Qed.

Lemma entry_some e b : e ∈ net -> in_range e b ->
  exists p c, entry_of e b = Some p /\ scale p = Ok c /\ (1 <= c)%Z /\ entry_count scale e b = c.
Proof.
  intros He Hb. apply in_range_family in Hb as [Hb1 Hb2]; [|done]. pose proof (bk_tables _ _ _ Hok e He) as Hc.
  destruct (ck_entries _ _ _ _ Hc (b e.1)) as (r & Hr & Hent); [by rewrite (proj1 (ck_card _ _ _ _ Hc))|].
  destruct (Hent (row_of (family e) b)) as (p & c & Hp & Hs & Hpos); [by apply row_of_bound|].
  exists p, c. assert (entry_of e b = Some p) as He1 by (unfold entry_of; by rewrite Hr). split_and!; [done..|].
  unfold entry_count. by rewrite He1, Hs.
Qed.

(** ** The network of factors *)
Lemma bf_vars e v : v ∈ f_vars (fac e) <-> v ∈ e.1 :: given (c_parents e.2).
Proof. simpl. rewrite elem_of_union, elem_of_singleton, elem_of_list_to_set, elem_of_cons. done. Qed.

Lemma bf_links e v w r : (v, w, r) ∈ f_links (fac e) <-> v ∈ given (c_parents e.2) /\ w = e.1 /\ r = @Directed StrU v e.1 "r".
Proof.
  simpl. rewrite elem_of_list_to_set, elem_of_list_fmap. split.
  - intros (p & [= -> -> ->] & Hp). done.
  - intros (Hp & -> & ->). by exists v.
Qed.

Lemma family_in_net e v : e ∈ net -> v ∈ e.1 :: given (c_parents e.2) -> v ∈ net.*1.
Proof.
  intros He Hv. apply elem_of_cons in Hv as [->|Hv].
  - apply elem_of_list_fmap. by exists e.
  - apply (family_parents e He) in Hv. by apply (family_card e v (card v) He).
Qed.

Lemma card_pos v : v ∈ net.*1 -> 1 <= card v.
Proof.
  intros Hv. apply in_net in Hv as [c Hc]. rewrite <- (net_card v c Hc). exact (proj2 (ck_card _ _ _ _ (bk_tables _ _ _ Hok (v, c) Hc))).
Qed.

Lemma pair_eq (v w v' w' : Var) : ({[v; w]} : gset Var) = {[v'; w']} -> v = v' /\ w = w' \/ v = w' /\ w = v'.
Proof.
  intros H. assert (forall u, u = v \/ u = w <-> u = v' \/ u = w') as Hu.
  { intros u. rewrite set_eq in H. specialize (H u). by rewrite !elem_of_union, !elem_of_singleton in H. }
  destruct (proj1 (Hu v)) as [->| ->]; [by left| |].
  - destruct (proj1 (Hu w)) as [->| ->]; [by right| |by left]. destruct (proj2 (Hu w')) as [->| ->]; auto.
  - destruct (proj1 (Hu w)) as [->| ->]; [by right|by right|]. destruct (proj2 (Hu v')) as [->| ->]; auto.
Qed.

Lemma bayes_net_ok : net_ok bayes_cp (fac <$> net).
Proof.
  split.
  - intros f Hf. apply elem_of_list_fmap in Hf as (e & -> & He). pose proof (bk_tables _ _ _ Hok e He) as Hc.
    destruct (ck_nodup _ _ _ _ Hc) as [Hnd Hself]. split.
    + intros H. assert (e.1 ∈ f_vars (fac e)) as Hv by (apply bf_vars; by left). rewrite H in Hv. by apply not_elem_of_empty in Hv.
    + intros v Hv. apply bf_vars in Hv. exists (value_name v 0). apply bayes_declared. pose proof (family_in_net e v He Hv) as Hn.
      split; [done|]. exists 0. split; [|done]. by apply card_pos in Hn.
    + intros v w r Hl. apply bf_links in Hl as (Hv & -> & ->). split_and!.
      * apply bf_vars. by right.
      * apply bf_vars. by left.
      * intros ->. done.
      * by apply elem_of_singleton.
      * apply elem_of_union_l. by apply elem_of_singleton.
      * apply elem_of_union_r. by apply elem_of_singleton.
    + assert (forall v, v ∈ f_vars (fac e) -> rtc (linked_in (fac e)) v e.1 /\ rtc (linked_in (fac e)) e.1 v) as Hc1.
      { intros v Hv. apply bf_vars in Hv. apply elem_of_cons in Hv as [->|Hv]; [split; apply rtc_refl|].
        split; apply rtc_once; exists (@Directed StrU v e.1 "r"); [left|right]; by apply bf_links. }
      intros v w Hv Hw. etransitivity; [apply (Hc1 v Hv)|apply (Hc1 w Hw)].
    + intros v w r v' w' r' Hl Hl' Heq. apply bf_links in Hl as (Hv & -> & ->). apply bf_links in Hl' as (Hv' & -> & ->).
      apply pair_eq in Heq as [[-> _]|[-> _]]; done.
    + intros a b Hab. simpl. apply entry_count_ext; [done|]. intros v Hv. rewrite (Hab v); [done|]. by apply bf_vars.
  - intros k l f f' Hk Hl Hc. rewrite list_lookup_fmap in Hk, Hl.
    destruct (net !! k) as [e|] eqn:Hek; [|done]. destruct (net !! l) as [e'|] eqn:Hel; [|done].
    simpl in Hk, Hl. injection Hk as <-. injection Hl as <-.
    assert (e.1 = e'.1 -> k = l) as Hkey.
    { intros H. eapply NoDup_lookup; [apply (bk_keys _ _ _ Hok)| |].
      - rewrite list_lookup_fmap, Hek. done.
      - rewrite list_lookup_fmap, Hel. exact (f_equal Some (eq_sym H)). }
    assert (e ∈ net) as He by (by eapply elem_of_list_lookup_2). assert (e' ∈ net) as He' by (by eapply elem_of_list_lookup_2).
    destruct Hc as [(v & w & r & v' & w' & r' & H1 & H2 & Heq)|(H & H' & v & Hv & Hv')].
    + apply bf_links in H1 as (Hv & -> & _). apply bf_links in H2 as (Hv' & -> & _).
      apply pair_eq in Heq as [[_ H]|[-> Hw]]; [by apply Hkey|].
      exfalso. rewrite <- Hw in Hv'. by apply (bk_mutual _ _ _ Hok e e' He He').
    + assert (forall e, f_links (fac e) = ∅ -> given (c_parents e.2) = []) as Hno.
      { clear. intros e H. destruct (given (c_parents e.2)) as [|p ps] eqn:Hp; [done|].
        assert ((p, e.1, @Directed StrU p e.1 "r") ∈ f_links (fac e)) as Hin by (apply bf_links; rewrite Hp; split_and!; [by left|done|done]).
        rewrite H in Hin. by apply not_elem_of_empty in Hin. }
      apply bf_vars in Hv, Hv'. rewrite (Hno e H) in Hv. rewrite (Hno e' H') in Hv'.
      apply elem_of_list_singleton in Hv, Hv'. apply Hkey. by rewrite <- Hv, <- Hv'.
Qed.

(** ** [_value_map_from_cpd] *)

Definition key (e : Var * cpd T) (b : Var -> nat) : gset Val := list_to_set (named b <$> e.1 :: given (c_parents e.2)).

Lemma key_in e b x : x ∈ key e b <-> exists v, v ∈ e.1 :: given (c_parents e.2) /\ x = named b v.
Proof.
  unfold key. rewrite elem_of_list_to_set, elem_of_list_fmap. split; intros (v & H1 & H2); by exists v.
Qed.

Lemma key_inj e b b' v : key e b = key e b' -> v ∈ e.1 :: given (c_parents e.2) -> b v = b' v.
Proof.
  intros H Hv. assert (named b v ∈ key e b') as Hin by (rewrite <- H; apply key_in; by exists v).
  apply key_in in Hin as (w & _ & Hw). unfold named in Hw. destruct (value_name_inj _ _ _ _ Hw) as [-> Hb]. done.
Qed.

Definition entries (e : Var * cpd T) (n : nat) (X : gset Val) (p : T) : Prop :=
  exists b, in_range e b /\ b e.1 < n /\ X = key e b /\ entry_of e b = Some p.

Lemma entries_fun e n n' X p p' : e ∈ net -> entries e n X p -> entries e n' X p' -> p = p'.
Proof.
  intros He (b & _ & _ & -> & Hp) (b' & _ & _ & H & Hp'). rewrite (entry_of_ext e b b' He) in Hp; [congruence|].
  intros v Hv. by apply (key_inj e).
Qed.

(** Insertions that never contradict each other. *)
Lemma foldl_insert {K A} `{Countable K} (R : K -> A -> Prop) (l : list (K * A)) :
  (forall k a a', R k a -> R k a' -> a = a') -> (forall k a, (k, a) ∈ l -> R k a) ->
  forall m : gmap K A, (forall k a, m !! k = Some a -> R k a) ->
  forall k a, foldl (fun m '(k, a) => <[k := a]> m) m l !! k = Some a <-> m !! k = Some a \/ (k, a) ∈ l.
Proof.
  intros Hfun. induction l as [|[k0 a0] l IH]; intros Hl m Hm k a; simpl.
  - split; [by left|]. intros [Hx|Hx]; [done|by apply elem_of_nil in Hx].
  - rewrite IH.
    + rewrite elem_of_cons. destruct (decide (k0 = k)) as [<-|Hne].
      * rewrite lookup_insert. split.
        -- intros [[= <-]|Hx]; auto.
        -- intros [Hx|[[= ->]|Hx]]; [|by left|by right]. left. f_equal. eapply Hfun; [apply Hl; by left|by apply Hm].
      * rewrite lookup_insert_ne by done. split; [tauto|]. intros [Hx|[[= -> ->]|Hx]]; [by left|done|by right].
    + intros k' a' Hx. apply Hl. by right.
    + intros k' a'. destruct (decide (k0 = k')) as [<-|Hne].
      * rewrite lookup_insert. intros [= <-]. apply Hl. by left.
      * rewrite lookup_insert_ne by done. apply Hm.
Qed.

Lemma combination_entries e j r : e ∈ net -> given (c_parents e.2) <> [] -> j < card e.1 -> c_values e.2 !! j = Some r ->
  forall vs p, (vs, p) ∈ zip ((fun vs => value_name e.1 j :: vs) <$> value_combination (family e)) r <->
    exists b, in_range e b /\ b e.1 = j /\ vs = named b <$> e.1 :: given (c_parents e.2) /\ entry_of e b = Some p.
Proof.
  intros He Hne Hj Hr vs p. pose proof (bk_tables _ _ _ Hok e He) as Hc. destruct (ck_nodup _ _ _ _ Hc) as [Hnd Hself].
  assert (family e <> []) as Hf by (intros H; apply Hne; by rewrite <- (family_fst e He), H).
  rewrite value_combination_tuples by done. rewrite elem_of_list_lookup.
  assert (forall k, zip ((fun vs => value_name e.1 j :: vs) <$> ((fun js => zip_with value_name (family e).*1 js) <$> tuples (family e).*2)) r !! k = Some (vs, p) <->
    exists js, tuples (family e).*2 !! k = Some js /\ vs = value_name e.1 j :: zip_with value_name (family e).*1 js /\ r !! k = Some p) as Hk.
  { intros k. rewrite lookup_zip_with_Some. split.
    - intros (vs' & p' & [= <- <-] & H1 & H2). rewrite !list_lookup_fmap in H1. destruct (tuples _ !! k) as [js|]; [|done].
      exists js. split_and!; [done| |done]. by injection H1 as <-.
    - intros (js & H1 & -> & H2). exists (value_name e.1 j :: zip_with value_name (family e).*1 js), p. split_and!; [done| |done].
      rewrite !list_lookup_fmap, H1. done. }
  setoid_rewrite Hk. clear Hk. split.
  - intros (k & js & H1 & -> & H2). apply tuples_lookup in H1 as [Hb ->].
    destruct (tuple_assign (family e).*1 js e.1 j) as (b & -> & Hbj).
    + by rewrite (family_fst e He).
    + by rewrite (family_fst e He).
    + apply Forall2_length in Hb. rewrite Hb, !fmap_length. done.
    + exists b. split_and!.
      * apply in_range_family; [done|]. split; [by rewrite Hbj|]. by apply below_assign.
      * done.
      * rewrite (family_fst e He). change (named b <$> e.1 :: given (c_parents e.2)) with (named b e.1 :: (named b <$> given (c_parents e.2))).
        unfold named at 1. rewrite Hbj. f_equal. apply names_of.
      * unfold entry_of. rewrite Hbj, Hr. simpl. by rewrite row_of_code.
  - intros (b & Hb & Hbj & -> & Hp). apply in_range_family in Hb as [_ Hb]; [|done].
    exists (code (family e).*2 (b <$> (family e).*1)), (b <$> (family e).*1). split_and!.
    + apply tuples_lookup. split; [|done]. by apply below_assign.
    + rewrite (family_fst e He). change (named b <$> e.1 :: given (c_parents e.2)) with (named b e.1 :: (named b <$> given (c_parents e.2))).
      unfold named at 1. rewrite Hbj. f_equal. symmetry. apply names_of.
    + unfold entry_of in Hp. rewrite Hbj, Hr in Hp. simpl in Hp. by rewrite <- row_of_code.
Qed.

Lemma value_map_spec e : e ∈ net -> exists m, value_map_from_cpd e.1 e.2 = Ok m /\
  forall X p, m !! X = Some p <-> exists b, in_range e b /\ X = key e b /\ entry_of e b = Some p.
Proof.
  intros He. pose proof (bk_tables _ _ _ Hok e He) as Hc. destruct (ck_nodup _ _ _ _ Hc) as [Hnd Hself].
  destruct (ck_card _ _ _ _ Hc) as [Hcard _].
  assert (exists m, value_map_from_cpd e.1 e.2 = Ok m /\ forall X p, m !! X = Some p <-> entries e (card e.1) X p) as (m & Hm & Hspec).
  2:{ exists m. split; [done|]. intros X p. rewrite Hspec. split.
      - intros (b & H1 & _ & H2). by exists b.
      - intros (b & H1 & H2). exists b. split_and!; try apply H2; [done|]. apply H1. by left. }
  unfold value_map_from_cpd. rewrite Hcard.
  match goal with |- context [for_res ?F ?o ?s ?l] => set (step := F);
    assert (match for_res step o s l with Ok m => forall X p, m !! X = Some p <-> entries e (length l) X p | Err _ => False end) as Hloop;
    [apply (for_res_ind (fun done (m : gmap (gset Val) T) => forall X p, m !! X = Some p <-> entries e (length done) X p) (fun _ => False))|] end.
  - intros X p. rewrite lookup_empty. split; [done|]. intros (b & _ & H & _). simpl in H. lia.
  - intros done j rest m o' Hl Hm.
    assert (j = length done) as ->.
    { assert (seq 0 (card e.1) !! length done = Some j) as Hlk by (rewrite Hl; by apply list_lookup_middle).
      apply lookup_seq in Hlk as [-> _]. done. }
    assert (length done < card e.1) as Hj.
    { rewrite <- (seq_length (card e.1) 0), Hl, app_length. simpl. lia. }
    destruct (ck_entries _ _ _ _ Hc (length done)) as (r & Hr & Hent); [by rewrite Hcard|].
    assert (forall X p, entries e (length (done ++ [length done])) X p <-> entries e (length done) X p \/
      exists b, in_range e b /\ b e.1 = length done /\ X = key e b /\ entry_of e b = Some p) as Hstep.
    { intros X p. rewrite app_length. simpl. unfold entries. split.
      - intros (b & H1 & H2 & H3 & H4). destruct (decide (b e.1 = length done)) as [Hx|Hx]; [right|left]; exists b; split_and!; try done. exact (lt_step _ _ H2 Hx).
      - intros [(b & H1 & H2 & H3 & H4)|(b & H1 & H2 & H3 & H4)]; exists b; split_and!; try done; [exact (lt_up _ _ H2)|exact (eq_up _ _ H2)]. }
    unfold step. destruct (given (c_parents e.2)) as [|p0 ps] eqn:Hps.
    + unfold item. rewrite Hr. cbn [mbind res_bind].
      assert (family e = []) as Hf by (unfold family; by rewrite Hps).
      destruct (Hent 0) as (p & c & Hp & _); [rewrite Hf; simpl; lia|]. rewrite Hp. cbn [mbind res_bind].
      intros X q. rewrite Hstep, <- Hm.
      assert ((exists b, in_range e b /\ b e.1 = length done /\ X = key e b /\ entry_of e b = Some q) <->
              X = {[value_name e.1 (length done)]} /\ q = p) as ->.
      { assert (forall b, key e b = {[named b e.1]}) as Hkey by (intros b; unfold key; rewrite Hps; simpl; by rewrite (right_id_L ∅ (∪))).
        split.
        - intros (b & _ & Hb & -> & Hq). split; [rewrite Hkey; unfold named; by rewrite Hb|].
          unfold entry_of in Hq. rewrite Hb, Hr, Hf in Hq. simpl in Hq. congruence.
        - intros [-> ->]. exists (fun _ => length done). split_and!; [|done|by rewrite Hkey|].
          + intros v. rewrite Hps, elem_of_list_singleton. by intros ->.
          + unfold entry_of. rewrite Hr, Hf. done. }
      destruct (decide ({[value_name e.1 (length done)]} = X)) as [<-|Hne].
      * rewrite lookup_insert. split; [intros [= <-]; by right|]. intros [H|[_ ->]]; [|done].
        exfalso. apply Hm in H as (b & _ & Hb & Hk & _).
        assert (value_name e.1 (length done) ∈ key e b) as Hin by (rewrite <- Hk; by apply elem_of_singleton).
        apply key_in in Hin as (v & _ & Hv). unfold named in Hv. destruct (value_name_inj _ _ _ _ Hv) as [<- Hb']. lia.
      * rewrite lookup_insert_ne by done. split; [tauto|]. intros [H|[-> _]]; [done|done].
    + rewrite <- Hps in *.
      assert (exists n0 ns, given (c_parent_cards e.2) = n0 :: ns) as (n0 & ns & Hns).
      { pose proof (ck_given _ _ _ _ Hc) as Hlen. rewrite Hps in Hlen. destruct (given (c_parent_cards e.2)); [done|by eexists _, _]. }
      rewrite Hps, Hns. unfold item. rewrite Hr. cbn [mbind res_bind]. rewrite <- Hps, <- Hns. fold (family e).
      assert (given (c_parents e.2) <> []) as Hne by (by rewrite Hps).
      pose proof (combination_entries e (length done) r He Hne Hj Hr) as Hcomb.
      set (L := zip ((fun vs => value_name e.1 (length done) :: vs) <$> value_combination (family e)) r) in *.
      assert (forall m : gmap (gset Val) T, foldl (fun m '(v, p) => <[list_to_set v := p]> m) m L =
        foldl (fun m '(k, a) => <[k := a]> m) m ((fun vp => (list_to_set vp.1, vp.2)) <$> L)) as ->.
      { clear. induction L as [|[v p] L IH]; intros m; [done|]. simpl. apply IH. }
      intros X q. rewrite (foldl_insert (entries e (S (length done)))).
      * rewrite Hstep, <- Hm. f_equiv. rewrite elem_of_list_fmap. split.
        -- intros ([vs p] & [= -> ->] & Hin). apply Hcomb in Hin as (b & H1 & H2 & -> & H4). by exists b.
        -- intros (b & H1 & H2 & -> & H4). exists (named b <$> e.1 :: given (c_parents e.2), q). split; [done|]. apply Hcomb. by exists b.
      * intros X' p p' H1 H2. by eapply entries_fun.
      * intros X' p Hin. apply elem_of_list_fmap in Hin as ([vs p'] & [= -> ->] & Hin). apply Hcomb in Hin as (b & H1 & H2 & -> & H4).
        exists b. split_and!; try done. rewrite H2. exact (Nat.lt_succ_diag_r _).
      * intros X' p Hin. apply Hm in Hin as (b & H1 & H2 & H3 & H4). exists b. split_and!; try done. exact (Nat.lt_lt_succ_r _ _ H2).
  - rewrite seq_length in Hloop. destruct (for_res _ _ _ _) as [m|]; [|done]. by exists m.
Qed.

End bayes.
