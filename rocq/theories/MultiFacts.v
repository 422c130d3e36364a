(** * MultiFacts: sample sets as multisets (C19-C24) *)

From Verif Require Export SetFacts.

Section multi_facts.
Context {U : Universe}.
Implicit Types (a b ss : samples) (g : graph).

Lemma samples_ext a b :
  ss_cp a = ss_cp b -> (forall g, times_in a g = times_in b g) -> (forall g, contains a g <-> contains b g) -> a = b.
Proof.
  destruct a as [cpa ma], b as [cpb mb]. simpl. intros -> Ht Hc. f_equal. apply map_eq. intros g.
  specialize (Ht g). specialize (Hc g). unfold times_in, contains in *. simpl in *.
  destruct (ma !! g), (mb !! g); simpl in *; [congruence| | |done].
  - destruct Hc as [Hc _]. by destruct Hc; eauto.
  - destruct Hc as [_ Hc]. by destruct Hc; eauto.
Qed.

(** ** C19 *)

Lemma contains_insert cp (m : gmap graph Z) k x g : contains (Samples cp (<[k := x]> m)) g <-> g = k \/ contains (Samples cp m) g.
Proof. unfold contains. simpl. rewrite lookup_insert_is_Some'. naive_solver. Qed.

Lemma union_spec o a b :
  match ss_union o a b with
  | Ok c => cp_id (ss_cp a) = cp_id (ss_cp b) /\ ss_cp c = ss_cp a /\
            (forall g, times_in c g = times_in a g + times_in b g)%Z /\
            (forall g, contains c g <-> contains a g \/ contains b g)
  | Err x => x = AssertionError /\ cp_id (ss_cp a) <> cp_id (ss_cp b)
  end.
Proof.
  unfold ss_union, ss_compatible.
  destruct (passert_cases (cp_id (ss_cp a) = cp_id (ss_cp b))) as [[Hc ->]|[Hc ->]]; [|by simpl].
  cbn [mbind res_bind].
  assert (match for_mut (fun _ bld '(g, c) => ssb_add bld (sample_of b g) c) (sub o 0) a (ss_items o b) with
    | (c, Ok _) => ss_cp c = ss_cp a /\ (forall g, times_in c g = times_in a g + times_in b g)%Z /\
        (forall g, contains c g <-> contains a g \/ contains b g)
    | (_, Err _) => False end) as Hi.
  { apply (for_mut_map_ind (fun (m : gmap graph Z) c => ss_cp c = ss_cp a /\
      (forall g, times_in c g = times_in a g + times_in (Samples (ss_cp b) m) g)%Z /\
      (forall g, contains c g <-> contains a g \/ contains (Samples (ss_cp b) m) g)) (fun _ _ => False)).
    - split_and!; [done| |].
      + intros g. unfold times_in at 3. simpl. rewrite lookup_empty. simpl. lia.
      + intros g. unfold contains at 3. simpl. rewrite lookup_empty. rewrite is_Some_alt. tauto.
    - intros m' k x s o' Hb Hm' Hsub (Hcp & Ht & Hk). unfold ssb_add.
      rewrite (proj2 (is_compatible_spec _ _)) by (simpl; congruence). split_and!; [done| |].
      + intros g. specialize (Ht g). unfold times_in in *. cbn [ss_map s_g sample_of] in *.
        destruct (decide (g = k)) as [->|Hne].
        * rewrite Hm' in Ht. rewrite lookup_insert. simpl in *.
          destruct (ss_map s !! k); rewrite lookup_insert; simpl in *; lia.
        * rewrite lookup_insert_ne by done. simpl in Ht. rewrite <- Ht.
          destruct (ss_map s !! k); by rewrite lookup_insert_ne.
      + intros g. cbn [s_g sample_of].
        assert (contains (Samples (ss_cp s) match ss_map s !! k with
            | Some c0 => <[k:=(c0 + x)%Z]> (ss_map s) | None => <[k:=x]> (ss_map s) end) g <->
            g = k \/ contains s g) as ->.
        { destruct (ss_map s !! k); rewrite contains_insert; destruct s; tauto. }
        rewrite contains_insert, Hk. tauto. }
  destruct (for_mut _ _ _ _) as [c [[]|x]]; [|done]. exact (conj Hc Hi).
Qed.

Lemma union_ok o a b : cp_id (ss_cp a) = cp_id (ss_cp b) -> exists c, ss_union o a b = Ok c.
Proof.
  intros Hc. pose proof (union_spec o a b) as Hu. destruct (ss_union o a b); [by eexists|]. by destruct Hu.
Qed.

Lemma union_order o o' a b : ss_union o a b = ss_union o' a b.
Proof.
  pose proof (union_spec o a b) as H1. pose proof (union_spec o' a b) as H2.
  destruct (ss_union o a b) as [c|x], (ss_union o' a b) as [c'|x'].
  - f_equal. destruct H1 as (_ & H1 & H1' & H1''), H2 as (_ & H2 & H2' & H2'').
    apply samples_ext; [congruence| |].
    + intros g. by rewrite H1', H2'.
    + intros g. by rewrite H1'', H2''.
  - by destruct H2, H1.
  - by destruct H2, H1.
  - destruct H1 as [-> _], H2 as [-> _]. done.
Qed.

Lemma union_comm o o' a b : ss_cp a = ss_cp b -> ss_union o a b = ss_union o' b a.
Proof.
  intros Hc. pose proof (union_spec o a b) as H1. pose proof (union_spec o' b a) as H2.
  destruct (ss_union o a b) as [c|x], (ss_union o' b a) as [c'|x'].
  - f_equal. destruct H1 as (_ & H1 & H1' & H1''), H2 as (_ & H2 & H2' & H2'').
    apply samples_ext; [congruence| |].
    + intros g. rewrite H1', H2'. lia.
    + intros g. rewrite H1'', H2''. tauto.
  - destruct H2 as [_ H2]. congruence.
  - destruct H1 as [_ H1]. congruence.
  - destruct H1 as [-> _], H2 as [-> _]. done.
Qed.

Lemma union_assoc o1 o2 o3 o4 a b c ab bc :
  ss_union o1 a b = Ok ab -> ss_union o2 b c = Ok bc -> ss_union o3 ab c = ss_union o4 a bc.
Proof.
  intros Hab Hbc. pose proof (union_spec o1 a b) as H1. rewrite Hab in H1.
  pose proof (union_spec o2 b c) as H2. rewrite Hbc in H2.
  destruct H1 as (Hi1 & Hc1 & Ht1 & Hk1), H2 as (Hi2 & Hc2 & Ht2 & Hk2).
  destruct (union_ok o3 ab c) as [r Hr]; [congruence|]. destruct (union_ok o4 a bc) as [r' Hr']; [congruence|].
  pose proof (union_spec o3 ab c) as H3. rewrite Hr in *. pose proof (union_spec o4 a bc) as H4. rewrite Hr' in *.
  destruct H3 as (_ & Hc3 & Ht3 & Hk3), H4 as (_ & Hc4 & Ht4 & Hk4).
  f_equal. apply samples_ext; [congruence| |].
  - intros g. rewrite Ht3, Ht4, Ht1, Ht2. lia.
  - intros g. rewrite Hk3, Hk4, Hk1, Hk2. tauto.
Qed.

Lemma times_new cp g : times_in (ssb_new cp) g = 0%Z.
Proof. unfold times_in. simpl. by rewrite lookup_empty. Qed.
Lemma contains_new cp g : ~ contains (ssb_new cp) g.
Proof. unfold contains. simpl. rewrite lookup_empty. by intros [??]. Qed.

Lemma union_unit o cp a : cp_id cp = cp_id (ss_cp a) ->
  ss_union o a (ssb_new cp) = Ok a /\ (cp = ss_cp a -> ss_union o (ssb_new cp) a = Ok a).
Proof.
  intros Hcp. split; [|intros ->].
  - destruct (union_ok o a (ssb_new cp)) as [c Hc]; [done|]. pose proof (union_spec o a (ssb_new cp)) as Hu.
    rewrite Hc in *. destruct Hu as (_ & H1 & H2 & H3). f_equal. apply samples_ext; [done| |].
    + intros g. rewrite H2, times_new. lia.
    + intros g. rewrite H3. pose proof (contains_new cp g). tauto.
  - destruct (union_ok o (ssb_new (ss_cp a)) a) as [c Hc]; [done|]. pose proof (union_spec o (ssb_new (ss_cp a)) a) as Hu.
    rewrite Hc in *. destruct Hu as (_ & H1 & H2 & H3). f_equal. apply samples_ext; [done| |].
    + intros g. rewrite H2, times_new. lia.
    + intros g. rewrite H3. pose proof (contains_new (ss_cp a) g). tauto.
Qed.

(** Sums over a list of samples that contains all samples of the set. *)
Lemma zsum_times_fresh ss l : (forall g, g ∈ l -> ~ contains ss g) -> zsum (times_in ss <$> l) = 0%Z.
Proof.
  induction l as [|g l IH]; intros Hl; [done|]. cbn [fmap list_fmap].
  assert (times_in ss g = 0%Z) as ->.
  { unfold times_in. destruct (ss_map ss !! g) eqn:Hg; [|done]. destruct (Hl g); [left|]. by eexists. }
  change (0 + zsum (times_in ss <$> l) = 0)%Z. rewrite IH; [done|]. intros g' Hg'. apply Hl. by right.
Qed.

Lemma length_over ss l : NoDup l -> (forall g, contains ss g -> g ∈ l) -> ss_length ss = zsum (times_in ss <$> l).
Proof.
  intros Hnd Hl. destruct (items_lemma (fun _ => []) ss) as (_ & _ & _ & Ht & _).
  set (l1 := filter (fun g => contains ss g) l). set (l2 := filter (fun g => ~ contains ss g) l).
  rewrite (Ht l1).
  - assert (l ≡ₚ l1 ++ l2) as ->.
    { clear. unfold l1, l2. induction l as [|g l IH]; [done|].
      destruct (decide (contains ss g)) as [Hg|Hg].
      - rewrite filter_cons_True, filter_cons_False by tauto. simpl. by rewrite <- IH.
      - rewrite filter_cons_False, filter_cons_True by tauto. by rewrite <- Permutation_middle, <- IH. }
    rewrite fmap_app, zsum_app, (zsum_times_fresh ss l2); [lia|].
    intros g. unfold l2. rewrite elem_of_list_filter. tauto.
  - by apply NoDup_filter.
  - intros g. unfold l1. rewrite elem_of_list_filter. split; [tauto|]. intros Hg. split; [done|]. by apply Hl.
Qed.

Lemma zsum_add_fmap {A} (f h : A -> Z) l : zsum ((fun x => f x + h x)%Z <$> l) = (zsum (f <$> l) + zsum (h <$> l))%Z.
Proof. unfold zsum. induction l as [|x l IH]; [done|]. cbn. cbn in IH. lia. Qed.

Lemma union_length o a b c : ss_union o a b = Ok c -> ss_length c = (ss_length a + ss_length b)%Z.
Proof.
  intros Hu. pose proof (union_spec o a b) as Hs. rewrite Hu in Hs. destruct Hs as (_ & _ & Ht & Hk).
  set (l := elements (dom (ss_map a) ∪ dom (ss_map b))).
  assert (forall g, contains c g -> g ∈ l) as Hl.
  { intros g Hg. apply elem_of_elements, elem_of_union. rewrite !elem_of_dom. by apply Hk. }
  rewrite (length_over c l), (length_over a l), (length_over b l); try apply NoDup_elements.
  - rewrite <- zsum_add_fmap. f_equal. apply list_fmap_ext. intros _ g _. apply Ht.
  - intros g Hg. apply Hl, Hk. by right.
  - intros g Hg. apply Hl, Hk. by left.
  - done.
Qed.

Lemma join_sample_set_spec o l :
  match join_sample_set o l with
  | Ok c => (exists x l', l = x :: l' /\ ss_cp c = ss_cp x) /\
            (forall x, x ∈ l -> cp_id (ss_cp x) = cp_id (ss_cp c)) /\
            (forall g, times_in c g = zsum ((fun x => times_in x g) <$> l)) /\
            (forall g, contains c g <-> exists x, x ∈ l /\ contains x g)
  | Err x => x = AssertionError /\
      (l = [] \/ exists a b, a ∈ l /\ b ∈ l /\ cp_id (ss_cp a) <> cp_id (ss_cp b))
  end.
Proof.
  revert o. induction l as [|x l IH]; intros o; [simpl; auto|].
  destruct l as [|y l].
  - simpl. split_and!.
    + by exists x, [].
    + by intros x' ->%elem_of_list_singleton.
    + intros g. unfold zsum. simpl. lia.
    + intros g. set_solver.
  - specialize (IH (sub o 0)). change (join_sample_set o (x :: y :: l)) with
      (r ← join_sample_set (sub o 0) (y :: l); ss_union (sub o 1) x r).
    destruct (join_sample_set (sub o 0) (y :: l)) as [r|e]; cbn [mbind res_bind].
    + destruct IH as (_ & Hid & Ht & Hk). pose proof (union_spec (sub o 1) x r) as Hu.
      destruct (ss_union (sub o 1) x r) as [c|e].
      * destruct Hu as (Hxr & Hc & Htu & Hku). split_and!.
        -- by exists x, (y :: l).
        -- intros z [->|Hz]%elem_of_cons; [by rewrite Hc|]. rewrite (Hid z Hz). congruence.
        -- intros g. rewrite Htu, Ht. done.
        -- intros g. rewrite Hku, Hk. setoid_rewrite (elem_of_cons (y :: l)). naive_solver.
      * destruct Hu as [-> Hne]. split; [done|]. right. exists x, y. split_and!; [left|right; left|].
        rewrite (Hid y) by left. done.
    + destruct IH as [-> [|(a & b & Ha & Hb & Hne)]]; [done|]. split; [done|]. right.
      exists a, b. split_and!; [by right|by right|done].
Qed.

Lemma join_sample_set_perm o o' l l' cp :
  Forall (fun x => ss_cp x = cp) l -> l ≡ₚ l' -> join_sample_set o l = join_sample_set o' l'.
Proof.
  intros Hcp Hp. rewrite Forall_forall in Hcp.
  assert (forall x, x ∈ l' -> ss_cp x = cp) as Hcp' by (intros x; rewrite <- Hp; auto).
  pose proof (join_sample_set_spec o l) as H1. pose proof (join_sample_set_spec o' l') as H2.
  destruct (join_sample_set o l) as [c|x], (join_sample_set o' l') as [c'|x'].
  - f_equal. destruct H1 as ((y & k & -> & Hy) & _ & Ht & Hk), H2 as ((y' & k' & -> & Hy') & _ & Ht' & Hk').
    apply samples_ext.
    + rewrite Hy, Hy', Hcp, Hcp' by left. done.
    + intros g. rewrite Ht, Ht'. by rewrite Hp.
    + intros g. rewrite Hk, Hk'. by setoid_rewrite Hp.
  - destruct H2 as [_ [->|(a & b & Ha & Hb & Hne)]].
    + apply Permutation_nil_r in Hp as ->. by destruct H1 as ((? & ? & ? & _) & _).
    + by rewrite (Hcp' a), (Hcp' b) in Hne.
  - destruct H1 as [_ [->|(a & b & Ha & Hb & Hne)]].
    + symmetry in Hp. apply Permutation_nil_r in Hp as ->. by destruct H2 as ((? & ? & ? & _) & _).
    + by rewrite (Hcp a), (Hcp b) in Hne.
  - destruct H1 as [-> _], H2 as [-> _]. done.
Qed.

Lemma C19_union_lemma o a b :
  match ss_union o a b with
  | Ok c => cp_id (ss_cp a) = cp_id (ss_cp b) /\ ss_cp c = ss_cp a /\
            (forall g, times_in c g = times_in a g + times_in b g)%Z /\
            (forall g, contains c g <-> contains a g \/ contains b g) /\
            ss_length c = (ss_length a + ss_length b)%Z
  | Err x => x = AssertionError /\ cp_id (ss_cp a) <> cp_id (ss_cp b)
  end.
Proof.
  pose proof (union_spec o a b) as Hu. destruct (ss_union o a b) as [c|x] eqn:Hc; [|done].
  destruct Hu as (H1 & H2 & H3 & H4). split_and!; [done..|]. by apply (union_length o).
Qed.

(** ** C20 *)

Lemma filter_lookup p ss g c :
  ss_map (filter_samples p ss) !! g = Some c <-> ss_map ss !! g = Some c /\ p g = true.
Proof. unfold filter_samples. simpl. by rewrite map_filter_lookup_Some. Qed.

Lemma filter_contains p ss g : contains (filter_samples p ss) g <-> contains ss g /\ p g = true.
Proof.
  unfold contains. split.
  - intros [c Hc%filter_lookup]. destruct Hc. eauto.
  - intros [[c Hc] Hp]. exists c. by apply filter_lookup.
Qed.

Lemma filter_times p ss g : times_in (filter_samples p ss) g = if p g then times_in ss g else 0%Z.
Proof.
  unfold times_in. destruct (ss_map (filter_samples p ss) !! g) as [c|] eqn:Hc.
  - apply filter_lookup in Hc as [-> ->]. done.
  - destruct (p g) eqn:Hp; [|done]. destruct (ss_map ss !! g) as [c|] eqn:Hg; [|done].
    assert (ss_map (filter_samples p ss) !! g = Some c) by (by apply filter_lookup). congruence.
Qed.

Lemma filter_split o p ss : ss_union o (filter_samples p ss) (filter_samples (fun g => negb (p g)) ss) = Ok ss.
Proof.
  destruct (union_ok o (filter_samples p ss) (filter_samples (fun g => negb (p g)) ss)) as [c Hc]; [done|].
  pose proof (union_spec o (filter_samples p ss) (filter_samples (fun g => negb (p g)) ss)) as Hu.
  rewrite Hc in *. destruct Hu as (_ & H1 & H2 & H3). f_equal. apply samples_ext; [done| |].
  - intros g. rewrite H2, !filter_times. destruct (p g); simpl; lia.
  - intros g. rewrite H3, !filter_contains. destruct (p g); simpl; naive_solver.
Qed.

Lemma filter_length p ss :
  (ss_length (filter_samples p ss) + ss_length (filter_samples (fun g => negb (p g)) ss))%Z = ss_length ss.
Proof. by rewrite (union_length (fun _ => []) _ _ _ (filter_split _ p ss)). Qed.

Lemma filter_filter p q ss :
  filter_samples p (filter_samples q ss) = filter_samples (fun g => p g && q g) ss.
Proof.
  apply samples_ext; [done| |].
  - intros g. rewrite !filter_times. by destruct (p g), (q g).
  - intros g. rewrite !filter_contains. rewrite andb_true_iff. tauto.
Qed.

Lemma filter_comm p q ss : filter_samples p (filter_samples q ss) = filter_samples q (filter_samples p ss).
Proof. rewrite !filter_filter. apply samples_ext; [done|..]; intros g.
  - rewrite !filter_times. by rewrite andb_comm.
  - rewrite !filter_contains. by rewrite andb_comm.
Qed.

Lemma count_of_lookup ss g c : count_of ss g = Ok c <-> ss_map ss !! g = Some c.
Proof. unfold count_of. destruct (ss_map ss !! g); naive_solver. Qed.

Lemma C20_lemma p ss :
  ss_cp (filter_samples p ss) = ss_cp ss /\
  forall g c, count_of (filter_samples p ss) g = Ok c <-> count_of ss g = Ok c /\ p g = true.
Proof. split; [done|]. intros g c. rewrite !count_of_lookup. apply filter_lookup. Qed.

Lemma C18_items_lemma o ss :
  NoDup (ss_items o ss).*1 /\
  (forall g c, (g, c) ∈ ss_items o ss <-> count_of ss g = Ok c) /\
  (forall g, g ∈ ss_samples ss <-> contains ss g) /\
  total_count ss (ss_length ss) /\ zsum (ss_items o ss).*2 = ss_length ss.
Proof. setoid_rewrite count_of_lookup. apply items_lemma. Qed.

(** ** C21 *)

Lemma qdiv_add (a b d : Z) : (qdiv a d + qdiv b d)%Qc = qdiv (a + b) d.
Proof.
  unfold qdiv, Qcdiv. rewrite <- Qcmult_plus_distr_l. f_equal. apply Qc_is_canon.
  unfold Qcplus, Q2Qc. cbn [this]. rewrite !Qred_correct. by rewrite <- inject_Z_plus.
Qed.

Lemma qdiv_zero d : qdiv 0 d = 0%Qc.
Proof. unfold qdiv, Qcdiv. change (Q2Qc (inject_Z 0)) with 0%Qc. ring. Qed.

Lemma qdiv_self d : d <> 0%Z -> qdiv d d = 1%Qc.
Proof.
  intros Hd. apply Qc_is_canon. rewrite qdiv_Q by done. change (this 1%Qc) with (1%Q).
  apply Qmult_inv_r. unfold inject_Z, Qeq. simpl. lia.
Qed.

Lemma qsum_qdiv l d : qsum ((fun c => qdiv c d) <$> l) = qdiv (zsum l) d.
Proof.
  induction l as [|c l IH]; [symmetry; apply qdiv_zero|].
  change (qdiv c d + qsum ((fun c => qdiv c d) <$> l) = qdiv (c + zsum l) d)%Qc.
  rewrite IH. apply qdiv_add.
Qed.

Lemma isclose_one_1 : isclose_one 1%Qc = true.
Proof. vm_compute. reflexivity. Qed.
Lemma isclose_one_0 : isclose_one 0%Qc = false.
Proof. vm_compute. reflexivity. Qed.

Lemma qsum_map_qdiv `{Countable K} (m : gmap K Z) d :
  qsum (map_to_list ((fun c => qdiv c d) <$> m)).*2 = qdiv (zsum (map_to_list m).*2) d.
Proof.
  rewrite map_to_list_fmap, <- qsum_qdiv. f_equal. rewrite <- !list_fmap_compose.
  apply list_fmap_ext. by intros _ [k c] _.
Qed.

Lemma probabilities_spec ss :
  match probabilities ss with
  | Ok m => ss_map ss <> ∅ /\ ss_length ss <> 0%Z /\
      (forall g, m !! g = (fun c => qdiv c (ss_length ss)) <$> ss_map ss !! g) /\
      qsum (map_to_list m).*2 = 1%Qc /\
      (forall g p, m !! g = Some p <-> probability_of ss g = Ok p)
  | Err x => (x = AssertionError /\ ss_map ss = ∅) \/
             (x = ZeroDivisionError /\ ss_map ss <> ∅ /\ ss_length ss = 0%Z)
  end.
Proof.
  unfold probabilities. destruct (decide (ss_map ss = ∅)) as [He|He].
  - rewrite (bool_decide_false (ss_map ss ≠ ∅)) by (intros Hn; by apply Hn). cbn [andb].
    rewrite qsum_map_qdiv, He. change (zsum (map_to_list ∅).*2) with 0%Z. rewrite qdiv_zero, isclose_one_0.
    cbn. by left.
  - rewrite (bool_decide_true (ss_map ss ≠ ∅)) by done. cbn [andb].
    destruct (decide (ss_length ss = 0%Z)) as [Hl|Hl].
    + rewrite bool_decide_true by done. auto.
    + rewrite bool_decide_false by done. rewrite qsum_map_qdiv.
      change (zsum (map_to_list (ss_map ss)).*2) with (ss_length ss).
      rewrite qdiv_self by done. rewrite isclose_one_1. cbn [passert mbind res_bind].
      split_and!; [done|done| | |].
      * intros g. by rewrite lookup_fmap.
      * rewrite qsum_map_qdiv. by apply qdiv_self.
      * intros g p. rewrite lookup_fmap. unfold probability_of, py_div.
        rewrite bool_decide_false by done.
        destruct (ss_map ss !! g); simpl; split; congruence.
Qed.

Lemma probability_of_spec ss g :
  match probability_of ss g with
  | Ok p => exists c, ss_map ss !! g = Some c /\ ss_length ss <> 0%Z /\ p = qdiv c (ss_length ss)
  | Err x => (x = AssertionError /\ ~ contains ss g) \/
             (x = ZeroDivisionError /\ contains ss g /\ ss_length ss = 0%Z)
  end.
Proof.
  unfold probability_of, contains, py_div. destruct (ss_map ss !! g) as [c|].
  - case_bool_decide.
    + right. split_and!; [done|by eexists|done].
    + by exists c.
  - left. split; [done|]. by intros [??].
Qed.

Lemma positive_le ss g c : pos_counts ss -> ss_map ss !! g = Some c -> (c <= ss_length ss)%Z.
Proof.
  intros Hp Hg. rewrite ss_length_msum, (msum_delete _ _ _ _ Hg).
  assert (0 <= msum (fun _ c => c) (delete g (ss_map ss)))%Z; [|lia].
  apply msum_nonneg. intros k a Hk%lookup_delete_Some. destruct Hk as [_ Hk]. specialize (Hp _ _ Hk). lia.
Qed.

Lemma probabilities_range ss m g p : pos_counts ss -> probabilities ss = Ok m -> m !! g = Some p ->
  (0 < p)%Qc /\ (p <= 1)%Qc.
Proof.
  intros Hp Hm Hg. pose proof (probabilities_spec ss) as Hs. rewrite Hm in Hs.
  destruct Hs as (_ & _ & Hl & _ & _). rewrite Hl in Hg.
  destruct (ss_map ss !! g) as [c|] eqn:Hc; simplify_eq/=.
  pose proof (positive_le ss g c Hp Hc). specialize (Hp _ _ Hc). split.
  - apply Qcnot_le_lt. rewrite qdiv_0, qdiv_le; lia.
  - rewrite qdiv_1, qdiv_le; lia.
Qed.

Lemma probabilities_ok ss : pos_counts ss -> ss_map ss <> ∅ -> exists m, probabilities ss = Ok m.
Proof.
  intros Hp Hne. pose proof (probabilities_spec ss) as Hs.
  destruct (probabilities ss) as [m|x]; [by eexists|].
  destruct Hs as [[_ Hs]|(_ & _ & Hs)]; [done|].
  apply map_choose in Hne as (g & c & Hg).
  pose proof (positive_le ss g c Hp Hg). specialize (Hp _ _ Hg). lia.
Qed.

Lemma C21_lemma ss : pos_counts ss -> ss_map ss <> ∅ ->
  exists m, probabilities ss = Ok m /\ dom m = ss_samples ss /\
    forall g p, m !! g = Some p -> (0 < p)%Qc /\ (p <= 1)%Qc.
Proof.
  intros Hp Hne. destruct (probabilities_ok ss Hp Hne) as [m Hm]. exists m. split_and!; [done| |].
  - pose proof (probabilities_spec ss) as Hs. rewrite Hm in Hs. destruct Hs as (_ & _ & Hl & _).
    apply set_eq. intros g. unfold ss_samples. rewrite !elem_of_dom, Hl. by rewrite fmap_is_Some.
  - intros g p. by apply (probabilities_range ss m).
Qed.

End multi_facts.
