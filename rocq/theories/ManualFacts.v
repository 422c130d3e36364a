(** * ManualFacts: the tables of manual_bayes_net_test (C68) *)

From Coq Require Import String.
From Verif Require Import SpecManual.
From Verif Require Import ActFacts.

Lemma mass_qmsum P x : mass P x = qmsum (fun k v => if P k then v else 0%Qc) x.
Proof. done. Qed.

Lemma single_union (a : string) (k : gset string) : a ∈ k -> {[a]} ∪ k = k.
Proof. intros H. apply set_eq. intros b. set_solver. Qed.

Lemma product_spec o r x k w : single_variable r -> one_value_of r x ->
  cpd_product o r x !! k = Some w <->
  exists a p c, a ∈ k /\ r !! {[a]} = Some p /\ x !! k = Some c /\ w = (p * c)%Qc.
Proof.
  intros Hr Hx. unfold cpd_product. revert k w.
  apply (for_each_map_ind (fun (m : table) (res : table) => forall k w, res !! k = Some w <->
    exists a p c, a ∈ k /\ m !! {[a]} = Some p /\ x !! k = Some c /\ w = (p * c)%Qc)).
  - intros k w. rewrite lookup_empty. split; [done|]. intros (a & p & c & _ & H & _). by rewrite lookup_empty in H.
  - intros m k1 v1 res o1 Hk1 Hnew Hsub IH. destruct (Hr k1 v1 Hk1) as [a1 ->].
    assert (forall k w, for_each (fun _ res '(k2, v2) =>
        if bool_decide ({[a1]} ∩ k2 = ∅) then res else <[{[a1]} ∪ k2 := (v1 * v2)%Qc]> res)
        (sub o1 0) res (iter_map (sub o1 1) x) !! k = Some w <->
      (exists c, x !! k = Some c /\ a1 ∈ k /\ w = (v1 * c)%Qc) \/ res !! k = Some w) as Hin.
    { apply (for_each_map_ind (fun (m2 : table) (res' : table) => forall k w, res' !! k = Some w <->
        (exists c, m2 !! k = Some c /\ a1 ∈ k /\ w = (v1 * c)%Qc) \/ res !! k = Some w)).
      - intros k w. split; [by right|]. intros [(c & H & _)|H]; [by rewrite lookup_empty in H|done].
      - intros m2 k2 v2 res' o2 Hk2 Hnew2 Hsub2 IH2 k w. case_bool_decide as Hd.
        + rewrite IH2. split; (intros [(c & Hc & Ha & Hw)|H]; [left|by right]).
          * exists c. split; [|done]. rewrite lookup_insert_ne; [done|]. intros <-. congruence.
          * destruct (decide (k2 = k)) as [->|Hne]; [|rewrite lookup_insert_ne in Hc by done; by exists c].
            exfalso. set_solver.
        + assert (a1 ∈ k2) as Ha1 by set_solver. rewrite (single_union a1 k2 Ha1).
          destruct (decide (k2 = k)) as [->|Hne].
          * rewrite !lookup_insert. split.
            -- intros [= <-]. left. by exists v2.
            -- intros [(c & [= ->] & _ & ->)|H]; [done|]. exfalso.
               apply IH in H as (a & p & c & Ha & Hp & Hc & _).
               assert (a = a1) as ->; [|congruence]. apply (Hx k c a a1); [|by exists v1|done|done|done].
               exists p. by apply (lookup_weaken m r).
          * rewrite !lookup_insert_ne by done. apply IH2. }
    intros k w. rewrite Hin, IH. split.
    + intros [(c & Hc & Ha & ->)|(a & p & c & Ha & Hp & Hc & ->)].
      * exists a1, v1, c. split_and!; [done|by rewrite lookup_insert|done|done].
      * exists a, p, c. split_and!; [done| |done|done]. rewrite lookup_insert_ne; [done|]. intros [= ->]%singleton_inj. congruence.
    + intros (a & p & c & Ha & Hp & Hc & ->). destruct (decide (a1 = a)) as [->|Hne].
      * rewrite lookup_insert in Hp. injection Hp as ->. left. by exists c.
      * right. exists a, p, c. rewrite lookup_insert_ne in Hp; [done|]. intros [= ->]%singleton_inj. done.
Qed.

Lemma joint_spec o roots child k w : Forall single_variable roots -> Forall (fun r => one_value_of r child) roots ->
  joint_factor o roots child !! k = Some w <-> exists p c, weighs roots k p /\ child !! k = Some c /\ w = (p * c)%Qc.
Proof.
  revert o k w. induction roots as [|r rs IH]; intros o k w Hs Ho; cbn [joint_factor].
  - split.
    + intros H. exists 1%Qc, w. split_and!; [constructor|done|]. ring.
    + intros (p & c & Hw & Hc & ->). inversion Hw. subst. rewrite Hc. f_equal. ring.
  - apply Forall_cons in Hs as [Hs1 Hs2], Ho as [Ho1 Ho2]. specialize (IH (sub o 1)).
    rewrite product_spec; [|done|].
    + split.
      * intros (a & p & c & Ha & Hp & Hc & ->). apply IH in Hc as (q & d & Hq & Hd & ->); [|done|done].
        exists (p * q)%Qc, d. split_and!; [by apply (weighs_cons r rs k a)|done|]. ring.
      * intros (pq & c & Hw & Hc & ->). inversion Hw as [|? ? ? a p q Ha Hp Hq]; subst.
        exists a, p, (q * c)%Qc. split_and!; [done|done| |ring]. apply IH; [done|done|]. by exists q, c.
    + intros k' c a b Ha Hb Hc. apply IH in Hc as (q & d & _ & Hd & _); [|done|done]. by apply (Ho1 k' d).
Qed.

Lemma weighs_det roots child k c p q : Forall (fun r => one_value_of r child) roots -> child !! k = Some c ->
  weighs roots k p -> weighs roots k q -> p = q.
Proof.
  intros Ho Hc Hp. revert q. induction Hp as [k|r rs k a p q' Ha Hr Hw IH]; intros q Hq; inversion Hq as [|? ? ? b p2 q2 Hb Hr2 Hw2]; subst; [done|].
  apply Forall_cons in Ho as [Ho1 Ho2]. assert (a = b) as <- by (apply (Ho1 k c a b); [by exists p|by exists p2|done|done|done]).
  rewrite Hr in Hr2. injection Hr2 as <-. f_equal. by apply IH.
Qed.

(** ** Evidence *)

Lemma select_lookup x v k w : select_value x v !! k = Some w <-> x !! k = Some w /\ v ∈ k.
Proof. unfold select_value. by rewrite map_filter_lookup_Some. Qed.

Lemma one_value_select r x v : one_value_of r x -> one_value_of r (select_value x v).
Proof. intros H k c a b Ha Hb [Hc _]%select_lookup. by apply (H k c). Qed.

Lemma select_child o o' roots child v : Forall single_variable roots -> Forall (fun r => one_value_of r child) roots ->
  joint_factor o roots (select_value child v) = select_value (joint_factor o' roots child) v.
Proof.
  intros Hs Ho. apply map_eq. intros k. apply option_eq. intros w. rewrite select_lookup, !joint_spec; [|done..|].
  - setoid_rewrite select_lookup. naive_solver.
  - eapply Forall_impl; [done|]. intros r. apply one_value_select.
Qed.

Lemma select_prior o o' rs1 r rs2 child v : Forall single_variable (rs1 ++ r :: rs2) ->
  Forall (fun r => one_value_of r child) (rs1 ++ r :: rs2) -> is_Some (r !! {[v]}) ->
  joint_factor o (rs1 ++ select_value r v :: rs2) child = select_value (joint_factor o' (rs1 ++ r :: rs2) child) v.
Proof.
  intros Hs Ho Hv. apply map_eq. intros k. apply option_eq. intros w.
  assert (forall k p, weighs (rs1 ++ select_value r v :: rs2) k p -> weighs (rs1 ++ r :: rs2) k p /\ v ∈ k) as H1.
  { clear. induction rs1 as [|r1 rs1 IH]; intros k p Hw; inversion Hw as [|? ? ? a p' q Ha Hp Hq]; subst.
    - apply select_lookup in Hp as [Hp ->%elem_of_singleton]. split; [by apply (weighs_cons r rs2 k a)|done].
    - apply IH in Hq as [Hq ?]. split; [by apply (weighs_cons r1 _ k a)|done]. }
  assert (forall c p, child !! k = Some c -> v ∈ k -> weighs (rs1 ++ r :: rs2) k p -> weighs (rs1 ++ select_value r v :: rs2) k p) as H2.
  { intros c p Hc Hvk. apply Forall_app in Ho as [_ [Ho _]%Forall_cons]. clear Hs H1. revert p.
    induction rs1 as [|r1 rs1 IH]; intros p Hw; inversion Hw as [|? ? ? a p' q Ha Hp Hq]; subst.
    - apply (weighs_cons (select_value r v) rs2 k a); [done| |done]. apply select_lookup. split; [done|].
      rewrite (Ho k c v a); [by apply elem_of_singleton|done|by exists p'|done|done|done].
    - apply (weighs_cons r1 (rs1 ++ select_value r v :: rs2) k a); [done|done|]. by apply IH. }
  rewrite select_lookup, (joint_spec o'), joint_spec; [| | |done|done].
  - split.
    + intros (p & c & [Hw Hvk]%H1 & Hc & ->). split; [by exists p, c|done].
    + intros [(p & c & Hw & Hc & ->) Hvk]. exists p, c. split_and!; [by apply (H2 c)|done|done].
  - apply Forall_app in Hs as [Hs1 [Hs2 Hs3]%Forall_cons]. apply Forall_app. split; [done|]. constructor; [|done].
    intros k' p [Hk _]%select_lookup. by apply (Hs2 k' p).
  - apply Forall_app in Ho as [Ho1 [Ho2 Ho3]%Forall_cons]. apply Forall_app. split; [done|]. constructor; [|done].
    intros k' c a b [p [Ha _]%select_lookup] [q [Hb _]%select_lookup]. apply Ho2; [by exists p|by exists q].
Qed.

(** ** Normalising and marginals *)

Lemma qmsum_scale (f : gset string -> Qc -> Qc) (s : Qc) (x : table) :
  qmsum (fun k v => (f k v * s)%Qc) x = (qmsum f x * s)%Qc.
Proof.
  induction x as [|k v x Hk IH] using map_ind; [rewrite !qmsum_empty; ring|].
  rewrite !qmsum_insert, IH by done. ring.
Qed.

Lemma qmsum_fmap (f : gset string -> Qc -> Qc) (g : Qc -> Qc) (x : table) :
  qmsum f (g <$> x) = qmsum (fun k v => f k (g v)) x.
Proof.
  induction x as [|k v x Hk IH] using map_ind; [by rewrite fmap_empty, !qmsum_empty|].
  rewrite fmap_insert, !qmsum_insert, IH; [done|done|]. by rewrite lookup_fmap, Hk.
Qed.

Lemma mass_all x : mass any_key x = qsum (map_to_list x).*2.
Proof. done. Qed.

Lemma mass_norm P x (s : Qc) : mass P ((fun v => (v / s)%Qc) <$> x) = (mass P x / s)%Qc.
Proof.
  rewrite !mass_qmsum, qmsum_fmap. unfold Qcdiv. rewrite <- qmsum_scale. apply qmsum_ext. intros k v _.
  destruct (P k); [done|ring].
Qed.

Lemma norm_spec x :
  match norm x with
  | Ok y => (x = ∅ \/ mass any_key x <> 0%Qc) /\
      (forall k w, y !! k = Some w <-> exists v, x !! k = Some v /\ w = (v / mass any_key x)%Qc) /\
      (forall P, mass P y = (mass P x / mass any_key x)%Qc) /\ (x <> ∅ -> mass any_key y = 1%Qc)
  | Err e => e = ZeroDivisionError /\ x <> ∅ /\ mass any_key x = 0%Qc
  end.
Proof.
  unfold norm. rewrite <- mass_all. case_bool_decide as Hx; case_bool_decide as Ht; cbn [andb]; [done|..].
  all: split_and!; [tauto| |intros P; apply mass_norm|].
  1,3,5: intros k w; rewrite lookup_fmap, fmap_Some; done.
  all: intros Hne; try (exfalso; tauto). rewrite mass_norm. by apply Qcmult_inv_r.
Qed.

Lemma substring_split (e : string) : forall n m, exists a b, e = (a ++ substring n m e ++ b)%string.
Proof.
  induction e as [|c e IH]; intros n m.
  - exists ""%string, ""%string. destruct n, m; done.
  - destruct n as [|n].
    + destruct m as [|m]; [exists ""%string, (String c e); done|].
      assert (exists b, e = (substring 0 m e ++ b)%string) as [b Hb].
      { clear. revert m. induction e as [|d e IH]; intros m; [exists ""%string; by destruct m|].
        destruct m as [|m]; [by exists (String d e)|]. destruct (IH m) as [b Hb]. exists b. exact (f_equal (String d) Hb). }
      exists ""%string, b. exact (f_equal (String c) Hb).
    + destruct (IH n m) as (a & b & Hab). exists (String c a), b. exact (f_equal (String c) Hab).
Qed.
Lemma substring_app (a var b : string) : substring (String.length a) (String.length var) (a ++ var ++ b) = var.
Proof.
  induction a as [|c a IH]; [|exact IH]. induction var as [|c var IH]; [by destruct b|]. exact (f_equal (String c) IH).
Qed.
Lemma str_in_spec (var e : string) : str_in var e = true <-> name_has var e.
Proof.
  unfold str_in. split.
  - destruct (String.index 0 var e) as [m|] eqn:E; [|done]. intros _. apply String.index_correct1 in E.
    destruct (substring_split e m (String.length var)) as (a & b & Hab). rewrite E in Hab. by exists a, b.
  - intros (a & b & ->). destruct (String.index 0 var _) as [m|] eqn:E; [done|]. exfalso.
    destruct (decide (var = ""%string)) as [->|Hne].
    + apply String.index_correct4 in E. lia.
    + apply (String.index_correct3 0 (String.length a)) in E; [|done|lia]. by rewrite substring_app in E.
Qed.

Lemma margin_spec o x var e p : one_named var x ->
  margin o x var !! e = Some p <->
  (exists k c, x !! k = Some c /\ e ∈ k) /\ name_has var e /\ p = mass (with_value e) x.
Proof.
  intros Hn. unfold one_named in Hn. setoid_rewrite <- str_in_spec in Hn. rewrite <- str_in_spec. unfold margin.
  revert e p.
  apply (for_each_map_ind (fun (m : table) (res : gmap string Qc) => forall e p, res !! e = Some p <->
    (exists k c, m !! k = Some c /\ e ∈ k) /\ str_in var e = true /\ p = mass (with_value e) m)).
  - intros e p. rewrite lookup_empty. split; [done|]. intros [(k & c & H & _) _]. by rewrite lookup_empty in H.
  - intros m k v res o' Hk Hnew Hsub IH. destruct (Hn k v Hk) as [e0 He0].
    assert (filter (fun e => str_in var e = true) (iter_set o' k) = [e0]) as ->.
    { assert (NoDup (filter (fun e => str_in var e = true) (iter_set o' k))) as Hnd by apply NoDup_filter, NoDup_iter_set.
      assert (forall e, e ∈ filter (fun e => str_in var e = true) (iter_set o' k) <-> e = e0) as Hel.
      { intros e. rewrite elem_of_list_filter, elem_of_iter_set, <- He0. tauto. }
      apply Permutation_singleton_r. apply NoDup_Permutation; [done|apply NoDup_singleton|]. intros e. by rewrite Hel, elem_of_list_singleton. }
    destruct (proj2 (He0 e0) eq_refl) as [Hin0 Hs0].
    assert (forall e, mass (with_value e) (<[k := v]> m) = ((if with_value e k then v else 0) + mass (with_value e) m)%Qc) as Hm.
    { intros e. rewrite !mass_qmsum. by rewrite qmsum_insert. }
    intros e p. destruct (decide (e0 = e)) as [<-|Hne].
    + rewrite lookup_insert. rewrite Hm. unfold with_value at 1. rewrite bool_decide_true by done.
      assert (default 0%Qc (res !! e0) = mass (with_value e0) m) as ->.
      { destruct (res !! e0) as [q|] eqn:Eq; [by apply IH in Eq as (_ & _ & ->)|]. simpl. symmetry. rewrite mass_qmsum.
        apply qmsum_zero. intros k' c Hk'. unfold with_value. case_bool_decide as Hin; [|done]. exfalso.
        assert (res !! e0 = Some (mass (with_value e0) m)) as H; [|congruence]. apply IH. split; [by exists k', c|done]. }
      split.
      * intros [= <-]. split_and!; [exists k, v; split; [by rewrite lookup_insert|done]|done|]. ring.
      * intros (_ & _ & ->). f_equal. ring.
    + rewrite lookup_insert_ne by done. rewrite IH, Hm. split.
      * intros ((k' & c & Hk' & Hin) & Hs & ->). split_and!; [|done|].
        -- exists k', c. split; [|done]. rewrite lookup_insert_ne; [done|]. intros <-. congruence.
        -- unfold with_value at 2. rewrite bool_decide_false; [ring|]. intros He. apply Hne. symmetry. by apply He0.
      * intros ((k' & c & Hk' & Hin) & Hs & ->). assert (k <> k') as Hkk.
        { intros <-. apply Hne. symmetry. by apply He0. }
        rewrite lookup_insert_ne in Hk' by done. split_and!; [by exists k', c|done|].
        unfold with_value at 1. rewrite bool_decide_false; [ring|]. intros He. apply Hne. symmetry. by apply He0.
Qed.

(** ** The two together *)

Lemma mass_select P x v : mass P (select_value x v) = mass (fun k => P k && with_value v k) x.
Proof.
  rewrite !mass_qmsum. unfold select_value. induction x as [|k c x Hk IH] using map_ind; [by rewrite map_filter_empty, !qmsum_empty|].
  rewrite (qmsum_insert _ x) by done. rewrite <- IH. unfold with_value at 1. destruct (decide (v ∈ k)) as [Hv|Hv].
  - rewrite bool_decide_true by done. rewrite andb_true_r. rewrite map_filter_insert_True by done.
    apply qmsum_insert. apply map_filter_lookup_None. by left.
  - rewrite bool_decide_false by done. rewrite andb_false_r. rewrite map_filter_insert_False by done.
    rewrite delete_notin by done. ring.
Qed.

Lemma conditional o x v var e p y : one_named var x -> norm (select_value x v) = Ok y ->
  margin o y var !! e = Some p <->
  (exists k c, x !! k = Some c /\ e ∈ k /\ v ∈ k) /\ name_has var e /\
  p = (mass (fun k => with_value e k && with_value v k) x / mass (with_value v) x)%Qc.
Proof.
  intros Hn Hy. pose proof (norm_spec (select_value x v)) as Hs. rewrite Hy in Hs. destruct Hs as (_ & Hl & Hm & _).
  rewrite margin_spec.
  - rewrite Hm, !mass_select. assert (mass (fun k => any_key k && with_value v k) x = mass (with_value v) x) as -> by done. split.
    + intros ((k & c & Hk & He) & Hr). split; [|done]. apply Hl in Hk as (c' & [Hk Hv]%select_lookup & _). by exists k, c'.
    + intros ((k & c & Hk & He & Hv) & Hr). split; [|done]. eexists k, _. split; [|done]. apply Hl. exists c. split; [by apply select_lookup|done].
  - intros k c Hk. apply Hl in Hk as (c' & [Hk Hv]%select_lookup & _). by apply (Hn k c').
Qed.

Lemma norm_scaled (x : table) (s : Qc) : s <> 0%Qc -> norm ((fun v => (s * v)%Qc) <$> x) = norm x.
Proof.
  intros Hs. unfold norm. rewrite <- !mass_all.
  assert (mass any_key ((fun v => (s * v)%Qc) <$> x) = (s * mass any_key x)%Qc) as ->.
  { rewrite !mass_qmsum, qmsum_fmap. rewrite (Qcmult_comm s), <- qmsum_scale. apply qmsum_ext. intros k v _. simpl. ring. }
  set (t := mass any_key x).
  assert ((s * t = 0)%Qc <-> t = 0%Qc) as Ht.
  { split; [intros [H|H]%Qcmult_integral; [done|done]|intros ->; ring]. }
  assert ((fun v => (s * v)%Qc) <$> x <> ∅ <-> x <> ∅) as Hx by (by rewrite fmap_empty_iff).
  rewrite (bool_decide_ext _ _ Hx), (bool_decide_ext _ _ Ht). destruct (_ && _) eqn:Eb; [done|]. f_equal.
  rewrite <- map_fmap_compose. destruct (decide (x = ∅)) as [->|Hne]; [by rewrite !fmap_empty|].
  apply map_fmap_ext. intros k v _. simpl. rewrite bool_decide_true in Eb by done. simpl in Eb. apply bool_decide_eq_false in Eb.
  field. done.
Qed.

Lemma select_fmap (g : Qc -> Qc) x v : select_value (g <$> x) v = g <$> select_value x v.
Proof.
  apply map_eq. intros k. apply option_eq. intros w. rewrite select_lookup, !lookup_fmap, !fmap_Some.
  setoid_rewrite select_lookup. naive_solver.
Qed.

Lemma norm_select_norm x v y : norm x = Ok y -> mass any_key x <> 0%Qc -> norm (select_value y v) = norm (select_value x v).
Proof.
  intros Hy Ht. unfold norm in Hy. rewrite <- mass_all in Hy. rewrite (bool_decide_false (mass _ _ = _)) in Hy by done. rewrite andb_false_r in Hy.
  injection Hy as <-. rewrite select_fmap. rewrite <- (norm_scaled (select_value x v) (/ mass any_key x)%Qc).
  - f_equal. apply map_fmap_ext. intros k w _. unfold Qcdiv. ring.
  - intros H. pose proof (Qcmult_inv_r _ Ht) as H1. rewrite H, Qcmult_0_r in H1. discriminate H1.
Qed.

Lemma second_evidence o r y v p : single_variable r -> one_value_of r y -> r !! {[v]} = Some p -> p <> 0%Qc ->
  norm (cpd_product o (select_value r v) y) = norm (select_value y v).
Proof.
  intros Hs Ho Hv Hp. rewrite <- (norm_scaled (select_value y v) p Hp). f_equal.
  apply map_eq. intros k. apply option_eq. intros w. rewrite product_spec.
  - rewrite lookup_fmap, fmap_Some. setoid_rewrite select_lookup. split.
    + intros (a & p' & c & Ha & [Hp' Hva%elem_of_singleton] & Hc & ->). subst a. rewrite Hv in Hp'. injection Hp' as <-. by exists c.
    + intros (c & [Hc Hvk] & ->). exists v, p, c. split_and!; [done|done|by apply elem_of_singleton|done|done].
  - intros k' p' [Hk _]%select_lookup. by apply (Hs k' p').
  - intros k' c a b [p1 [Ha _]%select_lookup] [p2 [Hb _]%select_lookup]. apply Ho; [by exists p1|by exists p2].
Qed.

(** ** Marginals lose nothing *)

Lemma qmsum_update (m : gmap string Qc) (e : string) (v : Qc) :
  qmsum (fun _ q => q) (<[e := (default 0 (m !! e) + v)%Qc]> m) = (v + qmsum (fun _ q => q) m)%Qc.
Proof.
  destruct (m !! e) as [d|] eqn:E; simpl.
  - rewrite <- (insert_delete m e d E) at 2. rewrite <- insert_delete_insert, !qmsum_insert by apply lookup_delete. ring.
  - rewrite qmsum_insert by done. ring.
Qed.

Lemma margin_total o x var : (forall k c, x !! k = Some c -> exists e, e ∈ k /\ name_has var e) ->
  qsum (snd <$> map_to_list (margin o x var)) = mass any_key x.
Proof.
  intros Hn. setoid_rewrite <- str_in_spec in Hn. change (qmsum (fun (_ : string) (q : Qc) => q) (margin o x var) = mass any_key x).
  unfold margin. apply (for_each_map_ind (fun (m : table) (res : gmap string Qc) => qmsum (fun (_ : string) (q : Qc) => q) res = mass any_key m)).
  - by rewrite qmsum_empty, mass_qmsum, qmsum_empty.
  - intros m k v res o' Hk Hnew _ IH. rewrite mass_qmsum, qmsum_insert by done. rewrite <- mass_qmsum, <- IH.
    destruct (Hn k v Hk) as (e0 & Hin & Hs).
    assert (e0 ∈ filter (fun e => str_in var e = true) (iter_set o' k)) as Hel by (apply elem_of_list_filter; split; [done|by apply elem_of_iter_set]).
    destruct (filter _ _) as [|e l]; [by apply elem_of_nil in Hel|]. apply qmsum_update.
Qed.

Lemma mass_root o r x e p : single_variable r -> one_value_of r x -> r !! {[e]} = Some p ->
  mass (with_value e) (cpd_product o r x) = (p * mass (with_value e) x)%Qc.
Proof.
  intros Hs Ho He.
  assert (forall y, mass (with_value e) y = mass any_key (select_value y e)) as Hsel by (intros y; by rewrite mass_select).
  rewrite !Hsel. assert (select_value (cpd_product o r x) e = (fun v => (p * v)%Qc) <$> select_value x e) as ->.
  { apply map_eq. intros k. apply option_eq. intros w. rewrite select_lookup, product_spec by done.
    rewrite lookup_fmap, fmap_Some. setoid_rewrite select_lookup. split.
    - intros [(a & q & c & Ha & Hq & Hc & ->) Hk]. assert (a = e) as -> by (apply (Ho k c); [by exists q|by exists p|done|done|done]).
      rewrite He in Hq. injection Hq as <-. by exists c.
    - intros (c & [Hc Hk] & ->). split; [by exists e, p, c|done]. }
  rewrite !mass_qmsum, qmsum_fmap, (Qcmult_comm p), <- qmsum_scale. apply qmsum_ext. intros k v _. simpl. ring.
Qed.
