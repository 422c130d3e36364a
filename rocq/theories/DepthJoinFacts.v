(** * DepthJoinFacts: nested calls while joining (C66) *)

From Coq Require Import Lia.
From Verif Require Export DepthJoin ElimFacts.

Section depth_join_facts.
Context {U : Universe}.

(** ** A limit changes nothing but that RecursionError may be raised *)

Definition same_or_deep {A} (x y : res A) : Prop := x = y \/ x = Err OutOfFuel.

Lemma sod_refl {A} (x : res A) : same_or_deep x x.
Proof. by left. Qed.

Lemma sod_bind {A B} (x y : res A) (f g : A -> res B) :
  same_or_deep x y -> (forall a, same_or_deep (f a) (g a)) -> same_or_deep (x ≫= f) (y ≫= g).
Proof. intros [->| ->] H; [|by right]. destruct y as [a|e]; [apply H|by left]. Qed.

Lemma sod_map_res {A B} (f g : oracle -> A -> res B) o l :
  (forall o x, same_or_deep (f o x) (g o x)) -> same_or_deep (map_res f o l) (map_res g o l).
Proof.
  intros H. revert o. induction l as [|x l IH]; intros o; simpl; [by left|].
  destruct (H (sub o 1) x) as [->| ->]; [|by right]. destruct (g (sub o 1) x) as [y|e]; [|by left].
  destruct (IH (sub o 0)) as [->| ->]; [by left|by right].
Qed.

Lemma sod_for_res {S A} (f g : oracle -> S -> A -> res S) o s l :
  (forall o s x, same_or_deep (f o s x) (g o s x)) -> same_or_deep (for_res f o s l) (for_res g o s l).
Proof.
  intros H. revert o s. induction l as [|x l IH]; intros o s; simpl; [by left|].
  destruct (H (sub o 1) s x) as [->| ->]; [|by right]. destruct (g (sub o 1) s x) as [y|e]; [|by left]. apply IH.
Qed.

Lemma jss_cases k o l : same_or_deep (join_sample_set_within k o l) (join_sample_set o l).
Proof.
  revert o l. induction k as [|k IH]; intros o l; [by right|].
  destruct l as [|a [|b l]]; [by left..|].
  change (same_or_deep (r ← join_sample_set_within k (sub o 0) (b :: l); ss_union (sub o 1) a r)
    (r ← join_sample_set (sub o 0) (b :: l); ss_union (sub o 1) a r)).
  apply sod_bind; [apply IH|]. intros r. apply sod_refl.
Qed.

Lemma jf_cases k o cp l acc : same_or_deep (join_factors_within k o cp l acc) (join_factors o cp l acc).
Proof.
  revert o l acc. induction k as [|k IH]; intros o l acc; [by right|].
  destruct l as [|m l]; [by left|]. cbn [join_factors_within join_factors]. apply sod_bind.
  - apply sod_map_res. intros o' [g c]. destruct (ssb_add acc (Sample (cp_id cp) g) c) as [a [?|?]]; [apply IH|by left].
  - intros r. apply jss_cases.
Qed.

Lemma jv_cases k o cp F v vals : same_or_deep (join_variable_within k o cp F v vals) (join_variable o cp F v vals).
Proof.
  unfold join_variable_within, join_variable. apply sod_bind; [|intros; apply sod_refl].
  apply sod_for_res. intros o' s x. apply sod_bind; [apply jf_cases|intros; apply sod_refl].
Qed.

Lemma make_joined_cases k o sp : make_joined_within k o sp = make_joined o sp \/ make_joined_within k o sp = Err OutOfFuel.
Proof.
  unfold make_joined_within, make_joined. apply sod_bind; [apply sod_refl|]. intros F.
  apply sod_bind; [|intros; apply sod_refl]. apply sod_for_res. intros o' s [v X]. apply jv_cases.
Qed.

Lemma group_loop_mono k j o acc r : (k <= j)%nat -> group_loop k o acc = Ok r -> group_loop j o acc = Ok r.
Proof.
  revert j o acc. induction k as [|k IH]; intros j o acc Hj; [done|]. destruct j as [|j]; [lia|].
  cbn [group_loop]. destruct (find_pair _) as [[ka kb]|]; [|done]. apply IH. lia.
Qed.

Lemma group_loop_err k o acc x : group_loop k o acc = Err x -> x = OutOfFuel.
Proof.
  revert o acc. induction k as [|k IH]; intros o acc; cbn [group_loop]; [by intros [= <-]|].
  destruct (find_pair _) as [[ka kb]|]; [apply IH|done].
Qed.

Lemma group_loop_cases k o acc : same_or_deep (group_loop k o acc) (group_loop (S (size acc)) o acc).
Proof.
  destruct (group_loop k o acc) as [r|x] eqn:E; [|right; by rewrite (group_loop_err _ _ _ _ E)]. left. symmetry.
  destruct (group_loop_total (S (size acc)) o acc ltac:(lia)) as [r' Hr'].
  pose proof (group_loop_mono k (k + S (size acc)) _ _ _ ltac:(lia) E) as H1.
  pose proof (group_loop_mono (S (size acc)) (k + S (size acc)) _ _ _ ltac:(lia) Hr') as H2. congruence.
Qed.

Lemma group_cases k o ss : group_intersecting_within k o ss = group_intersecting o ss \/
  group_intersecting_within k o ss = Err OutOfFuel.
Proof.
  unfold group_intersecting_within, group_intersecting. apply sod_bind; [apply group_loop_cases|].
  intros; apply sod_refl.
Qed.

Lemma cross_cases k o cp gs j : same_or_deep (cross_join_within k o cp gs j) (cross_join o cp gs j).
Proof.
  revert o gs j. induction k as [|k IH]; intros o gs j; [by right|].
  destruct gs as [|g0 gs]; [by left|]. cbn [cross_join_within cross_join]. apply sod_for_res.
  intros o' ssb [g c]. destruct (ssb_add j (sample_of g0 g) c) as [a [?|?]]; [|by left].
  apply sod_bind; [apply IH|intros; apply sod_refl].
Qed.

Lemma joined_on_cases k o sp X : joined_on_variables_within k o sp X = joined_on_variables o sp X \/
  joined_on_variables_within k o sp X = Err OutOfFuel.
Proof.
  unfold joined_on_variables_within, joined_on_variables. apply sod_bind; [|intros; apply sod_refl].
  apply sod_for_res. intros o' s v. unfold join_on_within, join_on. apply sod_bind; [apply group_cases|].
  intros G. apply sod_bind; [apply cross_cases|intros; apply sod_refl].
Qed.

(** ** When the limit is large enough *)

Lemma jss_enough k o l : (length l <= k)%nat -> (0 < k)%nat -> join_sample_set_within k o l = join_sample_set o l.
Proof.
  revert o l. induction k as [|k IH]; intros o l Hl Hk; [lia|].
  destruct l as [|a [|b l]]; [done..|].
  change ((r ← join_sample_set_within k (sub o 0) (b :: l); ss_union (sub o 1) a r) =
    (r ← join_sample_set (sub o 0) (b :: l); ss_union (sub o 1) a r)).
  rewrite IH; [done|..]; simpl in *; lia.
Qed.

Lemma jss_needs k o l r : join_sample_set_within k o l = Ok r -> (length l <= k)%nat.
Proof.
  revert o l r. induction k as [|k IH]; intros o l r; [done|].
  destruct l as [|a [|b l]]; [simpl; lia..|].
  change ((r ← join_sample_set_within k (sub o 0) (b :: l); ss_union (sub o 1) a r) = Ok r -> (length (a :: b :: l) <= S k)%nat).
  destruct (join_sample_set_within k (sub o 0) (b :: l)) as [r'|] eqn:E; [|done]. intros _. apply IH in E. simpl in *. lia.
Qed.

Lemma map_res_ext {A B} (f g : oracle -> A -> res B) o l :
  (forall o x, f o x = g o x) -> map_res f o l = map_res g o l.
Proof.
  intros H. revert o. induction l as [|x l IH]; intros o; simpl; [done|]. rewrite H.
  destruct (g (sub o 1) x); [|done]. by rewrite IH.
Qed.

Lemma for_res_ext' {S A} (f g : oracle -> S -> A -> res S) o s l :
  (forall o s x, f o s x = g o s x) -> for_res f o s l = for_res g o s l.
Proof.
  intros H. revert o s. induction l as [|x l IH]; intros o s; simpl; [done|]. rewrite H.
  destruct (g (sub o 1) s x); [|done]. by rewrite IH.
Qed.

Lemma map_res_length {A B} (f : oracle -> A -> res B) o l r : map_res f o l = Ok r -> length r = length l.
Proof.
  revert o r. induction l as [|x l IH]; intros o r; simpl; [by intros [= <-]|].
  destruct (f (sub o 1) x) as [y|]; [|done]. destruct (map_res f (sub o 0) l) as [ys|] eqn:E; [|done].
  intros [= <-]. simpl. by rewrite (IH _ _ E).
Qed.

Lemma iter_map_length {K A} `{Countable K} o (m : gmap K A) : length (iter_map o m) = size m.
Proof.
  transitivity (length (map_to_list m)); [|done]. apply Permutation_length, NoDup_Permutation.
  - apply (NoDup_fmap_1 fst), NoDup_fst_iter_map.
  - apply NoDup_map_to_list.
  - intros [k a]. by rewrite elem_of_iter_map, elem_of_map_to_list.
Qed.

Lemma jf_enough k o cp l acc : (length l < k)%nat -> (forall m, m ∈ l -> length l + size m <= k)%nat ->
  join_factors_within k o cp l acc = join_factors o cp l acc.
Proof.
  revert o l acc. induction k as [|k IH]; intros o l acc Hl Hm; [lia|].
  destruct l as [|m l]; [done|]. cbn [join_factors_within join_factors].
  rewrite (map_res_ext _ (fun o' '(g, c) =>
                match ssb_add acc (Sample (cp_id cp) g) c with
                | (_, Err e) => Err e
                | (a, Ok _) => join_factors o' cp l a
                end)).
  2:{ intros o' [g c]. destruct (ssb_add acc (Sample (cp_id cp) g) c) as [a [?|?]]; [|done]. apply IH.
      - simpl in Hl. lia.
      - intros m' Hm'. specialize (Hm m' ltac:(by right)). simpl in Hm. lia. }
  destruct (map_res _ _ _) as [r|e] eqn:E; [|done]. cbn [mbind res_bind].
  apply map_res_length in E. rewrite iter_map_length in E. specialize (Hm m ltac:(left)). simpl in *.
  apply jss_enough; lia.
Qed.

Lemma jf_needs k o cp l acc r : (forall m, m ∈ l -> m <> ∅) -> join_factors_within k o cp l acc = Ok r ->
  (length l < k)%nat /\ (forall m, m ∈ l -> size m < k)%nat.
Proof.
  revert o l acc r. induction k as [|k IH]; intros o l acc r Hne; [done|].
  destruct l as [|m l].
  { intros _. split; [simpl; lia|]. by intros m ?%elem_of_nil. }
  cbn [join_factors_within].
  destruct (map_res _ _ _) as [rs|e] eqn:E; [|done]. cbn [mbind res_bind]. intros Hr.
  pose proof (map_res_length _ _ _ _ E) as Hlen. rewrite iter_map_length in Hlen. apply jss_needs in Hr.
  assert (size m <> 0)%nat as Hm0.
  { intros H0. apply (Hne m ltac:(left)). by apply map_size_empty_inv. }
  pose proof (iter_map_length (sub o 1) m) as Hil.
  destruct (iter_map (sub o 1) m) as [|[g c] its]; [simpl in Hil; lia|]. simpl in E.
  destruct (ssb_add acc (Sample (cp_id cp) g) c) as [a [?|?]]; [|done].
  destruct (join_factors_within k (sub (sub o 0) 1) cp l a) as [r1|] eqn:E1; [|done].
  apply IH in E1 as [H1 H2]; [|intros m' Hm'; apply Hne; by right].
  split; [simpl; lia|]. intros m' [->|Hm']%elem_of_cons; [lia|]. specialize (H2 m' Hm'). lia.
Qed.

Lemma cross_enough k o cp gs j : (length gs < k)%nat -> cross_join_within k o cp gs j = cross_join o cp gs j.
Proof.
  revert o gs j. induction k as [|k IH]; intros o gs j Hk; [lia|].
  destruct gs as [|g0 gs]; [done|]. cbn [cross_join_within cross_join]. apply for_res_ext'.
  intros o' ssb [g c]. destruct (ssb_add j (sample_of g0 g) c) as [a [?|?]]; [|done].
  rewrite IH; [done|]. simpl in Hk. lia.
Qed.

Lemma cross_needs k o cp gs j r : (forall g, g ∈ gs -> ss_map g <> ∅) -> cross_join_within k o cp gs j = Ok r ->
  (length gs < k)%nat.
Proof.
  revert o gs j r. induction k as [|k IH]; intros o gs j r Hne; [done|].
  destruct gs as [|g0 gs]; [simpl; lia|]. cbn [cross_join_within]. unfold ss_items.
  assert (size (ss_map g0) <> 0)%nat as Hm0.
  { intros H0. apply (Hne g0 ltac:(left)). by apply map_size_empty_inv. }
  pose proof (iter_map_length (sub o 1) (ss_map g0)) as Hil.
  destruct (iter_map (sub o 1) (ss_map g0)) as [|[g c] its]; [simpl in Hil; lia|]. cbn [for_res].
  destruct (ssb_add j (sample_of g0 g) c) as [a [?|?]]; [|done].
  destruct (cross_join_within k _ cp gs a) as [r1|] eqn:E1; [|done]. intros _.
  apply IH in E1; [simpl; lia|]. intros m' Hm'. apply Hne. by right.
Qed.

Lemma group_enough k o ss : (size (group_init (sub o 0) ss) < k)%nat ->
  group_intersecting_within k o ss = group_intersecting o ss.
Proof.
  intros Hk. destruct (group_cases k o ss) as [H|H]; [done|]. exfalso. revert H.
  unfold group_intersecting_within. destruct (group_loop_total k (sub o 1) _ Hk) as [r ->]. cbn [mbind res_bind].
  destruct (for_res _ _ _ _) as [g|e] eqn:E; cbn [mbind res_bind].
  - by case_bool_decide.
  - intros [= ->]. revert E. set (P := fun x : exn => x <> OutOfFuel).
    assert (forall (l : list (gkey * gmap graph Z)) o' (s : gmap (gset Var) samples),
      for_res (fun (_ : oracle) (m : gmap (gset Var) samples) '(k0, sm) =>
        vs ← key_vars k0; Ok (<[vs:=Samples (ss_cp ss) sm]> m)) o' s l <> Err OutOfFuel) as Hl; [|by apply Hl].
    induction l as [|[k0 sm] l IH]; intros o' s; simpl; [done|].
    destruct (key_vars k0) as [vs|e] eqn:Ek; cbn [mbind res_bind]; [apply IH|].
    intros [= ->]. revert Ek. unfold key_vars.
    assert (forall (l : list (Var + gset Var)) o', map_res (fun (_ : oracle) x =>
        match x with
        | inr X => Ok (elements X)
        | inl v => match var_iter v with Some l => Ok l | None => Err TypeError end
        end) o' l <> Err OutOfFuel) as Hm.
    { clear. induction l as [|x l IH]; intros o'; simpl; [done|].
      destruct x as [v|X]; [destruct (var_iter v); [|done]|]; specialize (IH (sub o' 0)); destruct (map_res _ _ l); congruence. }
    specialize (Hm (elements k0) (fun _ => [])). destruct (map_res _ _ _); cbn [mbind res_bind]; congruence.
Qed.

(** ** Grouping: one nested call for each merged pair *)

Lemma merge_size_exact ss acc ka kb : no_collision ss -> ginv ss acc ->
  is_Some (acc !! ka) -> is_Some (acc !! kb) -> ka <> kb -> ka ∩ kb <> ∅ -> S (size (merge_groups acc ka kb)) = size acc.
Proof.
  intros Hnc Hi Ha Hb Hne Hm. destruct (ginv_merge ss acc ka kb) as [_ Hf]; [done..|].
  unfold merge_groups. rewrite map_size_insert, Hf.
  assert (is_Some (delete ka acc !! kb)) as Hb' by (by rewrite lookup_delete_ne).
  assert (0 < size (delete ka acc))%nat.
  { destruct (size (delete ka acc)) eqn:Hsz; [|lia]. apply map_size_empty_inv in Hsz. rewrite Hsz, lookup_empty in Hb'. by destruct Hb'. }
  assert (0 < size acc)%nat.
  { destruct (size acc) eqn:Hsz; [|lia]. apply map_size_empty_inv in Hsz. rewrite Hsz, lookup_empty in Ha. by destruct Ha. }
  rewrite (map_size_delete_Some kb (delete ka acc)) by done. rewrite (map_size_delete_Some ka acc) by done.
  pose proof (map_size_delete_Some ka acc Ha). lia.
Qed.

Lemma group_loop_exact ss k o acc acc' : no_collision ss -> ginv ss acc -> group_loop (S (size acc)) o acc = Ok acc' ->
  (size acc' <= size acc)%nat /\
  group_loop k o acc = if bool_decide (size acc < size acc' + k)%nat then Ok acc' else Err OutOfFuel.
Proof.
  intros Hnc. remember (size acc) as n eqn:Hn. revert k o acc Hn.
  induction n as [|n IH]; intros k o acc Hn Hi; cbn [group_loop]; intros Hr.
  - pose proof (find_pair_spec o acc) as Hp. destruct k as [|k]; cbn [group_loop].
    + destruct (find_pair _) as [[ka kb]|]; [done|]. injection Hr as <-. split; [lia|]. rewrite bool_decide_false by lia. done.
    + destruct (find_pair _) as [[ka kb]|]; [done|]. injection Hr as <-. split; [lia|]. rewrite bool_decide_true by lia. done.
  - pose proof (find_pair_spec o acc) as Hp. destruct (find_pair (iter_map o acc).*1) as [[ka kb]|] eqn:Ef.
    + destruct Hp as (Ha & Hb & Hne & Hm). pose proof (merge_size_exact ss acc ka kb Hnc Hi Ha Hb Hne Hm) as Hs.
      destruct (ginv_merge ss acc ka kb) as [Hi' _]; [done..|].
      destruct (IH (pred k) (sub o 0) (merge_groups acc ka kb)) as [H1 H2]; [lia|done|done|]. split; [lia|].
      destruct k as [|k]; cbn [group_loop].
      * rewrite bool_decide_false by lia. done.
      * cbn [Nat.pred] in H2. rewrite Ef, H2. by rewrite (bool_decide_ext (n < size acc' + k)%nat (S n < size acc' + S k)%nat) by lia.
    + injection Hr as <-. split; [lia|]. destruct k as [|k]; cbn [group_loop].
      * rewrite bool_decide_false by lia. done.
      * rewrite Ef, bool_decide_true by lia. done.
Qed.

(** [reps] has one sample of each kind. *)
Definition one_of_each_kind (ss : samples) (reps : list graph) : Prop :=
  NoDup reps /\ (forall g, g ∈ reps -> contains ss g) /\ (forall g, contains ss g -> exists h, h ∈ reps /\ same_pairs g h) /\
  (forall g h, g ∈ reps -> h ∈ reps -> same_pairs g h -> g = h).

Lemma one_of_each_kind_keys (ss : samples) (reps : list graph) :
  NoDup (group_key <$> reps) -> (forall g, g ∈ reps -> is_Some (ss_map ss !! g)) ->
  map_Forall (fun g _ => group_key g ∈ group_key <$> reps) (ss_map ss) -> one_of_each_kind ss reps.
Proof.
  intros Hnd Hin Hall. split_and!; [by apply NoDup_fmap_1 in Hnd|done| |].
  - intros g [c Hg]. specialize (Hall g c Hg). apply elem_of_list_fmap in Hall as (h & Hk & Hh).
    exists h. split; [done|]. by apply same_pairs_key.
  - intros g h Hg Hh Hs%same_pairs_key. apply elem_of_list_lookup in Hg as [i Hi], Hh as [j Hj].
    assert (i = j) as ->; [|congruence]. eapply (NoDup_lookup (group_key <$> reps)); [done|..].
    + rewrite list_lookup_fmap, Hi. reflexivity.
    + rewrite list_lookup_fmap, Hj. simpl. by rewrite Hs.
Qed.

Lemma group_init_size o ss reps : one_of_each_kind ss reps -> size (group_init o ss) = length reps.
Proof.
  intros (Hnd & Hin & Hall & Hone). rewrite <- size_dom.
  assert (NoDup (group_key <$> reps)) as Hnd'.
  { apply NoDup_fmap_2_strong; [|done]. intros g h Hg Hh Hk. apply Hone; [done|done|]. by apply same_pairs_key. }
  rewrite <- (fmap_length group_key reps), <- (size_list_to_set (C := gset gkey) _ Hnd'). f_equal.
  destruct (group_init_lookup o ss) as [Hne Hl].
  apply set_eq. intros k. rewrite elem_of_dom, elem_of_list_to_set, elem_of_list_fmap. split.
  - intros [grp Hk]. pose proof (Hne _ _ Hk) as Hg. apply map_choose in Hg as (g & c & Hg).
    destruct (proj1 (Hl k g c)) as [Hc <-]; [by exists grp|].
    destruct (Hall g) as (h & Hh & Hs); [by exists c|]. exists h. split; [by apply same_pairs_key|done].
  - intros (h & -> & Hh). destruct (Hin h Hh) as [c Hc].
    destruct (proj2 (Hl (group_key h) h c)) as (grp & Hk & _); [done|]. by exists grp.
Qed.

Lemma group_exact limit o ss m reps : no_collision ss -> one_of_each_kind ss reps -> group_intersecting o ss = Ok m ->
  group_intersecting_within limit o ss =
    if bool_decide (length reps < size m + limit)%nat then Ok m else Err OutOfFuel.
Proof.
  intros Hnc Hreps. unfold group_intersecting, group_intersecting_within.
  destruct (group_loop (S (size (group_init (sub o 0) ss))) (sub o 1) (group_init (sub o 0) ss)) as [acc|e] eqn:E; [|done].
  destruct (group_loop_exact ss limit _ _ _ Hnc (ginv_init _ _) E) as [_ ->].
  rewrite (group_init_size _ _ reps Hreps). cbn [mbind res_bind].
  destruct (for_res _ (sub o 2) ∅ (iter_map (sub o 3) acc)) as [m'|e] eqn:E2; cbn [mbind res_bind]; [|done].
  unfold passert. case_bool_decide as Hs; cbn [mbind res_bind]; [|done]. intros [= ->]. rewrite Hs.
  case_bool_decide; cbn [mbind res_bind]; [|done]. rewrite E2. cbn [mbind res_bind]. by rewrite Hs, bool_decide_true.
Qed.

End depth_join_facts.
