(** * NetDist: reading distributions off a space whose outcomes are listed with their numbers. *)

From Verif Require Import BaseFacts SpaceFacts SepFacts.
From Verif Require Export Nets SpecScripts.

(** Distinct keys with known numbers. *)
Lemma zsum_pos {A} (w : A -> Z) (l : list A) t : (forall t, t ∈ l -> (1 <= w t)%Z) -> t ∈ l -> (1 <= zsum (w <$> l))%Z.
Proof.
  intros Hw Ht. apply elem_of_list_split in Ht as (l1 & l2 & ->). rewrite fmap_app, zsum_app.
  assert (forall l, (forall t, t ∈ l -> (1 <= w t)%Z) -> (0 <= zsum (w <$> l))%Z) as H0.
  { clear. induction l as [|t l IH]; intros Hw; [done|]. change (0 <= w t + zsum (w <$> l))%Z.
    assert (1 <= w t)%Z by (apply Hw; by left). assert (0 <= zsum (w <$> l))%Z by (apply IH; intros; apply Hw; by right). lia. }
  change (1 <= zsum (w <$> l1) + (w t + zsum (w <$> l2)))%Z.
  assert (1 <= w t)%Z by (apply Hw, elem_of_app; right; by left).
  assert (0 <= zsum (w <$> l1))%Z by (apply H0; intros; apply Hw, elem_of_app; by left).
  assert (0 <= zsum (w <$> l2))%Z by (apply H0; intros; apply Hw, elem_of_app; right; by right). lia.
Qed.

Lemma filter_same {A} (P Q : A -> Prop) {HP : forall x, Decision (P x)} {HQ : forall x, Decision (Q x)} (l : list A) :
  (forall x, x ∈ l -> P x <-> Q x) -> filter P l = filter Q l.
Proof.
  induction l as [|x l IH]; intros H; [done|]. rewrite !filter_cons.
  assert (filter P l = filter Q l) as -> by (apply IH; intros y Hy; apply H; by right).
  specialize (H x ltac:(by left)). destruct (decide (P x)), (decide (Q x)); tauto.
Qed.

Lemma filter_all {A} (P : A -> Prop) {HP : forall x, Decision (P x)} (l : list A) : (forall x, x ∈ l -> P x) -> filter P l = l.
Proof.
  induction l as [|x l IH]; intros H; [done|]. rewrite filter_cons, decide_True by (apply H; by left).
  f_equal. apply IH. intros y Hy. apply H. by right.
Qed.

Lemma map_listed {A K} `{Countable K} {V} (m : gmap K V) (nm : A -> K) (w : A -> V) (l : list A) :
  NoDup l -> (forall t t', t ∈ l -> t' ∈ l -> nm t = nm t' -> t = t') ->
  (forall k z, m !! k = Some z <-> exists t, t ∈ l /\ k = nm t /\ z = w t) ->
  map_to_list m ≡ₚ (fun t => (nm t, w t)) <$> l.
Proof.
  intros Hnd Hinj Hm. apply NoDup_Permutation.
  - apply NoDup_map_to_list.
  - apply NoDup_fmap_2_strong; [|done]. intros t t' Ht Ht' [= Heq _]. by apply Hinj.
  - intros [k z]. rewrite elem_of_map_to_list, Hm, elem_of_list_fmap. split.
    + intros (t & Ht & -> & ->). by exists t.
    + intros (t & [= -> ->] & Ht). by exists t.
Qed.

Lemma normalize_listed {A K} `{Countable K} (m : gmap K Z) (nm : A -> K) (w : A -> Z) (l : list A) :
  NoDup l -> (forall t t', t ∈ l -> t' ∈ l -> nm t = nm t' -> t = t') -> (forall t, t ∈ l -> (1 <= w t)%Z) ->
  (forall k z, m !! k = Some z <-> exists t, t ∈ l /\ k = nm t /\ z = w t) ->
  exists m', normalize m = Ok m' /\ forall k q, m' !! k = Some q <-> exists t, t ∈ l /\ k = nm t /\ q = qdiv (w t) (zsum (w <$> l)).
Proof.
  intros Hnd Hinj Hw Hm.
  assert (zsum (map_to_list m).*2 = zsum (w <$> l)) as Htot.
  { rewrite (map_listed m nm w l Hnd Hinj Hm), <- list_fmap_compose. done. }
  unfold normalize. rewrite Htot.
  destruct (bool_decide (m ≠ ∅) && bool_decide (zsum (w <$> l) = 0%Z)) eqn:Hb.
  - exfalso. apply andb_true_iff in Hb as [Hb1 Hb2]. apply bool_decide_eq_true in Hb1, Hb2.
    apply map_choose in Hb1 as (k & z & Hz). apply Hm in Hz as (t & Ht & _).
    pose proof (zsum_pos w l t Hw Ht). lia.
  - eexists. split; [done|]. intros k q. rewrite lookup_fmap. destruct (m !! k) as [z|] eqn:Hz; simpl.
    + apply Hm in Hz as (t & Ht & -> & ->). split.
      * intros [= <-]. by exists t.
      * intros (t' & Ht' & Heq & ->). by rewrite (Hinj t t' Ht Ht' Heq).
    + split; [done|]. intros (t & Ht & -> & _). assert (m !! nm t = Some (w t)) as H' by (apply Hm; by exists t). congruence.
Qed.

Section dist.
Context {U : Universe} {A : Type} (ss : samples) (l : list A) (w : A -> Z) (Gr : A -> graph).
Context (Hnd : NoDup l) (Hinj : forall t t', t ∈ l -> t' ∈ l -> Gr t = Gr t' -> t = t') (Hw : forall t, t ∈ l -> (1 <= w t)%Z)
  (HG : forall G c, ss_map ss !! G = Some c <-> exists t, t ∈ l /\ G = Gr t /\ c = w t).

Lemma dist_contains G : contains ss G <-> exists t, t ∈ l /\ G = Gr t.
Proof.
  unfold contains, is_Some. split.
  - intros [c Hc]. apply HG in Hc as (t & Ht & -> & _). by exists t.
  - intros (t & Ht & ->). exists (w t). apply HG. by exists t.
Qed.

Lemma dist_times t : t ∈ l -> times_in ss (Gr t) = w t.
Proof. intros Ht. unfold times_in. by rewrite (proj2 (HG (Gr t) (w t)) (ex_intro _ t (conj Ht (conj eq_refl eq_refl)))). Qed.

Lemma dist_weight (P : graph -> Prop) (Hd : forall g, Decision (P g)) : weight ss P (zsum (w <$> filter (fun t => P (Gr t)) l)).
Proof.
  intros L HL Hin.
  assert (L ≡ₚ Gr <$> filter (fun t => P (Gr t)) l) as ->.
  { apply NoDup_Permutation; [done| |].
    - apply NoDup_fmap_2_strong; [|by apply NoDup_filter]. intros t t' Ht Ht'. apply elem_of_list_filter in Ht as [_ Ht], Ht' as [_ Ht']. by apply Hinj.
    - intros G. rewrite Hin, dist_contains, elem_of_list_fmap. split.
      + intros [(t & Ht & ->) HP]. exists t. split; [done|]. by apply elem_of_list_filter.
      + intros (t & -> & Ht). apply elem_of_list_filter in Ht as [HP Ht]. split; [by exists t|done]. }
  rewrite <- list_fmap_compose. f_equal. apply list_fmap_ext. intros k t Ht. apply elem_of_list_lookup_2, elem_of_list_filter in Ht as [_ Ht].
  simpl. by rewrite dist_times.
Qed.

Lemma dist_pos : pos_counts ss.
Proof. intros G c Hc. apply HG in Hc as (t & Ht & _ & ->). specialize (Hw t Ht). lia. Qed.

Lemma dist_size o : length (ss_items o ss) = length l.
Proof.
  unfold ss_items. rewrite (Permutation_length (iter_map_perm o (ss_map ss))).
  rewrite (map_listed (ss_map ss) Gr w l Hnd Hinj HG). apply fmap_length.
Qed.

Context (vars : list Var) (val : A -> Var -> Val)
  (Hval : forall t v x, t ∈ l -> (v, x) ∈ g_nodes (Gr t) <-> v ∈ vars /\ x = val t v).

Lemma dist_single : one_valued ss.
Proof.
  intros G HC v x y Hx Hy. apply dist_contains in HC as (t & Ht & ->). apply (Hval t v x Ht) in Hx as [_ ->]. by apply (Hval t v y Ht) in Hy as [_ ->].
Qed.

Lemma dist_marginals o cp : l <> [] -> (forall v, v ∈ vars -> is_Some (cp_vars cp !! v)) ->
  exists m, marginal_variables_probability o (Space cp ss) None false = Ok m /\
    (forall v, is_Some (m !! v) <-> v ∈ vars) /\
    forall v d x q, m !! v = Some d -> d !! x = Some q <->
      (exists t, t ∈ l /\ val t v = x) /\ q = qdiv (zsum (w <$> filter (fun t => val t v = x) l)) (zsum (w <$> l)).
Proof.
  intros Hne Hvars. destruct (C26_lemma o (Space cp ss) None false dist_single dist_pos) as (m & Hm & Hspec); [done|].
  exists m. split; [done|]. cbn [sp_out requested] in Hspec.
  assert (exists t, t ∈ l) as [t0 Ht0] by (destruct l as [|t l']; [done|exists t; by left]).
  assert (forall v, occurs_var ss v <-> v ∈ vars) as Hocc.
  { intros v. split.
    - intros (x & G & HC & Hx). apply dist_contains in HC as (t & Ht & ->). by apply (Hval t v x Ht) in Hx as [? _].
    - intros Hv. exists (val t0 v), (Gr t0). split; [apply dist_contains; by exists t0|]. by apply (Hval t0). }
  split.
  - intros v. specialize (Hspec v). destruct (m !! v) as [d|].
    + destruct Hspec as (_ & Ho & _). split; [intros _; by apply Hocc|done].
    + split; [by intros [? ?]|]. intros Hv. destruct Hspec. split; [by apply Hvars|by apply Hocc].
  - intros v d x q Hd. specialize (Hspec v). rewrite Hd in Hspec. destruct Hspec as (_ & Ho & _ & Hx). apply Hocc in Ho. specialize (Hx x).
    assert (occurs ss (v, x) <-> exists t, t ∈ l /\ val t v = x) as Hox.
    { split.
      - intros (G & HC & Hin). apply dist_contains in HC as (t & Ht & ->). apply (Hval t v x Ht) in Hin as [_ ->]. by exists t.
      - intros (t & Ht & <-). exists (Gr t). split; [apply dist_contains; by exists t|]. by apply (Hval t). }
    destruct (d !! x) as [p|].
    + destruct Hx as (Hoc & a & b & Ha & Hb & ->).
      pose proof (weight_unique _ _ _ _ Ha (dist_weight (has v x) _)) as Ha'.
      pose proof (weight_unique _ _ _ _ Hb (dist_weight (having v) _)) as Hb'.
      assert (a = zsum (w <$> filter (fun t => val t v = x) l)) as ->.
      { rewrite Ha'. f_equal. f_equal. apply filter_same. intros t Ht. unfold has. rewrite (Hval t v x Ht). naive_solver. }
      assert (b = zsum (w <$> l)) as ->.
      { rewrite Hb'. f_equal. f_equal. apply filter_all. intros t Ht. exists (val t v). by apply (Hval t). }
      split; [intros [= <-]; split; [by apply Hox|done]|]. by intros [_ ->].
    + split; [done|]. intros [Ht _]. destruct Hx. by apply Hox.
Qed.

End dist.
