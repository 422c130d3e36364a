(** * UtilFacts: the containers of the demo do what SpecUtil says *)

From Coq Require Import ZArith Lia Sorting.Sorted.
From stdpp Require Import base list numbers option.
From Verif Require Import BaseFacts DemoGridFacts SpecUtil.

Section queue.
Context {A : Type} `{EqDecision A}.
Notation entry := (Z * Z * A)%type.

Lemma take_least_spec (l : list entry) : forall e m r, take_least e l = (m, r) ->
  m :: r ≡ₚ e :: l /\ forall x, x ∈ e :: l -> entry_lt x m = false.
Proof.
  assert (forall a b c : entry, entry_lt a b = false -> entry_lt b c = false -> entry_lt a c = false) as Htr.
  { unfold entry_lt. intros a b c H1 H2.
    apply orb_false_iff in H1 as [H1 H1']. apply orb_false_iff in H2 as [H2 H2'].
    apply andb_false_iff in H1'. apply andb_false_iff in H2'.
    apply orb_false_iff. split; [|apply andb_false_iff]; lia. }
  assert (forall a b : entry, entry_lt a b = true -> entry_lt b a = false) as Has.
  { unfold entry_lt. intros a b H. apply orb_true_iff in H. rewrite andb_true_iff in H.
    apply orb_false_iff. split; [|apply andb_false_iff]; lia. }
  assert (forall a : entry, entry_lt a a = false) as Hir.
  { intros a. unfold entry_lt. apply orb_false_iff. split; [|apply andb_false_iff]; lia. }
  induction l as [|y l IH]; intros e m r Ht; simpl in Ht.
  { injection Ht as <- <-. split; [done|]. intros x Hx%elem_of_list_singleton. subst. apply Hir. }
  destruct (entry_lt y e) eqn:Hye.
  - destruct (take_least y l) as [m' r'] eqn:Ht'. injection Ht as <- <-.
    apply IH in Ht' as [Hp Hl]. split.
    + transitivity (e :: m' :: r'); [apply perm_swap|]. rewrite Hp. done.
    + intros x. rewrite elem_of_cons. intros [->|Hx]; [|by apply Hl].
      eapply Htr; [by apply Has|]. apply Hl. left.
  - destruct (take_least e l) as [m' r'] eqn:Ht'. injection Ht as <- <-.
    apply IH in Ht' as [Hp Hl]. split.
    + transitivity (y :: m' :: r'); [apply perm_swap|]. rewrite Hp. apply perm_swap.
    + intros x. rewrite !elem_of_cons. intros [->|[->|Hx]].
      * apply Hl. left.
      * eapply Htr; [apply Hye|]. apply Hl. left.
      * apply Hl. by right.
Qed.

Lemma find_item_some item l : forall before l1 (e : entry) l2, find_item item before l = Some (l1, e, l2) ->
  before ++ l = l1 ++ e :: l2 /\ e.2 = item.
Proof.
  induction l as [|x l IH]; intros before l1 e l2 Hf; simpl in Hf; [done|].
  destruct (decide (x.2 = item)).
  - injection Hf as <- <- <-. done.
  - apply IH in Hf as [Hf He]. split; [|done]. rewrite <- Hf, <- app_assoc. done.
Qed.
Lemma find_item_none item l : forall before : list entry, find_item item before l = None -> forall e, e ∈ l -> e.2 <> item.
Proof.
  induction l as [|x l IH]; intros before Hf e He; [by apply elem_of_nil in He|]. simpl in Hf.
  destruct (decide (x.2 = item)); [done|]. apply elem_of_cons in He as [->|He]; [done|]. by eapply IH.
Qed.

(** The entries in the order of arrival. *)
Definition view (e : entry) : Z * A := (e.1.1, e.2).
Definition in_order (es : list entry) : Prop := StronglySorted (fun a b : entry => (a.1.2 < b.1.2)%Z) es.
Definition holds (q : pqueue A) (l : list (Z * A)) : Prop :=
  exists es, pq_heap q ≡ₚ es /\ in_order es /\ (forall e, e ∈ es -> (e.1.2 < pq_count q)%Z) /\ l = view <$> es.

Lemma in_order_app es1 es2 : in_order (es1 ++ es2) <->
  in_order es1 /\ in_order es2 /\ forall a b : entry, a ∈ es1 -> b ∈ es2 -> (a.1.2 < b.1.2)%Z.
Proof.
  unfold in_order. induction es1 as [|x es1 IH]; simpl.
  - split; [|by intros (_ & ? & _)]. intros H. split; [constructor|]. split; [done|]. intros a b Ha. by apply elem_of_nil in Ha.
  - split.
    + intros H. apply StronglySorted_inv in H as [H Hx]. apply IH in H as (H1 & H2 & H3).
      rewrite Forall_app in Hx. destruct Hx as [Hx1 Hx2]. split; [by constructor|]. split; [done|].
      intros a b Ha Hb. apply elem_of_cons in Ha as [->|Ha]; [|by apply H3].
      rewrite Forall_forall in Hx2. by apply Hx2.
    + intros (H1 & H2 & H3). apply StronglySorted_inv in H1 as [H1 Hx]. constructor.
      * apply IH. split; [done|]. split; [done|]. intros a b Ha Hb. apply H3; [by right|done].
      * rewrite Forall_app. split; [done|]. apply Forall_forall. intros b Hb. apply H3; [left|done].
Qed.

Lemma push_holds o q l x p : holds q l -> holds (pq_push o q x p) (l ++ [(p, x)]).
Proof.
  intros (es & Hp & Ho & Hc & ->). exists (es ++ [(p, pq_count q, x)]). simpl.
  rewrite iter_list_perm, Hp. split; [apply Permutation_cons_append|]. split.
  { apply in_order_app. split; [done|]. split; [repeat constructor|].
    intros a b Ha Hb%elem_of_list_singleton. subst b. simpl. by apply Hc. }
  split.
  { intros e [He|He%elem_of_list_singleton]%elem_of_app; [apply Hc in He; lia|]. subst e. simpl. lia. }
  by rewrite fmap_app.
Qed.

Lemma pq_call_spec o q l c a q' : holds q l -> pq_call o q c = (a, q') -> exists l', by_priority l c a l' /\ holds q' l'.
Proof.
  intros Hh Hc. destruct c as [x p| |x p|]; simpl in Hc.
  - injection Hc as <- <-. eexists. split; [constructor|]. by apply push_holds.
  - destruct Hh as (es & Hp & Ho & Hcnt & ->). unfold pq_pop in Hc.
    destruct (pq_heap q) as [|e h] eqn:Hq.
    { injection Hc as <- <-. apply Permutation_nil_l in Hp. subst es.
      exists []. split; [constructor|]. exists []. rewrite Hq. split; [done|]. split; [constructor|]. split; [|done].
      intros e He. by apply elem_of_nil in He. }
    destruct (take_least e h) as [m r] eqn:Ht. injection Hc as <- <-.
    apply take_least_spec in Ht as [Hmr Hl].
    assert (m ∈ es) as Hm by (rewrite <- Hp, <- Hmr; left).
    apply elem_of_list_split in Hm as (es1 & es2 & ->).
    apply in_order_app in Ho as (Ho1 & Ho2 & Ho3).
    pose proof (StronglySorted_inv Ho2) as [Ho2' Hm2]. rewrite Forall_forall in Hm2.
    assert (forall x, x ∈ es1 ++ m :: es2 -> entry_lt x m = false) as Hl'.
    { intros x Hx. apply Hl. rewrite Hp. done. }
    exists ((view <$> es1) ++ (view <$> es2)). split.
    + rewrite fmap_app, fmap_cons. change (view m) with (m.1.1, m.2). constructor.
      * intros y (x & -> & Hx)%elem_of_list_fmap. simpl.
        assert (entry_lt x m = false) as Hlt by (apply Hl', elem_of_app; by left).
        assert (x.1.2 < m.1.2)%Z by (apply Ho3; [done|left]).
        unfold entry_lt in Hlt. apply orb_false_iff in Hlt as [H1 H2]. apply andb_false_iff in H2. lia.
      * intros y (x & -> & Hx)%elem_of_list_fmap. simpl.
        assert (entry_lt x m = false) as Hlt by (apply Hl', elem_of_app; right; by right).
        unfold entry_lt in Hlt. apply orb_false_iff in Hlt as [H1 H2]. lia.
    + exists (es1 ++ es2). simpl. rewrite iter_list_perm. split.
      { apply (Permutation_cons_inv (a := m)). rewrite Hmr, Hp. symmetry. apply Permutation_middle. }
      split.
      { apply in_order_app. split; [done|]. split; [done|]. intros a b Ha Hb. apply Ho3; [done|by right]. }
      split; [|by rewrite fmap_app].
      intros y Hy. apply Hcnt. rewrite elem_of_app in *. rewrite elem_of_cons. tauto.
  - injection Hc as <- <-. unfold pq_update. destruct (find_item x [] (pq_heap q)) as [[[l1 e] l2]|] eqn:Hf.
    + apply find_item_some in Hf as [Hf He]. simpl in Hf.
      destruct Hh as (es & Hp & Ho & Hcnt & ->).
      assert (e ∈ es) as Hm by (rewrite <- Hp, Hf; apply elem_of_app; right; left).
      apply elem_of_list_split in Hm as (es1 & es2 & ->).
      exists ((view <$> es1) ++ (Z.min e.1.1 p, x) :: (view <$> es2)). split.
      { rewrite fmap_app, fmap_cons. replace (view e) with (e.1.1, x) by (unfold view; by rewrite He). constructor. }
      destruct (Z.leb_spec e.1.1 p).
      * exists (es1 ++ e :: es2). split; [done|]. split; [done|]. split; [done|].
        rewrite fmap_app, fmap_cons. unfold view at 4. rewrite He, Z.min_l by lia. done.
      * exists (es1 ++ (p, e.1.2, x) :: es2). simpl. rewrite iter_list_perm.
        apply in_order_app in Ho as (Ho1 & Ho2 & Ho3).
        pose proof (StronglySorted_inv Ho2) as [Ho2' Hm2].
        split.
        { assert (l1 ++ l2 ≡ₚ es1 ++ es2) as Hr.
          { apply (Permutation_cons_inv (a := e)). rewrite !Permutation_middle, <- Hf. done. }
          rewrite Hr, <- Permutation_cons_append. apply Permutation_middle. }
        split.
        { apply in_order_app. split; [done|]. split; [by constructor|].
          intros a b Ha Hb. apply elem_of_cons in Hb as [->|Hb]; simpl; apply Ho3; try done; [left|by right]. }
        split.
        { intros y Hy. apply elem_of_app in Hy as [Hy|Hy].
          - apply Hcnt, elem_of_app. by left.
          - apply elem_of_cons in Hy as [->|Hy]; simpl; apply Hcnt, elem_of_app; right; [left|by right]. }
        rewrite fmap_app, fmap_cons. unfold view at 4. simpl. rewrite Z.min_r by lia. done.
    + exists (l ++ [(p, x)]). split; [|by apply push_holds]. constructor.
      destruct Hh as (es & Hp & _ & _ & ->). intros Hx.
      apply elem_of_list_fmap in Hx as ([p' x'] & -> & Hx). apply elem_of_list_fmap in Hx as (e & [= -> ->] & Hx).
      rewrite <- Hp in Hx. by eapply find_item_none in Hx.
  - injection Hc as <- <-. exists l. split; [|done].
    destruct Hh as (es & Hp & _ & _ & ->).
    replace (pq_empty q) with (bool_decide (view <$> es = [])); [constructor|].
    unfold pq_empty. rewrite (Permutation_length Hp). destruct es; done.
Qed.

Lemma pq_calls_lemma cs : forall o q l, holds q l -> calls by_priority l cs (pq_calls o q cs).
Proof.
  induction cs as [|c cs IH]; intros o q l Hh; simpl; [constructor|].
  destruct (pq_call (sub o 0) q c) as [a q'] eqn:Hc.
  destruct (pq_call_spec _ _ _ _ _ _ Hh Hc) as (l' & Hs & Hh'). econstructor; [done|]. by apply IH.
Qed.
Lemma new_holds : holds pq_new [].
Proof. exists []. split; [done|]. split; [constructor|]. split; [|done]. intros e He. by apply elem_of_nil in He. Qed.

(** Pushing everything, then popping everything. *)
Lemma pops_sorted l : forall ans, calls by_priority l (replicate (length l) CPop) ans ->
  exists k, stably_sorted l k /\ ans = (fun e : Z * A => AItem e.2) <$> k.
Proof.
  remember (length l) as n eqn:Hn. revert l Hn. induction n as [|n IH]; intros l Hn ans Hc; simpl in Hc.
  - destruct l; [|done]. inversion Hc; subst. exists []. split; [|done]. split; [done|]. split; [constructor|done].
  - inversion Hc as [|? ? ? l' ? ans' Hone Hrest]; subst. inversion Hone as [|l1 p x l2 H1 H2| | | |]; subst; [|done].
    apply IH in Hrest as (k & (Hp & Hs & Hf) & ->).
    2:{ rewrite app_length in *. simpl in Hn. lia. }
    exists ((p, x) :: k). split; [|done]. split; [|split].
    + rewrite Hp. apply Permutation_middle.
    + constructor; [done|]. destruct k as [|b k]; [constructor|]. constructor. simpl.
      assert (b ∈ l1 ++ l2) as Hb by (rewrite <- Hp; left).
      apply elem_of_app in Hb as [Hb|Hb]; [|by apply H2]. apply H1 in Hb. lia.
    + intros p'. rewrite list.filter_app, !filter_cons, Hf, list.filter_app. simpl.
      destruct (decide (p = p')) as [->|]; [|done].
      assert (filter (fun e : Z * A => e.1 = p') l1 = []) as ->; [|done].
      destruct (filter _ l1) as [|e k'] eqn:Hk; [done|].
      assert (e ∈ filter (fun e : Z * A => e.1 = p') l1) as He by (rewrite Hk; left).
      apply elem_of_list_filter in He as [He1 He2]. apply H1 in He2. lia.
Qed.
Lemma pushes_then cs l : forall l0 ans, calls by_priority l0 (((fun e : Z * A => CPush e.2 e.1) <$> l) ++ cs) ans ->
  exists ans', ans = replicate (length l) ANone ++ ans' /\ calls by_priority (l0 ++ l) cs ans'.
Proof.
  induction l as [|[p x] l IH]; intros l0 ans Hc; simpl in Hc.
  - exists ans. by rewrite app_nil_r.
  - inversion Hc as [|? ? ? l' ? ans' Hone Hrest]; subst. inversion Hone; subst.
    apply IH in Hrest as (ans'' & -> & Hr). exists ans''. split; [done|].
    by rewrite <- app_assoc in Hr.
Qed.
Lemma heap_sort_lemma o l :
  exists k, stably_sorted l k /\
    pq_calls o pq_new (((fun e : Z * A => CPush e.2 e.1) <$> l) ++ replicate (length l) CPop) =
    replicate (length l) ANone ++ ((fun e : Z * A => AItem e.2) <$> k).
Proof.
  destruct (pushes_then (replicate (length l) CPop) l [] _ (pq_calls_lemma _ o pq_new [] new_holds)) as (ans & Heq & Hc).
  apply pops_sorted in Hc as (k & Hk & ->). by exists k.
Qed.

(** Lists *)
Lemma stack_lemma cs : forall l : list (Z * A), calls lifo l cs (list_calls stack_push l.*2 cs).
Proof.
  induction cs as [|c cs IH]; intros l; simpl; [constructor|].
  destruct c as [x p| |x p|]; simpl.
  - econstructor; [constructor|]. unfold stack_push. specialize (IH (l ++ [(p, x)])). by rewrite fmap_app in IH.
  - unfold list_pop. destruct l as [|[p x] l _] using rev_ind; simpl.
    + econstructor; [constructor|]. apply (IH []).
    + rewrite fmap_app. simpl. rewrite last_snoc, removelast_last. econstructor; [constructor|]. apply IH.
  - econstructor; [constructor|]. apply IH.
  - assert (list_empty l.*2 = bool_decide (l = [])) as -> by (by destruct l).
    econstructor; [constructor|]. apply IH.
Qed.
Lemma queue_lemma cs : forall l : list (Z * A), calls fifo l cs (list_calls queue_push (reverse l.*2) cs).
Proof.
  induction cs as [|c cs IH]; intros l; simpl; [constructor|].
  destruct c as [x p| |x p|]; simpl.
  - econstructor; [constructor|]. unfold queue_push. specialize (IH (l ++ [(p, x)])).
    by rewrite fmap_app, reverse_app in IH.
  - unfold list_pop. destruct l as [|[p x] l]; simpl.
    + econstructor; [constructor|]. apply (IH []).
    + rewrite reverse_cons, last_snoc, removelast_last. econstructor; [constructor|]. apply IH.
  - econstructor; [constructor|]. apply IH.
  - assert (list_empty (reverse l.*2) = bool_decide (l = [])) as ->.
    { unfold list_empty. rewrite reverse_length, fmap_length. by destruct l. }
    econstructor; [constructor|]. apply IH.
Qed.

(** [PriorityQueueWithFunction] *)
Lemma pqf_push_lemma (f : A -> Z) o q x : pqf_push f o q x = (pq_call o q (CPush x (f x))).2.
Proof. done. Qed.
End queue.

(** The specification says which item is served. *)
Lemma served_unique {A} l1 (e : Z * A) l2 : forall l1' e' l2', l1 ++ e :: l2 = l1' ++ e' :: l2' ->
  (forall x, x ∈ l1 -> (e.1 < x.1)%Z) -> (forall x, x ∈ l2 -> (e.1 <= x.1)%Z) ->
  (forall x, x ∈ l1' -> (e'.1 < x.1)%Z) -> (forall x, x ∈ l2' -> (e'.1 <= x.1)%Z) -> l1 = l1' /\ e = e' /\ l2 = l2'.
Proof.
  induction l1 as [|y l1 IH]; intros [|y' l1'] e' l2' Heq H1 H2 H3 H4; simpl in Heq.
  - by injection Heq.
  - injection Heq as -> ->. exfalso.
    assert (e'.1 < y'.1)%Z by (apply H3; left). assert (y'.1 <= e'.1)%Z by (apply H2, elem_of_app; right; left). lia.
  - injection Heq as -> <-. exfalso.
    assert (e.1 < e'.1)%Z by (apply H1; left). assert (e'.1 <= e.1)%Z by (apply H4, elem_of_app; right; left). lia.
  - injection Heq as -> Heq. destruct (IH _ _ _ Heq) as (-> & -> & ->); [| |by intros; apply H3; right| |done]; try done.
    intros x Hx. apply H1. by right.
Qed.
Lemma item_unique {A} l1 (e : Z * A) l2 : forall l1' e' l2', l1 ++ e :: l2 = l1' ++ e' :: l2' -> e.2 = e'.2 ->
  NoDup ((l1 ++ e :: l2).*2) -> l1 = l1' /\ e = e' /\ l2 = l2'.
Proof.
  induction l1 as [|y l1 IH]; intros [|y' l1'] e' l2' Heq He Hn; simpl in Heq, Hn.
  - by injection Heq.
  - injection Heq as -> ->. exfalso. apply NoDup_cons in Hn as [Hn _]. apply Hn. rewrite He.
    apply elem_of_list_fmap_1, elem_of_app. right. left.
  - injection Heq as -> <-. exfalso. apply NoDup_cons in Hn as [Hn _]. apply Hn. rewrite <- He.
    apply elem_of_list_fmap_1, elem_of_app. right. left.
  - injection Heq as -> Heq. apply NoDup_cons in Hn as [_ Hn]. by destruct (IH _ _ _ Heq He Hn) as (-> & -> & ->).
Qed.
Lemma by_priority_unique {A} (l : list (Z * A)) c a1 l1 a2 l2 : NoDup l.*2 ->
  by_priority l c a1 l1 -> by_priority l c a2 l2 -> a1 = a2 /\ l1 = l2.
Proof.
  intros Hn H1 H2.
  destruct H1 as [l x p|k1 p x k2 Hk1 Hk2| |k1 p x k2 p'|l x p Hx|l];
    inversion H2 as [|m1 q y m2 Hm1 Hm2 E| |m1 q y m2 q' E|? ? ? Hy|]; subst; try done.
  - symmetry in E. destruct (served_unique k1 (p, x) k2 m1 (q, y) m2 E) as (-> & [= -> ->] & ->); done.
  - by destruct k1.
  - by destruct m1.
  - symmetry in E. destruct (item_unique k1 (p, x) k2 m1 (q, x) m2 E) as (-> & [= ->] & ->); done.
  - exfalso. apply Hy. rewrite fmap_app. apply elem_of_app. right. left.
  - exfalso. apply Hx. rewrite fmap_app. apply elem_of_app. right. left.
Qed.
