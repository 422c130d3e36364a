(** * CounterFacts: the counters and matrices of the demo do what SpecUtil says *)

From Coq Require Import ZArith Lia.
From stdpp Require Import base list numbers option.
From Verif Require Import DemoGridFacts SpecUtil.

Section counters.
Context {K : Type} `{EqDecision K}.
Notation counter := (list (K * Z)).
Implicit Types (c a b : counter) (k : K) (v : Z).

(** The count as a function. *)
Definition cnt c k : Z := default 0%Z (ct_find k c).

Lemma find_some c k v : ct_find k c = Some v -> (k, v) ∈ c.
Proof.
  induction c as [|[k' v'] c IH]; simpl; [done|]. destruct (decide (k = k')) as [->|].
  - intros [= ->]. left.
  - intros H. right. by apply IH.
Qed.
Lemma find_none c k : ct_find k c = None <-> k ∉ c.*1.
Proof.
  induction c as [|[k' v'] c IH]; simpl; [split; [intros _; apply not_elem_of_nil|done]|].
  rewrite not_elem_of_cons. destruct (decide (k = k')); [naive_solver|]. rewrite IH. naive_solver.
Qed.
Lemma find_in c k v : dict c -> (k, v) ∈ c -> ct_find k c = Some v.
Proof.
  unfold dict. induction c as [|[k' v'] c IH]; simpl; [by intros _ ?%elem_of_nil|].
  intros [Hn Hd]%NoDup_cons [[= -> ->]|H]%elem_of_cons; [by rewrite decide_True|].
  rewrite decide_False; [by apply IH|]. intros ->. apply Hn, elem_of_list_fmap. by exists (k', v).
Qed.
Lemma counts_cnt c k v : dict c -> counts c k v <-> cnt c k = v.
Proof.
  intros Hd. unfold counts, cnt. split.
  - intros [H|[H ->]]; [by rewrite (find_in _ _ _ Hd H)|]. apply find_none in H. by rewrite H.
  - intros <-. destruct (ct_find k c) eqn:Hf; simpl.
    + left. by apply find_some.
    + right. split; [by apply find_none|done].
Qed.

Lemma set_keys k v c k' : k' ∈ (ct_set k v c).*1 <-> k' = k \/ k' ∈ c.*1.
Proof.
  induction c as [|[k1 v1] c IH]; simpl; [rewrite elem_of_list_singleton, elem_of_nil; naive_solver|].
  destruct (decide (k = k1)) as [->|]; simpl; rewrite !elem_of_cons; [naive_solver|]. rewrite IH. naive_solver.
Qed.
Lemma set_dict k v c : dict c -> dict (ct_set k v c).
Proof.
  unfold dict. induction c as [|[k1 v1] c IH]; simpl; [intros _; apply NoDup_singleton|].
  intros [Hn Hd]%NoDup_cons. destruct (decide (k = k1)) as [->|]; simpl; [by constructor|].
  constructor; [|by apply IH]. rewrite set_keys. naive_solver.
Qed.
Lemma set_cnt k v c k' : cnt (ct_set k v c) k' = if decide (k' = k) then v else cnt c k'.
Proof.
  unfold cnt. induction c as [|[k1 v1] c IH]; simpl; [by destruct (decide (k' = k))|].
  destruct (decide (k = k1)) as [->|]; simpl.
  - by destruct (decide (k' = k1)).
  - destruct (decide (k' = k1)) as [->|]; [by rewrite decide_False by done|]. apply IH.
Qed.
Lemma set_id k c v : ct_find k c = Some v -> ct_set k v c = c.
Proof.
  induction c as [|[k1 v1] c IH]; simpl; [done|]. destruct (decide (k = k1)) as [->|]; [by intros [= ->]|].
  intros H. by rewrite IH.
Qed.

Lemma val_cnt c k : ct_val k c = cnt c k.
Proof. unfold ct_val, ct_item, ct_get, cnt. by destruct (ct_find k c). Qed.
Lemma cnt_absent c k : k ∉ c.*1 -> cnt c k = 0%Z.
Proof. intros H%find_none. unfold cnt. by rewrite H. Qed.
Lemma item_lemma c k : dict c ->
  counts c k (ct_item k c).1 /\ dict (ct_item k c).2 /\
  (forall k' v, counts (ct_item k c).2 k' v <-> counts c k' v) /\
  (forall k', k' ∈ (ct_item k c).2.*1 <-> k' = k \/ k' ∈ c.*1).
Proof.
  intros Hd. assert (dict (ct_item k c).2) as Hd'.
  { unfold ct_item, ct_get. destruct (ct_find k c); [done|]. by apply set_dict. }
  split; [apply counts_cnt; [done|]; symmetry; apply val_cnt|]. split; [done|].
  unfold ct_item, ct_get in *. destruct (ct_find k c) eqn:Hf; simpl in *.
  - split; [done|]. intros k'. split; [by right|]. intros [->|]; [|done].
    apply elem_of_list_fmap. eexists (_, _). split; [|by apply find_some]. done.
  - split; [|apply set_keys]. intros k' v. rewrite !counts_cnt, set_cnt by done.
    destruct (decide (k' = k)) as [->|]; [|done]. unfold cnt. by rewrite Hf.
Qed.

Lemma incr_dict k v c : dict c -> dict (ct_incr 0%Z Z.add k v c).
Proof. intros Hd. unfold ct_incr, ct_get. destruct (ct_find k c); by repeat apply set_dict. Qed.
Lemma incr_cnt k v c k' : cnt (ct_incr 0%Z Z.add k v c) k' = (cnt c k' + if decide (k' = k) then v else 0)%Z.
Proof.
  unfold ct_incr, ct_get. destruct (ct_find k c) eqn:Hf; rewrite !set_cnt; destruct (decide (k' = k)) as [->|]; try lia.
  - unfold cnt. rewrite Hf. done.
  - unfold cnt. rewrite Hf. done.
Qed.
Lemma incr_keys k v c k' : k' ∈ (ct_incr 0%Z Z.add k v c).*1 <-> k' = k \/ k' ∈ c.*1.
Proof. unfold ct_incr, ct_get. destruct (ct_find k c); rewrite !set_keys; naive_solver. Qed.

Lemma increment_all_lemma keys n c : dict c ->
  dict (ct_increment_all keys n c) /\
  (forall k, k ∈ (ct_increment_all keys n c).*1 <-> k ∈ keys \/ k ∈ c.*1) /\
  (forall k v, counts c k v -> counts (ct_increment_all keys n c) k (v + n * occurrences k keys)%Z).
Proof.
  unfold ct_increment_all. revert c. induction keys as [|x keys IH]; intros c Hd; simpl.
  - split; [done|]. split; [intros k; rewrite elem_of_nil; naive_solver|].
    intros k v H. by replace (v + n * 0)%Z with v by lia.
  - destruct (IH _ (incr_dict x n c Hd)) as (H1 & H2 & H3). split; [done|]. split.
    + intros k. rewrite H2, incr_keys, elem_of_cons. naive_solver.
    + intros k v Hc. apply (counts_cnt _ _ _ Hd) in Hc.
      replace (v + n * ((if decide (x = k) then 1 else 0) + occurrences k keys))%Z
        with (cnt (ct_incr 0%Z Z.add x n c) k + n * occurrences k keys)%Z.
      { apply H3. apply counts_cnt; [by apply incr_dict|done]. }
      rewrite incr_cnt, Hc. destruct (decide (x = k)) as [->|]; [rewrite decide_True by done; lia|].
      rewrite decide_False by naive_solver. lia.
Qed.

(** Sums *)
Lemma fold_sum {X} (f : X -> Z) l s : fold_left (fun s x => (s + f x)%Z) l s = (s + sum_over l f)%Z.
Proof. revert s. induction l as [|x l IH]; intros s; simpl; [lia|]. rewrite IH. lia. Qed.
Lemma sum_ext {X} (f g : X -> Z) l : (forall x, x ∈ l -> f x = g x) -> sum_over l f = sum_over l g.
Proof. induction l as [|x l IH]; intros H; simpl; [done|]. rewrite IH, H; [done|left|]. intros y Hy. apply H. by right. Qed.
Lemma sum_perm {X} (f : X -> Z) l l' : l ≡ₚ l' -> sum_over l f = sum_over l' f.
Proof. induction 1; simpl; lia. Qed.
Lemma sum_app {X} (f : X -> Z) l l' : sum_over (l ++ l') f = (sum_over l f + sum_over l' f)%Z.
Proof. induction l; simpl; lia. Qed.
Lemma sum_plus {X} (f g : X -> Z) l : sum_over l (fun x => f x + g x)%Z = (sum_over l f + sum_over l g)%Z.
Proof. induction l; simpl; lia. Qed.
Lemma sum_filter {X} (f : X -> Z) (P : X -> Prop) `{forall x, Decision (P x)} l :
  (forall x, x ∈ l -> ~ P x -> f x = 0%Z) -> sum_over (filter P l) f = sum_over l f.
Proof.
  induction l as [|x l IH]; intros Hz; [done|]. rewrite filter_cons. destruct (decide (P x)); simpl; rewrite IH.
  - done.
  - intros y Hy. apply Hz. by right.
  - rewrite (Hz x); [done|left|done].
  - intros y Hy. apply Hz. by right.
Qed.
(** Two lists without duplicates that contain all keys with a non-zero term give one sum. *)
Lemma sum_support (f : K -> Z) l l' : NoDup l -> NoDup l' ->
  (forall k, f k <> 0%Z -> k ∈ l) -> (forall k, f k <> 0%Z -> k ∈ l') -> sum_over l f = sum_over l' f.
Proof.
  intros H1 H2 H3 H4.
  rewrite <- (sum_filter f (fun k => f k <> 0%Z) l), <- (sum_filter f (fun k => f k <> 0%Z) l') by (intros; lia).
  apply sum_perm, NoDup_Permutation; [by apply list.NoDup_filter..|].
  intros k. rewrite !elem_of_list_filter. naive_solver.
Qed.

Lemma mul_lemma a b f g ks : dict a -> dict b ->
  (forall k, counts a k (f k)) -> (forall k, counts b k (g k)) ->
  NoDup ks -> (forall k, k ∈ a.*1 -> k ∈ b.*1 -> k ∈ ks) ->
  ct_mul a b = sum_over ks (fun k => f k * g k)%Z.
Proof.
  intros Ha Hb Hf Hg Hn Hks.
  assert (forall k, cnt a k = f k) as Hf' by (intros k; by apply counts_cnt).
  assert (forall k, cnt b k = g k) as Hg' by (intros k; by apply counts_cnt).
  assert (forall x y : counter, dict x -> (forall k, k ∈ x.*1 -> k ∈ y.*1 -> k ∈ ks) ->
    fold_left (fun s k => if ct_mem k y then (s + ct_val k x * ct_val k y)%Z else s) x.*1 0%Z =
    sum_over ks (fun k => cnt x k * cnt y k)%Z) as Hxy.
  { intros x y Hx Hxy.
    transitivity (fold_left (fun s k => (s + cnt x k * cnt y k)%Z) x.*1 0%Z).
    - generalize 0%Z. generalize (x.*1) as l. induction l as [|k l IH]; intros s; simpl; [done|].
      rewrite <- IH. f_equal. unfold ct_mem. rewrite !val_cnt.
      destruct (bool_decide_reflect (k ∈ y.*1)) as [|Hk]; [done|]. rewrite (cnt_absent y k Hk). lia.
    - rewrite (fold_sum (fun k => cnt x k * cnt y k)%Z). rewrite Z.add_0_l. apply sum_support; try done.
      + intros k Hk. destruct (decide (k ∈ x.*1)); [done|]. rewrite (cnt_absent x k) in Hk by done. lia.
      + intros k Hk. apply Hxy.
        * destruct (decide (k ∈ x.*1)); [done|]. rewrite (cnt_absent x k) in Hk by done. lia.
        * destruct (decide (k ∈ y.*1)); [done|]. rewrite (cnt_absent y k) in Hk by done. lia. }
  unfold ct_mul. destruct (length b <? length a).
  - rewrite Hxy by naive_solver. apply sum_ext. intros k _. rewrite Hf', Hg'. lia.
  - rewrite Hxy by naive_solver. apply sum_ext. intros k _. by rewrite Hf', Hg'.
Qed.

Lemma total_sum c : ct_total c = sum_over c snd.
Proof.
  unfold ct_total. rewrite (fold_sum (fun v => v)). rewrite Z.add_0_l.
  induction c as [|[k v] c IH]; [done|]. simpl. f_equal. exact IH.
Qed.
Lemma total_keys c : dict c -> ct_total c = sum_over c.*1 (cnt c).
Proof.
  intros Hd. rewrite total_sum. transitivity (sum_over c (fun e => cnt c e.1)).
  - apply sum_ext. intros [k v] H. simpl. unfold cnt. by rewrite (find_in _ _ _ Hd H).
  - generalize (cnt c). intros f. clear Hd. induction c as [|[k v] c IH]; [done|]. simpl. f_equal. exact IH.
Qed.
Lemma total_lemma c f ks : dict c -> (forall k, counts c k (f k)) -> NoDup ks -> (forall k, k ∈ c.*1 -> k ∈ ks) ->
  ct_total c = sum_over ks f.
Proof.
  intros Hd Hf Hn Hks. assert (forall k, cnt c k = f k) as Hf' by (intros k; by apply counts_cnt).
  rewrite (total_keys c Hd), (sum_ext _ f _ (fun k _ => Hf' k)). apply sum_support; try done.
  - intros k Hk. destruct (decide (k ∈ c.*1)); [done|]. rewrite <- Hf', (cnt_absent c k) in Hk by done. lia.
  - intros k Hk. apply Hks. destruct (decide (k ∈ c.*1)); [done|]. rewrite <- Hf', (cnt_absent c k) in Hk by done. lia.
Qed.

(** Setting keys one after the other. *)
Lemma sets_spec (F : K -> Z) (skip : K -> bool) ks : forall r : counter, dict r ->
  let r' := fold_left (fun r k => if skip k then r else ct_set k (F k) r) ks r in
  dict r' /\ (forall k, k ∈ r'.*1 <-> k ∈ r.*1 \/ (k ∈ ks /\ skip k = false)) /\
  (forall k, k ∈ ks -> skip k = false -> cnt r' k = F k) /\ (forall k, k ∉ ks \/ skip k = true -> cnt r' k = cnt r k).
Proof.
  induction ks as [|x ks IH]; intros r Hd; simpl.
  - split; [done|]. split; [intros k; rewrite elem_of_nil; naive_solver|].
    split; [|done]. intros k Hk. by apply elem_of_nil in Hk.
  - destruct (skip x) eqn:Hx.
    + destruct (IH r Hd) as (H1 & H2 & H3 & H4). split; [done|]. split; [|split].
      * intros k. rewrite H2, elem_of_cons. split; [naive_solver|]. intros [|[[->|] Hk]]; [by left|congruence|by right].
      * intros k [->|Hk]%elem_of_cons Hs; [congruence|]. by apply H3.
      * intros k Hk. apply H4. rewrite not_elem_of_cons in Hk. naive_solver.
    + destruct (IH (ct_set x (F x) r) (set_dict _ _ _ Hd)) as (H1 & H2 & H3 & H4). split; [done|]. split; [|split].
      * intros k. rewrite H2, set_keys, elem_of_cons. naive_solver.
      * intros k Hk Hs. destruct (decide (k ∈ ks)) as [|Hn]; [by apply H3|].
        apply elem_of_cons in Hk as [->|]; [|done]. rewrite H4 by (by left). by rewrite set_cnt, decide_True.
      * intros k Hk. rewrite not_elem_of_cons in Hk. rewrite H4 by naive_solver. rewrite set_cnt, decide_False; [done|].
        intros ->. destruct Hk as [[? _]|]; congruence.
Qed.

Lemma both_lemma (h : Z -> Z -> Z) (n : Z -> Z) a b (Fa Fb : K -> Z) :
  (forall x, h x 0 = x)%Z -> (forall y, h 0 y = n y)%Z ->
  (forall k, Fa k = if ct_mem k b then h (ct_val k a) (ct_val k b) else ct_val k a) -> (forall k, Fb k = n (ct_val k b)) ->
  dict a -> dict b ->
  let r := fold_left (fun r k => if ct_mem k a then r else ct_set k (Fb k) r) b.*1
             (fold_left (fun r k => ct_set k (Fa k) r) a.*1 []) in
  dict r /\ (forall k, k ∈ r.*1 <-> k ∈ a.*1 \/ k ∈ b.*1) /\
  forall k x y, counts a k x -> counts b k y -> counts r k (h x y).
Proof.
  intros Hh0 Hn HFa HFb Ha Hb r.
  destruct (sets_spec Fa (fun _ => false) a.*1 [] (NoDup_nil_2)) as (H1 & H2 & H3 & H3'). simpl in *.
  destruct (sets_spec Fb (fun k => ct_mem k a) b.*1 _ H1) as (H4 & H5 & H6 & H6'). simpl in *. fold r in H4, H5, H6, H6'.
  split; [done|]. split.
  - intros k. rewrite H5, H2, elem_of_nil. unfold ct_mem. rewrite bool_decide_eq_false.
    destruct (decide (k ∈ a.*1)); naive_solver.
  - intros k x y Hx Hy. apply (counts_cnt a) in Hx; [|done]. apply (counts_cnt b) in Hy; [|done].
    apply counts_cnt; [done|].
    destruct (decide (k ∈ a.*1)) as [Hka|Hka].
    + rewrite H6' by (right; by apply bool_decide_eq_true_2). rewrite H3 by done. rewrite HFa. unfold ct_mem. rewrite !val_cnt.
      destruct (bool_decide_reflect (k ∈ b.*1)) as [|Hkb]; [by rewrite Hx, Hy|].
      rewrite (cnt_absent b k Hkb) in Hy. by rewrite Hx, <- Hy, Hh0.
    + rewrite (cnt_absent a k Hka) in Hx. subst x. rewrite Hn.
      destruct (decide (k ∈ b.*1)) as [Hkb|Hkb].
      * rewrite H6; [|done|by apply bool_decide_eq_false_2]. by rewrite HFb, val_cnt, Hy.
      * rewrite H6' by (by left). rewrite H3' by (by left).
        rewrite (cnt_absent b k Hkb) in Hy. rewrite <- Hy, <- Hn, Hh0. done.
Qed.
Lemma add_lemma a b : dict a -> dict b ->
  dict (ct_add a b) /\ (forall k, k ∈ (ct_add a b).*1 <-> k ∈ a.*1 \/ k ∈ b.*1) /\
  forall k x y, counts a k x -> counts b k y -> counts (ct_add a b) k (x + y).
Proof. apply (both_lemma Z.add (fun y => y)); try done; intros; lia. Qed.
Lemma sub_lemma a b : dict a -> dict b ->
  dict (ct_sub a b) /\ (forall k, k ∈ (ct_sub a b).*1 <-> k ∈ a.*1 \/ k ∈ b.*1) /\
  forall k x y, counts a k x -> counts b k y -> counts (ct_sub a b) k (x - y).
Proof. apply (both_lemma Z.sub (fun y => -1 * y)%Z); try done; intros; lia. Qed.

Lemma radd_lemma d c : dict c -> dict d -> exists c', ct_radd c (LDict d) = DOk (None, c') /\ dict c' /\
  (forall k, k ∈ c'.*1 <-> k ∈ c.*1 \/ k ∈ d.*1) /\
  forall k x y, counts c k x -> counts d k y -> counts c' k (x + y).
Proof.
  intros Hc Hd. eexists. split; [reflexivity|].
  revert c Hc. induction d as [|[k1 v1] d IH]; intros c Hc; simpl.
  - split; [done|]. split; [intros k; rewrite elem_of_nil; naive_solver|].
    intros k x y Hx [Hy|[_ ->]]; [by apply elem_of_nil in Hy|]. by rewrite Z.add_0_r.
  - unfold dict in Hd. apply NoDup_cons in Hd as [Hn Hd].
    destruct (IH Hd _ (incr_dict k1 v1 c Hc)) as (H1 & H2 & H3). split; [done|]. split.
    + intros k. rewrite H2, incr_keys, elem_of_cons. simpl. naive_solver.
    + intros k x y Hx Hy. apply (counts_cnt c) in Hx; [|done].
      assert (counts (ct_incr 0%Z Z.add k1 v1 c) k (x + if decide (k = k1) then v1 else 0)) as Hi.
      { apply counts_cnt; [by apply incr_dict|]. by rewrite incr_cnt, Hx. }
      destruct (decide (k = k1)) as [->|].
      * assert (y = v1) as ->.
        { destruct Hy as [Hy|[Hy _]]; [|exfalso; apply Hy; left].
          apply elem_of_cons in Hy as [[= ->]|Hy]; [done|]. exfalso. apply Hn, elem_of_list_fmap. by exists (k1, y). }
        specialize (H3 k1 (x + v1)%Z 0%Z Hi). rewrite Z.add_0_r in H3. apply H3. by right.
      * rewrite Z.add_0_r in Hi. apply H3; [done|].
        destruct Hy as [Hy|[Hy ->]]; [|right; split; [|done]; intros Hk; apply Hy; by right].
        apply elem_of_cons in Hy as [[= -> ->]|Hy]; [done|by left].
Qed.
End counters.
