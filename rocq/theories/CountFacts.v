(** * CountFacts: counting the elements that satisfy a predicate *)

From Verif Require Import BaseFacts Experiments.

Definition counted {A} (P : A -> Prop) (n : Z) : Prop :=
  exists l, NoDup l /\ (forall x, x ∈ l <-> P x) /\ Z.of_nat (length l) = n.

Lemma counted_ext {A} (P Q : A -> Prop) n : (forall x, P x <-> Q x) -> counted P n -> counted Q n.
Proof. intros H (l & H1 & H2 & H3). exists l. split_and!; [done| |done]. intros x. by rewrite H2. Qed.

Lemma counted_unique {A} (P : A -> Prop) n m : counted P n -> counted P m -> n = m.
Proof.
  intros (l & H1 & H2 & <-) (l' & H1' & H2' & <-). f_equal. apply Permutation_length, NoDup_Permutation; [done|done|].
  intros x. by rewrite H2, H2'.
Qed.

Lemma counted_filter {A} (P Q : A -> Prop) n : counted P n -> (forall x, P x -> Q x \/ ~ Q x) ->
  exists m, counted (fun x => P x /\ Q x) m.
Proof.
  intros (l & Hnd & Hl & _) Hdec.
  assert (forall k, NoDup k -> (forall x, x ∈ k -> P x) -> exists k', NoDup k' /\ forall x, x ∈ k' <-> x ∈ k /\ Q x) as H.
  { induction k as [|x k IH]; intros Hk HP.
    - exists []. split; [constructor|]. intros x. split; [by intros ?%elem_of_nil|by intros [?%elem_of_nil _]].
    - apply NoDup_cons in Hk as [Hx Hk]. destruct (IH Hk ltac:(intros; apply HP; by right)) as (k' & Hk' & Hin).
      destruct (Hdec x ltac:(apply HP; left)) as [Hq|Hq].
      + exists (x :: k'). split; [apply NoDup_cons; split; [|done]; intros [? _]%Hin; done|].
        intros y. rewrite !elem_of_cons, Hin. split; [intros [->|[? ?]]; tauto|tauto].
      + exists k'. split; [done|]. intros y. rewrite elem_of_cons, Hin. split; [tauto|]. intros [[->|?] ?]; [done|tauto]. }
  destruct (H l Hnd ltac:(intros x; by rewrite Hl)) as (k & Hk & Hin). exists (Z.of_nat (length k)), k.
  split_and!; [done| |done]. intros x. by rewrite Hin, Hl.
Qed.

Lemma counted_sum {I A} (L : list I) (P : I -> A -> Prop) (n : I -> Z) :
  NoDup L -> (forall i, i ∈ L -> counted (P i) (n i)) ->
  (forall i j x, i ∈ L -> j ∈ L -> P i x -> P j x -> i = j) ->
  counted (fun x => exists i, i ∈ L /\ P i x) (zsum (n <$> L)).
Proof.
  induction L as [|i L IH]; intros Hnd Hc Hd.
  - exists []. split_and!; [constructor| |done]. intros x. split; [by intros ?%elem_of_nil|by intros (? & ?%elem_of_nil & _)].
  - apply NoDup_cons in Hnd as [Hi Hnd]. destruct (Hc i ltac:(left)) as (l & H1 & H2 & H3).
    destruct IH as (l' & H1' & H2' & H3'); [done|intros; apply Hc; by right|intros j k x Hj Hk; apply Hd; by right|].
    exists (l ++ l'). split_and!.
    + apply NoDup_app. split_and!; [done| |done]. intros x Hx (j & Hj & Hpj)%H2'. apply H2 in Hx.
      apply Hi. rewrite (Hd i j x); [done|left|by right|done|done].
    + intros x. rewrite elem_of_app, H2, H2'. split.
      * intros [?|(j & ? & ?)]; [exists i; split; [left|done]|exists j; split; [by right|done]].
      * intros (j & [->|Hj]%elem_of_cons & ?); [by left|right; by exists j].
    + rewrite fmap_cons. cbn [zsum foldr]. fold (zsum (n <$> L)). rewrite app_length. lia.
Qed.

Lemma counted_prod {A B C} (P : A -> Prop) (Q : B -> Prop) (f : A -> B -> C) n m :
  counted P n -> counted Q m ->
  (forall x y x' y', P x -> Q y -> P x' -> Q y' -> f x y = f x' y' -> x = x' /\ y = y') ->
  counted (fun z => exists x y, P x /\ Q y /\ z = f x y) (n * m).
Proof.
  intros (l & H1 & H2 & <-) (k & K1 & K2 & <-) Hinj. exists (l ≫= fun x => f x <$> k). split_and!.
  - assert (forall l', NoDup l' -> (forall x, x ∈ l' -> P x) -> NoDup (l' ≫= fun x => f x <$> k)) as H.
    { induction l' as [|x l' IH]; intros Hl' HP; [constructor|]. apply NoDup_cons in Hl' as [Hx Hl']. cbn [mbind list_bind].
      apply NoDup_app. split_and!.
      - assert (forall k', NoDup k' -> (forall y, y ∈ k' -> Q y) -> NoDup (f x <$> k')) as Hk; [|apply Hk; [done|intros y; by rewrite K2]].
        induction k' as [|y k' IHk]; intros Hk HQ; [constructor|]. apply NoDup_cons in Hk as [Hy Hk]. rewrite fmap_cons. apply NoDup_cons.
        split; [|apply IHk; [done|]; intros; apply HQ; by right].
        intros (y' & Heq & Hy')%elem_of_list_fmap. apply Hy.
        destruct (Hinj x y x y') as [_ ->]; [apply HP; left|apply HQ; left|apply HP; left|apply HQ; by right|done|done].
      - intros z (y & -> & Hy)%elem_of_list_fmap (x' & (y' & Heq & Hy')%elem_of_list_fmap & Hx')%elem_of_list_bind. apply Hx.
        destruct (Hinj x y x' y') as [-> _]; [apply HP; left|by apply K2|apply HP; by right|by apply K2|done|done].
      - apply IH; [done|]. intros; apply HP; by right. }
    apply H; [done|]. intros x. by rewrite H2.
  - intros z. rewrite elem_of_list_bind. split.
    + intros (x & (y & -> & Hy%K2)%elem_of_list_fmap & Hx%H2). by exists x, y.
    + intros (x & y & Hx%H2 & Hy%K2 & ->). exists x. split; [|done]. apply elem_of_list_fmap. by exists y.
  - clear. induction l as [|x l IH]; [done|]. rewrite bind_cons, app_length, fmap_length. cbn [length].
    rewrite Nat2Z.inj_add, IH. lia.
Qed.

(** ** Sums over ranges *)

Definition sumf (f : nat -> Z) (l : list nat) : Z := zsum (f <$> l).

Lemma zsum_cons x l : zsum (x :: l) = (x + zsum l)%Z.
Proof. done. Qed.
Lemma zsum_snoc l x : zsum (l ++ [x]) = (zsum l + x)%Z.
Proof. induction l as [|y l IH]; simpl; [lia|]. rewrite IH. lia. Qed.

Lemma zsum_ext {A} (f g : A -> Z) l : (forall x, x ∈ l -> f x = g x) -> zsum (f <$> l) = zsum (g <$> l).
Proof.
  induction l as [|x l IH]; intros H; [done|]. rewrite !fmap_cons, !zsum_cons.
  rewrite (H x ltac:(left)), IH by (intros; apply H; by right). done.
Qed.
Lemma zsum_plus {A} (f g : A -> Z) l : zsum ((fun x => f x + g x)%Z <$> l) = (zsum (f <$> l) + zsum (g <$> l))%Z.
Proof. induction l as [|x l IH]; [done|]. rewrite !fmap_cons, !zsum_cons, IH. lia. Qed.
Lemma zsum_scale {A} (c : Z) (f : A -> Z) l : zsum ((fun x => c * f x)%Z <$> l) = (c * zsum (f <$> l))%Z.
Proof. induction l as [|x l IH]; [simpl; lia|]. rewrite !fmap_cons, !zsum_cons, IH. lia. Qed.

(** ** Binomial coefficients *)

Lemma comb_0 n : comb n 0 = 1%Z.
Proof. by destruct n. Qed.
Lemma comb_gt n k : (n < k)%nat -> comb n k = 0%Z.
Proof.
  revert k. induction n as [|n IH]; intros [|k] H; [lia|done|lia|]. cbn [comb]. rewrite !IH by lia. done.
Qed.
Lemma comb_diag n : comb n n = 1%Z.
Proof. induction n as [|n IH]; [done|]. cbn [comb]. rewrite IH, comb_gt by lia. done. Qed.

(** [k * C(n+1,k+1) ...]: choosing a set and one of its elements in both orders. *)
Lemma comb_absorb n k : (Z.of_nat (S k) * comb (S n) (S k) = Z.of_nat (S n) * comb n k)%Z.
Proof.
  revert k. induction n as [|n IH]; intros k.
  - cbn [comb]. destruct k as [|k]; cbn [comb]; lia.
  - destruct k as [|k].
    + specialize (IH 0). rewrite !comb_0 in *. cbn [comb]. cbn [comb] in IH. rewrite !comb_0 in *. lia.
    + pose proof (IH k) as H1. pose proof (IH (S k)) as H2.
      change (comb (S (S n)) (S (S k))) with (comb (S n) (S k) + comb (S n) (S (S k)))%Z.
      change (comb (S n) (S k)) with (comb n k + comb n (S k))%Z in *. nia.
Qed.

(** The factorial formula documented for [math.comb]. *)
Lemma comb_fact n k : (k <= n)%nat ->
  (comb n k * (Z.of_nat (fact k) * Z.of_nat (fact (n - k))) = Z.of_nat (fact n))%Z.
Proof.
  revert k. induction n as [|n IH]; intros k Hk.
  - destruct k; [done|lia].
  - destruct k as [|k].
    + rewrite comb_0. change (fact 0) with 1%nat. rewrite Nat.sub_0_r. lia.
    + pose proof (comb_absorb n k) as Ha. pose proof (IH k ltac:(lia)) as Hk'.
      replace (S n - S k)%nat with (n - k)%nat by lia. change (fact (S k)) with (S k * fact k)%nat. change (fact (S n)) with (S n * fact n)%nat.
      rewrite !Nat2Z.inj_mul, <- Hk'.
      replace (comb (S n) (S k) * (Z.of_nat (S k) * Z.of_nat (fact k) * Z.of_nat (fact (n - k))))%Z
        with (Z.of_nat (S k) * comb (S n) (S k) * (Z.of_nat (fact k) * Z.of_nat (fact (n - k))))%Z by ring.
      rewrite Ha. ring.
Qed.

Lemma comb_lemma n k :
  (if decide (k <= n)%nat then comb n k * (Z.of_nat (fact k) * Z.of_nat (fact (n - k))) = Z.of_nat (fact n) else comb n k = 0)%Z.
Proof. case_decide; [by apply comb_fact|apply comb_gt; lia]. Qed.

(** ** Choosing at most one element from every group *)

Fixpoint picks {A} (l : list (list A)) : list (list A) :=
  match l with
  | [] => [[]]
  | g :: l' => picks l' ++ (x ← g; (x ::.) <$> picks l')
  end.

Lemma zsum_app l k : zsum (l ++ k) = (zsum l + zsum k)%Z.
Proof. induction l as [|x l IH]; [done|]. rewrite <- app_comm_cons, !zsum_cons, IH. lia. Qed.

Lemma picks_sum {A} (l : list (list A)) (m : nat) (f : nat -> Z) :
  (forall g, g ∈ l -> length g = m) ->
  zsum ((fun p => f (length p)) <$> picks l) =
  sumf (fun k => comb (length l) k * Z.of_nat m ^ Z.of_nat k * f k)%Z (seq 0 (S (length l))).
Proof.
  revert f. induction l as [|g l IH]; intros f Hm.
  - unfold sumf. cbn. lia.
  - cbn [picks]. rewrite fmap_app, zsum_app, (IH f) by (intros; apply Hm; by right).
    assert (forall ys : list A, zsum ((fun p => f (length p)) <$> (x ← ys; (x ::.) <$> picks l)) =
      (Z.of_nat (length ys) * zsum ((fun p => f (S (length p))) <$> picks l))%Z) as Hb.
    { induction ys as [|y ys IHy]; [done|]. rewrite bind_cons, fmap_app, zsum_app, IHy. rewrite <- list_fmap_compose. unfold compose. cbn [length]. lia. }
    rewrite Hb, (Hm g) by left. rewrite (IH (fun k => f (S k))) by (intros; apply Hm; by right). clear Hb IH Hm.
    set (n := length l). change (length (g :: l)) with (S n). unfold sumf.
    change (seq 0 (S (S n))) with (0%nat :: seq 1 (S n)). rewrite fmap_cons, zsum_cons, comb_0.
    rewrite <- (fmap_S_seq 0 (S n)), <- list_fmap_compose.
    rewrite (zsum_ext (_ ∘ S) (fun k => comb n (S k) * Z.of_nat m ^ Z.of_nat (S k) * f (S k) + Z.of_nat m * (comb n k * Z.of_nat m ^ Z.of_nat k * f (S k)))%Z (seq 0 (S n))).
    2:{ intros k _. unfold compose. cbv beta. change (comb (S n) (S k)) with (comb n k + comb n (S k))%Z. rewrite Nat2Z.inj_succ, Z.pow_succ_r by lia. ring. }
    rewrite zsum_plus, zsum_scale.
    set (B := zsum ((fun k => comb n k * Z.of_nat m ^ Z.of_nat k * f (S k))%Z <$> seq 0 (S n))).
    assert (forall A : nat -> Z, zsum (A <$> seq 0 (S n)) = (A 0%nat + zsum ((fun k => A (S k)) <$> seq 0 n))%Z) as E1.
    { intros F. change (seq 0 (S n)) with (0%nat :: seq 1 n). rewrite fmap_cons, zsum_cons, <- (fmap_S_seq 0 n), <- list_fmap_compose. done. }
    assert (forall A : nat -> Z, zsum (A <$> seq 0 (S n)) = (zsum (A <$> seq 0 n) + A n)%Z) as E2.
    { intros F. replace (S n) with (n + 1)%nat by lia. rewrite (seq_app n 1 0), fmap_app. cbn [seq Nat.add]. change (F <$> [n]) with [F n]. apply zsum_snoc. }
    rewrite (E1 (fun k => comb n k * Z.of_nat m ^ Z.of_nat k * f k)%Z), (E2 (fun k => comb n (S k) * Z.of_nat m ^ Z.of_nat (S k) * f (S k))%Z).
    rewrite (comb_gt n (S n)), comb_0 by lia. lia.
Qed.

Section picks_sets.
Context {A : Type} `{Countable A}.
Implicit Types (l : list (list A)) (W : gset A).

Definition pick_sets l : list (gset A) := list_to_set <$> picks l.

Lemma pick_sets_cons g l : pick_sets (g :: l) = pick_sets l ++ (x ← g; (fun W => {[x]} ∪ W) <$> pick_sets l).
Proof.
  unfold pick_sets. cbn [picks]. rewrite fmap_app. f_equal. induction g as [|x g IH]; [done|].
  rewrite !bind_cons, fmap_app, IH. f_equal. rewrite <- !list_fmap_compose. done.
Qed.

(** At most one element of every group. *)
Definition one_each l W : Prop :=
  (forall x, x ∈ W -> x ∈ concat l) /\ forall g x y, g ∈ l -> x ∈ g -> y ∈ g -> x ∈ W -> y ∈ W -> x = y.

Lemma concat_elem l g (x : A) : g ∈ l -> x ∈ g -> x ∈ concat l.
Proof.
  induction l as [|h l IH]; [by intros ?%elem_of_nil|]. intros [->|Hg]%elem_of_cons Hx; cbn [concat]; apply elem_of_app; [by left|].
  right. by apply IH.
Qed.

Lemma elem_of_pick_sets l W : NoDup (concat l) -> W ∈ pick_sets l <-> one_each l W.
Proof.
  revert W. induction l as [|g l IH]; intros W Hnd.
  - unfold pick_sets. cbn [picks]. change (list_to_set <$> [[]]) with [∅ : gset A]. rewrite elem_of_list_singleton. split.
    + intros ->. split; [by intros x ?%elem_of_empty|by intros g x y ?%elem_of_nil].
    + intros [HW _]. apply set_eq. intros x. split; [by intros ?%HW%elem_of_nil|by intros ?%elem_of_empty].
  - cbn [concat] in Hnd. apply NoDup_app in Hnd as (Hg & Hgl & Hl).
    rewrite pick_sets_cons, elem_of_app, elem_of_list_bind. rewrite (IH W Hl). split.
    + intros [[H1 H2]|(x & (W' & -> & HW')%elem_of_list_fmap & Hx)].
      * split; [intros x Hx; cbn [concat]; apply elem_of_app; right; by apply H1|].
        intros h x y [->|Hh]%elem_of_cons; [|by apply H2]. intros Hx _ HxW _. exfalso. apply (Hgl x Hx). by apply H1.
      * apply (IH W' Hl) in HW' as [H1 H2]. split.
        -- intros y [->%elem_of_singleton|Hy]%elem_of_union; cbn [concat]; apply elem_of_app; [by left|right; by apply H1].
        -- intros h y z [->|Hh]%elem_of_cons Hy Hz.
           ++ intros [->%elem_of_singleton|Hy']%elem_of_union [->%elem_of_singleton|Hz']%elem_of_union; [done|..].
              ** exfalso. by apply (Hgl z Hz), H1.
              ** exfalso. by apply (Hgl y Hy), H1.
              ** exfalso. by apply (Hgl y Hy), H1.
           ++ intros [->%elem_of_singleton|Hy']%elem_of_union [->%elem_of_singleton|Hz']%elem_of_union; [done|..].
              ** exfalso. apply (Hgl x Hx). by apply (concat_elem l h).
              ** exfalso. apply (Hgl x Hx). by apply (concat_elem l h).
              ** by apply (H2 h).
    + intros [H1 H2]. destruct (decide (Exists (fun x => x ∈ W) g)) as [He|He].
      * right. apply Exists_exists in He as (x & Hx & HxW). exists x. split; [|done]. apply elem_of_list_fmap. exists (W ∖ {[x]}). split.
        -- apply set_eq. intros y. rewrite elem_of_union, elem_of_difference, elem_of_singleton. destruct (decide (y = x)) as [->|]; tauto.
        -- apply IH; [done|]. split.
           ++ intros y [Hy Hne]%elem_of_difference. rewrite elem_of_singleton in Hne.
              specialize (H1 y Hy). cbn [concat] in H1. apply elem_of_app in H1 as [Hyg|?]; [|done].
              exfalso. apply Hne. apply (H2 g); [left|done..].
           ++ intros h y z Hh Hy Hz [HyW _]%elem_of_difference [HzW _]%elem_of_difference. apply (H2 h); [by right|done..].
      * left. split.
        -- intros y Hy. pose proof (H1 y Hy) as Hyc. cbn [concat] in Hyc. apply elem_of_app in Hyc as [Hyg|?]; [|done].
           exfalso. apply He, Exists_exists. by exists y.
        -- intros h x y Hh. apply H2. by right.
Qed.

Lemma NoDup_pick_sets l : NoDup (concat l) -> NoDup (pick_sets l).
Proof.
  induction l as [|g l IH]; intros Hnd; [apply NoDup_singleton|].
  cbn [concat] in Hnd. apply NoDup_app in Hnd as (Hg & Hgl & Hl). rewrite pick_sets_cons.
  assert (forall W x, W ∈ pick_sets l -> x ∈ g -> x ∉ W) as Hout.
  { intros W x HW Hx HxW. apply elem_of_pick_sets in HW as [H1 _]; [|done]. apply (Hgl x Hx). by apply H1. }
  apply NoDup_app. split_and!; [by apply IH|..].
  - intros W HW (x & (W' & -> & HW')%elem_of_list_fmap & Hx)%elem_of_list_bind. apply (Hout _ x HW Hx). set_solver.
  - assert (forall ys, NoDup ys -> (forall y, y ∈ ys -> y ∈ g) -> NoDup (x ← ys; (fun W => {[x]} ∪ W) <$> pick_sets l)) as Hy; [|by apply Hy].
    induction ys as [|y ys IHy]; intros Hys Hin; [constructor|]. apply NoDup_cons in Hys as [Hy Hys]. rewrite bind_cons.
    apply NoDup_app. split_and!.
    + assert (forall L, NoDup L -> (forall W, W ∈ L -> W ∈ pick_sets l) -> NoDup ((fun W => {[y]} ∪ W) <$> L)) as HL; [|apply HL; [by apply IH|done]].
      induction L as [|W L IHL]; intros HndL HL; [constructor|]. apply NoDup_cons in HndL as [HW HndL]. rewrite fmap_cons. apply NoDup_cons.
      split; [|apply IHL; [done|]; intros; apply HL; by right].
      intros (W' & Heq & HW')%elem_of_list_fmap. apply HW.
      assert (y ∉ W) by (apply Hout; [apply HL; left|apply Hin; left]). assert (y ∉ W') by (apply Hout; [apply HL; by right|apply Hin; left]).
      assert (W = W') as ->; [|done]. apply set_eq. intros z.
      assert (z ∈ {[y]} ∪ W <-> z ∈ {[y]} ∪ W') as Hz by (by rewrite Heq).
      rewrite !elem_of_union, !elem_of_singleton in Hz. destruct (decide (z = y)) as [->|]; tauto.
    + intros W (W1 & -> & HW1)%elem_of_list_fmap (y' & (W2 & Heq & HW2)%elem_of_list_fmap & Hy')%elem_of_list_bind.
      assert (y ∈ ({[y']} ∪ W2 : gset A)) as Hyin. { rewrite <- Heq. apply elem_of_union_l. by apply elem_of_singleton. }
      apply elem_of_union in Hyin as [->%elem_of_singleton|Hy2]; [done|]. apply (Hout W2 y HW2); [apply Hin; left|done].
    + apply IHy; [done|]. intros; apply Hin; by right.
Qed.

Lemma size_pick l p : NoDup (concat l) -> p ∈ picks l -> size (list_to_set p : gset A) = length p.
Proof.
  intros Hnd Hp. apply size_list_to_set. revert p Hp. induction l as [|g l IH]; intros p Hp.
  - apply elem_of_list_singleton in Hp as ->. constructor.
  - cbn [concat] in Hnd. apply NoDup_app in Hnd as (Hg & Hgl & Hl). cbn [picks] in Hp. apply elem_of_app in Hp as [Hp|Hp]; [by apply IH|].
    apply elem_of_list_bind in Hp as (x & (p' & -> & Hp')%elem_of_list_fmap & Hx). apply NoDup_cons. split; [|by apply IH].
    intros Hin. assert ((list_to_set p' : gset A) ∈ pick_sets l) as HW by (apply elem_of_list_fmap; by exists p').
    apply elem_of_pick_sets in HW as [H1 _]; [|done]. apply (Hgl x Hx), H1. by apply elem_of_list_to_set.
Qed.

Lemma pick_sets_sum l (m : nat) (f : nat -> Z) : NoDup (concat l) -> (forall g, g ∈ l -> length g = m) ->
  zsum ((fun W => f (size W)) <$> pick_sets l) =
  sumf (fun k => comb (length l) k * Z.of_nat m ^ Z.of_nat k * f k)%Z (seq 0 (S (length l))).
Proof.
  intros Hnd Hm. rewrite <- picks_sum by done. unfold pick_sets. rewrite <- list_fmap_compose. apply zsum_ext.
  intros p Hp. unfold compose. by rewrite (size_pick l).
Qed.

(** Subsets of a set. *)
Definition subsets (X : gset A) : list (gset A) := pick_sets ((fun x => [x]) <$> elements X).

Lemma concat_singletons (l : list A) : concat ((fun x => [x]) <$> l) = l.
Proof. induction l as [|x l IH]; [done|]. rewrite fmap_cons. cbn [concat]. by rewrite IH. Qed.

Lemma elem_of_subsets X W : W ∈ subsets X <-> W ⊆ X.
Proof.
  unfold subsets. rewrite elem_of_pick_sets by (rewrite concat_singletons; apply NoDup_elements).
  unfold one_each. rewrite concat_singletons. setoid_rewrite elem_of_elements. split; [by intros [? _]|]. intros HW. split; [done|].
  intros g x y (z & -> & _)%elem_of_list_fmap. rewrite !elem_of_list_singleton. congruence.
Qed.
Lemma NoDup_subsets X : NoDup (subsets X).
Proof. apply NoDup_pick_sets. rewrite concat_singletons. apply NoDup_elements. Qed.
Lemma subsets_sum X (f : nat -> Z) :
  zsum ((fun W => f (size W)) <$> subsets X) = sumf (fun k => comb (size X) k * f k)%Z (seq 0 (S (size X))).
Proof.
  unfold subsets. rewrite (pick_sets_sum _ 1).
  - rewrite fmap_length. change (length (elements X)) with (size X). apply zsum_ext. intros k _. rewrite Z.pow_1_l by lia. lia.
  - rewrite concat_singletons. apply NoDup_elements.
  - by intros g (z & -> & _)%elem_of_list_fmap.
Qed.

End picks_sets.
