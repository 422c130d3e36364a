(** * HashFacts: equal objects have equal hashes (C02) *)

From stdpp Require Import sorting.
From Verif Require Export Hash SampleGraph.

Section hash.
Variable htuple : list Z -> Z.
Variable hset : list Z -> Z.
Hypothesis hset_perm : forall l l', Permutation l l' -> hset l = hset l'.

Lemma pair_laws {A B} (ga : A -> Prop) (gb : B -> Prop) ea eb ha hb : laws ga ea ha -> laws gb eb hb ->
  laws (fun x : A * B => ga x.1 /\ gb x.2) (pair_eqb ea eb) (pair_hash htuple ha hb).
Proof.
  intros [r1 s1 t1 h1] [r2 s2 t2 h2]. unfold pair_eqb, pair_hash. split.
  - intros x [H1 H2]. by rewrite r1, r2.
  - intros x y [H1 H2] [H3 H4] [Ha Hb]%andb_prop. rewrite s1, s2; done.
  - intros x y z [H1 H2] [H3 H4] [H5 H6] [Ha Hb]%andb_prop [Hc Hd]%andb_prop.
    rewrite (t1 x.1 y.1 z.1), (t2 x.2 y.2 z.2); done.
  - intros x y [H1 H2] [H3 H4] [Ha Hb]%andb_prop. by rewrite (h1 x.1 y.1), (h2 x.2 y.2).
Qed.

Section fs.
Context {A : Type} (good : A -> Prop) (eqb : A -> A -> bool) (h : A -> Z) (Hl : laws good eqb h).

Lemma same_spec x y : good x -> good y -> same eqb h x y = true <-> eqb x y = true.
Proof.
  intros Hx Hy. unfold same. rewrite andb_true_iff, Z.eqb_eq. split; [by intros []|]. intros He. split; [|done]. by apply (lw_hash _ _ _ Hl).
Qed.
Lemma mem_spec x l : good x -> (forall y, y ∈ l -> good y) -> mem eqb h x l = true <-> exists y, y ∈ l /\ eqb x y = true.
Proof.
  intros Hx Hg. unfold mem. rewrite existsb_exists. setoid_rewrite <- elem_of_list_In.
  split; intros (y & Hy & He); exists y; (split; [done|]); apply same_spec in He || apply same_spec; auto.
Qed.
Lemma fs_eqb_spec l l' : (forall x, x ∈ l -> good x) -> (forall x, x ∈ l' -> good x) ->
  fs_eqb eqb h l l' = true <-> length l = length l' /\ forall x, x ∈ l -> exists y, y ∈ l' /\ eqb x y = true.
Proof.
  intros Hg Hg'. unfold fs_eqb. rewrite andb_true_iff, Nat.eqb_eq, forallb_forall. setoid_rewrite <- elem_of_list_In.
  split; intros [Hn Hs]; (split; [done|]); intros x Hx; [apply (mem_spec x l')|apply (mem_spec x l')]; auto.
Qed.

(** Matching elements one to one. *)
Definition pairing (l l' : list A) : Prop := exists k, Permutation l' k /\ Forall2 (fun x y => eqb x y = true) l k.

Lemma pairing_of l l' : fs_good good eqb l -> (forall x, x ∈ l' -> good x) -> length l = length l' ->
  (forall x, x ∈ l -> exists y, y ∈ l' /\ eqb x y = true) -> pairing l l'.
Proof.
  intros [Hg Hd]. revert l'. induction l as [|x l IH]; intros l' Hg' Hn Hs.
  { destruct l'; [|done]. exists []. done. }
  inversion Hd as [|? ? Hx Hd']; subst. destruct (Hs x) as (y & Hy & He); [left|].
  apply elem_of_Permutation in Hy as [k Hk].
  destruct (IH ltac:(intros; apply Hg; by right) Hd' k) as (k' & Hk' & Hf).
  - intros z Hz. apply Hg'. rewrite Hk. by right.
  - apply Permutation_length in Hk. cbn in *. lia.
  - intros z Hz. destruct (Hs z) as (w & Hw & Hzw); [by right|]. rewrite Hk in Hw. apply elem_of_cons in Hw as [->|Hw]; [|eauto].
    exfalso. assert (eqb x z = true) as Hxz; [|by rewrite Hx in Hxz].
    assert (good x) by (apply Hg; left). assert (good z) by (apply Hg; by right).
    assert (good y) by (apply Hg'; rewrite Hk; left).
    apply (lw_trans _ _ _ Hl x y z); try done. by apply (lw_sym _ _ _ Hl).
  - exists (y :: k'). split; [by rewrite Hk, Hk'|]. by constructor.
Qed.

Lemma pairing_back l l' : pairing l l' -> length l = length l' /\ (forall x, x ∈ l -> exists y, y ∈ l' /\ eqb x y = true) /\
  (forall y, y ∈ l' -> exists x, x ∈ l /\ eqb x y = true).
Proof.
  intros (k & Hk & Hf). split_and!.
  - rewrite Hk. by eapply Forall2_length.
  - intros x Hx. setoid_rewrite Hk. clear Hk. induction Hf as [|a b l k Hab Hf IH]; [by apply elem_of_nil in Hx|].
    apply elem_of_cons in Hx as [->|Hx]; [exists b; split; [left|done]|]. destruct (IH Hx) as (y & ? & ?). exists y. split; [by right|done].
  - intros y. rewrite Hk. clear Hk. intros Hy. induction Hf as [|a b l k Hab Hf IH]; [by apply elem_of_nil in Hy|].
    apply elem_of_cons in Hy as [->|Hy]; [exists a; split; [left|done]|]. destruct (IH Hy) as (x & ? & ?). exists x. split; [by right|done].
Qed.

Lemma fs_eqb_iff l l' : fs_good good eqb l -> fs_good good eqb l' ->
  fs_eqb eqb h l l' = true <-> (forall x, x ∈ l -> exists y, y ∈ l' /\ eqb x y = true) /\ (forall y, y ∈ l' -> exists x, x ∈ l /\ eqb x y = true).
Proof.
  intros Hg Hg'. rewrite fs_eqb_spec by (apply Hg || apply Hg'). split.
  - intros [Hn Hs]. destruct (pairing_back l l') as (_ & ? & ?); [by apply pairing_of; try apply Hg'|done].
  - intros [H1 H2]. split; [|done]. apply Nat.le_antisymm.
    + clear H2. destruct Hg as [Hg Hd]. destruct Hg' as [Hg' _]. revert l' Hg' H1.
      induction l as [|x l IH]; intros l' Hg' H1; [cbn; lia|]. inversion Hd as [|? ? Hx Hd']; subst.
      destruct (H1 x) as (y & Hy & He); [left|]. apply elem_of_Permutation in Hy as [k Hk].
      rewrite Hk. cbn. apply le_n_S, IH; [intros; apply Hg; by right|done|intros z Hz; apply Hg'; rewrite Hk; by right|].
      intros z Hz. destruct (H1 z) as (w & Hw & Hzw); [by right|]. rewrite Hk in Hw. apply elem_of_cons in Hw as [->|Hw]; [|eauto].
      exfalso. assert (eqb x z = true) as Hxz; [|by rewrite Hx in Hxz].
      assert (good x) by (apply Hg; left). assert (good z) by (apply Hg; by right).
      assert (good y) by (apply Hg'; rewrite Hk; left).
      apply (lw_trans _ _ _ Hl x y z); try done. by apply (lw_sym _ _ _ Hl).
    + clear H1. destruct Hg as [Hg _]. destruct Hg' as [Hg' Hd]. revert l Hg H2.
      induction l' as [|x l' IH]; intros l Hg H1; [cbn; lia|]. inversion Hd as [|? ? Hx Hd']; subst.
      destruct (H1 x) as (y & Hy & He); [left|]. apply elem_of_Permutation in Hy as [k Hk].
      rewrite Hk. cbn. apply le_n_S, IH; [intros; apply Hg'; by right|done|intros z Hz; apply Hg; rewrite Hk; by right|].
      intros z Hz. destruct (H1 z) as (w & Hw & Hzw); [by right|]. rewrite Hk in Hw. apply elem_of_cons in Hw as [->|Hw]; [|eauto].
      exfalso. assert (eqb x z = true) as Hxz; [|by rewrite Hx in Hxz].
      assert (good x) by (apply Hg'; left). assert (good z) by (apply Hg'; by right).
      assert (good y) by (apply Hg; rewrite Hk; left).
      apply (lw_trans _ _ _ Hl x y z); try done. by apply (lw_sym _ _ _ Hl).
Qed.

Lemma pairing_map {B} (f : A -> B) l l' : (forall x y, good x -> good y -> eqb x y = true -> f x = f y) ->
  (forall x, x ∈ l -> good x) -> (forall x, x ∈ l' -> good x) -> pairing l l' -> Permutation (map f l) (map f l').
Proof.
  intros Hf0 Hg Hg' (k & Hk & Hf). rewrite Hk. enough (map f l = map f k) as -> by done.
  assert (forall x, x ∈ k -> good x) as Hgk by (intros x Hx; apply Hg'; by rewrite Hk). clear Hk Hg'.
  induction Hf as [|a b l k Hab Hf IH]; [done|]. cbn. rewrite IH; [|intros; apply Hg; by right|intros; apply Hgk; by right].
  rewrite (Hf0 a b); [done|apply Hg; left|apply Hgk; left|done].
Qed.

Lemma pairing_hash l l' : (forall x, x ∈ l -> good x) -> (forall x, x ∈ l' -> good x) -> pairing l l' -> Permutation (map h l) (map h l').
Proof.
  apply pairing_map. apply (lw_hash _ _ _ Hl).
Qed.

Lemma fs_laws : laws (fs_good good eqb) (fs_eqb eqb h) (fs_hash hset h).
Proof.
  split.
  - intros l Hg. apply fs_eqb_iff; [done|done|]. split; intros x Hx; exists x; (split; [done|]); apply (lw_refl _ _ _ Hl), Hg, Hx.
  - intros l l' Hg Hg' He. apply fs_eqb_iff in He as [H1 H2]; [|done|done]. apply fs_eqb_iff; [done|done|]. split.
    + intros x Hx. destruct (H2 x Hx) as (y & Hy & Hyx). exists y. split; [done|]. apply (lw_sym _ _ _ Hl); [by apply Hg|by apply Hg'|done].
    + intros x Hx. destruct (H1 x Hx) as (y & Hy & Hyx). exists y. split; [done|]. apply (lw_sym _ _ _ Hl); [by apply Hg|by apply Hg'|done].
  - intros l1 l2 l3 G1 G2 G3 H12 H23. apply fs_eqb_iff in H12 as [A1 A2]; [|done|done]. apply fs_eqb_iff in H23 as [B1 B2]; [|done|done].
    apply fs_eqb_iff; [done|done|]. split.
    + intros x Hx. destruct (A1 x Hx) as (y & Hy & Hxy). destruct (B1 y Hy) as (z & Hz & Hyz). exists z. split; [done|].
      apply (lw_trans _ _ _ Hl x y z); [by apply G1|by apply G2|by apply G3|done|done].
    + intros z Hz. destruct (B2 z Hz) as (y & Hy & Hyz). destruct (A2 y Hy) as (x & Hx & Hxy). exists x. split; [done|].
      apply (lw_trans _ _ _ Hl x y z); [by apply G1|by apply G2|by apply G3|done|done].
  - intros l l' Hg Hg' He. apply fs_eqb_spec in He as [Hn Hs]; [|apply Hg|apply Hg']. apply hset_perm, pairing_hash; [apply Hg|apply Hg'|].
    apply pairing_of; [done|apply Hg'|done|done].
Qed.
End fs.

Lemma any_laws {A} (eqb : A -> A -> bool) (h : A -> Z) good : laws good eqb h -> (forall x, good x) -> laws any eqb h.
Proof. intros [r1 s1 t1 h1] Ha. split; eauto. Qed.

Lemma laws_impl {A} (good good' : A -> Prop) (eqb : A -> A -> bool) (h : A -> Z) :
  (forall x, good x -> good' x) -> laws good' eqb h -> laws good eqb h.
Proof.
  intros Hi [r1 s1 t1 h1]. split.
  - intros x Hx. auto.
  - intros x y Hx Hy. auto.
  - intros x y z Hx Hy Hz. apply t1; auto.
  - intros x y Hx Hy. auto.
Qed.

Lemma Z_laws (hz : Z -> Z) : laws any Z.eqb hz.
Proof.
  split.
  - intros x _. apply Z.eqb_refl.
  - intros x y _ _ Hx%Z.eqb_eq. by apply Z.eqb_eq.
  - intros x y z _ _ _ Hx%Z.eqb_eq Hy%Z.eqb_eq. apply Z.eqb_eq. congruence.
  - intros x y _ _ Hx%Z.eqb_eq. by subst.
Qed.

(** ** Dictionaries *)
Section dict.
Context {A : Type} (good : A -> Prop) (eqb : A -> A -> bool) (h : A -> Z) (Hl : laws good eqb h) (hz : Z -> Z).
Let peqb : A * Z -> A * Z -> bool := pair_eqb eqb Z.eqb.
Let ph : A * Z -> Z := pair_hash htuple h hz.
Let pgood (x : A * Z) : Prop := good x.1.

Lemma item_laws : laws pgood peqb ph.
Proof. apply (laws_impl _ (fun x : A * Z => good x.1 /\ any x.2)); [done|]. apply pair_laws; [done|apply Z_laws]. Qed.

Lemma dict_items_good d : dict_good good eqb d -> fs_good pgood peqb d.
Proof.
  unfold dict_good. intros [Hg Hd]. split.
  - intros x Hx. apply Hg, elem_of_list_fmap. by exists x.
  - clear Hg. induction d as [|x d IH]; [constructor|]. cbn in Hd. inversion Hd as [|? ? Hx Hd']; subst. constructor; [|auto].
    intros y Hy. unfold peqb, pair_eqb. rewrite Hx; [done|]. apply elem_of_list_fmap. by exists y.
Qed.

Lemma distinct_eq l x y : (forall z, z ∈ l -> good z) -> distinct eqb l -> x ∈ l -> y ∈ l -> eqb x y = true -> x = y.
Proof.
  intros Hg Hd Hx Hy He. induction Hd as [|z l Hz Hd IH]; [by apply elem_of_nil in Hx|].
  apply elem_of_cons in Hx as [->|Hx], Hy as [->|Hy]; [done| | |].
  - by rewrite Hz in He.
  - apply (lw_sym _ _ _ Hl) in He; [|apply Hg; by right|apply Hg; left]. by rewrite Hz in He.
  - apply IH; try done. intros w Hw. apply Hg. by right.
Qed.

Lemma dict_eqb_spec d e : dict_good good eqb d -> dict_good good eqb e ->
  dict_eqb eqb h d e = true <-> length d = length e /\ forall x, x ∈ d -> exists y, y ∈ e /\ peqb x y = true.
Proof.
  intros Hd He. pose proof (dict_items_good _ Hd) as [Hgd _]. pose proof (dict_items_good _ He) as [Hge _].
  unfold dict_eqb. rewrite andb_true_iff, Nat.eqb_eq, forallb_forall. setoid_rewrite <- elem_of_list_In.
  split; intros [Hn Hs]; (split; [done|]); intros x Hx.
  - specialize (Hs x Hx). destruct (find _ e) as [y|] eqn:Hf; [|done]. apply find_some in Hf as [Hy Hxy].
    apply elem_of_list_In in Hy. exists y. split; [done|]. unfold peqb, pair_eqb. apply andb_true_iff. split; [|done].
    apply (same_spec good eqb h Hl) in Hxy; [done|by apply Hgd|by apply Hge].
  - destruct (Hs x Hx) as (y & Hy & Hxy). unfold peqb, pair_eqb in Hxy. apply andb_true_iff in Hxy as [Hk Hv].
    destruct (find _ e) as [z|] eqn:Hf.
    + apply find_some in Hf as [Hz Hxz]. apply elem_of_list_In in Hz. apply (same_spec good eqb h Hl) in Hxz; [|by apply Hgd|by apply Hge].
      enough (y = z) by (by subst).
      assert (y.1 = z.1) as Hyz.
      { destruct He as [Hg' Hd']. apply (distinct_eq (map fst e)); try done.
        - apply elem_of_list_fmap. by exists y.
        - apply elem_of_list_fmap. by exists z.
        - apply (lw_trans _ _ _ Hl y.1 x.1 z.1); [by apply Hge|by apply Hgd|by apply Hge| |done].
          apply (lw_sym _ _ _ Hl); [by apply Hgd|by apply Hge|done]. }
      destruct He as [Hg' Hd']. clear -Hy Hz Hyz Hd' Hg' Hl. induction e as [|w e IH]; [by apply elem_of_nil in Hy|].
      cbn in Hd', Hg'. inversion Hd' as [|? ? Hw Hd'']; subst.
      assert (forall a b : A * Z, a ∈ w :: e -> a.1 = b.1 -> eqb a.1 b.1 = true) as Hre.
      { intros a b Ha Hab. rewrite <- Hab. apply (lw_refl _ _ _ Hl), Hg'. change (a.1 ∈ map fst (w :: e)). apply elem_of_list_fmap. by exists a. }
      pose proof Hy as Hy'. pose proof Hz as Hz'.
      apply elem_of_cons in Hy as [->|Hy], Hz as [->|Hz]; [done| | |].
      * pose proof (Hre w z Hy' Hyz) as Hx. rewrite Hw in Hx; [done|]. apply elem_of_list_fmap. by exists z.
      * pose proof (Hre w y Hz' (eq_sym Hyz)) as Hx. rewrite Hw in Hx; [done|]. apply elem_of_list_fmap. by exists y.
      * apply IH; try done. intros a Ha. apply Hg'. by right.
    + eapply (find_none _ e) in Hf; [|by apply elem_of_list_In]. cbn in Hf. exfalso.
      apply (same_spec good eqb h Hl) in Hk; [congruence|by apply Hgd|by apply Hge].
Qed.

Lemma dict_fs d e : dict_good good eqb d -> dict_good good eqb e -> dict_eqb eqb h d e = true <-> fs_eqb peqb ph d e = true.
Proof.
  intros Hd He. rewrite dict_eqb_spec by done. symmetry. apply (fs_eqb_spec pgood peqb ph item_laws).
  - by apply dict_items_good.
  - by apply dict_items_good.
Qed.

Lemma dict_pairing d e : dict_good good eqb d -> dict_good good eqb e -> dict_eqb eqb h d e = true -> pairing peqb d e.
Proof.
  intros Hd He Heq. apply dict_eqb_spec in Heq as [Hn Hs]; [|done|done].
  apply (pairing_of pgood peqb ph item_laws); [by apply dict_items_good|by apply dict_items_good|done|done].
Qed.

Global Instance pair_le_trans : Transitive pair_le.
Proof. intros [a b] [c d] [e f]. unfold pair_le. cbn. lia. Qed.
Global Instance pair_le_total : Total pair_le.
Proof. intros [a b] [c d]. unfold pair_le. cbn. lia. Qed.
Lemma pair_le_antisymm : AntiSymm (=) pair_le.
Proof. intros [a b] [c d]. unfold pair_le. cbn. intros ? ?. f_equal; lia. Qed.

Lemma sorted_perm l l' : Permutation l l' -> sorted l = sorted l'.
Proof.
  intros Hp. unfold sorted. pose proof pair_le_antisymm. apply (StronglySorted_unique pair_le).
  - by apply StronglySorted_merge_sort; apply _.
  - by apply StronglySorted_merge_sort; apply _.
  - by rewrite !merge_sort_Permutation.
Qed.

Lemma dict_laws : laws (dict_good good eqb) (dict_eqb eqb h)
  (fun d => htuple (map (fun p => htuple [p.1; p.2]) (sorted (map (fun gc => (h gc.1, hz gc.2)) d)))).
Proof.
  pose proof (fs_laws pgood peqb ph item_laws) as [r1 s1 t1 _]. split.
  - intros d Hd. apply dict_fs; [done|done|]. by apply r1, dict_items_good.
  - intros d e Hd He Hde. apply dict_fs; [done|done|]. apply dict_fs in Hde; [|done|done].
    apply s1; [by apply dict_items_good|by apply dict_items_good|done].
  - intros d e f Hd He Hf H1 H2. apply dict_fs in H1; [|done|done]. apply dict_fs in H2; [|done|done].
    apply dict_fs; [done|done|]. apply (t1 d e f); try (by apply dict_items_good); done.
  - intros d e Hd He Hde. do 2 f_equal. apply sorted_perm.
    apply (pairing_map pgood peqb); [|apply (dict_items_good _ Hd)|apply (dict_items_good _ He)|by apply dict_pairing].
    intros x y Hx Hy [Hk Hv]%andb_prop. apply Z.eqb_eq in Hv. rewrite Hv. f_equal. by apply (lw_hash _ _ _ Hl).
Qed.
End dict.

(** ** The classes *)
Section classes.
Context {U : Universe}.
Variables (veq : Var -> Var -> bool) (hv : Var -> Z) (Hv : laws any veq hv).
Variables (xeq : Val -> Val -> bool) (hx : Val -> Z) (Hx : laws any xeq hx).
Variables (req : Rel -> Rel -> bool) (hr : Rel -> Z) (Hr : laws any req hr).
Variables (W : Type) (weq : W -> W -> bool) (hw : W -> Z) (Hw : laws any weq hw).
Variable hz : Z -> Z.

Lemma node_laws : laws any (node_eqb veq xeq) (node_hash htuple hv hx).
Proof. apply (laws_impl _ (fun x : Var * Val => any x.1 /\ any x.2)); [done|]. by apply (pair_laws any any). Qed.

Lemma rel_laws : laws any (rel_eqb veq req) (rel_hash htuple hv hr).
Proof.
  destruct Hv as [r1 s1 t1 h1], Hr as [r2 s2 t2 h2]. split.
  - intros [r|a b r] _; cbn; [by apply r2|]. by rewrite !r1, r2.
  - intros [r|a b r] [s|c d s] _ _; cbn; try done; [by apply s2|]. intros [[H1 H2]%andb_prop H3]%andb_prop.
    by rewrite (s1 a c), (s1 b d), (s2 r s).
  - intros [r|a b r] [s|c d s] [t|e f t] _ _ _; cbn; try done; [by apply t2|].
    intros [[H1 H2]%andb_prop H3]%andb_prop [[H4 H5]%andb_prop H6]%andb_prop.
    by rewrite (t1 a c e), (t1 b d f), (t2 r s t).
  - intros [r|a b r] [s|c d s] _ _; cbn; try done; [by apply h2|]. intros [[H1 H2]%andb_prop H3]%andb_prop.
    by rewrite (h1 a c), (h1 b d), (h2 r s).
Qed.

Notation neqb := (node_eqb veq xeq).
Notation nhash := (node_hash htuple hv hx).
Notation eeqb := (edge_eqb htuple veq hv xeq hx req).
Notation ehash := (edge_hash htuple hset hv hx hr).
Notation egood := (edge_good veq xeq).

Lemma edge_laws : laws egood eeqb ehash.
Proof.
  pose proof (fs_laws any neqb nhash node_laws) as [r1 s1 t1 h1]. destruct rel_laws as [r2 s2 t2 h2].
  unfold edge_eqb, edge_hash, edge_good. split.
  - intros e He. by rewrite r1, r2.
  - intros e f He Hf [H1 H2]%andb_prop. by rewrite s1, s2.
  - intros e f g He Hf Hg [H1 H2]%andb_prop [H3 H4]%andb_prop.
    by rewrite (t1 (oe_endpoints e) (oe_endpoints f)), (t2 (oe_relation e) (oe_relation f)).
  - intros e f He Hf [H1 H2]%andb_prop. by rewrite (h1 (oe_endpoints e) (oe_endpoints f)), (h2 (oe_relation e) (oe_relation f)).
Qed.

Notation leqb := (element_eqb htuple veq hv xeq hx req).
Notation lhash := (element_hash htuple hset hv hx hr).
Notation lgood := (element_good veq xeq).

Lemma element_laws : laws lgood leqb lhash.
Proof.
  destruct node_laws as [r1 s1 t1 h1]. destruct edge_laws as [r2 s2 t2 h2]. split.
  - intros [n|e] Hg; cbn; [by apply r1|by apply r2].
  - intros [n|e] [m|f] Hg Hg'; cbn; try done; [by apply s1|by apply s2].
  - intros [n|e] [m|f] [k|g] Hg Hg' Hg''; cbn; try done; [by apply t1|by apply t2].
  - intros [n|e] [m|f] Hg Hg'; cbn; try done; [by apply h1|by apply h2].
Qed.

Notation ohash := (og_hash htuple hset veq hv xeq hx req hr).
Notation geqb := (ograph_eqb htuple hset veq hv xeq hx req hr).
Notation ghash := (ograph_hash htuple hset veq hv xeq hx req hr).
Notation ggood := (ograph_good htuple veq hv xeq hx req).

Lemma og_hash_app g : ohash g = map ENode (og_nodes g) ++ map EEdge (og_edges g).
Proof.
  unfold og_hash, fs_union. f_equal. induction (og_edges g) as [|e l IH]; [done|]. cbn [map].
  rewrite filter_cons_True; [by rewrite IH|]. unfold mem. apply not_true_iff_false. rewrite existsb_exists.
  intros (x & Hin & Hs). apply elem_of_list_In, elem_of_list_fmap in Hin as (n & -> & _).
  unfold same in Hs. cbn in Hs. by rewrite andb_false_r in Hs.
Qed.

Lemma elem_og_hash g x : x ∈ ohash g <-> match x with ENode n => n ∈ og_nodes g | EEdge e => e ∈ og_edges g end.
Proof.
  rewrite og_hash_app, elem_of_app, !elem_of_list_fmap. split.
  - intros [(n & -> & Hn)|(e & -> & He)]; done.
  - destruct x as [n|e]; [left; by exists n|right; by exists e].
Qed.

Lemma og_hash_good g : ggood g -> fs_good lgood leqb (ohash g).
Proof.
  intros [[_ Hn] [Hge He]]. split.
  - intros [n|e] Hin%elem_og_hash; [done|]. by apply Hge.
  - rewrite og_hash_app. clear Hge. induction Hn as [|n l Hn0 Hn IH]; cbn.
    + induction He as [|e l He0 He IH]; cbn; [constructor|]. constructor; [|done].
      intros y (f & -> & Hf)%elem_of_list_fmap. by apply He0.
    + constructor; [|done]. intros y [(m & -> & Hm)%elem_of_list_fmap|(f & -> & Hf)%elem_of_list_fmap]%elem_of_app; [by apply Hn0|done].
Qed.

Lemma graph_laws : laws ggood geqb ghash.
Proof.
  pose proof (fs_laws lgood leqb lhash element_laws) as [r1 s1 t1 h1]. unfold ograph_eqb, ograph_hash. split.
  - intros g Hg. by apply r1, og_hash_good.
  - intros g g' Hg Hg'. apply s1; by apply og_hash_good.
  - intros g g' g'' Hg Hg' Hg''. apply t1; by apply og_hash_good.
  - intros g g' Hg Hg'. apply h1; by apply og_hash_good.
Qed.

(** [==] of sample graphs compares the nodes and the edges, and not the name. *)
Lemma graph_eqb_parts g g' : ggood g -> ggood g' ->
  geqb g g' = true <-> fs_eqb neqb nhash (og_nodes g) (og_nodes g') = true /\ fs_eqb eeqb ehash (og_edges g) (og_edges g') = true.
Proof.
  intros Hg Hg'. unfold ograph_eqb.
  rewrite (fs_eqb_iff lgood leqb lhash element_laws) by (by apply og_hash_good).
  rewrite (fs_eqb_iff any neqb nhash node_laws) by (apply Hg || apply Hg').
  rewrite (fs_eqb_iff egood eeqb ehash edge_laws) by (apply Hg || apply Hg').
  split.
  - intros [H1 H2]. split; split.
    + intros n Hn. destruct (H1 (ENode n)) as ([m|f] & Hm & He); [by apply elem_og_hash| |done]. apply elem_og_hash in Hm. by exists m.
    + intros n Hn. destruct (H2 (ENode n)) as ([m|f] & Hm & He); [by apply elem_og_hash| |done]. apply elem_og_hash in Hm. by exists m.
    + intros e Hn. destruct (H1 (EEdge e)) as ([m|f] & Hm & He); [by apply elem_og_hash|done|]. apply elem_og_hash in Hm. by exists f.
    + intros e Hn. destruct (H2 (EEdge e)) as ([m|f] & Hm & He); [by apply elem_og_hash|done|]. apply elem_og_hash in Hm. by exists f.
  - intros [[N1 N2] [E1 E2]]. split.
    + intros [n|e] Hi%elem_og_hash.
      * destruct (N1 n Hi) as (m & Hm & He). exists (ENode m). by rewrite elem_og_hash.
      * destruct (E1 e Hi) as (f & Hm & He). exists (EEdge f). by rewrite elem_og_hash.
    + intros [n|e] Hi%elem_og_hash.
      * destruct (N2 n Hi) as (m & Hm & He). exists (ENode m). by rewrite elem_og_hash.
      * destruct (E2 e Hi) as (f & Hm & He). exists (EEdge f). by rewrite elem_og_hash.
Qed.

Lemma set_laws : laws (set_good htuple hset veq hv xeq hx req hr) (set_eqb htuple hset veq hv xeq hx req hr) (set_hash htuple hset veq hv xeq hx req hr hz).
Proof. apply (dict_laws ggood geqb ghash graph_laws). Qed.

Lemma vedge_laws : laws (fs_good any veq) (vedge_eqb veq hv) (vedge_hash hset hv).
Proof. by apply fs_laws. Qed.

Lemma fnode_laws : laws (fnode_good veq xeq) (fnode_eqb htuple veq hv xeq hx hz) (fnode_hash htuple hset hv hx hz).
Proof.
  assert (laws any (vcount_eqb veq xeq) (vcount_hash htuple hv hx hz)) as Hc.
  { apply (laws_impl _ (fun x : (Var * Val) * Z => any x.1 /\ any x.2)); [done|]. apply pair_laws; [apply node_laws|apply Z_laws]. }
  pose proof (fs_laws any _ _ Hc) as [r1 s1 t1 h1]. destruct Hv as [r2 s2 t2 h2].
  unfold fnode_good, fnode_eqb, fnode_hash. split.
  - intros a Ha. by rewrite r1, r2.
  - intros a b Ha Hb [H1 H2]%andb_prop. by rewrite s1, s2.
  - intros a b c Ha Hb Hc' [H1 H2]%andb_prop [H3 H4]%andb_prop. by rewrite (t2 _ (fn_variable b)), (t1 _ (fn_value_nodes b)).
  - intros a b Ha Hb [H1 H2]%andb_prop. by rewrite (h2 _ (fn_variable b)), (h1 _ (fn_value_nodes b)).
Qed.

Lemma fedge_laws : laws (fedge_good htuple veq hv xeq hx req) (fedge_eqb htuple hset veq hv xeq hx req hr hz) (fedge_hash htuple hset hv hx hr hz).
Proof.
  pose proof (item_laws egood eeqb ehash edge_laws hz) as Hc.
  pose proof (fs_laws _ _ _ Hc) as [r1 s1 t1 h1]. pose proof (fs_laws any veq hv Hv) as [r2 s2 t2 h2].
  unfold fedge_good, fedge_eqb, fedge_hash. split.
  - intros a [Ha Ha']. by rewrite r1, r2.
  - intros a b [Ha Ha'] [Hb Hb'] [H1 H2]%andb_prop. by rewrite s1, s2.
  - intros a b c [Ha Ha'] [Hb Hb'] [Hc1 Hc2] [H1 H2]%andb_prop [H3 H4]%andb_prop.
    by rewrite (t2 _ (fe_endpoints b)), (t1 _ (fe_relation_edges b)).
  - intros a b [Ha Ha'] [Hb Hb'] [H1 H2]%andb_prop. by rewrite (h2 _ (fe_endpoints b)), (h1 _ (fe_relation_edges b)).
Qed.

Lemma beq_sym a b : Bool.eqb a b = true -> Bool.eqb b a = true.
Proof. by destruct a, b. Qed.
Lemma beq_trans a b c : Bool.eqb a b = true -> Bool.eqb b c = true -> Bool.eqb a c = true.
Proof. by destruct a, b, c. Qed.

Lemma anode_laws : laws (anode_good xeq W weq) (anode_eqb htuple veq xeq hx W weq hw) (anode_hash htuple hset hv hx W hw).
Proof.
  assert (laws any (weight_eqb xeq W weq) (weight_hash htuple hx W hw)) as Hc.
  { apply (laws_impl _ (fun x : Val * W => any x.1 /\ any x.2)); [done|]. by apply pair_laws. }
  pose proof (fs_laws any _ _ Hc) as [r1 s1 t1 h1]. destruct Hv as [r2 s2 t2 h2].
  unfold anode_good, anode_eqb, anode_hash. split.
  - intros a Ha. by rewrite r1, r2, eqb_reflx.
  - intros a b Ha Hb [[H1 H2]%andb_prop H3%beq_sym]%andb_prop. by rewrite s1, s2, H3.
  - intros a b c Ha Hb Hc' [[H1 H2]%andb_prop H3]%andb_prop [[H4 H5]%andb_prop H6]%andb_prop.
    rewrite (t2 _ (an_variable W b)), (t1 _ (an_values W b)) by done. by apply (beq_trans _ (an_in_query W b)).
  - intros a b Ha Hb [[H1 H2]%andb_prop H3]%andb_prop. by rewrite (h2 _ (an_variable W b)), (h1 _ (an_values W b)).
Qed.

Lemma aedge_laws : laws (aedge_good veq req) (aedge_eqb htuple veq hv req hr hz) (aedge_hash htuple hset hv hr hz).
Proof.
  assert (laws any (rcount_eqb veq req) (rcount_hash htuple hv hr hz)) as Hc.
  { apply (laws_impl _ (fun x : relation * Z => any x.1 /\ any x.2)); [done|]. apply pair_laws; [apply rel_laws|apply Z_laws]. }
  pose proof (fs_laws any _ _ Hc) as [r1 s1 t1 h1]. pose proof (fs_laws any veq hv Hv) as [r2 s2 t2 h2].
  unfold aedge_good, aedge_eqb, aedge_hash. split.
  - intros a [Ha Ha']. by rewrite r1, r2, eqb_reflx.
  - intros a b [Ha Ha'] [Hb Hb'] [[H1 H2]%andb_prop H3%beq_sym]%andb_prop. by rewrite s1, s2, H3.
  - intros a b c [Ha Ha'] [Hb Hb'] [Hc1 Hc2] [[H1 H2]%andb_prop H3]%andb_prop [[H4 H5]%andb_prop H6]%andb_prop.
    rewrite (t2 _ (ae_endpoints b)), (t1 _ (ae_relations b)) by done. by apply (beq_trans _ (ae_in_query b)).
  - intros a b [Ha Ha'] [Hb Hb'] [[H1 H2]%andb_prop H3]%andb_prop. by rewrite (h2 _ (ae_endpoints b)), (h1 _ (ae_relations b)).
Qed.

End classes.

(** ** The values of the other files

    When [==] of the user's objects is equality, [==] of sample graphs and sample sets is equality of the
    [graph]s and maps that the other files use, for every hash function. *)
Section model.
Context {U : Universe}.
Variables (hv : Var -> Z) (hx : Val -> Z) (hr : Rel -> Z).

Definition is_eqb {A} `{EqDecision A} (x y : A) : bool := bool_decide (x = y).

Lemma is_laws {A} `{EqDecision A} (h : A -> Z) : laws any is_eqb h.
Proof.
  unfold is_eqb. split.
  - intros x _. by apply bool_decide_eq_true.
  - intros x y _ _ Hx%bool_decide_eq_true. by apply bool_decide_eq_true.
  - intros x y z _ _ _ Hx%bool_decide_eq_true Hy%bool_decide_eq_true. apply bool_decide_eq_true. congruence.
  - intros x y _ _ Hx%bool_decide_eq_true. by subst.
Qed.

Definition value_edge (e : oedge) : edge := (list_to_set (oe_endpoints e), oe_relation e).
Definition value_graph (g : ograph) : graph := Graph (list_to_set (og_nodes g)) (list_to_set (value_edge <$> og_edges g)).
Definition value_set (d : list (ograph * Z)) : gmap graph Z := list_to_map (prod_map value_graph id <$> d).

Notation neqb := (node_eqb is_eqb is_eqb).
Notation nhash := (node_hash htuple hv hx).
Notation eeqb := (edge_eqb htuple is_eqb hv is_eqb hx is_eqb).
Notation ehash := (edge_hash htuple hset hv hx hr).
Notation geqb := (ograph_eqb htuple hset is_eqb hv is_eqb hx is_eqb hr).
Notation ghash := (ograph_hash htuple hset is_eqb hv is_eqb hx is_eqb hr).
Notation ggood := (ograph_good htuple is_eqb hv is_eqb hx is_eqb).
Notation sgood := (set_good htuple hset is_eqb hv is_eqb hx is_eqb hr).
Notation seqb := (set_eqb htuple hset is_eqb hv is_eqb hx is_eqb hr).

Lemma neqb_eq (x y : Var * Val) : neqb x y = true <-> x = y.
Proof.
  unfold node_eqb, is_eqb. rewrite andb_true_iff, !bool_decide_eq_true. destruct x, y; cbn. split; [by intros [-> ->]|by intros [= -> ->]].
Qed.

Lemma fs_value {A B} `{Countable B} (good : A -> Prop) (eqb : A -> A -> bool) (h : A -> Z) (f : A -> B) l l' :
  laws good eqb h -> (forall x y, good x -> good y -> eqb x y = true <-> f x = f y) -> fs_good good eqb l -> fs_good good eqb l' ->
  fs_eqb eqb h l l' = true <-> (list_to_set (f <$> l) : gset B) = list_to_set (f <$> l').
Proof.
  intros Hl Hf Hg Hg'. rewrite (fs_eqb_iff good eqb h Hl) by done. rewrite set_eq. setoid_rewrite elem_of_list_to_set.
  setoid_rewrite elem_of_list_fmap. split.
  - intros [H1 H2] b. split; intros (x & -> & Hx).
    + destruct (H1 x Hx) as (y & Hy & He). exists y. split; [|done]. apply Hf; [by apply Hg|by apply Hg'|done].
    + destruct (H2 x Hx) as (y & Hy & He). exists y. split; [|done]. symmetry. apply Hf; [by apply Hg|by apply Hg'|done].
  - intros Hs. split.
    + intros x Hx. destruct (proj1 (Hs (f x))) as (y & Hy & Hin); [by exists x|]. exists y. split; [done|]. apply Hf; [by apply Hg|by apply Hg'|done].
    + intros x Hx. destruct (proj2 (Hs (f x))) as (y & Hy & Hin); [by exists x|]. exists y. split; [done|]. apply Hf; [by apply Hg|by apply Hg'|done].
Qed.

Lemma nodes_value l l' : fs_good any neqb l -> fs_good any neqb l' ->
  fs_eqb neqb nhash l l' = true <-> (list_to_set l : gset node) = list_to_set l'.
Proof.
  intros Hg Hg'. rewrite (fs_value any neqb nhash (id : Var * Val -> node)); [|apply node_laws; apply is_laws|..|done|done].
  - by rewrite !list_fmap_id.
  - intros x y _ _. apply neqb_eq.
Qed.

Lemma edge_value e f : edge_good is_eqb is_eqb e -> edge_good is_eqb is_eqb f -> eeqb e f = true <-> value_edge e = value_edge f.
Proof.
  intros He Hf. unfold edge_eqb. rewrite andb_true_iff, nodes_value by done. unfold value_edge.
  assert (rel_eqb is_eqb is_eqb (oe_relation e) (oe_relation f) = true <-> oe_relation e = oe_relation f) as Hr.
  { destruct (oe_relation e), (oe_relation f); cbn; unfold is_eqb; rewrite ?andb_true_iff, ?bool_decide_eq_true; try done.
    - split; congruence.
    - split; [intros [[-> ->] ->]; done|intros [= -> -> ->]; done]. }
  rewrite Hr. split; [by intros [-> ->]|by intros [= -> ->]].
Qed.

Lemma graph_value g g' : ggood g -> ggood g' -> geqb g g' = true <-> value_graph g = value_graph g'.
Proof.
  intros Hg Hg'. rewrite graph_eqb_parts by (try done; apply is_laws).
  rewrite nodes_value by (apply Hg || apply Hg').
  rewrite (fs_value (edge_good is_eqb is_eqb) eeqb ehash value_edge).
  - unfold value_graph. split; [by intros [-> ->]|by intros [= -> ->]].
  - apply edge_laws; apply is_laws.
  - apply edge_value.
  - apply Hg.
  - apply Hg'.
Qed.

Lemma value_set_lookup d G c : sgood d -> value_set d !! G = Some c <-> exists g, (g, c) ∈ d /\ value_graph g = G.
Proof.
  intros [Hg Hd]. unfold value_set. rewrite <- elem_of_list_to_map.
  - rewrite elem_of_list_fmap. split; [intros ([g c'] & [= -> ->] & Hin); by exists g|intros (g & Hin & <-); by exists (g, c)].
  - rewrite <- list_fmap_compose. induction d as [|[g c'] d IH]; [constructor|]. cbn in Hg, Hd |- *.
    inversion Hd as [|? ? Hx Hd']; subst. constructor; [|apply IH; [|done]; intros x Hin; apply Hg; by right].
    intros (y & Heq & Hin)%elem_of_list_fmap. cbn in Heq.
    assert (y.1 ∈ map fst d) as Hy by (apply elem_of_list_fmap; by exists y).
    assert (geqb g y.1 = true) as He; [|by rewrite (Hx _ Hy) in He].
    apply graph_value; [apply Hg; left|apply Hg; by right|done].
Qed.

Lemma set_value d d' : sgood d -> sgood d' -> seqb d d' = true <-> value_set d = value_set d'.
Proof.
  intros Hd Hd'. unfold set_eqb. assert (laws ggood geqb ghash) as Hl by (apply graph_laws; apply is_laws).
  pose proof (item_laws ggood geqb ghash Hl id) as Hil.
  rewrite (dict_fs ggood geqb ghash Hl id) by done.
  pose proof (dict_items_good ggood geqb d Hd) as Hi. pose proof (dict_items_good ggood geqb d' Hd') as Hi'.
  rewrite (fs_eqb_iff _ _ _ Hil) by done.
  assert (forall x y : ograph * Z, x ∈ d -> y ∈ d' -> pair_eqb geqb Z.eqb x y = true <-> value_graph x.1 = value_graph y.1 /\ x.2 = y.2) as Hp.
  { intros x y Hx Hy. unfold pair_eqb. rewrite andb_true_iff, Z.eqb_eq, graph_value; [done|by apply Hi|by apply Hi']. }
  split.
  - intros [H1 H2]. apply map_eq. intros G. apply option_eq. intros c. rewrite !value_set_lookup by done. split.
    + intros (g & Hin & <-). destruct (H1 _ Hin) as ([g' c'] & Hin' & He). apply Hp in He as [Hv Hc]; [|done|done]. cbn in *. subst. by exists g'.
    + intros (g & Hin & <-). destruct (H2 _ Hin) as ([g' c'] & Hin' & He). apply Hp in He as [Hv Hc]; [|done|done]. cbn in *. subst. by exists g'.
  - intros Heq. split.
    + intros [g c] Hin. assert (value_set d' !! value_graph g = Some c) as Hl'. { rewrite <- Heq. apply value_set_lookup; [done|]. by exists g. }
      apply value_set_lookup in Hl' as (g' & Hin' & Hg'); [|done]. exists (g', c). split; [done|]. by apply Hp.
    + intros [g c] Hin. assert (value_set d !! value_graph g = Some c) as Hl'. { rewrite Heq. apply value_set_lookup; [done|]. by exists g. }
      apply value_set_lookup in Hl' as (g' & Hin' & Hg'); [|done]. exists (g', c). split; [done|]. by apply Hp.
Qed.

(** Every value is that of some object. *)
Lemma distinct_elements {A} (eqb : A -> A -> bool) (l : list A) : NoDup l -> (forall x y, x ∈ l -> y ∈ l -> eqb x y = true -> x = y) -> distinct eqb l.
Proof.
  induction 1 as [|x l Hx Hn IH]; intros Hi; [constructor|]. constructor.
  - intros y Hy. apply not_true_iff_false. intros He. apply Hi in He; [by subst|left|by right].
  - apply IH. intros y z Hy Hz. apply Hi; by right.
Qed.

Definition object_edge (e : edge) : oedge := Hash.OEdge (elements e.1) e.2.
Lemma object_edge_good e : edge_good is_eqb is_eqb (object_edge e) /\ value_edge (object_edge e) = e.
Proof.
  split.
  - split; [done|]. apply distinct_elements; [apply NoDup_elements|]. intros x y _ _. apply neqb_eq.
  - destruct e as [X r]. unfold value_edge, object_edge. cbn. by rewrite list_to_set_elements_L.
Qed.
Definition object_graph (g : graph) (name : string) : ograph := OGraph (elements (g_nodes g)) (object_edge <$> elements (g_edges g)) name.
Lemma object_graph_good g name : ggood (object_graph g name) /\ value_graph (object_graph g name) = g.
Proof.
  split.
  - split; (split; [|]).
    + done.
    + apply distinct_elements; [apply NoDup_elements|]. intros x y _ _. apply neqb_eq.
    + intros x (e & -> & _)%elem_of_list_fmap. apply object_edge_good.
    + apply distinct_elements.
      * apply NoDup_fmap_2_strong; [|apply NoDup_elements]. intros e f _ _ He.
        rewrite <- (proj2 (object_edge_good e)), He. apply object_edge_good.
      * intros x y (e & -> & _)%elem_of_list_fmap (f & -> & _)%elem_of_list_fmap He.
        apply edge_value in He; [|apply object_edge_good|apply object_edge_good].
        by rewrite (proj2 (object_edge_good e)), (proj2 (object_edge_good f)) in He; subst.
  - destruct g as [N E]. unfold value_graph, object_graph. cbn. rewrite list_to_set_elements_L. f_equal.
    apply set_eq. intros e. rewrite elem_of_list_to_set, elem_of_list_fmap. split.
    + intros (x & -> & (f & -> & Hf)%elem_of_list_fmap). rewrite (proj2 (object_edge_good f)). by apply elem_of_elements.
    + intros He. exists (object_edge e). split; [by rewrite (proj2 (object_edge_good e))|]. apply elem_of_list_fmap. exists e.
      split; [done|]. by apply elem_of_elements.
Qed.
End model.
End hash.
