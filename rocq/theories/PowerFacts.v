(** * PowerFacts: the number of possible outcomes (C34) *)

From Verif Require Import Experiments CountFacts UniformFacts GenFacts SpaceFacts.

Section power.
Context {U : Universe}.
Implicit Types (rels : gset Rel) (W C : gset node) (es : gset edge).

(** ** Edge sets over a set of pairs *)

Definition on_pairs rels (ps : list (gset node)) es : Prop :=
  simple es /\ forall e, e ∈ es -> e.1 ∈ ps /\ exists r, r ∈ rels /\ e.2 = Plain r.

(** No edge or one edge on the pair. *)
Definition on_pair rels (p : gset node) es : Prop := es = ∅ \/ exists r, r ∈ rels /\ es = {[(p, Plain r)]}.

Lemma counted_on_pair rels p : counted (on_pair rels p) (Z.of_nat (S (size rels))).
Proof.
  exists (∅ :: ((fun r => {[(p, Plain r)]}) <$> elements rels)). split_and!.
  - apply NoDup_cons. split.
    + intros (r & He & _)%elem_of_list_fmap. apply (not_elem_of_empty (C:=gset edge) (p, Plain r)). rewrite He. by apply elem_of_singleton.
    + apply NoDup_fmap_2; [|apply NoDup_elements]. intros r r' Heq.
      assert ((p, Plain r) ∈ ({[(p, Plain r')]} : gset edge)) as Hin%elem_of_singleton by (rewrite <- Heq; by apply elem_of_singleton).
      congruence.
  - intros es. rewrite elem_of_cons, elem_of_list_fmap. unfold on_pair. setoid_rewrite elem_of_elements. split.
    + intros [?|(r & ? & ?)]; [by left|right; by exists r].
    + intros [?|(r & ? & ?)]; [by left|right; by exists r].
  - cbn [length]. by rewrite fmap_length.
Qed.

Lemma counted_on_pairs rels ps : NoDup ps -> counted (on_pairs rels ps) (Z.of_nat (S (size rels)) ^ Z.of_nat (length ps)).
Proof.
  induction ps as [|p ps IH]; intros Hnd.
  - exists [∅]. split_and!; [apply NoDup_singleton| |done]. intros es. rewrite elem_of_list_singleton. split.
    + intros ->. split; [by intros e e' ?%elem_of_empty|by intros e ?%elem_of_empty].
    + intros [_ H]. apply set_eq. intros e. split; [by intros [?%elem_of_nil _]%H|by intros ?%elem_of_empty].
  - apply NoDup_cons in Hnd as [Hp Hnd].
    assert (forall es1 es2, on_pair rels p es1 -> on_pairs rels ps es2 -> forall e, e ∈ es1 ∪ es2 -> e ∈ es1 <-> e.1 = p) as Hsep.
    { intros es1 es2 H1 [_ H2] e He. split.
      - intros He1. destruct H1 as [->|(r & _ & ->)]; [by apply elem_of_empty in He1|]. by apply elem_of_singleton in He1 as ->.
      - intros Hep. apply elem_of_union in He as [?|He]; [done|]. apply H2 in He as [He _]. by rewrite Hep in He. }
    cbn [length]. rewrite (Nat2Z.inj_succ (length ps)), Z.pow_succ_r by lia.
    apply (counted_ext (fun es => exists es1 es2, on_pair rels p es1 /\ on_pairs rels ps es2 /\ es = es1 ∪ es2)).
    2:{ apply counted_prod; [apply counted_on_pair|by apply IH|].
        intros es1 es2 es1' es2' H1 H2 H1' H2' Heq.
        assert (forall e, e ∈ es1 ∪ es2 <-> e ∈ es1' ∪ es2') as Hin by (intros; by rewrite Heq).
        assert (forall e, e ∈ es2 -> e.1 <> p) as Hn by (intros e He%H2 Hep; destruct He as [He _]; by rewrite Hep in He).
        assert (forall e, e ∈ es2' -> e.1 <> p) as Hn' by (intros e He%H2' Hep; destruct He as [He _]; by rewrite Hep in He).
        split; apply set_eq; intros e; split; intros He.
        - assert (e ∈ es1' ∪ es2') as He' by (apply Hin, elem_of_union; by left). apply (Hsep es1' es2' H1' H2' e He').
          apply (Hsep es1 es2 H1 H2 e); [apply elem_of_union; by left|done].
        - assert (e ∈ es1 ∪ es2) as He' by (apply Hin, elem_of_union; by left). apply (Hsep es1 es2 H1 H2 e He').
          apply (Hsep es1' es2' H1' H2' e); [apply elem_of_union; by left|done].
        - assert (e ∈ es1' ∪ es2') as He' by (apply Hin, elem_of_union; by right). apply elem_of_union in He' as He2. destruct He2 as [He2|?]; [|done].
          exfalso. apply (Hn e He). by apply (Hsep es1' es2' H1' H2' e He').
        - assert (e ∈ es1 ∪ es2) as He' by (apply Hin, elem_of_union; by right). apply elem_of_union in He' as He2. destruct He2 as [He2|?]; [|done].
          exfalso. apply (Hn' e He). by apply (Hsep es1 es2 H1 H2 e He'). }
    intros es. split.
    + intros (es1 & es2 & H1 & H2 & ->). pose proof (Hsep es1 es2 H1 H2) as Hs. destruct H2 as [Hs2 H2]. split.
      * intros e e' He He' Heq. destruct (decide (e.1 = p)) as [Hep|Hep].
        -- apply (Hs e He) in Hep as Hi. assert (e' ∈ es1) as Hi' by (apply (Hs e' He'); congruence).
           destruct H1 as [->|(r & _ & ->)]; [by apply elem_of_empty in Hi|]. apply elem_of_singleton in Hi, Hi'. congruence.
        -- apply Hs2; [..|done].
           ++ apply elem_of_union in He as He0. destruct He0 as [Hi|?]; [|done]. exfalso. by apply Hep, (Hs e He).
           ++ apply elem_of_union in He' as He0. destruct He0 as [Hi|?]; [|done]. exfalso. apply Hep. rewrite Heq. by apply (Hs e' He').
      * intros e [He|He]%elem_of_union.
        -- destruct H1 as [->|(r & Hr & ->)]; [by apply elem_of_empty in He|]. apply elem_of_singleton in He as ->. split; [left|by exists r].
        -- destruct (H2 e He) as [? ?]. split; [by right|done].
    + intros [Hs H]. exists (filter (fun e => e.1 = p) es), (filter (fun e => e.1 <> p) es). split_and!.
      * destruct (decide (filter (fun e => e.1 = p) es = ∅)) as [Hz|Hz]; [by left|right]. apply set_choose_L in Hz as [e He].
        apply elem_of_filter in He as [Hep He]. destruct (H e He) as [_ (r & Hr & Her)]. exists r. split; [done|].
        apply set_eq. intros e'. rewrite elem_of_filter, elem_of_singleton. split.
        -- intros [Hep' He']. rewrite (Hs e' e He' He) by congruence. destruct e. simpl in *. congruence.
        -- intros ->. split; [done|]. destruct e. simpl in *. congruence.
      * split.
        -- intros e e' [_ He]%elem_of_filter [_ He']%elem_of_filter. by apply Hs.
        -- intros e [Hep He]%elem_of_filter. destruct (H e He) as [[?|?]%elem_of_cons ?]; done.
      * apply set_eq. intros e. rewrite elem_of_union, !elem_of_filter. destruct (decide (e.1 = p)); tauto.
Qed.

(** ** Edge sets over a set of nodes *)

Fixpoint pairs_of (l : list node) : list (gset node) :=
  match l with
  | [] => []
  | x :: l' => ((fun y => {[x; y]}) <$> l') ++ pairs_of l'
  end.

Lemma elem_of_pairs l p : NoDup l -> p ∈ pairs_of l <-> exists x y, x ∈ l /\ y ∈ l /\ x <> y /\ p = {[x; y]}.
Proof.
  induction l as [|x l IH]; intros Hnd; cbn [pairs_of].
  - split; [by intros ?%elem_of_nil|by intros (? & ? & ?%elem_of_nil & _)].
  - apply NoDup_cons in Hnd as [Hx Hnd]. rewrite elem_of_app, elem_of_list_fmap, (IH Hnd). split.
    + intros [(y & -> & Hy)|(y & z & Hy & Hz & Hne & ->)].
      * exists x, y. split_and!; [left|by right|by intros ->|done].
      * exists y, z. split_and!; [by right|by right|done|done].
    + intros (y & z & [->|Hy]%elem_of_cons & [->|Hz]%elem_of_cons & Hne & ->); [done|..].
      * left. by exists z.
      * left. exists y. split; [|done]. apply set_eq. intros w. rewrite !elem_of_union, !elem_of_singleton. tauto.
      * right. by exists y, z.
Qed.

Lemma pair_inj (x y z : node) : ({[x; y]} : gset node) = {[x; z]} -> y <> x -> y = z.
Proof.
  intros Heq Hne. assert (y ∈ ({[x; z]} : gset node)) as Hy. { rewrite <- Heq. apply elem_of_union_r. by apply elem_of_singleton. }
  by apply elem_of_union in Hy as [?%elem_of_singleton|?%elem_of_singleton].
Qed.

Lemma NoDup_pairs l : NoDup l -> NoDup (pairs_of l).
Proof.
  induction l as [|x l IH]; intros Hnd; cbn [pairs_of]; [constructor|]. apply NoDup_cons in Hnd as [Hx Hnd].
  apply NoDup_app. split_and!; [| |by apply IH].
  - assert (forall k, NoDup k -> (forall y, y ∈ k -> y ∈ l) -> NoDup ((fun y => {[x; y]} : gset node) <$> k)) as Hk; [|by apply Hk].
    induction k as [|y k IHk]; intros Hk Hin; [constructor|]. apply NoDup_cons in Hk as [Hy Hk]. rewrite fmap_cons. apply NoDup_cons.
    split; [|apply IHk; [done|]; intros; apply Hin; by right].
    intros (z & Heq & Hz)%elem_of_list_fmap. apply Hy. rewrite (pair_inj x y z); [done|done|]. intros ->. apply Hx, Hin. left.
  - intros p (y & -> & Hy)%elem_of_list_fmap (a & b & Ha & Hb & _ & Heq)%elem_of_pairs; [|done].
    assert (x ∈ ({[a; b]} : gset node)) as Hin. { rewrite <- Heq. apply elem_of_union_l. by apply elem_of_singleton. }
    apply elem_of_union in Hin as [->%elem_of_singleton| ->%elem_of_singleton]; done.
Qed.

Lemma length_pairs l : Z.of_nat (length (pairs_of l)) = (Z.of_nat (length l) * (Z.of_nat (length l) - 1) / 2)%Z.
Proof.
  induction l as [|x l IH]; cbn [pairs_of]; [done|]. rewrite app_length, fmap_length. cbn [length]. rewrite Nat2Z.inj_add, IH, Nat2Z.inj_succ.
  set (n := Z.of_nat (length l)). replace (Z.succ n * (Z.succ n - 1))%Z with (n * (n - 1) + n * 2)%Z by lia.
  rewrite Z.div_add by lia. lia.
Qed.

Definition coloured rels W es : Prop :=
  simple es /\ forall e, e ∈ es -> exists x y r, x ∈ W /\ y ∈ W /\ x <> y /\ r ∈ rels /\ e = ({[x; y]}, Plain r).

Lemma counted_coloured rels W : counted (coloured rels W) (rel_pow (size rels) (size W)).
Proof.
  apply (counted_ext (on_pairs rels (pairs_of (elements W)))).
  - intros es. unfold on_pairs, coloured. split; intros [Hs H]; (split; [done|]); intros e He; specialize (H e He).
    + destruct H as [(x & y & Hx & Hy & Hne & Hp)%elem_of_pairs (r & Hr & Her)]; [|apply NoDup_elements].
      exists x, y, r. split_and!; [by apply elem_of_elements|by apply elem_of_elements|done|done|]. destruct e. simpl in *. congruence.
    + destruct H as (x & y & r & Hx & Hy & Hne & Hr & ->). split; [|by exists r]. apply elem_of_pairs; [apply NoDup_elements|].
      exists x, y. split_and!; [by apply elem_of_elements|by apply elem_of_elements|done|done].
  - unfold rel_pow. change (size W) with (length (elements W)). rewrite <- length_pairs.
    apply counted_on_pairs, NoDup_pairs, NoDup_elements.
Qed.

(** ** Components *)

Lemma component es W v : v ∈ W -> exists C, v ∈ C /\ C ⊆ W /\ (forall w, w ∈ C -> rtc (link es) v w) /\
  (forall e x y, e ∈ es -> x ∈ e.1 -> y ∈ e.1 -> x ∈ C -> y ∈ W -> y ∈ C).
Proof.
  intros Hv.
  assert (forall n C, size (W ∖ C) <= n -> v ∈ C -> C ⊆ W -> (forall w, w ∈ C -> rtc (link es) v w) ->
    exists C, v ∈ C /\ C ⊆ W /\ (forall w, w ∈ C -> rtc (link es) v w) /\
      (forall e x y, e ∈ es -> x ∈ e.1 -> y ∈ e.1 -> x ∈ C -> y ∈ W -> y ∈ C)) as H.
  { induction n as [|n IH]; intros C Hsz HvC HC Hr.
    - exists C. split_and!; [done..|]. intros e x y _ _ _ _ Hy. assert (W ∖ C ≡ ∅) as Hz by (apply size_empty_inv; lia).
      destruct (decide (y ∈ C)); [done|]. exfalso. assert (y ∈ W ∖ C) as Hyd by (by apply elem_of_difference). by apply Hz, elem_of_empty in Hyd.
    - destruct (decide (set_Exists (fun y => set_Exists (fun e : edge => y ∈ e.1 /\ set_Exists (fun x => x ∈ C) e.1) es) (W ∖ C))) as [He|He].
      + destruct He as (y & Hy & e & He & Hye & x & Hxe & Hx). apply elem_of_difference in Hy as [HyW HyC].
        apply (IH ({[y]} ∪ C)).
        * assert (W ∖ C = {[y]} ∪ (W ∖ ({[y]} ∪ C))) as Heq.
          { apply set_eq. intros z. rewrite elem_of_union, !elem_of_difference, elem_of_union, elem_of_singleton.
            destruct (decide (z = y)) as [->|]; tauto. }
          rewrite Heq in Hsz. rewrite size_union in Hsz; [rewrite size_singleton in Hsz; lia|].
          intros z ->%elem_of_singleton [_ Hz]%elem_of_difference. apply Hz. apply elem_of_union_l. by apply elem_of_singleton.
        * by apply elem_of_union_r.
        * intros z [->%elem_of_singleton|?]%elem_of_union; [done|by apply HC].
        * intros z [->%elem_of_singleton|?]%elem_of_union; [|by apply Hr]. eapply rtc_r; [by apply Hr|]. by exists e.
      + exists C. split_and!; [done..|]. intros e x y He1 Hx Hy HxC HyW. destruct (decide (y ∈ C)) as [|HyC]; [done|]. exfalso. apply He.
        exists y. split; [by apply elem_of_difference|]. exists e. split; [done|]. split; [done|]. by exists x. }
  apply (H (size W) {[v]}).
  - apply subseteq_size. apply subseteq_difference_l. done.
  - by apply elem_of_singleton.
  - by intros w ->%elem_of_singleton.
  - intros w ->%elem_of_singleton. constructor.
Qed.

Definition conn rels W es : Prop := coloured rels W es /\ connected (Graph W es).

Lemma link_closed es W C v w : (forall e, e ∈ es -> e.1 ⊆ W) -> v ∈ C ->
  (forall e x y, e ∈ es -> x ∈ e.1 -> y ∈ e.1 -> x ∈ C -> y ∈ W -> y ∈ C) -> rtc (link es) v w -> w ∈ C.
Proof.
  intros HW Hv Hcl Hr. revert Hv. induction Hr as [|v u w (e & He & Hve & Hue) Hr IH]; [done|]. intros Hv. apply IH.
  apply (Hcl e v u); [done|done|done|done|]. by apply (HW e).
Qed.

Lemma coloured_inside rels W es e : coloured rels W es -> e ∈ es -> e.1 ⊆ W.
Proof.
  intros [_ H] He n Hn. destruct (H e He) as (x & y & r & Hx & Hy & _ & _ & ->). cbn [fst] in Hn.
  apply elem_of_union in Hn as [->%elem_of_singleton| ->%elem_of_singleton]; done.
Qed.
Lemma coloured_inhabited rels W es e : coloured rels W es -> e ∈ es -> exists n, n ∈ e.1.
Proof.
  intros [_ H] He. destruct (H e He) as (x & y & r & Hx & Hy & _ & _ & ->). exists x. cbn [fst].
  apply elem_of_union_l. by apply elem_of_singleton.
Qed.

Lemma link_sym es x y : link es x y -> link es y x.
Proof. intros (e & ? & ? & ?). by exists e. Qed.
Lemma rtc_link_sym es x y : rtc (link es) x y -> rtc (link es) y x.
Proof. induction 1 as [|x y z Hl _ IH]; [done|]. eapply rtc_r; [exact IH|]. by apply link_sym. Qed.

Lemma conn_dec rels W es : coloured rels W es -> connected (Graph W es) \/ ~ connected (Graph W es).
Proof.
  intros Hc. destruct (decide (W = ∅)) as [->|Hne].
  - left. intros x y. cbn [g_nodes]. by intros ?%elem_of_empty.
  - apply set_choose_L in Hne as [v Hv]. destruct (component es W v Hv) as (C & HvC & HCW & Hr & Hcl).
    destruct (decide (C = W)) as [->|HCne].
    + left. intros x y Hx Hy. cbn [g_nodes g_edges] in *. transitivity v; [by apply rtc_link_sym, Hr|by apply Hr].
    + right. intros Hcon. apply HCne. apply (anti_symm (⊆)); [done|]. intros w Hw.
      apply (link_closed es W C v w); [by intros e; apply (coloured_inside rels)|done|done|]. by apply Hcon.
Qed.

(** Splitting off the component of a node. *)
Lemma split_component rels W v es : v ∈ W ->
  coloured rels W es <-> exists C, C ∈ ((fun D => {[v]} ∪ D) <$> subsets (W ∖ {[v]})) /\
    exists es1 es2, conn rels C es1 /\ coloured rels (W ∖ C) es2 /\ es = es1 ∪ es2.
Proof.
  intros Hv. split.
  - intros Hc. destruct (component es W v Hv) as (C & HvC & HCW & Hr & Hcl). exists C. split.
    { apply elem_of_list_fmap. exists (C ∖ {[v]}). split.
      - apply set_eq. intros z. rewrite elem_of_union, elem_of_difference, elem_of_singleton. destruct (decide (z = v)) as [->|]; tauto.
      - apply elem_of_subsets. intros z [? ?]%elem_of_difference. apply elem_of_difference. split; [by apply HCW|done]. }
    exists (filter (fun e : edge => e.1 ⊆ C) es), (filter (fun e : edge => ~ e.1 ⊆ C) es). split_and!; [split|..].
    + destruct Hc as [Hs H]. split.
      * intros e e' [_ He]%elem_of_filter [_ He']%elem_of_filter. by apply Hs.
      * intros e [Hsub He]%elem_of_filter. destruct (H e He) as (x & y & r & Hx & Hy & Hne & Hr' & ->). exists x, y, r. cbn [fst] in Hsub.
        split_and!; [apply Hsub, elem_of_union_l|apply Hsub, elem_of_union_r|done|done|done]; by apply elem_of_singleton.
    + assert (forall a w, rtc (link es) a w -> a ∈ C -> rtc (link (filter (fun e : edge => e.1 ⊆ C) es)) a w) as Hup.
      { intros a w Haw. induction Haw as [|a b w (e & He & Hae & Hbe) Hbw IH]; [by constructor|]. intros Ha.
        assert (e.1 ⊆ C) as Hsub.
        { intros n Hn. apply (Hcl e a n); [done..|]. by apply (coloured_inside rels W es e). }
        eapply rtc_l; [|apply IH; by apply Hsub]. exists e. split; [by apply elem_of_filter|done]. }
      intros x y Hx Hy. cbn [g_nodes g_edges] in *. transitivity v; [apply rtc_link_sym|]; (apply Hup; [by apply Hr|done]).
    + destruct Hc as [Hs H]. split.
      * intros e e' [_ He]%elem_of_filter [_ He']%elem_of_filter. by apply Hs.
      * intros e [Hsub He]%elem_of_filter. assert (forall n, n ∈ e.1 -> n ∉ C) as Hout.
        { intros n Hn HnC. apply Hsub. intros m Hm. apply (Hcl e n m); [done..|]. by apply (coloured_inside rels W es e). }
        destruct (H e He) as (x & y & r & Hx & Hy & Hne & Hr' & ->). exists x, y, r. cbn [fst] in Hout.
        split_and!; [apply elem_of_difference; split; [done|]; apply Hout, elem_of_union_l|
                     apply elem_of_difference; split; [done|]; apply Hout, elem_of_union_r|done|done|done]; by apply elem_of_singleton.
    + apply set_eq. intros e. rewrite elem_of_union, !elem_of_filter. destruct (decide (e.1 ⊆ C)); tauto.
  - intros (C & (D & -> & HD%elem_of_subsets)%elem_of_list_fmap & es1 & es2 & [H1 _] & H2 & ->).
    assert ({[v]} ∪ D ⊆ W) as HCW. { intros z [->%elem_of_singleton|Hz%HD]%elem_of_union; [done|]. by apply elem_of_difference in Hz as [? _]. }
    set (C := {[v]} ∪ D) in *. clearbody C.
    assert (forall e e', e ∈ es1 -> e' ∈ es2 -> e.1 <> e'.1) as Hd.
    { intros e e' He He' Heq. destruct (coloured_inhabited _ _ _ _ H1 He) as [n Hn].
      pose proof (coloured_inside _ _ _ _ H1 He n Hn) as Hn1. rewrite Heq in Hn. pose proof (coloured_inside _ _ _ _ H2 He' n Hn) as Hn2.
      by apply elem_of_difference in Hn2 as [_ ?]. }
    destruct H1 as [Hs1 H1], H2 as [Hs2 H2]. split.
    + intros e e' [He|He]%elem_of_union [He'|He']%elem_of_union Heq; [by apply Hs1|..|by apply Hs2].
      * exfalso. by apply (Hd e e').
      * exfalso. by apply (Hd e' e).
    + intros e [He|He]%elem_of_union.
      * destruct (H1 e He) as (x & y & r & Hx & Hy & ?). exists x, y, r. split_and!; [by apply HCW|by apply HCW|tauto..].
      * destruct (H2 e He) as (x & y & r & [Hx _]%elem_of_difference & [Hy _]%elem_of_difference & ?). exists x, y, r. tauto.
Qed.

(** The component and both parts are determined by the whole. *)
Lemma split_unique rels W C C' v es1 es2 es1' es2' : v ∈ C -> v ∈ C' -> C ⊆ W -> C' ⊆ W ->
  conn rels C es1 -> coloured rels (W ∖ C) es2 -> conn rels C' es1' -> coloured rels (W ∖ C') es2' ->
  es1 ∪ es2 = es1' ∪ es2' -> C = C' /\ es1 = es1' /\ es2 = es2'.
Proof.
  assert (forall W C v es1 es2, v ∈ C -> C ⊆ W -> conn rels C es1 -> coloured rels (W ∖ C) es2 ->
    (forall w, w ∈ C <-> rtc (link (es1 ∪ es2)) v w) /\ (forall e, e ∈ es1 ∪ es2 -> (e ∈ es1 <-> e.1 ⊆ C) /\ (e ∈ es2 <-> ~ e.1 ⊆ C))) as H.
  { clear. intros W C v es1 es2 Hv HC [H1 Hcon] H2.
    assert (forall e n, e ∈ es2 -> n ∈ e.1 -> n ∉ C) as Hout.
    { intros e n He Hn HnC. pose proof (coloured_inside _ _ _ _ H2 He n Hn) as Hn2. by apply elem_of_difference in Hn2 as [_ ?]. }
    split.
    - intros w. split.
      + intros Hw. apply (rtc_subrel (link es1)); [|by apply Hcon]. intros a b (e & He & ? & ?). exists e. split; [|done]. apply elem_of_union. by left.
      + apply (link_closed _ W); [|done|].
        * intros e [He|He]%elem_of_union n Hn; [apply HC; by apply (coloured_inside _ _ _ _ H1 He)|].
          pose proof (coloured_inside _ _ _ _ H2 He n Hn) as Hn2. by apply elem_of_difference in Hn2 as [? _].
        * intros e x y [He|He]%elem_of_union Hx Hy HxC _; [by apply (coloured_inside _ _ _ _ H1 He)|]. exfalso. by apply (Hout e x).
    - intros e He.
      assert (e ∈ es1 -> e.1 ⊆ C) as A1 by (intros He1; by apply (coloured_inside _ _ _ _ H1 He1)).
      assert (e ∈ es2 -> ~ e.1 ⊆ C) as A2.
      { intros He2 Hsub. destruct (coloured_inhabited _ _ _ _ H2 He2) as [n Hn]. apply (Hout e n He2 Hn). by apply Hsub. }
      apply elem_of_union in He. tauto. }
  intros Hv Hv' HC HC' H1 H2 H1' H2' Heq.
  destruct (H W C v es1 es2) as [A1 A2]; [done..|]. destruct (H W C' v es1' es2') as [B1 B2]; [done..|].
  assert (C = C') as <-. { apply set_eq. intros w. rewrite A1, B1. by rewrite Heq. }
  rewrite <- Heq in B2. split; [done|]. split; apply set_eq; intros e.
  - split; intros He.
    + assert (e ∈ es1 ∪ es2) as Hu by (apply elem_of_union; by left). apply (proj1 (B2 e Hu)). by apply (proj1 (A2 e Hu)).
    + assert (e ∈ es1 ∪ es2) as Hu by (rewrite Heq; apply elem_of_union; by left). apply (proj1 (A2 e Hu)). by apply (proj1 (B2 e Hu)).
  - split; intros He.
    + assert (e ∈ es1 ∪ es2) as Hu by (apply elem_of_union; by right). apply (proj2 (B2 e Hu)). by apply (proj2 (A2 e Hu)).
    + assert (e ∈ es1 ∪ es2) as Hu by (rewrite Heq; apply elem_of_union; by right). apply (proj2 (A2 e Hu)). by apply (proj2 (B2 e Hu)).
Qed.

Lemma conn_exists rels W : exists z, counted (conn rels W) z.
Proof. eapply counted_filter; [apply counted_coloured|]. intros es. apply conn_dec. Qed.

(** Counting by the component of [v]. *)
Lemma conn_recursion rels W v (h : nat -> Z) : v ∈ W ->
  (forall C, C ⊆ W -> v ∈ C -> counted (conn rels C) (h (size C))) ->
  rel_pow (size rels) (size W) =
  sumf (fun i => comb (size W - 1) i * (h (S i) * rel_pow (size rels) (size W - S i)))%Z (seq 0 (size W)).
Proof.
  intros Hv Hh.
  assert (size (W ∖ {[v]}) = size W - 1) as Hsz1.
  { rewrite size_difference by (by intros ? ->%elem_of_singleton). by rewrite size_singleton. }
  assert (forall D, D ⊆ W ∖ {[v]} -> size ({[v]} ∪ D) = S (size D) /\ {[v]} ∪ D ⊆ W) as HD.
  { intros D HD. split.
    - rewrite size_union, size_singleton; [done|]. intros z ->%elem_of_singleton Hz%HD. apply elem_of_difference in Hz as [_ Hz].
      apply Hz. by apply elem_of_singleton.
    - intros z [->%elem_of_singleton|Hz%HD]%elem_of_union; [done|]. by apply elem_of_difference in Hz as [? _]. }
  assert (0 < size W) as Hpos. { destruct (size W) eqn:Hz; [|lia]. apply size_empty_inv in Hz. by apply (Hz v) in Hv. }
  set (g := fun i => (h (S i) * rel_pow (size rels) (size W - S i))%Z).
  transitivity (zsum ((fun C : gset node => h (size C) * rel_pow (size rels) (size (W ∖ C)))%Z <$> ((fun D => {[v]} ∪ D) <$> subsets (W ∖ {[v]})))).
  - eapply counted_unique; [apply (counted_coloured rels W)|].
    eapply counted_ext; [intros es; symmetry; by apply (split_component rels W v es)|].
    apply (counted_sum ((fun D => {[v]} ∪ D) <$> subsets (W ∖ {[v]})) (fun C es => exists es1 es2, conn rels C es1 /\ coloured rels (W ∖ C) es2 /\ es = es1 ∪ es2)).
    + assert (forall L, NoDup L -> (forall D, D ∈ L -> D ⊆ W ∖ {[v]}) -> NoDup ((fun D => {[v]} ∪ D) <$> L)) as HL.
      { induction L as [|D L IH]; intros HndL HL; [constructor|]. apply NoDup_cons in HndL as [HDL HndL]. rewrite fmap_cons. apply NoDup_cons.
        split; [|apply IH; [done|]; intros; apply HL; by right].
        intros (D' & Heq & HD')%elem_of_list_fmap. apply HDL. assert (D = D') as ->; [|done].
        assert (D ⊆ W ∖ {[v]}) as S1 by (apply HL; left). assert (D' ⊆ W ∖ {[v]}) as S2 by (apply HL; by right).
        assert (v ∉ D) as N1. { intros Hx%S1. apply elem_of_difference in Hx as [_ Hx]. apply Hx. by apply elem_of_singleton. }
        assert (v ∉ D') as N2. { intros Hx%S2. apply elem_of_difference in Hx as [_ Hx]. apply Hx. by apply elem_of_singleton. }
        apply set_eq. intros z. assert (z ∈ {[v]} ∪ D <-> z ∈ {[v]} ∪ D') as Hz by (by rewrite Heq).
        rewrite !elem_of_union, !elem_of_singleton in Hz. destruct (decide (z = v)) as [->|]; tauto. }
      apply HL; [apply NoDup_subsets|]. intros D. apply elem_of_subsets.
    + intros C (D & -> & HDs%elem_of_subsets)%elem_of_list_fmap. destruct (HD D HDs) as [_ HCW].
      apply counted_prod; [apply Hh; [done|]; apply elem_of_union_l; by apply elem_of_singleton|apply counted_coloured|].
      intros es1 es2 es1' es2' H1 H2 H1' H2' Heq.
      eapply (split_unique rels W ({[v]} ∪ D) ({[v]} ∪ D) v); try done; apply elem_of_union_l; by apply elem_of_singleton.
    + intros C C' es (D & -> & HDs%elem_of_subsets)%elem_of_list_fmap (D' & -> & HDs'%elem_of_subsets)%elem_of_list_fmap
        (es1 & es2 & H1 & H2 & ->) (es1' & es2' & H1' & H2' & Heq).
      destruct (HD D HDs) as [_ HCW], (HD D' HDs') as [_ HCW'].
      eapply (split_unique rels W ({[v]} ∪ D) ({[v]} ∪ D') v es1 es2 es1' es2'); try done; apply elem_of_union_l; by apply elem_of_singleton.
  - rewrite <- list_fmap_compose. rewrite (zsum_ext _ (fun D => g (size D))).
    + rewrite subsets_sum, Hsz1. replace (S (size W - 1)) with (size W) by lia. done.
    + intros D HDs%elem_of_subsets. unfold compose, g. destruct (HD D HDs) as [Hs HCW].
      rewrite (size_difference W ({[v]} ∪ D)) by done. by rewrite Hs.
Qed.

(** ** The recursion of the experiment *)

Lemma zq_add a b : zq (a + b) = (zq a + zq b)%Qc.
Proof. apply Qc_is_canon. unfold zq, Qcplus. simpl. by rewrite !Qred_correct, inject_Z_plus. Qed.
Lemma zq_mul a b : zq (a * b) = (zq a * zq b)%Qc.
Proof. apply Qc_is_canon. unfold zq, Qcmult. simpl. by rewrite !Qred_correct, inject_Z_mult. Qed.
Lemma zq_sub a b : zq (a - b) = (zq a - zq b)%Qc.
Proof. assert (zq (a - b) + zq b = zq a)%Qc as <-; [rewrite <- zq_add; f_equal; lia|ring]. Qed.
Lemma zq_sum {A} (f : A -> Z) l : qsum ((fun x => zq (f x)) <$> l) = zq (zsum (f <$> l)).
Proof.
  induction l as [|x l IH]; [done|]. rewrite !fmap_cons, zsum_cons, zq_add, <- IH. done.
Qed.
Lemma zq_inj a b : zq a = zq b -> a = b.
Proof. intros H. apply (f_equal (fun q => this q)) in H. unfold zq in H. simpl in H.
  assert (inject_Z a == inject_Z b)%Q as Hq by (rewrite <- (Qred_correct (inject_Z a)), <- (Qred_correct (inject_Z b)), H; reflexivity).
  exact (proj1 (inject_Z_injective a b) Hq). Qed.

Lemma sub_full (C W : gset node) : C ⊆ W -> size C = size W -> C = W.
Proof.
  intros Hs Hsz. apply (anti_symm (⊆)); [done|]. intros z Hz. destruct (decide (z ∈ C)) as [|Hn]; [done|]. exfalso.
  assert (size (W ∖ C) = 0)%nat as H0 by (rewrite size_difference by done; lia). apply size_empty_inv in H0.
  assert (z ∈ W ∖ C) as Hd by (by apply elem_of_difference). by apply H0, elem_of_empty in Hd.
Qed.

Lemma conn_numbers rels k : exists f : nat -> Z, forall i, 1 <= i <= k ->
  (forall fuel, i <= fuel -> c_k fuel (size rels) i = zq (f i)) /\
  (forall W, size W = i -> counted (conn rels W) (f i)).
Proof.
  set (r := size rels). set (T := rel_pow r).
  induction k as [|k (f & Hf)]; [exists (fun _ => 0%Z); intros i Hi; lia|].
  set (top := (T (S k) - sumf (fun i => comb k i * (f (S i) * T (k - i)%nat))%Z (seq 0 k))%Z).
  exists (fun i => if decide (i = S k) then top else f i). intros i Hi. destruct (decide (i = S k)) as [->|Hne]; [|apply Hf; lia].
  split.
  - intros [|fuel] Hfuel; [lia|]. cbn [c_k]. cbv zeta. fold r T. replace (S k - 1) with k by lia.
    assert (qsum ((fun i => (zq (Z.of_nat i * comb (S k) i * T (S k - i)%nat) * c_k fuel r i)%Qc) <$> seq 1 k) =
      zq (Z.of_nat (S k) * sumf (fun i => comb k i * (f (S i) * T (k - i)%nat))%Z (seq 0 k))) as ->.
    { rewrite <- (fmap_S_seq 0 k), <- list_fmap_compose. unfold sumf. rewrite <- zsum_scale, <- zq_sum. f_equal.
      apply list_fmap_ext. intros j i Hj. apply lookup_seq in Hj as [-> Hlt]. unfold compose.
      rewrite (proj1 (Hf (S (0 + j)) ltac:(lia)) fuel) by lia. rewrite <- zq_mul. f_equal.
      rewrite comb_absorb. cbn [Nat.add Nat.sub]. fold T. ring. }
    unfold top. rewrite zq_sub, zq_mul. set (q := zq (Z.of_nat (S k))). 
    assert (q <> 0)%Qc as Hq. { change (q <> zq 0). intros Hz%zq_inj. lia. }
    change (zq (rel_pow r (S k))) with (zq (T (S k))). field. done.
  - intros W HW. assert (exists v, v ∈ W) as [v Hv].
    { apply set_choose. intros H0. apply size_empty_iff in H0. lia. }
    destruct (conn_exists rels W) as [z Hz].
    pose proof (conn_recursion rels W v (fun i => if decide (i = S k) then z else f i) Hv) as Hrec.
    assert (z = top) as ->; [|done].
    rewrite HW in Hrec. unfold top. replace (S k - 1) with k in Hrec by lia. fold r T in Hrec. rewrite Hrec.
    + replace (S k) with (k + 1)%nat at 1 by lia. unfold sumf. rewrite (seq_app k 1 0), fmap_app. cbn [seq Nat.add].
      change (?F <$> [k]) with [F k]. rewrite zsum_snoc. rewrite decide_True by done. rewrite comb_diag.
      assert (T (S k - S k)%nat = 1%Z) as HT by (rewrite Nat.sub_diag; unfold T, rel_pow; by rewrite Z.pow_0_r). rewrite HT.
      rewrite (zsum_ext _ (fun i => comb k i * (f (S i) * T (k - i)%nat))%Z (seq 0 k)).
      * lia.
      * intros i Hin. apply elem_of_seq in Hin. rewrite decide_False by lia. done.
    + intros C HC HvC. destruct (decide (size C = S k)) as [Hs|Hs].
      * assert (C = W) as -> by (apply sub_full; [done|lia]). done.
      * apply Hf; [|done]. apply subseteq_size in HC. split; [|lia].
        assert (size C <> 0)%nat; [|lia]. intros H0%size_empty_inv. by apply H0, elem_of_empty in HvC.
Qed.

(** ** All outcomes *)

(** The nodes of a provider, grouped by variable. *)
Definition node_groups (cp : provider) : list (list node) :=
  (fun vX => (fun x => (vX.1, x)) <$> elements vX.2) <$> map_to_list (cp_vars cp).

Lemma elem_of_groups cp n : n ∈ concat (node_groups cp) <-> declared cp n.
Proof.
  unfold node_groups, declared. rewrite elem_of_list_In, in_concat. setoid_rewrite <- elem_of_list_In. split.
  - intros (g & ([v X] & -> & HX)%elem_of_list_fmap & (x & -> & Hx)%elem_of_list_fmap). exists X. cbn [fst snd] in *.
    split; [by apply elem_of_map_to_list|by apply elem_of_elements].
  - intros (X & HX & Hx). exists ((fun x => (n.1, x)) <$> elements X). split.
    + apply elem_of_list_fmap. exists (n.1, X). split; [done|]. by apply elem_of_map_to_list.
    + apply elem_of_list_fmap. exists n.2. split; [by destruct n|by apply elem_of_elements].
Qed.

Lemma NoDup_groups cp : NoDup (concat (node_groups cp)).
Proof.
  unfold node_groups. pose proof (NoDup_fst_map_to_list (cp_vars cp)) as Hnd. revert Hnd. generalize (map_to_list (cp_vars cp)) as l.
  induction l as [|[v X] l IH]; intros Hnd; [constructor|]. rewrite fmap_cons in *. cbn [fst snd concat] in *.
  apply NoDup_cons in Hnd as [Hv Hnd]. apply NoDup_app. split_and!; [|..|by apply IH].
  - apply NoDup_fmap_2; [intros x y; congruence|apply NoDup_elements].
  - intros n (x & -> & _)%elem_of_list_fmap Hin. apply Hv. apply elem_of_list_In, in_concat in Hin as (g & Hg & Hin).
    apply elem_of_list_In in Hg, Hin. apply elem_of_list_fmap in Hg as ([w Y] & -> & Hw). apply elem_of_list_fmap in Hin as (y & [= -> _] & _).
    apply elem_of_list_fmap. by exists (w, Y).
Qed.

Lemma possible_split cp g : possible cp g <->
  exists W, W ∈ pick_sets (node_groups cp) /\ (W <> ∅ /\ g_nodes g = W /\ conn (cp_rels cp) W (g_edges g)).
Proof.
  split.
  - intros [[H1 H2 H3 H4] Hne Hsv Hs Hp]. exists (g_nodes g). split.
    { apply elem_of_pick_sets; [apply NoDup_groups|]. split.
      - intros n Hn. apply elem_of_groups. by apply H1.
      - intros l x y ([v X] & -> & _)%elem_of_list_fmap (a & -> & _)%elem_of_list_fmap (b & -> & _)%elem_of_list_fmap Ha Hb.
        f_equal. by apply (Hsv v). }
    split_and!; [done|done|]. split; [split; [done|]|].
    + intros e He. destruct (H2 e He) as ((x & y & Hxy & Hv) & _ & Hr). destruct (Hp e He) as [r Her]. rewrite Her in Hr. simpl in Hr.
      pose proof (H3 e He) as Hin. rewrite Hxy in Hin. exists x, y, r.
      split_and!; [apply Hin, elem_of_union_l; by apply elem_of_singleton|apply Hin, elem_of_union_r; by apply elem_of_singleton|by intros ->|done|].
      destruct e as [p q]. cbn [fst snd] in Hxy, Her. f_equal; [exact Hxy|exact Her].
    + destruct g. exact H4.
  - intros (W & [HW1 HW2]%elem_of_pick_sets & Hne & HgW & [[Hs Hc] Hcon]); [|apply NoDup_groups]. subst W.
    assert (single_valued (g_nodes g)) as Hsv.
    { intros v x y Hx Hy. pose proof (HW1 _ Hx) as (X & HX & HxX)%elem_of_groups. pose proof (HW1 _ Hy) as (X' & HX' & HyX)%elem_of_groups.
      cbn [fst snd] in *. rewrite HX in HX'. injection HX' as <-.
      assert (((v, x) : node) = (v, y)) as [= ->]; [|done].
      apply (HW2 ((fun x => (v, x)) <$> elements X)); [|..|done|done].
      - apply elem_of_list_fmap. exists (v, X). split; [done|]. by apply elem_of_map_to_list.
      - apply elem_of_list_fmap. exists x. split; [done|by apply elem_of_elements].
      - apply elem_of_list_fmap. exists y. split; [done|by apply elem_of_elements]. }
    assert (forall n, n ∈ g_nodes g -> declared cp n) as Hd by (intros n Hn; by apply elem_of_groups, HW1).
    split; [split|..]; [done|..|done|done|done|].
    + intros e He. destruct (Hc e He) as (x & y & r & Hx & Hy & Hxy & Hr & ->). split_and!.
      * exists x, y. split; [done|]. intros Hv. apply Hxy. destruct x as [v a], y as [w b]. simpl in Hv. subst w. f_equal. by apply (Hsv v).
      * cbn [fst]. intros n [->%elem_of_singleton| ->%elem_of_singleton]%elem_of_union; by apply Hd.
      * done.
    + intros e He. by apply (coloured_inside (cp_rels cp) (g_nodes g) (g_edges g)).
    + destruct g. exact Hcon.
    + intros e He. destruct (Hc e He) as (x & y & r & Hx & Hy & Hxy & Hr & ->). by exists r.
Qed.

Lemma counted_possible cp m : (forall v X, cp_vars cp !! v = Some X -> size X = m) ->
  exists z, counted (possible cp) z /\ zq z = calc_number_of_outcomes (size (cp_vars cp)) (S m) (size (cp_rels cp)).
Proof.
  intros Hm. set (n := size (cp_vars cp)). destruct (conn_numbers (cp_rels cp) n) as (f & Hf).
  assert (length (node_groups cp) = n) as Hlen by (unfold node_groups; by rewrite fmap_length).
  assert (forall g, g ∈ node_groups cp -> length g = m) as Hgm.
  { intros g ([v X] & -> & HX)%elem_of_list_fmap. rewrite fmap_length. apply elem_of_map_to_list in HX. by apply (Hm v). }
  assert (forall W, W ∈ pick_sets (node_groups cp) -> size W <= n) as Hsz.
  { intros W HW. apply elem_of_list_fmap in HW as (p & -> & Hp). rewrite (size_pick (node_groups cp)) by (done || apply NoDup_groups).
    rewrite <- Hlen. clear -Hp. revert p Hp. generalize (node_groups cp) as l. induction l as [|g l IH]; intros p Hp.
    - by apply elem_of_list_singleton in Hp as ->.
    - cbn [picks] in Hp. apply elem_of_app in Hp as [Hp|Hp]; [apply IH in Hp; cbn [length]; lia|].
      apply elem_of_list_bind in Hp as (x & (p' & -> & Hp')%elem_of_list_fmap & Hx). apply IH in Hp'. cbn [length]. lia. }
  set (f0 := fun k => if decide (k = 0)%nat then 0%Z else f k).
  exists (zsum ((fun W => f0 (size W)) <$> pick_sets (node_groups cp))). split.
  - eapply counted_ext; [intros g; symmetry; apply possible_split|].
    apply (counted_sum (pick_sets (node_groups cp)) (fun W g => W <> ∅ /\ g_nodes g = W /\ conn (cp_rels cp) W (g_edges g))).
    + apply NoDup_pick_sets, NoDup_groups.
    + intros W HW. unfold f0. destruct (decide (size W = 0)%nat) as [H0|H0].
      * exists []. split_and!; [constructor| |done]. intros g. split; [by intros ?%elem_of_nil|]. intros [Hne _]. exfalso.
        apply Hne. apply leibniz_equiv. by apply size_empty_inv.
      * destruct (Hf (size W)) as [_ Hc]; [apply Hsz in HW; lia|]. destruct (Hc W eq_refl) as (l & H1 & H2 & H3).
        exists (Graph W <$> l). split_and!.
        -- apply NoDup_fmap_2; [intros a b; congruence|done].
        -- intros g. rewrite elem_of_list_fmap. split.
           ++ intros (es & -> & Hes%H2). split_and!; [|done|done]. intros ->. by rewrite size_empty in H0.
           ++ intros (_ & Hg & Hcon%H2). exists (g_edges g). split; [|done]. destruct g. simpl in *. congruence.
        -- by rewrite fmap_length.
    + intros W W' g _ _ (_ & <- & _) (_ & <- & _). done.
  - rewrite (pick_sets_sum _ m f0) by (done || apply NoDup_groups). rewrite Hlen. unfold calc_number_of_outcomes, sumf.
    change (seq 0 (S n)) with (0%nat :: seq 1 n). rewrite fmap_cons, zsum_cons. unfold f0 at 1. rewrite decide_True by done.
    rewrite Z.mul_0_r, Z.add_0_l, <- zq_sum. f_equal. apply list_fmap_ext. intros j k Hj. apply lookup_seq in Hj as [-> Hlt].
    unfold f0. rewrite decide_False by lia. rewrite (proj1 (Hf (1 + j) ltac:(lia)) (1 + j)) by lia.
    replace (Z.of_nat (S m) - 1)%Z with (Z.of_nat m) by lia. rewrite !zq_mul. ring.
Qed.

Lemma C34_lemma cp ss m : complete cp ss -> (forall v X, cp_vars cp !! v = Some X -> size X = m) ->
  zq (ss_length ss) = calc_number_of_outcomes (size (cp_vars cp)) (S m) (size (cp_rels cp)).
Proof.
  intros Hc Hm. destruct (counted_possible cp m Hm) as (z & (l & Hnd & Hl & Hz) & <-). f_equal.
  pose proof (proj2 (weight_length ss (ss_length ss)) eq_refl) as Hw.
  rewrite (Hw l Hnd).
  - rewrite (zsum_ones ss cp); [done|done|]. intros g. by rewrite Hl.
  - intros g. rewrite Hl, (complete_contains cp ss) by done. unfold anything. tauto.
Qed.

Lemma C34_total_lemma o cp m :
  m <> 0%nat -> (forall v X, cp_vars cp !! v = Some X -> size X = m) ->
  exists b, generate_all_possible_outcomes o (RGBuilder cp (ssb_new cp)) = (b, Ok tt) /\
    zq (ss_length (rb_out b)) = calc_number_of_outcomes (size (cp_vars cp)) (S m) (size (cp_rels cp)).
Proof.
  intros Hm0 Hm. destruct (C33_lemma o cp) as (b & Hg & H1 & H2 & H3).
  { intros v X HX ->. apply Hm in HX. by rewrite size_empty in HX. }
  exists b. split; [done|]. by apply C34_lemma.
Qed.

End power.
