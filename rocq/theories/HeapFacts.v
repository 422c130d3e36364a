(** * Facts about Heap.v: which containers a call can change *)

From Verif Require Export Heap.

Section facts.
Context {U : Universe}.

Notation addr := nat.
Notation heap := (gmap addr obj).

Local Arguments alloc : simpl never.

Definition refs (ob : obj) : list addr :=
  match ob with
  | HSB _ d | HSet _ d _ => [d]
  | HGB _ n e x => [n; e; x]
  | _ => []
  end.

Definition is_m (ob : obj) : bool :=
  match ob with
  | MNodes _ | MEdges _ | MEnds _ | MDict _ | MItems _ | MSamples _ | MVars _ | MRels _ => true
  | _ => false
  end.

Definition typed (st : state) (ob : obj) : Prop :=
  match ob with
  | HSB _ d | HSet _ d _ => d ∉ st_own st /\ exists m, st_h st !! d = Some (MDict m)
  | HGB _ n e x =>
      x ∉ st_own st /\ (exists X, st_h st !! n = Some (MNodes X)) /\
      (exists Y, st_h st !! e = Some (MEdges Y)) /\ (exists m, st_h st !! x = Some (MEnds m))
  | HRGB _ b _ _ => exists p d, st_h st !! b = Some (HSB p d)
  | HRG _ s _ _ => exists p d l, st_h st !! s = Some (HSet p d l)
  | HProv v r => (exists m, st_h st !! v = Some (MVars m)) /\ (exists X, st_h st !! r = Some (MRels X))
  | _ => True
  end.

Record inv (st : state) : Prop := {
  i_typed : forall a ob, st_h st !! a = Some ob -> typed st ob;
  i_excl : forall a b oa ob c, st_h st !! a = Some oa -> st_h st !! b = Some ob ->
    c ∈ refs oa -> c ∈ refs ob -> c ∉ st_own st -> a = b;
  i_own : forall a, a ∈ st_own st -> exists ob, st_h st !! a = Some ob /\ is_m ob = true
}.

Record frame (W : addr -> Prop) (st st' : state) : Prop := {
  f_same : forall a ob, st_h st !! a = Some ob -> ~ W a -> st_h st' !! a = Some ob;
  f_kind : forall a ob, st_h st !! a = Some ob ->
    exists ob', st_h st' !! a = Some ob' /\ (ob' = ob \/ same_kind ob ob' = true);
  f_own : forall a ob, st_h st !! a = Some ob -> a ∈ st_own st' <-> a ∈ st_own st
}.

Definition unref (st : state) (c : addr) : Prop :=
  forall b ob, st_h st !! b = Some ob -> c ∉ refs ob.

Lemma same_kind_m a b : same_kind a b = true -> is_m a = true /\ is_m b = true.
Proof. by destruct a, b. Qed.

Lemma same_kind_trans a b c : same_kind a b = true -> same_kind b c = true -> same_kind a c = true.
Proof. by destruct a, b, c. Qed.

Lemma is_m_refs ob : is_m ob = true -> refs ob = [].
Proof. by destruct ob. Qed.

Lemma frame_refl W st : frame W st st.
Proof. split; [done| |done]. intros a ob H. exists ob. auto. Qed.

Lemma frame_trans W a b c : frame W a b -> frame W b c -> frame W a c.
Proof.
  intros [A1 A2 A3] [B1 B2 B3]. split.
  - eauto.
  - intros x ob H. destruct (A2 x ob H) as (ob' & H' & K).
    destruct (B2 x ob' H') as (ob'' & H'' & K''). exists ob''. split; [done|].
    destruct K as [->|K], K'' as [->|K'']; eauto using same_kind_trans.
  - intros x ob H. destruct (A2 x ob H) as (ob' & H' & _). rewrite (B3 x ob' H'). eauto.
Qed.

Lemma frame_weaken (W W' : addr -> Prop) st st' :
  (forall a, W a -> W' a) -> frame W st st' -> frame W' st st'.
Proof. intros HW [A B C]. split; eauto. Qed.

(** Library objects are never overwritten. *)
Lemma frame_obj W st st' a ob :
  frame W st st' -> st_h st !! a = Some ob -> is_m ob = false -> st_h st' !! a = Some ob.
Proof.
  intros [_ F _] H Hm. destruct (F a ob H) as (ob' & H' & [->|K]); [done|].
  apply same_kind_m in K. destruct K; congruence.
Qed.

Lemma frame_typed W st st' ob :
  frame W st st' -> typed st ob -> typed st' ob.
Proof.
  intros [_ F O] T.
  assert (forall a ob0, st_h st !! a = Some ob0 -> a ∉ st_own st -> a ∉ st_own st') as Hown.
  { intros a ob0 H. by rewrite (O a ob0 H). }
  assert (forall a ob0, st_h st !! a = Some ob0 -> is_m ob0 = false -> st_h st' !! a = Some ob0) as Hobj.
  { intros a ob0 H Hm. destruct (F a ob0 H) as (ob' & H' & [->|K]); [done|].
    apply same_kind_m in K. destruct K; congruence. }
  destruct ob; simpl in *; try done.
  - destruct T as [(m & H1) (X & H2)].
    destruct (F _ _ H1) as (o1 & G1 & K1), (F _ _ H2) as (o2 & G2 & K2).
    destruct K1 as [->|K1], K2 as [->|K2]; (try destruct o1; try done); (try destruct o2; try done); split; eauto.
  - destruct T as (T0 & (X & H1) & (Y & H2) & (m & H3)).
    destruct (F _ _ H1) as (o1 & G1 & K1), (F _ _ H2) as (o2 & G2 & K2), (F _ _ H3) as (o3 & G3 & K3).
    split; [by eapply Hown|].
    split; [|split].
    + destruct K1 as [->|K1]; [eauto|]. destruct o1; try done; eauto.
    + destruct K2 as [->|K2]; [eauto|]. destruct o2; try done; eauto.
    + destruct K3 as [->|K3]; [eauto|]. destruct o3; try done; eauto.
  - destruct T as (T0 & m & H1). destruct (F _ _ H1) as (o1 & G1 & K1).
    split; [by eapply Hown|]. destruct K1 as [->|K1]; [eauto|]. destruct o1; try done; eauto.
  - destruct T as (T0 & m & H1). destruct (F _ _ H1) as (o1 & G1 & K1).
    split; [by eapply Hown|]. destruct K1 as [->|K1]; [eauto|]. destruct o1; try done; eauto.
  - destruct T as (p0 & d & H1). exists p0, d. by apply Hobj.
  - destruct T as (p0 & d & l & H1). exists p0, d, l. by apply Hobj.
Qed.

Lemma typed_refs st ob c : typed st ob -> c ∈ refs ob -> exists o', st_h st !! c = Some o'.
Proof.
  intros T H. destruct ob; simpl in *; try by apply elem_of_nil in H.
  - destruct T as (_ & (X & H1) & (Y & H2) & (m & H3)).
    rewrite !elem_of_cons, elem_of_nil in H. destruct H as [->|[->|[->|[]]]]; eauto.
  - destruct T as (_ & m & H1). rewrite elem_of_list_singleton in H. subst. eauto.
  - destruct T as (_ & m & H1). rewrite elem_of_list_singleton in H. subst. eauto.
Qed.

Lemma fresh_none (h : heap) : h !! fresh (dom h) = None.
Proof. apply not_elem_of_dom, is_fresh. Qed.

Lemma alloc_frame W st ob st' a : alloc st ob = (st', a) -> frame W st st'.
Proof.
  unfold alloc. intros E. injection E as <- <-. split; simpl; [| |done].
  - intros x ob0 H _. rewrite lookup_insert_ne; [done|]. intros <-. by rewrite fresh_none in H.
  - intros x ob0 H. exists ob0. split; [|by left].
    rewrite lookup_insert_ne; [done|]. intros <-. by rewrite fresh_none in H.
Qed.

Lemma alloc_at st ob st' a : alloc st ob = (st', a) -> st_h st' !! a = Some ob.
Proof. unfold alloc. intros E. injection E as <- <-. apply lookup_insert. Qed.

Lemma alloc_new st ob st' a : alloc st ob = (st', a) -> st_h st !! a = None.
Proof. unfold alloc. intros E. injection E as <- <-. apply fresh_none. Qed.

Lemma alloc_own st ob st' a : alloc st ob = (st', a) -> st_own st' = st_own st.
Proof. unfold alloc. intros E. by injection E as <- <-. Qed.

Lemma alloc_lookup st ob st' a x ob' :
  alloc st ob = (st', a) -> st_h st' !! x = Some ob' ->
  (x = a /\ ob' = ob) \/ (x <> a /\ st_h st !! x = Some ob').
Proof.
  unfold alloc. intros E. injection E as <- <-. simpl. intros H.
  destruct (decide (x = fresh (dom (st_h st)))) as [->|N].
  - rewrite lookup_insert in H. injection H as <-. by left.
  - rewrite lookup_insert_ne in H by done. by right.
Qed.

Lemma unref_new st ob st' a : inv st -> typed st ob -> alloc st ob = (st', a) -> unref st' a.
Proof.
  intros I T E b ob' H Hin.
  pose proof (alloc_new _ _ _ _ E) as Hn.
  destruct (alloc_lookup _ _ _ _ _ _ E H) as [[-> ->]|[_ H']].
  - destruct (typed_refs st ob a T Hin) as [o' H']. congruence.
  - destruct (typed_refs st ob' a (i_typed _ I _ _ H') Hin) as [o' H'']. congruence.
Qed.

Lemma unref_alloc st ob st' a c :
  alloc st ob = (st', a) -> c ∉ refs ob -> unref st c -> unref st' c.
Proof.
  intros E Hc Hu b ob' H.
  destruct (alloc_lookup _ _ _ _ _ _ E H) as [[-> ->]|[_ H']]; [done|]. by eapply Hu.
Qed.

Lemma alloc_inv st ob st' a :
  inv st -> typed st ob -> (forall c, c ∈ refs ob -> c ∉ st_own st -> unref st c) ->
  alloc st ob = (st', a) -> inv st'.
Proof.
  intros I T Hu E.
  pose proof (alloc_frame (fun _ => False) _ _ _ _ E) as F.
  pose proof (alloc_own _ _ _ _ E) as Ho.
  split.
  - intros x ob' H. eapply frame_typed; [exact F|].
    destruct (alloc_lookup _ _ _ _ _ _ E H) as [[-> ->]|[_ H']]; [done|]. by eapply (i_typed _ I).
  - intros x y ox oy c Hx Hy Cx Cy Hc. rewrite Ho in Hc.
    destruct (alloc_lookup _ _ _ _ _ _ E Hx) as [[-> ->]|[_ Hx']];
      destruct (alloc_lookup _ _ _ _ _ _ E Hy) as [[-> ->]|[_ Hy']].
    + done.
    + exfalso. by eapply (Hu c Cx Hc).
    + exfalso. by eapply (Hu c Cy Hc).
    + by eapply (i_excl _ I x y ox oy c).
  - intros x Hx. rewrite Ho in Hx. destruct (i_own _ I x Hx) as (ob' & H & Hm).
    exists ob'. split; [|done]. eapply (f_same _ _ _ F); [done|tauto].
Qed.

Lemma alloc_m_inv st ob st' a :
  inv st -> is_m ob = true -> alloc st ob = (st', a) -> inv st'.
Proof.
  intros I Hm E. eapply alloc_inv; [exact I| | |exact E].
  - by destruct ob.
  - intros c Hc. rewrite is_m_refs in Hc by done. by apply elem_of_nil in Hc.
Qed.

Lemma hold_inv st ob st' a :
  inv st -> is_m ob = true -> alloc st ob = (st', a) -> inv (hold st' a) /\ frame (fun _ => False) st (hold st' a).
Proof.
  intros I Hm E.
  pose proof (alloc_m_inv _ _ _ _ I Hm E) as I'.
  assert (typed st ob) as T by (by destruct ob).
  pose proof (unref_new _ _ _ _ I T E) as Hu.
  pose proof (alloc_new _ _ _ _ E) as Hn.
  pose proof (alloc_own _ _ _ _ E) as Ho.
  pose proof (alloc_frame (fun _ => False) _ _ _ _ E) as F.
  split; [split|split].
  - intros x ob' H. pose proof (i_typed _ I' x ob' H) as T'.
    assert (forall c, c ∈ refs ob' -> c ∉ st_own st' -> c ∉ st_own (hold st' a)) as Hk.
    { intros c Hc Hco. simpl. rewrite elem_of_union, elem_of_singleton. intros [->|?]; [|done].
      by eapply Hu. }
    destruct ob'; simpl in *; try done.
    + destruct T' as (T0 & T1). split; [|done]. refine (Hk _ _ T0). rewrite !elem_of_cons. auto.
    + destruct T' as (T0 & T1). split; [|done]. refine (Hk _ _ T0). rewrite !elem_of_cons. auto.
    + destruct T' as (T0 & T1). split; [|done]. refine (Hk _ _ T0). rewrite !elem_of_cons. auto.
  - intros x y ox oy c Hx Hy Cx Cy Hc. simpl in Hc. rewrite not_elem_of_union in Hc.
    eapply (i_excl _ I' x y ox oy c); try done. apply Hc.
  - intros x Hx. simpl in Hx. rewrite elem_of_union, elem_of_singleton in Hx. destruct Hx as [->|Hx].
    + exists ob. split; [|done]. exact (alloc_at _ _ _ _ E).
    + exact (i_own _ I' x Hx).
  - exact (f_same _ _ _ F).
  - exact (f_kind _ _ _ F).
  - intros x ob' H. simpl. rewrite elem_of_union, elem_of_singleton, Ho.
    split; [|by right]. intros [->|?]; [congruence|done].
Qed.

Lemma write_frame (W : addr -> Prop) st a ob ob0 :
  W a -> st_h st !! a = Some ob0 -> same_kind ob0 ob = true -> frame W st (write st a ob).
Proof.
  intros HW H K. split; simpl; [| |done].
  - intros x ob' Hx Hn. rewrite lookup_insert_ne; [done|]. by intros <-.
  - intros x ob' Hx. destruct (decide (x = a)) as [->|N].
    + rewrite lookup_insert. assert (ob' = ob0) as -> by congruence. eauto.
    + rewrite lookup_insert_ne by done. eauto.
Qed.

Lemma write_inv st a ob ob0 :
  inv st -> st_h st !! a = Some ob0 -> same_kind ob0 ob = true -> inv (write st a ob).
Proof.
  intros I H K.
  pose proof (write_frame (fun _ => True) st a ob ob0 Logic.I H K) as F.
  destruct (same_kind_m _ _ K) as [M0 M1].
  assert (forall x ob', st_h (write st a ob) !! x = Some ob' ->
    (st_h st !! x = Some ob' \/ is_m ob' = true)) as Hl.
  { intros x ob' Hx. simpl in Hx. destruct (decide (x = a)) as [->|N].
    - rewrite lookup_insert in Hx. injection Hx as <-. by right.
    - rewrite lookup_insert_ne in Hx by done. by left. }
  split.
  - intros x ob' Hx. destruct (Hl x ob' Hx) as [Hx'|Hm].
    + eapply frame_typed; [exact F|]. by eapply (i_typed _ I).
    + by destruct ob'.
  - intros x y ox oy c Hx Hy Cx Cy Hc.
    destruct (Hl x ox Hx) as [Hx'|Hm]; [|rewrite is_m_refs in Cx by done; by apply elem_of_nil in Cx].
    destruct (Hl y oy Hy) as [Hy'|Hm]; [|rewrite is_m_refs in Cy by done; by apply elem_of_nil in Cy].
    by eapply (i_excl _ I x y ox oy c).
  - intros x Hx. destruct (i_own _ I x Hx) as (ob' & Hx' & Hm). simpl.
    destruct (decide (x = a)) as [->|N].
    + rewrite lookup_insert. eauto.
    + rewrite lookup_insert_ne by done. eauto.
Qed.

(** ** The pieces of a call *)

Notation none := (fun _ : addr => False).

Definition good (W : addr -> Prop) (st : state) (st' : state) : Prop := inv st' /\ frame W st st'.

Lemma good_trans W a b c : good W a b -> (inv b -> good W b c) -> good W a c.
Proof. intros [I F] H. destruct (H I) as [I' F']. split; [done|]. by eapply frame_trans. Qed.

Lemma good_weaken (W W' : addr -> Prop) a b :
  (forall x, W x -> W' x) -> good W a b -> good W' a b.
Proof. intros HW [I F]. split; [done|]. by eapply frame_weaken. Qed.

Lemma new_gb_good o st p n e X Y :
  inv st -> st_h st !! n = Some (MNodes X) -> st_h st !! e = Some (MEdges Y) ->
  (n ∈ st_own st \/ unref st n) -> (e ∈ st_own st \/ unref st e) ->
  exists st' b, new_gb o st p n e = (st', Ok b) /\ good none st st' /\ st_own st' = st_own st /\
    exists x, st_h st' !! b = Some (HGB p n e x) /\ st_h st' !! x = Some (MEnds (ends_of o Y)) /\ st_h st !! b = None.
Proof.
  intros I Hn He Un Ue. unfold new_gb. rewrite He.
  destruct (alloc st (MEnds (ends_of o Y))) as [st1 x] eqn:E1.
  destruct (alloc st1 (HGB p n e x)) as [st2 b] eqn:E2.
  assert (inv st1) as I1 by (by eapply alloc_m_inv; [exact I|..]; [|exact E1]).
  pose proof (alloc_frame none _ _ _ _ E1) as F1.
  pose proof (alloc_frame none _ _ _ _ E2) as F2.
  pose proof (alloc_own _ _ _ _ E1) as O1.
  pose proof (alloc_own _ _ _ _ E2) as O2.
  pose proof (alloc_at _ _ _ _ E1) as A1.
  pose proof (alloc_at _ _ _ _ E2) as A2.
  pose proof (alloc_new _ _ _ _ E1) as N1.
  assert (x ∉ st_own st) as Hx.
  { intros Hx. destruct (i_own _ I x Hx) as (ob & H & _). congruence. }
  exists st2, b. split; [done|].
  assert (good none st st2) as G.
  { split; [|by eapply frame_trans].
    eapply alloc_inv; [exact I1| | |exact E2].
    - simpl. rewrite O1. split; [done|].
      split; [exists X; eapply (f_same _ _ _ F1); [done|tauto]|].
      split; [exists Y; eapply (f_same _ _ _ F1); [done|tauto]|]. eauto.
    - simpl. intros c Hc Hco. rewrite O1 in Hco.
      rewrite !elem_of_cons, elem_of_nil in Hc. destruct Hc as [->|[->|[->|[]]]].
      + destruct Un as [?|Un]; [done|]. eapply unref_alloc; [exact E1| |done]. by apply not_elem_of_nil.
      + destruct Ue as [?|Ue]; [done|]. eapply unref_alloc; [exact E1| |done]. by apply not_elem_of_nil.
      + eapply unref_new; [exact I| |exact E1]. done. }
  split; [done|]. split; [congruence|].
  exists x. split; [done|]. split; [eapply (f_same _ _ _ F2); [done|tauto]|].
  destruct (st_h st !! b) eqn:Eb; [|done]. exfalso.
  apply (f_same _ _ _ F1) in Eb; [|tauto]. pose proof (alloc_new _ _ _ _ E2). congruence.
Qed.

Lemma fresh_gb_good o st p X Y :
  inv st ->
  exists st' b n e x, fresh_gb o st p X Y = (st', Ok b) /\ good none st st' /\ st_own st' = st_own st /\
    st_h st' !! b = Some (HGB p n e x) /\ st_h st' !! x = Some (MEnds (ends_of o Y)) /\
    st_h st' !! n = Some (MNodes X) /\ st_h st' !! e = Some (MEdges Y) /\
    n ∉ st_own st' /\ e ∉ st_own st' /\ st_h st !! b = None.
Proof.
  intros I. unfold fresh_gb.
  destruct (alloc st (MNodes X)) as [st1 n] eqn:E1.
  destruct (alloc st1 (MEdges Y)) as [st2 e] eqn:E2.
  assert (inv st1) as I1 by (by eapply alloc_m_inv; [exact I|..]; [|exact E1]).
  assert (inv st2) as I2 by (by eapply alloc_m_inv; [exact I1|..]; [|exact E2]).
  pose proof (alloc_frame none _ _ _ _ E1) as F1.
  pose proof (alloc_frame none _ _ _ _ E2) as F2.
  pose proof (alloc_own _ _ _ _ E1) as O1.
  pose proof (alloc_own _ _ _ _ E2) as O2.
  pose proof (alloc_at _ _ _ _ E1) as A1.
  pose proof (alloc_at _ _ _ _ E2) as A2.
  assert (st_h st2 !! n = Some (MNodes X)) as A1'.
  { eapply (f_same _ _ _ F2); [done|tauto]. }
  assert (unref st2 n) as Un.
  { eapply unref_alloc; [exact E2| |]; [by apply not_elem_of_nil|].
    eapply unref_new; [exact I| |exact E1]. done. }
  assert (unref st2 e) as Ue.
  { eapply unref_new; [exact I1| |exact E2]. done. }
  destruct (new_gb_good o st2 p n e X Y I2 A1' A2 (or_intror Un) (or_intror Ue))
    as (st' & b & E & G & O & x & Hb & Hx & Hnb).
  pose proof (alloc_new _ _ _ _ E1) as N1. pose proof (alloc_new _ _ _ _ E2) as N2.
  exists st', b, n, e, x. split; [done|].
  assert (good none st st') as G'.
  { split; [apply G|]. eapply frame_trans; [exact F1|]. eapply frame_trans; [exact F2|]. apply G. }
  split; [done|]. split; [congruence|]. split; [done|]. split; [done|].
  destruct G as [_ F3].
  split; [eapply (f_same _ _ _ F3); [done|tauto]|].
  split; [eapply (f_same _ _ _ F3); [done|tauto]|].
  split. { rewrite O, O2, O1. intros Hn. destruct (i_own _ I n Hn) as (ob & H & _). congruence. }
  split. { rewrite O, O2. intros Hn. destruct (i_own _ I1 e Hn) as (ob & H & _). congruence. }
  destruct (st_h st !! b) eqn:Eb; [|done]. exfalso.
  apply (f_same _ _ _ F1) in Eb; [|tauto]. apply (f_same _ _ _ F2) in Eb; [|tauto]. congruence.
Qed.

Lemma fresh_d_good (mk : addr -> obj) st m :
  (forall d, refs (mk d) = [d] /\ (forall st, typed st (mk d) <-> d ∉ st_own st /\ exists m, st_h st !! d = Some (MDict m))) ->
  inv st ->
  exists st' b d, (let '(st1, d) := alloc st (MDict m) in
                   let '(st2, b) := alloc st1 (mk d) in (st2, Ok b)) = (st', Ok b) /\
    good none st st' /\ st_own st' = st_own st /\
    st_h st' !! b = Some (mk d) /\ st_h st' !! d = Some (MDict m) /\ st_h st !! b = None.
Proof.
  intros Hmk I.
  destruct (alloc st (MDict m)) as [st1 d] eqn:E1.
  destruct (alloc st1 (mk d)) as [st2 b] eqn:E2.
  destruct (Hmk d) as [Hr Ht].
  assert (inv st1) as I1 by (by eapply alloc_m_inv; [exact I|..]; [|exact E1]).
  pose proof (alloc_frame none _ _ _ _ E1) as F1.
  pose proof (alloc_frame none _ _ _ _ E2) as F2.
  pose proof (alloc_own _ _ _ _ E1) as O1.
  pose proof (alloc_own _ _ _ _ E2) as O2.
  pose proof (alloc_at _ _ _ _ E1) as A1.
  pose proof (alloc_new _ _ _ _ E1) as N1.
  exists st2, b, d. split; [done|].
  assert (inv st2).
  { eapply alloc_inv; [exact I1| | |exact E2].
    - apply Ht. split; [|eauto]. rewrite O1. intros Hx.
      destruct (i_own _ I d Hx) as (ob & H & _). congruence.
    - intros c Hc _. rewrite Hr, elem_of_list_singleton in Hc. subst c.
      eapply unref_new; [exact I| |exact E1]. done. }
  split; [split; [done|by eapply frame_trans]|].
  split; [congruence|]. split; [by eapply alloc_at|].
  split; [eapply (f_same _ _ _ F2); [done|tauto]|].
  destruct (st_h st !! b) eqn:Eb; [|done]. exfalso.
  apply (f_same _ _ _ F1) in Eb; [|tauto]. pose proof (alloc_new _ _ _ _ E2). congruence.
Qed.

Lemma fresh_sb_good st p m :
  inv st -> exists st' b d, fresh_sb st p m = (st', Ok b) /\ good none st st' /\ st_own st' = st_own st /\
    st_h st' !! b = Some (HSB p d) /\ st_h st' !! d = Some (MDict m) /\ st_h st !! b = None.
Proof. intros I. apply (fresh_d_good (fun d => HSB p d)); [|done]. intros d. done. Qed.

Lemma fresh_set_good st p m :
  inv st -> exists st' b d, fresh_set st p m = (st', Ok b) /\ good none st st' /\ st_own st' = st_own st /\
    st_h st' !! b = Some (HSet p d (map_total m)) /\ st_h st' !! d = Some (MDict m) /\ st_h st !! b = None.
Proof. intros I. apply (fresh_d_good (fun d => HSet p d (map_total m))); [|done]. intros d. done. Qed.

Lemma alloc_obj_good st ob st' a :
  inv st -> typed st ob -> refs ob = [] -> alloc st ob = (st', a) -> good none st st'.
Proof.
  intros I T R E. split; [|by eapply alloc_frame].
  eapply alloc_inv; [exact I|done| |exact E]. intros c Hc. rewrite R in Hc. by apply elem_of_nil in Hc.
Qed.

Lemma good_refl W st : inv st -> good W st st.
Proof. intros I. split; [done|apply frame_refl]. Qed.

Lemma none_any (W : addr -> Prop) a b : good none a b -> good W a b.
Proof. apply good_weaken. tauto. Qed.

(** ** What a call may write, stated on the objects named by the call *)

Definition writes (st : state) (c : call) (a : addr) : Prop :=
  match c with
  | UChange a' _ => a = a' /\ a ∈ st_own st
  | KGBCall b _ => exists p n e x, st_h st !! b = Some (HGB p n e x) /\ (a = n \/ a = e \/ a = x)
  | KSBAdd b _ _ | KSBAddAll b _ | KSBRemove b _ | KSBRemoveAll b _ =>
      exists p d, st_h st !! b = Some (HSB p d) /\ a = d
  | KRGBAdd r _ _ =>
      exists p b vs rs p' d, st_h st !! r = Some (HRGB p b vs rs) /\ st_h st !! b = Some (HSB p' d) /\ a = d
  | _ => False
  end.

Lemma put_dict_good (W : addr -> Prop) st b m :
  inv st -> (forall p d, st_h st !! b = Some (HSB p d) -> W d) -> good W st (put_dict st b m).
Proof.
  intros I HW. unfold put_dict.
  destruct (st_h st !! b) as [[]|] eqn:E; try by apply good_refl.
  destruct (i_typed _ I _ _ E) as (_ & m0 & Hd).
  split; [by eapply write_inv|]. eapply write_frame; [by eapply HW|done|done].
Qed.

Lemma node_cell_good st n st' n' :
  inv st -> node_cell st n = Some (st', n') ->
  good none st st' /\ st_own st' = st_own st /\ (exists X, st_h st' !! n' = Some (MNodes X)) /\
  ((n = Some n' /\ n' ∈ st_own st') \/ (unref st' n' /\ n' ∉ st_own st')).
Proof.
  intros I H.
  assert (forall s a, alloc st (MNodes ∅) = (s, a) ->
    good none st s /\ st_own s = st_own st /\ (exists X, st_h s !! a = Some (MNodes X)) /\ unref s a /\ a ∉ st_own s)
    as Hnew.
  { intros s a E. pose proof (alloc_own _ _ _ _ E) as O.
    split; [by eapply alloc_obj_good; [| | |exact E]|]. split; [done|].
    split; [exists ∅; by eapply alloc_at|]. split; [by eapply unref_new; [| |exact E]|].
    rewrite O. intros Ha. destruct (i_own _ I a Ha) as (ob & Hob & _).
    pose proof (alloc_new _ _ _ _ E). congruence. }
  unfold node_cell in H. destruct n as [a|].
  - case_bool_decide as Ho; [|done].
    destruct (st_h st !! a) as [[]|] eqn:Ea; try done. case_bool_decide as Hx.
    + apply (inj Some) in H. destruct (Hnew _ _ H) as (G & O & X' & U1 & U2). split; [done|]. split; [done|]. split; [done|]. by right.
    + injection H as <- <-. split; [by apply good_refl|]. split; [done|]. split; [eauto|]. by left.
  - apply (inj Some) in H. destruct (Hnew _ _ H) as (G & O & X' & U1 & U2). split; [done|]. split; [done|]. split; [done|]. by right.
Qed.

Lemma edge_cell_good st n st' n' :
  inv st -> edge_cell st n = Some (st', n') ->
  good none st st' /\ st_own st' = st_own st /\ (exists X, st_h st' !! n' = Some (MEdges X)) /\
  ((n = Some n' /\ n' ∈ st_own st') \/ (unref st' n' /\ n' ∉ st_own st')) /\
  (forall c, unref st c -> unref st' c).
Proof.
  intros I H.
  assert (forall s a, alloc st (MEdges ∅) = (s, a) ->
    good none st s /\ st_own s = st_own st /\ (exists X, st_h s !! a = Some (MEdges X)) /\ unref s a /\ a ∉ st_own s /\
    forall c, unref st c -> unref s c)
    as Hnew.
  { intros s a E. pose proof (alloc_own _ _ _ _ E) as O.
    split; [by eapply alloc_obj_good; [| | |exact E]|]. split; [done|].
    split; [exists ∅; by eapply alloc_at|]. split; [by eapply unref_new; [| |exact E]|].
    split.
    - rewrite O. intros Ha. destruct (i_own _ I a Ha) as (ob & Hob & _).
      pose proof (alloc_new _ _ _ _ E). congruence.
    - intros c. eapply unref_alloc; [exact E|]. by apply not_elem_of_nil. }
  unfold edge_cell in H. destruct n as [a|].
  - case_bool_decide as Ho; [|done].
    destruct (st_h st !! a) as [[]|] eqn:Ea; try done. case_bool_decide as Hx.
    + apply (inj Some) in H. destruct (Hnew _ _ H) as (G & O & X' & U1 & U2 & U3). split; [done|]. split; [done|]. split; [done|]. split; [by right|done].
    + injection H as <- <-. split; [by apply good_refl|]. split; [done|]. split; [eauto|].
      split; [by left|done].
  - apply (inj Some) in H. destruct (Hnew _ _ H) as (G & O & X' & U1 & U2 & U3). split; [done|]. split; [done|]. split; [done|]. split; [by right|done].
Qed.

Lemma run_sb_good (W : addr -> Prop) st b x :
  inv st -> (forall p d, st_h st !! b = Some (HSB p d) -> W d) -> good W st (run_sb st b x).1.
Proof. intros I HW. unfold run_sb. simpl. by apply put_dict_good. Qed.

Lemma new_rgb_good st p b cp p' d :
  inv st -> st_h st !! b = Some (HSB p' d) -> good none st (new_rgb st p b cp).1.
Proof.
  intros I H. unfold new_rgb. destruct (alloc _ _) as [st' r] eqn:E. simpl.
  eapply alloc_obj_good; [done| | |exact E]; [|done]. simpl. eauto.
Qed.

Lemma get_samples_dict h a ss :
  get_samples h a = Some ss ->
  exists p d, (h !! a = Some (HSB p d) \/ exists l, h !! a = Some (HSet p d l)) /\
    h !! d = Some (MDict (ss_map ss)).
Proof.
  unfold get_samples, get_dict. intros H.
  destruct (h !! a) as [[]|] eqn:E; try done;
    (destruct (get_prov h p); [|done]); destruct (h !! d) as [[]|] eqn:Ed; try done;
    injection H as <-; exists p, d; eauto.
Qed.

Lemma is_sb_at h b : is_sb h b = true -> exists p d, h !! b = Some (HSB p d).
Proof. unfold is_sb. destruct (h !! b) as [[]|]; try done. eauto. Qed.

Theorem step_good o st c : inv st -> good (writes st c) st (step o st c).1.
Proof.
  intros I.
  assert (forall st' r, good none st (st', r : res addr).1 -> good (writes st c) st (st', r).1) as Hn
    by (intros st' r; apply none_any).
  assert (forall W, good W st st) as R by (intros W; by apply good_refl).
  assert (forall p m, good (writes st c) st (fresh_sb st p m).1) as Hsb.
  { intros p m. destruct (fresh_sb_good st p m I) as (st' & b & d & E & G & _).
    rewrite E. by apply none_any. }
  assert (forall p m, good (writes st c) st (fresh_set st p m).1) as Hset.
  { intros p m. destruct (fresh_set_good st p m I) as (st' & b & d & E & G & _).
    rewrite E. by apply none_any. }
  assert (forall p X Y, good (writes st c) st (fresh_gb o st p X Y).1) as Hgb.
  { intros p X Y. destruct (fresh_gb_good o st p X Y I) as (st' & b & n & e & x & E & G & _).
    rewrite E. by apply none_any. }
  assert (forall p cp, good (writes st c) st
    (match fresh_sb st p ∅ with
     | (st', Ok b) => new_rgb st' p b cp
     | (st', Err e) => (st', Err e)
     end).1) as Hrgb.
  { intros p cp. destruct (fresh_sb_good st p ∅ I) as (st' & b & d & E & G & _ & Hb & _).
    rewrite E. apply none_any. eapply good_trans; [exact G|]. intros I'. by eapply new_rgb_good. }
  destruct c; cbn [step].
  - destruct (container ob) eqn:Ec; [|apply R].
    destruct (alloc st ob) as [st' a] eqn:E. cbn [fst].
    apply none_any. eapply hold_inv; [done| |exact E]. by destruct ob.
  - destruct (st_h st !! a) as [ob0|] eqn:Ea; [|apply R].
    destruct (bool_decide _ && _) eqn:Eb; [|apply R].
    apply andb_true_iff in Eb. destruct Eb as [Ho K]. apply bool_decide_eq_true in Ho.
    simpl. split; [by eapply write_inv|by eapply write_frame].
  - destruct (st_h st !! v) as [[]|] eqn:Ev; try apply R.
    destruct (st_h st !! r) as [[]|] eqn:Er; try apply R.
    destruct (_ && _); [|apply R]. destruct (provider_init _ _ _); [|apply R].
    destruct (alloc _ _) as [st' p] eqn:E. simpl. apply none_any.
    eapply alloc_obj_good; [eassumption| | |exact E]; [|reflexivity]. simpl. eauto.
  - destruct (get_prov (st_h st) p); [|apply R].
    destruct (node_cell st n) as [[st1 n']|] eqn:En; [|apply R].
    destruct (node_cell_good _ _ _ _ I En) as (G1 & O1 & (X & HX) & U1).
    destruct (edge_cell st1 e) as [[st2 e']|] eqn:Ee; [|apply R].
    destruct (edge_cell_good _ _ _ _ (proj1 G1) Ee) as (G2 & O2 & (Y & HY) & U2 & U3).
    assert (st_h st2 !! n' = Some (MNodes X)) as HX' by (eapply (f_same _ _ _ (proj2 G2)); [done|tauto]).
    destruct (new_gb_good o st2 p n' e' X Y (proj1 G2) HX' HY) as (st' & b & E & G & _).
    { destruct U1 as [[_ U1]|[U1 _]]; [left; congruence|right; auto]. }
    { destruct U2 as [[_ U2]|[U2 _]]; [by left|by right]. }
    rewrite E. simpl. apply none_any.
    eapply good_trans; [exact G1|]. intros _. eapply good_trans; [exact G2|]. by intros _.
  - destruct (st_h st !! b) as [[]|] eqn:Eb; try apply R.
    destruct (get_gb _ _); [|apply R]. apply Hgb.
  - destruct (st_h st !! b) as [[]|] eqn:Eb; try apply R.
    destruct (get_gb (st_h st) b) as [bv|]; [|apply R].
    destruct (run_method o (st_h st) bv m) as [bv' r].
    destruct (i_typed _ I _ _ Eb) as (Hx & (X & H1) & (Y & H2) & (m0 & H3)).
    set (W := writes st (KGBCall b m)).
    assert (W n /\ W e /\ W x) as (Wn & We & Wx)
      by (unfold W; simpl; split; [|split]; exists p, n, e, x; auto).
    assert (n <> e /\ n <> x /\ e <> x) as (N1 & N2 & N3)
      by (split; [|split]; intros ->; congruence).
    set (s1 := write st n (MNodes (b_nodes bv'))).
    assert (good W st s1) as G1 by (split; [by eapply write_inv|by eapply write_frame]).
    assert (st_h s1 !! e = Some (MEdges Y)) as H2' by (simpl; by rewrite lookup_insert_ne).
    assert (st_h s1 !! x = Some (MEnds m0)) as H3' by (simpl; by rewrite lookup_insert_ne).
    set (s2 := write s1 e (MEdges (b_edges bv'))).
    assert (good W s1 s2) as G2 by (split; [by eapply write_inv; [apply G1|..]|by eapply write_frame]).
    assert (st_h s2 !! x = Some (MEnds m0)) as H3'' by (simpl; by rewrite lookup_insert_ne).
    set (s3 := write s2 x (MEnds (b_endpoints bv'))).
    assert (good W s2 s3) as G3 by (split; [by eapply write_inv; [apply G2|..]|by eapply write_frame]).
    assert (good W st s3) as G.
    { eapply good_trans; [exact G1|]. intros _. eapply good_trans; [exact G2|]. by intros _. }
    destruct r as [[s|]|]; [|exact G|exact G].
    destruct (alloc s3 _) as [s4 a] eqn:E4. simpl.
    eapply good_trans; [exact G|]. intros I3. apply none_any.
    eapply alloc_obj_good; [eassumption| | |exact E4]; [|reflexivity]. done.
  - destruct (get_graph _ _); [|apply R]. apply Hgb.
  - destruct (get_prov (st_h st) p); [|apply R]. destruct d as [a|]; [|apply Hsb].
    destruct (get_dict _ _); [|apply R]. destruct (bool_decide _); [apply Hsb|apply R].
  - destruct (get_samples _ _); [|apply R]. destruct (is_sb _ _); [apply Hsb|apply R].
  - destruct (get_samples _ _); [|apply R]. destruct (get_graph _ _); [|apply R].
    destruct (is_sb _ _); [|apply R]. apply run_sb_good; [done|]. intros p d Hb. exists p, d. auto.
  - destruct (get_samples (st_h st) b); [|apply R]. destruct (get_samples _ _); [|apply R].
    destruct (is_sb _ _); [|apply R]. apply run_sb_good; [done|]. intros p d Hb. exists p, d. auto.
  - destruct (get_samples _ _); [|apply R]. destruct (get_graph _ _); [|apply R].
    destruct (is_sb _ _); [|apply R]. destruct (ssb_remove _ _).
    apply run_sb_good; [done|]. intros p d Hb. exists p, d. auto.
  - destruct (get_samples (st_h st) b); [|apply R]. destruct (get_samples _ _); [|apply R].
    destruct (is_sb _ _); [|apply R]. apply run_sb_good; [done|]. intros p d Hb. exists p, d. auto.
  - destruct (get_samples _ _); [|apply R]. destruct (is_sb _ _); [apply Hset|apply R].
  - destruct (get_samples _ _); [|apply R]. destruct (is_sb _ _); [apply Hset|apply R].
  - destruct (get_prov (st_h st) p); [|apply R]. destruct (get_dict _ _); [|apply R].
    destruct (bool_decide _); [apply Hset|apply R].
  - destruct (get_samples _ _); [|apply R]. destruct (is_set _ _); [apply Hsb|apply R].
  - destruct (get_samples (st_h st) s); [|apply R]. destruct (get_samples _ _); [|apply R].
    destruct (_ && _); [|apply R]. destruct (ss_union _ _ _); [apply Hset|apply R].
  - destruct (get_samples _ _); [|apply R]. destruct (is_set _ _); [apply Hset|apply R].
  - destruct (get_samples _ _); [|apply R]. destruct (alloc _ _) as [st' a] eqn:E. cbn [fst].
    apply none_any. by eapply hold_inv; [| |exact E].
  - destruct (get_samples _ _); [|apply R]. destruct (alloc _ _) as [st' a] eqn:E. cbn [fst].
    apply none_any. by eapply hold_inv; [| |exact E].
  - destruct (get_prov (st_h st) p) as [cp|]; [|apply R]. destruct out as [b|]; [|apply Hrgb].
    destruct (get_samples _ _) as [ss|]; [|apply R]. destruct (is_sb _ _) eqn:Eb; [|apply R].
    destruct (ss_bool ss); [|apply Hrgb]. destruct (is_sb_at _ _ Eb) as (p' & d & Hb).
    apply none_any. by eapply new_rgb_good.
  - destruct (st_h st !! r) as [[]|] eqn:Er; try apply R.
    destruct (get_prov _ _); [|apply R]. destruct (get_samples _ _); [|apply R].
    destruct (get_graph _ _); [|apply R]. destruct (add_outcome _ _ _) as [rb x].
    apply run_sb_good; [done|]. intros p' d Hb. exists p, b, vs, rs, p', d. auto.
  - destruct (st_h st !! r) as [[]|] eqn:Er; try apply R.
    destruct (get_prov _ _) as [cp|]; [|apply R]. destruct (get_samples _ _) as [ss|]; [|apply R].
    destruct (rgb_build _); [|apply R].
    destruct (fresh_set_good st (cp_id (ss_cp ss)) (ss_map ss) I) as (st' & s & d & E & G & _ & Hs & _).
    rewrite E. destruct (alloc st' _) as [st'' a2] eqn:E2. simpl. apply none_any.
    eapply good_trans; [exact G|]. intros I'. eapply alloc_obj_good; [eassumption| | |exact E2]; [|reflexivity]. simpl. eauto.
  - destruct (st_h st !! g) as [[]|] eqn:Er; try apply R.
    destruct (get_prov _ _) as [cp|]; [|apply R]. destruct (get_samples _ _) as [ss|]; [|apply R].
    destruct (fresh_sb_good st (cp_id (ss_cp ss)) (ss_map ss) I) as (st' & b & d & E & G & _ & Hb & _).
    rewrite E. apply none_any. destruct (ss_bool ss).
    + eapply good_trans; [exact G|]. intros I'. by eapply new_rgb_good.
    + eapply good_trans; [exact G|]. intros I'.
      destruct (fresh_sb_good st' p ∅ I') as (st2 & b2 & d2 & E2 & G2 & _ & Hb2 & _).
      rewrite E2. eapply good_trans; [exact G2|]. intros I2. by eapply new_rgb_good.
  - destruct (st_h st !! g) as [[]|] eqn:Er; apply R.
  - destruct (st_h st !! g) as [[]|] eqn:Er; try apply R.
    destruct (get_prov _ _) as [cp|]; [|apply R].
    destruct (alloc st _) as [st'' a] eqn:E2. simpl. apply none_any.
    eapply alloc_obj_good; [eassumption| | |exact E2]; [|reflexivity].
    exact (i_typed _ I _ _ Er).
Qed.

(** ** Histories *)

Lemma inv_start : inv start.
Proof.
  split; simpl.
  - intros a ob H. by rewrite lookup_empty in H.
  - intros a b oa ob c H. by rewrite lookup_empty in H.
  - intros a H. by apply not_elem_of_empty in H.
Qed.

Lemma run_inv l st : inv st -> inv (run st l).
Proof.
  revert st. induction l as [|[o c] l IH]; intros st I; simpl; [done|].
  apply IH. apply (step_good o st c I).
Qed.

Lemma reachable_inv st : reachable st -> inv st.
Proof. intros [l ->]. apply run_inv, inv_start. Qed.

Lemma run_app st l l' : run st (l ++ l') = run (run st l) l'.
Proof. revert st. induction l as [|[o c] l IH]; intros st; simpl; [done|]. apply IH. Qed.

Lemma reachable_run st l : reachable st -> reachable (run st l).
Proof. intros [l0 ->]. exists (l0 ++ l). by rewrite run_app. Qed.

Lemma reachable_step st o c : reachable st -> reachable (step o st c).1.
Proof. intros H. exact (reachable_run st [(o, c)] H). Qed.

(** A cell no builder or client can write: it belongs to a SampleSet. *)
Lemma set_cell_safe st s p d len c :
  inv st -> st_h st !! s = Some (HSet p d len) -> ~ writes st c d.
Proof.
  intros I Hs W.
  destruct (i_typed _ I _ _ Hs) as (Hd & m & Hm).
  assert (forall b ob, st_h st !! b = Some ob -> d ∈ refs ob -> b = s) as X.
  { intros b ob Hb Hin. eapply (i_excl _ I b s ob _ d); [done|done|done| |done].
    simpl. by apply elem_of_list_singleton. }
  destruct c; simpl in W; try done.
  - by destruct W.
  - destruct W as (p' & n & e & x & Hb & Hd').
    assert (b = s) as ->; [|congruence]. eapply X; [done|]. simpl. rewrite !elem_of_cons. tauto.
  - destruct W as (p' & d' & Hb & ->).
    assert (b = s) as ->; [|congruence]. eapply X; [done|]. simpl. by apply elem_of_list_singleton.
  - destruct W as (p' & d' & Hb & ->).
    assert (b = s) as ->; [|congruence]. eapply X; [done|]. simpl. by apply elem_of_list_singleton.
  - destruct W as (p' & d' & Hb & ->).
    assert (b = s) as ->; [|congruence]. eapply X; [done|]. simpl. by apply elem_of_list_singleton.
  - destruct W as (p' & d' & Hb & ->).
    assert (b = s) as ->; [|congruence]. eapply X; [done|]. simpl. by apply elem_of_list_singleton.
  - destruct W as (p' & b & vs & rs & p'' & d' & Hr & Hb & ->).
    assert (b = s) as ->; [|congruence]. eapply X; [done|]. simpl. by apply elem_of_list_singleton.
Qed.

Definition frozen (v : seen) : Prop :=
  match v with SGraph _ _ | SSet _ _ _ | SSpace _ _ _ _ _ => True | _ => False end.

Lemma get_dict_Some h d m : get_dict h d = Some m <-> h !! d = Some (MDict m).
Proof.
  unfold get_dict. split.
  - destruct (h !! d) as [[]|]; try done. congruence.
  - by intros ->.
Qed.

Lemma frozen_step o st c a v :
  inv st -> see (st_h st) a = Some v -> frozen v -> see (st_h (step o st c).1) a = Some v.
Proof.
  intros I. pose proof (step_good o st c I) as [I' F]. intros H Hf.
  assert (forall s p d len, st_h st !! s = Some (HSet p d len) ->
    st_h (step o st c).1 !! s = Some (HSet p d len) /\
    forall m, get_dict (st_h st) d = Some m -> get_dict (st_h (step o st c).1) d = Some m) as HS.
  { intros s p d len Hs. split; [by eapply frame_obj|].
    intros m Hm. apply get_dict_Some in Hm. apply get_dict_Some.
    eapply (f_same _ _ _ F); [done|]. by eapply set_cell_safe. }
  unfold see in H.
  destruct (st_h st !! a) as [ob|] eqn:Ha; [|done].
  destruct ob; try done.
  - destruct (st_h st !! v0) as [[]|]; try done. destruct (st_h st !! r) as [[]|]; try done.
    injection H as <-. done.
  - destruct (st_h st !! n) as [[]|]; try done. destruct (st_h st !! e) as [[]|]; try done.
    destruct (st_h st !! x) as [[]|]; try done. injection H as <-. done.
  - unfold see. by rewrite (frame_obj _ _ _ _ _ F Ha eq_refl).
  - destruct (get_dict (st_h st) d); [|done]. injection H as <-. done.
  - destruct (get_dict (st_h st) d) as [m|] eqn:Hm; [|done]. simpl in H. injection H as <-.
    destruct (HS _ _ _ _ Ha) as [Ha' Hd]. unfold see. rewrite Ha', (Hd m Hm). done.
  - destruct (st_h st !! b) as [[]|]; try done. destruct (get_dict (st_h st) d); [|done].
    injection H as <-. done.
  - destruct (st_h st !! s) as [[]|] eqn:Hs; try done.
    destruct (get_dict (st_h st) d) as [m|] eqn:Hm; [|done]. simpl in H. injection H as <-.
    destruct (HS _ _ _ _ Hs) as [Hs' Hd]. unfold see.
    rewrite (frame_obj _ _ _ _ _ F Ha eq_refl), Hs', (Hd m Hm). done.
Qed.

Theorem frozen_run l st a v :
  inv st -> see (st_h st) a = Some v -> frozen v -> see (st_h (run st l)) a = Some v.
Proof.
  revert st. induction l as [|[o c] l IH]; intros st I H Hf; simpl; [done|].
  apply IH; [apply (step_good o st c I)| |done]. by apply frozen_step.
Qed.

(** ** SampleSetBuilder *)

(** The calls that are made on [b], or on a RelationGraphBuilder whose outcomes object is [b]. *)
Definition on_set_builder (st : state) (c : call) (b : addr) : Prop :=
  match c with
  | KSBAdd b' _ _ | KSBAddAll b' _ | KSBRemove b' _ | KSBRemoveAll b' _ => b' = b
  | KRGBAdd r _ _ => exists p vs rs, st_h st !! r = Some (HRGB p b vs rs)
  | _ => False
  end.

Global Instance on_set_builder_dec st c b : Decision (on_set_builder st c b).
Proof.
  destruct c; simpl; try apply _.
  destruct (st_h st !! r) as [ob|] eqn:E; [|right; intros (p & vs & rs & H); congruence].
  destruct ob as [| | | | | | | | | | | | |p b0 vs rs|]; try (right; intros (p' & vs' & rs' & H); congruence).
  destruct (decide (b0 = b)) as [->|N]; [left; eauto|].
  right. intros (p' & vs' & rs' & H). congruence.
Defined.

Lemma sb_cell_safe st b p d c :
  inv st -> st_h st !! b = Some (HSB p d) -> ~ on_set_builder st c b -> ~ writes st c d.
Proof.
  intros I Hs Hn W.
  destruct (i_typed _ I _ _ Hs) as (Hd & m & Hm).
  assert (forall b' ob, st_h st !! b' = Some ob -> d ∈ refs ob -> b' = b) as X.
  { intros b' ob Hb Hin. eapply (i_excl _ I b' b ob _ d); [done|done|done| |done].
    simpl. by apply elem_of_list_singleton. }
  destruct c; simpl in W, Hn; try done.
  - by destruct W.
  - destruct W as (p' & n & e & x & Hb & Hd').
    assert (b0 = b) as ->; [|congruence]. eapply X; [done|]. simpl. rewrite !elem_of_cons. tauto.
  - destruct W as (p' & d' & Hb & ->). apply Hn.
    eapply X; [done|]. simpl. by apply elem_of_list_singleton.
  - destruct W as (p' & d' & Hb & ->). apply Hn.
    eapply X; [done|]. simpl. by apply elem_of_list_singleton.
  - destruct W as (p' & d' & Hb & ->). apply Hn.
    eapply X; [done|]. simpl. by apply elem_of_list_singleton.
  - destruct W as (p' & d' & Hb & ->). apply Hn.
    eapply X; [done|]. simpl. by apply elem_of_list_singleton.
  - destruct W as (p' & b' & vs & rs & p'' & d' & Hr & Hb & ->). apply Hn.
    assert (b' = b) as ->; [|eauto]. eapply X; [done|]. simpl. by apply elem_of_list_singleton.
Qed.

Lemma see_sb h b p m :
  see h b = Some (SSetBuilder p m) <-> exists d, h !! b = Some (HSB p d) /\ h !! d = Some (MDict m).
Proof.
  unfold see. split.
  - intros H. destruct (h !! b) as [ob|] eqn:Hb; [|done]. destruct ob; try done.
    + destruct (h !! v) as [[]|]; try done. destruct (h !! r) as [[]|]; try done.
    + destruct (h !! n) as [[]|]; try done. destruct (h !! e) as [[]|]; try done.
      destruct (h !! x) as [[]|]; try done.
    + destruct (get_dict h d) as [m'|] eqn:Hd; [|done]. apply get_dict_Some in Hd.
      simpl in H. injection H as <- <-. eauto.
    + destruct (get_dict h d); done.
    + destruct (h !! b0) as [[]|]; try done. destruct (get_dict h d); done.
    + destruct (h !! s) as [[]|]; try done. destruct (get_dict h d); done.
  - intros (d & Hb & Hd). rewrite Hb. apply get_dict_Some in Hd. by rewrite Hd.
Qed.

Lemma see_set h b p m len :
  see h b = Some (SSet p m len) <-> exists d, h !! b = Some (HSet p d len) /\ h !! d = Some (MDict m).
Proof.
  unfold see. split.
  - intros H. destruct (h !! b) as [ob|] eqn:Hb; [|done]. destruct ob; try done.
    + destruct (h !! v) as [[]|]; try done. destruct (h !! r) as [[]|]; try done.
    + destruct (h !! n) as [[]|]; try done. destruct (h !! e) as [[]|]; try done.
      destruct (h !! x) as [[]|]; try done.
    + destruct (get_dict h d); done.
    + destruct (get_dict h d) as [m'|] eqn:Hd; [|done]. apply get_dict_Some in Hd.
      simpl in H. injection H as <- <- <-. eauto.
    + destruct (h !! b0) as [[]|]; try done. destruct (get_dict h d); done.
    + destruct (h !! s) as [[]|]; try done. destruct (get_dict h d); done.
  - intros (d & Hb & Hd). rewrite Hb. apply get_dict_Some in Hd. by rewrite Hd.
Qed.

Lemma see_gb h b p X Y m :
  see h b = Some (SGraphBuilder p X Y m) <-> exists n e x, h !! b = Some (HGB p n e x) /\
    h !! n = Some (MNodes X) /\ h !! e = Some (MEdges Y) /\ h !! x = Some (MEnds m).
Proof.
  unfold see. split.
  - intros H. destruct (h !! b) as [ob|] eqn:Hb; [|done]. destruct ob; try done.
    + destruct (h !! v) as [[]|]; try done. destruct (h !! r) as [[]|]; try done.
    + destruct (h !! n) as [[]|] eqn:Hn; try done. destruct (h !! e) as [[]|] eqn:He; try done.
      destruct (h !! x) as [[]|] eqn:Hx; try done. injection H as <- <- <- <-. eauto 10.
    + destruct (get_dict h d); done.
    + destruct (get_dict h d); done.
    + destruct (h !! b0) as [[]|]; try done. destruct (get_dict h d); done.
    + destruct (h !! s) as [[]|]; try done. destruct (get_dict h d); done.
  - intros (n & e & x & Hb & Hn & He & Hx). by rewrite Hb, Hn, He, Hx.
Qed.

Theorem sb_step o st c b p m :
  inv st -> see (st_h st) b = Some (SSetBuilder p m) -> ~ on_set_builder st c b ->
  see (st_h (step o st c).1) b = Some (SSetBuilder p m).
Proof.
  intros I H Hn. apply see_sb in H. destruct H as (d & Hb & Hd). apply see_sb.
  pose proof (step_good o st c I) as [I' F].
  exists d. split; [by eapply frame_obj|]. eapply (f_same _ _ _ F); [done|]. by eapply sb_cell_safe.
Qed.

(** ** SampleGraphBuilder *)

(** Its sets are not held by the client. *)
Definition own_sets (st : state) (b : addr) : Prop :=
  exists p n e x, st_h st !! b = Some (HGB p n e x) /\ n ∉ st_own st /\ e ∉ st_own st.

Lemma own_sets_step o st c b : inv st -> own_sets st b -> own_sets (step o st c).1 b.
Proof.
  intros I (p & n & e & x & Hb & Hn & He).
  pose proof (step_good o st c I) as [I' F].
  destruct (i_typed _ I _ _ Hb) as (_ & (X & H1) & (Y & H2) & _).
  exists p, n, e, x. split; [by eapply frame_obj|].
  rewrite (f_own _ _ _ F n _ H1), (f_own _ _ _ F e _ H2). done.
Qed.

Definition on_graph_builder (c : call) (b : addr) : Prop :=
  match c with KGBCall b' _ => b' = b | _ => False end.

Lemma gb_cell_safe st b p n e x c y :
  inv st -> st_h st !! b = Some (HGB p n e x) -> y ∈ [n; e; x] -> y ∉ st_own st ->
  ~ on_graph_builder c b -> ~ writes st c y.
Proof.
  intros I Hs Hy Ho Hn W.
  assert (forall b' ob, st_h st !! b' = Some ob -> y ∈ refs ob -> b' = b) as X.
  { intros b' ob Hb Hin. by eapply (i_excl _ I b' b ob _ y). }
  destruct c; simpl in W, Hn; try done.
  - by destruct W.
  - destruct W as (p' & n' & e' & x' & Hb & Hd'). apply Hn.
    eapply X; [done|]. simpl. rewrite !elem_of_cons. tauto.
  - destruct W as (p' & d' & Hb & ->).
    assert (b0 = b) as ->; [|congruence]. eapply X; [done|]. simpl. by apply elem_of_list_singleton.
  - destruct W as (p' & d' & Hb & ->).
    assert (b0 = b) as ->; [|congruence]. eapply X; [done|]. simpl. by apply elem_of_list_singleton.
  - destruct W as (p' & d' & Hb & ->).
    assert (b0 = b) as ->; [|congruence]. eapply X; [done|]. simpl. by apply elem_of_list_singleton.
  - destruct W as (p' & d' & Hb & ->).
    assert (b0 = b) as ->; [|congruence]. eapply X; [done|]. simpl. by apply elem_of_list_singleton.
  - destruct W as (p' & b' & vs & rs & p'' & d' & Hr & Hb & ->).
    assert (b' = b) as ->; [|congruence]. eapply X; [done|]. simpl. by apply elem_of_list_singleton.
Qed.

Lemma gb_step o st c b p X Y m :
  inv st -> own_sets st b -> see (st_h st) b = Some (SGraphBuilder p X Y m) ->
  ~ on_graph_builder c b -> see (st_h (step o st c).1) b = Some (SGraphBuilder p X Y m).
Proof.
  intros I (p0 & n & e & x & Hb & Hn & He) H Hc. apply see_gb in H.
  destruct H as (n' & e' & x' & Hb' & H1 & H2 & H3).
  assert (n' = n /\ e' = e /\ x' = x) as (-> & -> & ->) by (split; [|split]; congruence).
  pose proof (step_good o st c I) as [I' F].
  destruct (i_typed _ I _ _ Hb') as (Hx & _).
  apply see_gb. exists n, e, x. split; [by eapply frame_obj|].
  split; [|split]; eapply (f_same _ _ _ F); try done;
    (eapply gb_cell_safe; [done|exact Hb'| |done|done]); rewrite !elem_of_cons; auto.
Qed.

Theorem gb_run l st b p X Y m :
  inv st -> own_sets st b -> see (st_h st) b = Some (SGraphBuilder p X Y m) ->
  Forall (fun oc => ~ on_graph_builder oc.2 b) l ->
  see (st_h (run st l)) b = Some (SGraphBuilder p X Y m).
Proof.
  revert st. induction l as [|[o c] l IH]; intros st I Ho H Hl; simpl; [done|].
  inversion Hl as [|? ? Hc Hl']; subst.
  apply IH; [apply (step_good o st c I)|by apply own_sets_step|by apply gb_step|done].
Qed.

(** ** What creating calls give *)

Lemma get_prov_id h p cp : get_prov h p = Some cp -> cp_id cp = p.
Proof.
  unfold get_prov. destruct (h !! p) as [[]|]; try done.
  destruct (h !! v) as [[]|]; try done. destruct (h !! r) as [[]|]; try done.
  intros H. by injection H as <-.
Qed.

Lemma get_samples_sb h b p d m ss :
  h !! b = Some (HSB p d) -> h !! d = Some (MDict m) -> get_samples h b = Some ss ->
  cp_id (ss_cp ss) = p /\ ss_map ss = m /\ get_prov h p = Some (ss_cp ss).
Proof.
  unfold get_samples. intros Hb Hd. rewrite Hb. unfold get_dict. rewrite Hd.
  destruct (get_prov h p) as [cp|] eqn:Ep; [|done]. intros H. injection H as <-. simpl.
  split; [by eapply get_prov_id|done].
Qed.

Lemma get_samples_set h b p d len m ss :
  h !! b = Some (HSet p d len) -> h !! d = Some (MDict m) -> get_samples h b = Some ss ->
  cp_id (ss_cp ss) = p /\ ss_map ss = m.
Proof.
  unfold get_samples. intros Hb Hd. rewrite Hb. unfold get_dict. rewrite Hd.
  destruct (get_prov h p) as [cp|] eqn:Ep; [|done]. intros H. injection H as <-. simpl.
  split; [by eapply get_prov_id|done].
Qed.

Lemma fresh_sb_see st p m st' b :
  inv st -> fresh_sb st p m = (st', Ok b) ->
  see (st_h st') b = Some (SSetBuilder p m) /\ st_h st !! b = None.
Proof.
  intros I H. destruct (fresh_sb_good st p m I) as (st1 & b1 & d & E & _ & _ & H1 & H2 & H3).
  rewrite H in E. injection E as <- <-. split; [|done]. apply see_sb. eauto.
Qed.

Lemma fresh_set_see st p m st' b :
  inv st -> fresh_set st p m = (st', Ok b) ->
  see (st_h st') b = Some (SSet p m (map_total m)) /\ st_h st !! b = None.
Proof.
  intros I H. destruct (fresh_set_good st p m I) as (st1 & b1 & d & E & _ & _ & H1 & H2 & H3).
  rewrite H in E. injection E as <- <-. split; [|done]. apply see_set. eauto.
Qed.

Lemma fresh_gb_see o st p X Y st' b :
  inv st -> fresh_gb o st p X Y = (st', Ok b) ->
  see (st_h st') b = Some (SGraphBuilder p X Y (ends_of o Y)) /\ own_sets st' b /\ st_h st !! b = None.
Proof.
  intros I H. destruct (fresh_gb_good o st p X Y I) as (st1 & b1 & n & e & x & E & _ & _ & H1 & H2 & H3 & H4 & H5 & H6 & H7).
  rewrite H in E. injection E as <- <-. split; [|split; [|done]].
  - apply see_gb. eauto 10.
  - exists p, n, e, x. auto.
Qed.

Lemma ends_of_empty o : ends_of o ∅ = ∅.
Proof. unfold ends_of, iter_set. by rewrite elements_empty. Qed.

Lemma kgb_see o st p st' b :
  inv st -> step o st (KGB p None None) = (st', Ok b) ->
  see (st_h st') b = Some (SGraphBuilder p ∅ ∅ ∅) /\ own_sets st' b /\ st_h st !! b = None.
Proof.
  intros I. cbn [step]. destruct (get_prov (st_h st) p); [|done].
  cbn [node_cell edge_cell].
  assert (fresh_gb o st p ∅ ∅ = (let '(s1, n) := alloc st (MNodes ∅) in
    let '(s2, e) := alloc s1 (MEdges ∅) in new_gb o s2 p n e)) as E by done.
  destruct (alloc st (MNodes ∅)) as [s1 n] eqn:E1.
  destruct (alloc s1 (MEdges ∅)) as [s2 e] eqn:E2.
  intros H. rewrite H in E.
  rewrite <- (ends_of_empty o). by apply fresh_gb_see.
Qed.

(** ** Containers of the client *)

Lemma change_step o st a ob x :
  inv st -> (forall Y, st_h st !! a <> Some (MNodes Y)) -> (forall Y, st_h st !! a <> Some (MEdges Y)) ->
  (forall Y, st_h st !! a <> Some (MVars Y)) -> (forall Y, st_h st !! a <> Some (MRels Y)) ->
  see (st_h (step o st (UChange a ob)).1) x = see (st_h st) x.
Proof.
  intros I N1 N2 N3 N4. cbn [step].
  destruct (st_h st !! a) as [ob0|] eqn:Ea; [|done].
  destruct (bool_decide _ && _) eqn:Eb; [|done].
  apply andb_true_iff in Eb. destruct Eb as [Ho K]. apply bool_decide_eq_true in Ho.
  destruct (same_kind_m _ _ K) as [M0 M1].
  cbn [fst]. unfold write. cbn [st_h].
  assert (forall y ob', st_h st !! y = Some ob' -> is_m ob' = false -> y <> a) as Hne.
  { intros y ob' Hy Hm ->. congruence. }
  assert (forall y ob', st_h st !! y = Some ob' -> forall d, d ∈ refs ob' ->
    (exists m, st_h st !! d = Some (MDict m)) \/ (exists m, st_h st !! d = Some (MEnds m)) -> d ∉ st_own st) as Hrd.
  { intros y ob' Hy d Hd Hk. pose proof (i_typed _ I _ _ Hy) as T.
    destruct ob'; simpl in Hd, T; try by apply elem_of_nil in Hd.
    - destruct T as (T0 & (X & T1) & (Y & T2) & _).
      rewrite !elem_of_cons, elem_of_nil in Hd. destruct Hd as [->|[->|[->|[]]]]; [| |done].
      + destruct Hk as [[m Hk]|[m Hk]]; congruence.
      + destruct Hk as [[m Hk]|[m Hk]]; congruence.
    - rewrite elem_of_list_singleton in Hd. subst. apply T.
    - rewrite elem_of_list_singleton in Hd. subst. apply T. }
  destruct (decide (x = a)) as [->|Nx].
  { unfold see. rewrite lookup_insert, Ea. by destruct ob0, ob. }
  unfold see. rewrite (lookup_insert_ne _ a x) by done.
  destruct (st_h st !! x) as [obx|] eqn:Ex; [|done].
  pose proof (i_typed _ I _ _ Ex) as T.
  destruct obx; try done; simpl in T.
  - destruct T as [(m & T1) (X & T2)].
    rewrite !lookup_insert_ne; [done| |]; intros ->; first [by eapply (N4 X); congruence|by eapply (N3 m); congruence].
  - destruct T as (T0 & (X & T1) & (Y & T2) & (m & T3)).
    rewrite !lookup_insert_ne; [done| | |]; intros ->; first [done|by eapply (N2 Y); congruence|by eapply (N1 X); congruence].
  - destruct T as (T0 & m & T1). unfold get_dict. rewrite lookup_insert_ne; [done|]. by intros ->.
  - destruct T as (T0 & m & T1). unfold get_dict. rewrite lookup_insert_ne; [done|]. by intros ->.
  - destruct T as (p' & d & T1). rewrite lookup_insert_ne by (apply not_eq_sym, (Hne _ _ T1 eq_refl)).
    rewrite T1. destruct (i_typed _ I _ _ T1) as (T0 & m & T2).
    unfold get_dict. rewrite lookup_insert_ne; [done|]. by intros ->.
  - destruct T as (p' & d & l & T1). rewrite lookup_insert_ne by (apply not_eq_sym, (Hne _ _ T1 eq_refl)).
    rewrite T1. destruct (i_typed _ I _ _ T1) as (T0 & m & T2).
    unfold get_dict. rewrite lookup_insert_ne; [done|]. by intros ->.
Qed.

Lemma step_same o st c st' r a ob :
  inv st -> step o st c = (st', r) -> st_h st !! a = Some ob -> ~ writes st c a -> st_h st' !! a = Some ob.
Proof.
  intros I E H N. pose proof (step_good o st c I) as [_ F]. rewrite E in F. by eapply (f_same _ _ _ F).
Qed.

Lemma sb_copy_spec o st st' b b' p m :
  inv st -> see (st_h st) b = Some (SSetBuilder p m) -> step o st (KSBCopy b) = (st', Ok b') ->
  see (st_h st') b' = Some (SSetBuilder p m) /\ see (st_h st') b = Some (SSetBuilder p m) /\ b' <> b.
Proof.
  intros I H E.
  assert (see (st_h st') b = Some (SSetBuilder p m)) as Hb.
  { pose proof (sb_step o st (KSBCopy b) b p m I H) as HH. rewrite E in HH. apply HH. intros []. }
  apply see_sb in H. destruct H as (d & Hb0 & Hd).
  cbn [step] in E. destruct (get_samples (st_h st) b) as [ss|] eqn:Es; [|done].
  destruct (get_samples_sb _ _ _ _ _ _ Hb0 Hd Es) as (<- & <- & _).
  destruct (is_sb _ _); [|done]. destruct (fresh_sb_see _ _ _ _ _ I E) as [H1 H2].
  split; [done|]. split; [done|]. intros ->. congruence.
Qed.

Lemma sb_build_spec o st st' b s p m :
  inv st -> see (st_h st) b = Some (SSetBuilder p m) -> step o st (KSBBuild b) = (st', Ok s) ->
  see (st_h st') s = Some (SSet p m (map_total m)) /\ st_h st !! s = None.
Proof.
  intros I H E. apply see_sb in H. destruct H as (d & Hb0 & Hd).
  cbn [step] in E. destruct (get_samples (st_h st) b) as [ss|] eqn:Es; [|done].
  destruct (get_samples_sb _ _ _ _ _ _ Hb0 Hd Es) as (<- & <- & _).
  destruct (is_sb _ _); [|done]. by apply fresh_set_see.
Qed.

Lemma set_builder_spec o st st' s b p m len :
  inv st -> see (st_h st) s = Some (SSet p m len) -> step o st (KSetBuilder s) = (st', Ok b) ->
  see (st_h st') b = Some (SSetBuilder p m) /\ st_h st !! b = None.
Proof.
  intros I H E. apply see_set in H. destruct H as (d & Hb0 & Hd).
  cbn [step] in E. destruct (get_samples (st_h st) s) as [ss|] eqn:Es; [|done].
  destruct (get_samples_set _ _ _ _ _ _ _ Hb0 Hd Es) as (<- & <-).
  destruct (is_set _ _); [|done]. by apply fresh_sb_see.
Qed.

Lemma constructors_spec o st st' p a b m :
  inv st -> st_h st !! a = Some (MDict m) ->
  (step o st (KSB p (Some a)) = (st', Ok b) -> see (st_h st') b = Some (SSetBuilder p m)) /\
  (step o st (KSet p a) = (st', Ok b) -> see (st_h st') b = Some (SSet p m (map_total m))).
Proof.
  intros I Ha. cbn [step]. destruct (get_prov (st_h st) p); [|done].
  unfold get_dict. rewrite Ha. destruct (bool_decide _); [|done].
  split; intros E; [by eapply fresh_sb_see|by eapply fresh_set_see].
Qed.

Lemma own_sets_run l st b : inv st -> own_sets st b -> own_sets (run st l) b.
Proof.
  revert st. induction l as [|[o c] l IH]; intros st I H; simpl; [done|].
  apply IH; [apply (step_good o st c I)|by apply own_sets_step].
Qed.

Lemma graph_builder_spec o st st' c b v l :
  inv st -> match c with KGB _ None None | KGBCopy _ | KGraphBuilder _ => True | _ => False end ->
  step o st c = (st', Ok b) ->
  forall l1, see (st_h (run st' l1)) b = Some v ->
  Forall (fun oc => match oc.2 with KGBCall b' _ => b' <> b | _ => True end) l ->
  see (st_h (run (run st' l1) l)) b = Some v.
Proof.
  intros I Hc E l1 Hv Hl.
  assert (inv st') as I' by (pose proof (step_good o st c I) as [? _]; by rewrite E in *).
  assert (own_sets st' b) as Ho.
  { destruct c; try done.
    - destruct n; [done|]. destruct e; [done|]. destruct (kgb_see _ _ _ _ _ I E) as (_ & ? & _). done.
    - cbn [step] in E. destruct (st_h st !! b0) as [[]|]; try done. destruct (get_gb _ _); [|done].
      destruct (fresh_gb_see _ _ _ _ _ _ _ I E) as (_ & ? & _). done.
    - cbn [step] in E. destruct (get_graph _ _); [|done].
      destruct (fresh_gb_see _ _ _ _ _ _ _ I E) as (_ & ? & _). done. }
  pose proof (run_inv l1 st' I') as I1. pose proof (own_sets_run l1 st' b I' Ho) as H1.
  assert (exists p X Y m, v = SGraphBuilder p X Y m) as (p & X & Y & m & ->).
  { destruct H1 as (p & n & e & x & Hb & _).
    destruct (i_typed _ I1 _ _ Hb) as (_ & (X & T1) & (Y & T2) & (m & T3)).
    unfold see in Hv. rewrite Hb, T1, T2, T3 in Hv. injection Hv as <-. eauto. }
  apply gb_run; [done|done|done|].
  eapply Forall_impl; [exact Hl|]. intros [o' c']. simpl. destruct c'; simpl; tauto.
Qed.

Lemma get_gb_see h b bv :
  get_gb h b = Some bv ->
  see h b = Some (SGraphBuilder (cp_id (b_cp bv)) (b_nodes bv) (b_edges bv) (b_endpoints bv)).
Proof.
  unfold get_gb. intros H. destruct (h !! b) as [[]|] eqn:Hb; try done.
  destruct (get_prov h p) as [cp|] eqn:Hp; [|done].
  destruct (h !! n) as [[]|] eqn:Hn; try done. destruct (h !! e) as [[]|] eqn:He; try done.
  destruct (h !! x) as [[]|] eqn:Hx; try done. injection H as <-. simpl.
  apply see_gb. exists n, e, x. by rewrite (get_prov_id _ _ _ Hp).
Qed.

Lemma see_graph h b p g : see h b = Some (SGraph p g) <-> h !! b = Some (HGraph p g).
Proof.
  unfold see. split; [|by intros ->].
  intros H. destruct (h !! b) as [ob|] eqn:Hb; [|done]. destruct ob; try done.
  - destruct (h !! v) as [[]|]; try done. destruct (h !! r) as [[]|]; try done.
  - destruct (h !! n) as [[]|]; try done. destruct (h !! e) as [[]|]; try done.
    destruct (h !! x) as [[]|]; try done.
  - by injection H as <- <-.
  - destruct (get_dict h d); done.
  - destruct (get_dict h d); done.
  - destruct (h !! b0) as [[]|]; try done. destruct (get_dict h d); done.
  - destruct (h !! s) as [[]|]; try done. destruct (get_dict h d); done.
Qed.

Lemma graph_created_spec o st st' a b p X Y m g :
  inv st ->
  (step o st (KGB p None None) = (st', Ok b) ->
     see (st_h st') b = Some (SGraphBuilder p ∅ ∅ ∅) /\ st_h st !! b = None) /\
  (see (st_h st) a = Some (SGraphBuilder p X Y m) -> step o st (KGBCopy a) = (st', Ok b) ->
     (exists m', see (st_h st') b = Some (SGraphBuilder p X Y m')) /\ st_h st !! b = None) /\
  (see (st_h st) a = Some (SGraph p g) -> step o st (KGraphBuilder a) = (st', Ok b) ->
     (exists m', see (st_h st') b = Some (SGraphBuilder p (g_nodes g) (g_edges g) m')) /\ st_h st !! b = None).
Proof.
  intros I. split; [|split].
  - intros E. destruct (kgb_see _ _ _ _ _ I E) as (? & _ & ?). done.
  - intros H E. cbn [step] in E. destruct (st_h st !! a) as [[]|] eqn:Ha; try done.
    destruct (get_gb (st_h st) a) as [bv|] eqn:Eb; [|done].
    apply get_gb_see in Eb. rewrite H in Eb. injection Eb as Ep EX EY Em.
    apply see_gb in H. destruct H as (n' & e' & x' & Ha' & _).
    assert (p0 = p) as -> by congruence.
    destruct (fresh_gb_see _ _ _ _ _ _ _ I E) as (H1 & _ & H2). rewrite <- EX, <- EY in H1. eauto.
  - intros H E. apply see_graph in H. cbn [step] in E. unfold get_graph in E. rewrite H in E. simpl in E.
    destruct (fresh_gb_see _ _ _ _ _ _ _ I E) as (H1 & _ & H2). eauto.
Qed.

Lemma graph_build_spec o st st' a b p X Y m :
  inv st -> see (st_h st) b = Some (SGraphBuilder p X Y m) -> step o st (KGBCall b MBuild) = (st', Ok a) ->
  see (st_h st') a = Some (SGraph p (Graph X Y)) /\ see (st_h st') b = Some (SGraphBuilder p X Y m) /\
  st_h st !! a = None.
Proof.
  intros I H E. cbn [step] in E.
  pose proof H as H'. apply see_gb in H'. destruct H' as (n & e & x & Hb & Hn & He & Hx).
  rewrite Hb in E. destruct (get_gb (st_h st) b) as [bv|] eqn:Eb; [|done].
  apply get_gb_see in Eb. rewrite H in Eb. injection Eb as Ep EX EY Em.
  cbn [run_method] in E. unfold build in E.
  destruct (passert _); cbn in E; [|done].
  destruct (alloc _ _) as [st2 a2] eqn:Ea. injection E as <- <-.
  rewrite <- EX, <- EY, <- Em, <- Ep in Ea. unfold write in Ea. cbn [st_h st_own] in Ea.
  rewrite (insert_id (st_h st) n) in Ea by done. rewrite (insert_id (st_h st) e) in Ea by done.
  rewrite (insert_id (st_h st) x) in Ea by done.
  pose proof (alloc_frame none _ _ _ _ Ea) as F. cbn in F.
  split; [apply see_graph; exact (alloc_at _ _ _ _ Ea)|].
  split; [|exact (alloc_new _ _ _ _ Ea)].
  apply see_gb. exists n, e, x.
  split; [|split; [|split]]; eapply (f_same _ _ _ F); (done || tauto).
Qed.

Lemma see_rgb h r p m vs rs :
  see h r = Some (SSpaceBuilder p m vs rs) <->
  exists b p' d, h !! r = Some (HRGB p b vs rs) /\ h !! b = Some (HSB p' d) /\ h !! d = Some (MDict m).
Proof.
  unfold see. split.
  - intros H. destruct (h !! r) as [ob|] eqn:Hb; [|done]. destruct ob; try done.
    + destruct (h !! v) as [[]|]; try done. destruct (h !! r0) as [[]|]; try done.
    + destruct (h !! n) as [[]|]; try done. destruct (h !! e) as [[]|]; try done.
      destruct (h !! x) as [[]|]; try done.
    + destruct (get_dict h d); done.
    + destruct (get_dict h d); done.
    + destruct (h !! b) as [[]|] eqn:E; try done. destruct (get_dict h d) eqn:Ed; [|done].
      apply get_dict_Some in Ed. simpl in H. injection H as <- <- <- <-. eauto 10.
    + destruct (h !! s) as [[]|]; try done. destruct (get_dict h d); done.
  - intros (b & p' & d & Hr & Hb & Hd). apply get_dict_Some in Hd. by rewrite Hr, Hb, Hd.
Qed.

Lemma see_rg h r p m len vs rs :
  see h r = Some (SSpace p m len vs rs) <->
  exists s p' d, h !! r = Some (HRG p s vs rs) /\ h !! s = Some (HSet p' d len) /\ h !! d = Some (MDict m).
Proof.
  unfold see. split.
  - intros H. destruct (h !! r) as [ob|] eqn:Hb; [|done]. destruct ob; try done.
    + destruct (h !! v) as [[]|]; try done. destruct (h !! r0) as [[]|]; try done.
    + destruct (h !! n) as [[]|]; try done. destruct (h !! e) as [[]|]; try done.
      destruct (h !! x) as [[]|]; try done.
    + destruct (get_dict h d); done.
    + destruct (get_dict h d); done.
    + destruct (h !! b) as [[]|]; try done. destruct (get_dict h d); done.
    + destruct (h !! s) as [[]|] eqn:E; try done. destruct (get_dict h d) eqn:Ed; [|done].
      apply get_dict_Some in Ed. simpl in H. injection H as <- <- <- <- <-. eauto 10.
  - intros (b & p' & d & Hr & Hb & Hd). apply get_dict_Some in Hd. by rewrite Hr, Hb, Hd.
Qed.

Lemma get_prov_see h p cp : get_prov h p = Some cp -> see h p = Some (SProvider (cp_vars cp) (cp_rels cp)).
Proof.
  unfold get_prov, see. destruct (h !! p) as [[]|]; try done.
  destruct (h !! v) as [[]|]; try done. destruct (h !! r) as [[]|]; try done.
  intros H. by injection H as <-.
Qed.

Lemma space_build_spec o st st' r g p m vs rs :
  inv st -> see (st_h st) r = Some (SSpaceBuilder p m vs rs) -> step o st (KRGBuild r) = (st', Ok g) ->
  exists vs' rs', see (st_h st') g = Some (SSpace p m (map_total m) vs' rs') /\ st_h st !! g = None /\
    see (st_h st) p = Some (SProvider vs' rs').
Proof.
  intros I H E. apply see_rgb in H. destruct H as (b & p' & d & Hr & Hb & Hd).
  cbn [step] in E. rewrite Hr in E.
  destruct (get_prov (st_h st) p) as [cp|] eqn:Ep; [|done].
  destruct (get_samples (st_h st) b) as [ss|] eqn:Es; [|done].
  destruct (get_samples_sb _ _ _ _ _ _ Hb Hd Es) as (Eid & Em & _).
  destruct (rgb_build _); [|done].
  destruct (fresh_set_good st (cp_id (ss_cp ss)) (ss_map ss) I) as (st1 & s & d1 & E1 & G & _ & Hs & Hd1 & _).
  rewrite E1 in E. destruct (alloc st1 _) as [st2 a2] eqn:Ea. injection E as <- <-.
  pose proof (alloc_frame none _ _ _ _ Ea) as F.
  exists (cp_vars cp), (cp_rels cp). split; [|split].
  - apply see_rg. exists s, (cp_id (ss_cp ss)), d1. rewrite Em in Hs, Hd1.
    split; [exact (alloc_at _ _ _ _ Ea)|]. split; eapply (f_same _ _ _ F); (done || tauto).
  - destruct (st_h st !! a2) eqn:En; [|done]. exfalso.
    pose proof (alloc_new _ _ _ _ Ea) as Hn.
    apply (f_same _ _ _ (proj2 G)) in En; [|tauto]. congruence.
  - by apply get_prov_see.
Qed.

Lemma space_builder_spec o st st' r g p m len vs rs :
  inv st -> see (st_h st) g = Some (SSpace p m len vs rs) -> step o st (KRGBuilder g) = (st', Ok r) ->
  exists p' b vs' rs', st_h st' !! r = Some (HRGB p' b vs' rs') /\ st_h st !! b = None /\
    see (st_h st') r = Some (SSpaceBuilder p m vs' rs').
Proof.
  intros I H E. apply see_rg in H. destruct H as (s & p' & d & Hr & Hs & Hd).
  cbn [step] in E. rewrite Hr in E.
  destruct (get_prov (st_h st) p) as [cp|] eqn:Ep; [|done].
  destruct (get_samples (st_h st) s) as [ss|] eqn:Es; [|done].
  destruct (get_samples_set _ _ _ _ _ _ _ Hs Hd Es) as (Eid & Em).
  destruct (fresh_sb_good st (cp_id (ss_cp ss)) (ss_map ss) I) as (st1 & b & d1 & E1 & G & _ & Hb & Hd1 & Hnew).
  rewrite E1 in E.
  destruct (ss_bool ss) eqn:Ebool.
  - unfold new_rgb in E. destruct (alloc st1 _) as [st2 a2] eqn:Ea. injection E as <- <-.
    pose proof (alloc_frame none _ _ _ _ Ea) as F. pose proof (alloc_at _ _ _ _ Ea) as Ha.
    exists p, b, (cp_vars cp), (cp_rels cp). split; [done|]. split; [done|].
    apply see_rgb. exists b, (cp_id (ss_cp ss)), d1. rewrite Em in Hd1.
    split; [done|]. split; eapply (f_same _ _ _ F); (done || tauto).
  - assert (m = ∅) as ->.
    { unfold ss_bool in Ebool. apply bool_decide_eq_false in Ebool. rewrite Em in Ebool.
      destruct (decide (m = ∅)); [done|]. by destruct Ebool. }
    destruct (fresh_sb_good st1 p ∅ (proj1 G)) as (st2 & b2 & d2 & E2 & G2 & _ & Hb2 & Hd2 & Hnew2).
    rewrite E2 in E.
    unfold new_rgb in E. destruct (alloc st2 _) as [st3 a3] eqn:Ea. injection E as <- <-.
    pose proof (alloc_frame none _ _ _ _ Ea) as F. pose proof (alloc_at _ _ _ _ Ea) as Ha.
    exists p, b2, (cp_vars cp), (cp_rels cp). split; [done|]. split.
    + destruct (st_h st !! b2) eqn:En; [|done]. exfalso.
      apply (f_same _ _ _ (proj2 G)) in En; [|tauto]. congruence.
    + apply see_rgb. exists b2, p, d2.
      split; [done|]. split; eapply (f_same _ _ _ F); (done || tauto).
Qed.

Lemma put_dict_see st b p d m m' :
  inv st -> st_h st !! b = Some (HSB p d) -> st_h st !! d = Some (MDict m) ->
  see (st_h (put_dict st b m')) b = Some (SSetBuilder p m').
Proof.
  intros I Hb Hd. unfold put_dict. rewrite Hb. cbn [write st_h]. apply see_sb. exists d.
  rewrite lookup_insert, lookup_insert_ne; [done|]. intros ->. congruence.
Qed.

Lemma sb_add_spec o st st' b g a p q m gr c :
  inv st -> see (st_h st) b = Some (SSetBuilder p m) -> see (st_h st) g = Some (SGraph q gr) ->
  step o st (KSBAdd b g c) = (st', Ok a) ->
  q = p /\ a = b /\ see (st_h st') b = Some (SSetBuilder p (<[gr := (default 0 (m !! gr) + c)%Z]> m)).
Proof.
  intros I H Hg E. apply see_sb in H. destruct H as (d & Hb & Hd). apply see_graph in Hg.
  cbn [step] in E. unfold get_graph in E. rewrite Hg in E.
  destruct (get_samples (st_h st) b) as [ss|] eqn:Es; [|done].
  destruct (get_samples_sb _ _ _ _ _ _ Hb Hd Es) as (Eid & Em & _).
  destruct (is_sb _ _); [|done]. unfold run_sb, ssb_add, is_compatible in E. simpl in E.
  case_bool_decide as Hq; cbn in E; [|done]. injection E as <- <-.
  split; [congruence|]. split; [done|]. rewrite Em.
  assert ((match m !! gr with Some c0 => <[gr:=(c0 + c)%Z]> m | None => <[gr:=c]> m end)
    = <[gr := (default 0 (m !! gr) + c)%Z]> m) as -> by (by destruct (m !! gr)).
  by eapply put_dict_see.
Qed.

(** A method of a graph builder does to its sets what the value level function says. *)
Lemma gb_call_spec o st b mt bv :
  inv st -> get_gb (st_h st) b = Some bv ->
  let bv' := (run_method o (st_h st) bv mt).1 in
  see (st_h (step o st (KGBCall b mt)).1) b =
    Some (SGraphBuilder (cp_id (b_cp bv)) (b_nodes bv') (b_edges bv') (b_endpoints bv')).
Proof.
  intros I H bv'. pose proof (get_gb_see _ _ _ H) as Hs. apply see_gb in Hs.
  destruct Hs as (n & e & x & Hb & Hn & He & Hx).
  cbn [step]. rewrite Hb, H. destruct (run_method o (st_h st) bv mt) as [bw r] eqn:Er.
  assert (bv' = bw) as -> by (unfold bv'; by rewrite Er || reflexivity).
  assert (n <> e /\ n <> x /\ e <> x /\ n <> b /\ e <> b /\ x <> b) as (N1 & N2 & N3 & N4 & N5 & N6)
    by (split_and!; intros ->; congruence).
  set (st3 := write _ x _).
  assert (st_h st3 !! b = Some (HGB (cp_id (b_cp bv)) n e x) /\ st_h st3 !! n = Some (MNodes (b_nodes bw)) /\
    st_h st3 !! e = Some (MEdges (b_edges bw)) /\ st_h st3 !! x = Some (MEnds (b_endpoints bw))) as (A1 & A2 & A3 & A4).
  { unfold st3. cbn [write st_h]. split_and!.
    - by rewrite !lookup_insert_ne.
    - rewrite lookup_insert_ne by done. rewrite lookup_insert_ne by done. apply lookup_insert.
    - rewrite lookup_insert_ne by done. apply lookup_insert.
    - apply lookup_insert. }
  destruct r as [[s|]|].
  - destruct (alloc st3 _) as [st4 a] eqn:Ea. cbn [fst].
    pose proof (alloc_frame none _ _ _ _ Ea) as F.
    apply see_gb. exists n, e, x. split_and!; eapply (f_same _ _ _ F); (done || tauto).
  - apply see_gb. exists n, e, x. auto.
  - apply see_gb. exists n, e, x. auto.
Qed.

End facts.
