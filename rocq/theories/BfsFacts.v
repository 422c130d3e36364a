(** * BfsFacts: belt_nodes and external_nodes (C14) *)

From Verif Require Export QueryFacts.

Section bfs_facts.
Context {U : Universe}.

Lemma iter_set_one (o : oracle) (X : gset node) : 
  match iter_set o X with
  | [n] => X = {[n]}
  | _ => forall n, X <> {[n]}
  end.
Proof.
  pose proof (list_to_set_iter_set o X) as H. pose proof (iter_set_length o X) as Hl.
  destruct (iter_set o X) as [|n [|m l]]; simpl in *.
  - intros n ->. rewrite size_singleton in Hl. lia.
  - rewrite <- H. set_solver +.
  - intros k ->. rewrite size_singleton in Hl. lia.
Qed.

(** The edges that lead from [C] to the outside node [n]. *)
Lemma two_diff (e : edge) (C : gset node) n :
  two_nodes e.1 -> endpoints e ∖ C = {[n]} <-> n ∈ e.1 /\ n ∉ C /\ exists m, m ∈ e.1 /\ m ∈ C.
Proof.
  intros (x & y & Hxy & Hv). unfold endpoints. rewrite Hxy. assert (x <> y) by congruence. split.
  - intros Hd. assert (n ∈ {[x; y]} ∖ C) as Hn by (rewrite Hd; set_solver +).
    apply elem_of_difference in Hn as [Hn HnC]. split_and!; [done|done|].
    apply elem_of_union in Hn as [->%elem_of_singleton| ->%elem_of_singleton].
    + exists y. split; [set_solver +|]. apply dec_stable. intros HyC.
      assert (y ∈ {[x; y]} ∖ C) as Hy by set_solver +HyC. rewrite Hd in Hy.
      apply elem_of_singleton in Hy. congruence.
    + exists x. split; [set_solver +|]. apply dec_stable. intros HyC.
      assert (x ∈ {[x; y]} ∖ C) as Hy by set_solver +HyC. rewrite Hd in Hy.
      apply elem_of_singleton in Hy. congruence.
  - intros (Hn & HnC & m & Hm & HmC). apply set_eq. intros k.
    rewrite elem_of_difference, elem_of_singleton. split.
    + intros [Hk HkC]. assert (m <> n) by (by intros ->). assert (m <> k) by (by intros ->).
      set_solver.
    + by intros ->.
Qed.

Lemma belt_nodes_spec o g C f :
  (forall e, e ∈ g_edges g -> two_nodes e.1) -> C <> ∅ ->
  exists m, belt_nodes o g C f = Ok m /\
    forall n, match m !! n with
              | Some X => X <> ∅ /\ forall e, e ∈ X <-> belt_edge g f C n e
              | None => forall e, ~ belt_edge g f C n e
              end.
Proof.
  intros H2 HC. unfold belt_nodes. rewrite bool_decide_true by done. cbn [passert mbind res_bind].
  pose proof (for_res_set_ind (fun Y (m : gmap node (gset edge)) =>
    forall n, match m !! n with
      | Some X => X <> ∅ /\ forall e, e ∈ X <-> belt_edge g f C n e /\ e ∈ Y
      | None => forall e, ~ (belt_edge g f C n e /\ e ∈ Y) end) (fun _ => False)
    (belt_step C f) (sub o 0) o ∅ (g_edges g)) as Hi. cbv beta in Hi.
  assert (match for_res (belt_step C f) (sub o 0) ∅ (iter_set o (g_edges g)) with
    | Ok m => forall n, match m !! n with
      | Some X => X <> ∅ /\ forall e, e ∈ X <-> belt_edge g f C n e /\ e ∈ g_edges g
      | None => forall e, ~ (belt_edge g f C n e /\ e ∈ g_edges g) end
    | Err _ => False end) as Hr.
  2:{ destruct (for_res _ _ _ _) as [m|]; [|done]. exists m. split; [done|].
      intros n. specialize (Hr n). destruct (m !! n).
      - destruct Hr as [Hn Hr]. split; [done|]. intros e. rewrite Hr. unfold belt_edge. tauto.
      - intros e He. apply (Hr e). split; [done|apply He]. }
  apply Hi; clear Hi.
  - intros n. rewrite lookup_empty. intros e [_ He]. set_solver +He.
  - intros Y e m o' He HeY HYE Hm. unfold belt_step.
    assert (forall n, belt_edge g f C n e <-> allowed f e /\ endpoints e ∖ C = {[n]}) as Hb.
    { intros n. unfold belt_edge. rewrite two_diff by auto. tauto. }
    assert ((forall n, ~ belt_edge g f C n e) -> forall n, match m !! n with
      | Some X => X <> ∅ /\ forall e0, e0 ∈ X <-> belt_edge g f C n e0 /\ e0 ∈ {[e]} ∪ Y
      | None => forall e0, ~ (belt_edge g f C n e0 /\ e0 ∈ {[e]} ∪ Y) end) as Hskip.
    { intros Hno n. specialize (Hm n). destruct (m !! n).
      - destruct Hm as [Hn0 Hm]. split; [done|]. intros e'. rewrite Hm, elem_of_union, elem_of_singleton.
        split; [tauto|]. intros [Hbe [->|]]; [|done]. by destruct (Hno n).
      - intros e' [Hbe [->%elem_of_singleton|HY]%elem_of_union]; [by destruct (Hno n)|].
        by apply (Hm e'). }
    destruct (rel_allowed f e) eqn:Hal.
    2:{ apply Hskip. intros n Hbe. apply Hb in Hbe as [Ha _]. apply rel_allowed_spec in Ha. congruence. }
    apply rel_allowed_spec in Hal.
    pose proof (iter_set_one o' (endpoints e ∖ C)) as H1.
    destruct (iter_set o' (endpoints e ∖ C)) as [|n [|? ?]];
      [apply Hskip; intros k Hbe; apply Hb in Hbe as [_ Hbe]; by apply (H1 k)| |
       apply Hskip; intros k Hbe; apply Hb in Hbe as [_ Hbe]; by apply (H1 k)].
    assert (forall k, k <> n -> ~ belt_edge g f C k e) as Hother.
    { intros k Hk Hbe. apply Hb in Hbe as [_ Hbe]. rewrite H1 in Hbe.
      apply Hk. symmetry. apply (elem_of_singleton (C:=gset node)). rewrite <- Hbe. set_solver +. }
    assert (belt_edge g f C n e) as Hthis by (apply Hb; done).
    pose proof (Hm n) as Hmn.
    assert (forall Z, (forall e0, e0 ∈ Z <-> belt_edge g f C n e0 /\ e0 ∈ {[e]} ∪ Y) ->
      forall k, match <[n:=Z]> m !! k with
      | Some X => X <> ∅ /\ forall e0, e0 ∈ X <-> belt_edge g f C k e0 /\ e0 ∈ {[e]} ∪ Y
      | None => forall e0, ~ (belt_edge g f C k e0 /\ e0 ∈ {[e]} ∪ Y) end) as Hins.
    { intros Z HZ k. destruct (decide (n = k)) as [->|Hk].
      - rewrite lookup_insert. split; [|done]. assert (e ∈ Z) as HeZ; [|set_solver +HeZ].
        apply HZ. split; [done|set_solver +].
      - rewrite lookup_insert_ne by done. specialize (Hm k). destruct (m !! k).
        + destruct Hm as [Hn0 Hm]. split; [done|]. intros e'.
          rewrite Hm, elem_of_union, elem_of_singleton.
          split; [tauto|]. intros [Hbe [->|]]; [|done]. by destruct (Hother k).
        + intros e' [Hbe [->%elem_of_singleton|HY]%elem_of_union]; [by destruct (Hother k)|].
          by apply (Hm e'). }
    destruct (m !! n) as [X|].
    + destruct Hmn as [_ Hmn].
      assert (e ∉ X) as HeX by (intros [_ ?]%Hmn; done).
      rewrite (bool_decide_true _ HeX). cbn [passert mbind res_bind]. apply Hins.
      intros e'. rewrite elem_of_union, elem_of_singleton, Hmn, elem_of_union, elem_of_singleton.
      split; [|tauto]. intros [->|?]; tauto.
    + apply Hins. intros e'. rewrite elem_of_union, elem_of_singleton. split.
      * intros ->. tauto.
      * intros [Hbe [->|HY]]; [done|]. by destruct (Hmn e').
Qed.

(** ** Distances *)

Lemma alink_sym g f x y : alink g f x y -> alink g f y x.
Proof. intros (e & ? & ? & ? & ?). by exists e. Qed.

Lemma within_0 g f C n : within g f C 0 n <-> n ∈ C.
Proof.
  split.
  - intros (m & Hm & Hs). by inversion Hs; subst.
  - intros Hn. exists n. split; [done|]. constructor.
Qed.

Lemma bsteps_last {A} (R : A -> A -> Prop) k x z :
  bsteps R (S k) x z -> bsteps R k x z \/ exists y, bsteps R k x y /\ R y z.
Proof.
  revert x. induction k as [|k IH]; intros x Hs.
  - inversion Hs as [|? ? w ? Hxw Hw]; subst; [by left; constructor|].
    inversion Hw; subst. right. exists x. split; [constructor|done].
  - inversion Hs as [|? ? w ? Hxw Hw]; subst; [by left; constructor|].
    destruct (IH w Hw) as [H|(y & Hy & Hyz)].
    + left. by eapply bsteps_l.
    + right. exists y. split; [by eapply bsteps_l|done].
Qed.

Lemma within_S g f C k n : within g f C (S k) n <-> within g f C k n \/ exists m, within g f C k m /\ alink g f m n.
Proof.
  split.
  - intros (m & Hm & Hs). destruct (bsteps_last _ _ _ _ Hs) as [H|(z & Hz & Hl)].
    + left. by exists m.
    + right. exists z. split; [|done]. by exists m.
  - intros [(m & Hm & Hs)|(z & (m & Hm & Hs) & Hl)]; exists m; (split; [done|]).
    + by apply bsteps_S.
    + by eapply bsteps_r.
Qed.

Lemma within_mono g f C j k n : j <= k -> within g f C j n -> within g f C k n.
Proof. intros Hjk (m & Hm & Hs). exists m. split; [done|]. by eapply bsteps_weaken. Qed.

(** Starting from the first layer shifts all distances by one. *)
Lemma within_shift g f C C' k n :
  (forall m, m ∈ C' <-> within g f C 1 m) -> within g f C' k n <-> within g f C (S k) n.
Proof.
  intros HC. revert n. induction k as [|k IH]; intros n.
  - by rewrite within_0, HC.
  - rewrite (within_S _ _ C'), (within_S _ _ C (S k)), IH. split.
    + intros [?|(m & Hm & ?)]; [by left|right; exists m]. by rewrite <- IH.
    + intros [?|(m & Hm & ?)]; [by left|right; exists m]. by rewrite IH.
Qed.

Lemma within_reach g f C n : (exists k, within g f C k n) <-> exists m, m ∈ C /\ rtc (alink g f) m n.
Proof.
  split.
  - intros (k & m & Hm & Hs). exists m. split; [done|]. clear Hm. induction Hs; [done|]. by eapply rtc_l.
  - intros (m & Hm & Hr).
    assert (exists k, bsteps (alink g f) k m n) as [k Hk]; [|exists k; by exists m].
    clear Hm. induction Hr as [x|x y z Hxy _ [k Hk]]; [exists 0; constructor|].
    exists (S k). by eapply bsteps_l.
Qed.

(** *** The main induction *)

Lemma dist_unique g f C j k n : dist g f C j n -> dist g f C k n -> j = k.
Proof.
  intros [Hj Hj'] [Hk Hk']. destruct (decide (j < k)) as [Hlt|]; [by destruct (Hk' j)|].
  destruct (decide (k < j)) as [Hlt|]; [by destruct (Hj' k)|]. lia.
Qed.

Lemma dist_0 g f C n : dist g f C 0 n <-> n ∈ C.
Proof. unfold dist. rewrite within_0. split; [tauto|]. intros. split; [done|]. intros; lia. Qed.

Lemma dist_shift g f C C' k n :
  (forall m, m ∈ C' <-> within g f C 1 m) -> dist g f C' (S k) n <-> dist g f C (S (S k)) n.
Proof.
  intros HC. unfold dist. rewrite (within_shift _ _ C C') by done. split.
  - intros [H1 H2]. split; [done|]. intros j Hj Hw. apply (H2 (pred j)); [lia|].
    apply (within_shift _ _ C C'); [done|]. eapply within_mono; [|done]. lia.
  - intros [H1 H2]. split; [done|]. intros j Hj Hw. apply (H2 (S j)); [lia|].
    by apply (within_shift _ _ C C').
Qed.

Lemma belt_closer g f C n e :
  belt_edge g f C n e <-> closer_edge g f C n e /\ dist g f C 1 n.
Proof.
  split.
  - intros (He & Ha & Hn & HnC & m & Hm & HmC).
    assert (dist g f C 1 n) as Hd.
    { split.
      - apply within_S. right. exists m. rewrite within_0. split; [done|]. by exists e.
      - intros j Hj. assert (j = 0) as -> by lia. by rewrite within_0. }
    split; [|done]. split_and!; try done. exists 0, m. split_and!; [done|by apply dist_0|done].
  - intros [(He & Ha & Hn & k & m & Hd & Hdm & Hm) Hd1].
    pose proof (dist_unique _ _ _ _ _ _ Hd Hd1) as Heq. assert (k = 0) as -> by lia.
    split_and!; try done.
    + rewrite <- (within_0 g f C). apply Hd1. lia.
    + exists m. split; [done|]. by apply dist_0 in Hdm.
Qed.

(** After moving the first layer inside, the closer edges of the remaining nodes are the same. *)
Lemma closer_shift g f C C' n e :
  (forall m, m ∈ C' <-> within g f C 1 m) -> n ∉ C' ->
  closer_edge g f C' n e <-> closer_edge g f C n e.
Proof.
  intros HC HnC. unfold closer_edge. split.
  - intros (He & Ha & Hn & k & m & Hd & Hdm & Hm). split_and!; try done.
    apply (dist_shift _ _ C C') in Hd; [|done]. destruct k as [|k].
    + apply dist_0, HC in Hdm. exists 1, m. split_and!; [done| |done]. split; [done|].
      intros j Hj Hw. apply HnC, HC. assert (j = 0) as -> by lia. apply within_S. right.
      exists m. split; [done|]. by exists e.
    + apply (dist_shift _ _ C C') in Hdm; [|done]. by exists (S (S k)), m.
  - intros (He & Ha & Hn & k & m & Hd & Hdm & Hm). split_and!; try done.
    destruct k as [|k]; [destruct HnC; apply HC, Hd|].
    apply (dist_shift _ _ C C') in Hd; [|done]. exists k, m. split_and!; [done| |done].
    destruct k as [|k]; [|by apply (dist_shift _ _ C C') in Hdm].
    apply dist_0, HC, Hdm.
Qed.

Lemma external_merge_spec (o : oracle) (a m : gmap node (gset edge)) :
  (forall n, is_Some (m !! n) -> a !! n = None) -> external_merge o a m = Ok (m ∪ a).
Proof.
  intros Hd. unfold external_merge.
  pose proof (for_res_map_ind (fun m' r => r = m' ∪ a) (fun _ => False)
    (fun _ acc '(n, es) =>
      match acc !! n with
      | Some X => _ ← passert (bool_decide (X ∩ es = ∅)); Ok (<[n := es ∪ X]> acc)
      | None => Ok (<[n := es]> acc)
      end) (sub o 0) o a m) as Hi. cbv beta in Hi.
  match type of Hi with _ -> _ -> ?T => assert T as Hr end.
  { apply Hi; clear Hi.
    - by rewrite (left_id_L ∅ (∪)).
    - intros m' k X r o' Hk Hk' Hsub ->. rewrite lookup_union_r by done.
      rewrite (Hd k) by (by rewrite Hk). by rewrite insert_union_l. }
  destruct (for_res _ _ _ _); [by subst|done].
Qed.

Lemma closer_outside g f C n e : closer_edge g f C n e -> n ∉ C.
Proof.
  intros (_ & _ & _ & k & m & [_ Hd] & _) HnC. apply (Hd 0); [lia|]. by apply within_0.
Qed.

Definition edge_nodes (g : graph) : gset node := ⋃ (endpoints <$> elements (g_edges g)).

Lemma elem_of_edge_nodes g n : n ∈ edge_nodes g <-> touches (g_edges g) n.
Proof.
  unfold edge_nodes. rewrite elem_of_union_list. split.
  - intros (X & HX & Hn). apply elem_of_list_fmap in HX as (e & -> & He).
    exists e. by apply elem_of_elements in He.
  - intros (e & He & Hn). exists e.1. split; [|done]. apply elem_of_list_fmap.
    exists e. split; [done|]. by apply elem_of_elements.
Qed.

Lemma external_nodes_fuel_spec g f :
  (forall e, e ∈ g_edges g -> two_nodes e.1) ->
  forall k o C, C <> ∅ -> (size (edge_nodes g ∖ C) < k)%nat ->
  exists m, external_nodes_fuel k o g C f = Ok m /\ external_ok g f C m.
Proof.
  intros H2. induction k as [|k IH]; intros o C HC Hk; [lia|]. cbn [external_nodes_fuel].
  destruct (belt_nodes_spec (sub o 0) g C f H2 HC) as (acc & -> & Hacc). cbn [mbind res_bind].
  assert (forall n, n ∈ dom acc <-> dist g f C 1 n) as Hdom.
  { intros n. rewrite elem_of_dom. specialize (Hacc n). split.
    - intros [X HX]. rewrite HX in Hacc. destruct Hacc as [Hn Hacc].
      apply set_choose_L in Hn as [e He]. apply Hacc, belt_closer in He. tauto.
    - intros Hd. destruct (acc !! n) as [X|] eqn:HX; [by eexists|]. exfalso.
      pose proof Hd as [Hw Hd']. apply within_S in Hw as [Hw|(m & Hm & e & He & Ha & Hme & Hne)].
      + by apply (Hd' 0); [lia|].
      + apply (Hacc e). split_and!; try done.
        * rewrite <- (within_0 g f C). apply Hd'. lia.
        * exists m. split; [done|]. by apply within_0 in Hm. }
  case_bool_decide as Hemp.
  - exists ∅. split; [done|]. intros n. rewrite lookup_empty. intros e Hc.
    (* no first layer, hence no further ones *)
    assert (forall k n, ~ dist g f C (S k) n) as Hno.
    { intros j. induction j as [|j IHj]; intros x Hx.
      - apply Hdom in Hx. rewrite Hemp, dom_empty in Hx. set_solver +Hx.
      - pose proof Hx as [Hw Hd]. apply within_S in Hw as [Hw|(m & Hm & Hl)]; [by apply (Hd (S j)); [lia|]|].
        apply (IHj m). split; [done|]. intros i Hi Hwi. apply (Hd (S i)); [lia|].
        apply within_S. right. by exists m. }
    destruct Hc as (_ & _ & _ & j & m & Hd & _). by apply (Hno j n).
  - assert (forall m, m ∈ C ∪ dom acc <-> within g f C 1 m) as HC'.
    { intros m. rewrite elem_of_union, Hdom. split.
      - intros [Hm|[Hm _]]; [|done]. apply (within_mono _ _ _ 0); [lia|]. by apply within_0.
      - intros Hm. destruct (decide (m ∈ C)) as [|HmC]; [by left|right]. split; [done|].
        intros j Hj. assert (j = 0) as -> by lia. by rewrite within_0. }
    destruct (IH (sub o 1) (C ∪ dom acc)) as (rest & -> & Hrest).
    { intros Hu. apply HC. set_solver +Hu. }
    { assert (size (edge_nodes g ∖ (C ∪ dom acc)) < size (edge_nodes g ∖ C)); [|lia].
      apply subset_size. split; [set_solver +|]. intros Hsub.
      assert (exists n, n ∈ dom acc) as [n Hn].
      { apply set_choose_L. intros Hd. apply Hemp. by apply dom_empty_inv_L in Hd. }
      assert (n ∈ edge_nodes g ∖ C) as Hin.
      { pose proof Hn as Hn'. apply elem_of_dom in Hn' as [X HX]. specialize (Hacc n). rewrite HX in Hacc.
        destruct Hacc as [HXn Hacc]. apply set_choose_L in HXn as [e He]. apply Hacc in He.
        destruct He as (He & _ & Hne & HnC & _). apply elem_of_difference. split; [|done].
        apply elem_of_edge_nodes. by exists e. }
      apply Hsub in Hin. set_solver +Hin Hn. }
    cbn [mbind res_bind].
    assert (forall n, is_Some (rest !! n) -> n ∉ C ∪ dom acc) as Hout.
    { intros n [X HX]. specialize (Hrest n). rewrite HX in Hrest. destruct Hrest as [Hn Hrest].
      apply set_choose_L in Hn as [e He]. apply Hrest in He. by apply closer_outside in He. }
    rewrite external_merge_spec.
    2:{ intros n Hn. apply Hout in Hn. apply not_elem_of_dom. set_solver +Hn. }
    eexists. split; [done|]. intros n. destruct (rest !! n) as [X|] eqn:HX.
    + rewrite (lookup_union_Some_l _ _ _ X) by done.
      assert (n ∉ C ∪ dom acc) as HnC by (apply Hout; by rewrite HX).
      specialize (Hrest n). rewrite HX in Hrest. destruct Hrest as [Hn Hrest]. split; [done|].
      intros e. rewrite Hrest. by apply closer_shift.
    + rewrite lookup_union_r by done. specialize (Hacc n). destruct (acc !! n) as [X|] eqn:HXa.
      * destruct Hacc as [Hn Hacc]. split; [done|]. intros e. rewrite Hacc, belt_closer.
        assert (dist g f C 1 n) by (apply Hdom, elem_of_dom; by rewrite HXa). tauto.
      * intros e Hc. pose proof (closer_outside _ _ _ _ _ Hc) as HnC.
        assert (n ∉ C ∪ dom acc) as HnC'.
        { apply not_elem_of_union. split; [done|]. by apply not_elem_of_dom. }
        apply (closer_shift g f C (C ∪ dom acc)) in Hc; [|done|done].
        specialize (Hrest n). rewrite HX in Hrest. by apply (Hrest e).
Qed.

Lemma external_nodes_spec o g C f :
  (forall e, e ∈ g_edges g -> two_nodes e.1) -> C <> ∅ ->
  exists m, external_nodes o g C f = Ok m /\ external_ok g f C m.
Proof.
  intros H2 HC. unfold external_nodes. apply external_nodes_fuel_spec; [done|done|].
  fold (edge_nodes g). assert (size (edge_nodes g ∖ C) <= size (edge_nodes g)); [|lia].
  apply subseteq_size. set_solver +.
Qed.

Lemma external_nodes_empty o g f : external_nodes o g ∅ f = Err AssertionError.
Proof. done. Qed.

(** Keys: exactly the reachable outside nodes. *)
Lemma external_keys g f C m n :
  external_ok g f C m ->
  is_Some (m !! n) <-> n ∉ C /\ exists c, c ∈ C /\ rtc (alink g f) c n.
Proof.
  intros Hm. specialize (Hm n). rewrite <- within_reach. split.
  - intros [X HX]. rewrite HX in Hm. destruct Hm as [Hn Hm].
    apply set_choose_L in Hn as [e He]. apply Hm in He. split; [by eapply closer_outside|].
    destruct He as (_ & _ & _ & k & y & [Hw _] & _). by exists (S k).
  - intros [HnC [k Hw]]. destruct (m !! n) as [X|]; [by eexists|]. exfalso.
    revert Hw. induction (lt_wf k) as [k _ IHk]. intros Hw.
    destruct k as [|k]; [by apply within_0 in Hw|].
    apply within_S in Hw as [Hw|(y & Hy & e & He & Ha & Hye & Hne)]; [apply (IHk k); [lia|done]|].
    assert (forall j, j <= k -> ~ within g f C j n) as Hno by (intros j Hj Hw; apply (IHk j); [lia|done]).
    apply (Hm e). split_and!; try done. exists k, y. split_and!; [|split|done].
    + split; [|intros j Hj; apply Hno; lia]. apply within_S. right. exists y. split; [done|]. by exists e.
    + done.
    + intros j Hj Hwj. apply (Hno (S j)); [lia|]. apply within_S. right. exists y. split; [done|]. by exists e.
Qed.

(** ** Corollaries *)

Lemma C07_union_lemma o b s :
  builder_state b -> simple (b_edges b) -> wf_graph (b_cp b) (s_g s) ->
  (join_sample o b s).2 = Ok tt ->
  b_nodes (join_sample o b s).1 = b_nodes b ∪ g_nodes (s_g s) /\
  b_edges (join_sample o b s).1 = b_edges b ∪ g_edges (s_g s).
Proof.
  intros Hb Hs Hw. pose proof (C07_lemma o b s Hb Hs) as H7.
  destruct (join_sample o b s) as [b' [[]|x]]; [|done]. intros _. simpl.
  destruct H7 as (_ & _ & He & Hn). { intros e He. by apply (wf_edges _ _ Hw). }
  split; [|done]. apply set_eq. intros n. rewrite Hn, elem_of_union.
  destruct (decide _) as [|Hne]; [done|]. by rewrite (connected_touches (b_cp b) (s_g s)).
Qed.

Lemma C07_order_lemma o o' b s :
  builder_state b -> simple (b_edges b) -> (forall e, e ∈ g_edges (s_g s) -> two_nodes e.1) ->
  (join_sample o b s).2 = (join_sample o' b s).2 /\
  ((join_sample o b s).2 = Ok tt ->
     b_nodes (join_sample o b s).1 = b_nodes (join_sample o' b s).1 /\
     b_edges (join_sample o b s).1 = b_edges (join_sample o' b s).1).
Proof.
  intros Hb Hs H2. pose proof (C07_lemma o b s Hb Hs H2) as Ha. pose proof (C07_lemma o' b s Hb Hs H2) as Hb'.
  destruct (join_sample o b s) as [b1 [[]|x1]], (join_sample o' b s) as [b2 [[]|x2]]; simpl.
  - split; [done|]. intros _. destruct Ha as (_ & _ & Ha1 & Ha2), Hb' as (_ & _ & Hb1 & Hb2).
    split; [|congruence]. apply set_eq. intros n. by rewrite Ha2, Hb2.
  - tauto.
  - tauto.
  - destruct Ha as [-> _], Hb' as [-> _]. done.
Qed.

Lemma C09_fresh_lemma o cp es :
  match (build_from_edges o (new_builder cp) es true).2 with
  | Ok s => es <> ∅ /\ edges_linked es /\ (forall e, e ∈ es -> edge_legal cp e) /\
            s_cp s = cp_id cp /\ g_edges (s_g s) = es /\
            (forall n, n ∈ g_nodes (s_g s) <-> touches es n)
  | Err x => (es = ∅ /\ x = StopIteration) \/
             (es <> ∅ /\ x = AssertionError /\ ~ (edges_linked es /\ forall e, e ∈ es -> edge_legal cp e))
  end.
Proof.
  pose proof (C09_lemma o (new_builder cp) es (builder_state_new cp)) as H9. simpl in H9.
  destruct (build_from_edges _ _ _ _).2 as [s|x].
  - destruct H9 as (A & B & C & D & E & F). split_and!; try done.
    + by rewrite E, union_empty_l_L.
    + intros n. rewrite F. set_solver +.
  - destruct (decide (es = ∅)); [by left|]. right. tauto.
Qed.

Lemma C09_unvalidated_lemma o cp es :
  match (build_from_edges o (new_builder cp) es false).2 with
  | Ok s => es <> ∅ /\ (forall e, e ∈ es -> edge_legal cp e) /\
            s_cp s = cp_id cp /\ g_edges (s_g s) = es /\
            (forall n, n ∈ g_nodes (s_g s) <-> touches es n)
  | Err x => x = AssertionError /\ (es = ∅ \/ ~ forall e, e ∈ es -> edge_legal cp e)
  end.
Proof.
  rewrite build_from_edges_unfold.
  pose proof (bfe_loop_spec (sub o 1) (sub o 2) (new_builder cp) es) as Hl.
  destruct (for_mut _ _ _ _) as [b' [[]|x]]; simpl.
  - destruct Hl as (L1 & L2 & L3 & L4 & _). simpl in *. unfold build.
    destruct (passert_cases (b_nodes b' <> ∅)) as [[Hn ->]|[Hn ->]]; simpl.
    + split_and!; try done.
      * intros ->. apply set_choose_L in Hn as [n Hn]. apply L4 in Hn as [Hn|(e & He & _)]; set_solver.
      * by rewrite L2.
      * by rewrite L3, union_empty_l_L.
      * intros n. rewrite L4. set_solver +.
    + split; [done|]. left. apply dec_stable. intros Hne. apply Hn. intros Hemp.
      apply set_choose_L in Hne as [e He]. destruct (L1 e He) as [(z & y & Hxy & _) _].
      assert (z ∈ b_nodes b') as Hx; [|rewrite Hemp in Hx; set_solver +Hx].
      apply L4. right. exists e. rewrite Hxy. set_solver +He.
  - destruct Hl as (-> & (e & He & Hno) & _). split; [done|]. right. intros H. by apply Hno, H.
Qed.

Lemma C11_back_full_lemma o cp (d d' : gmap Var Val) g :
  wf_graph cp g -> repl_ok cp d (g_nodes g) ->
  (forall v x, (v, x) ∈ g_nodes g -> is_Some (d !! v) -> d' !! v = Some x) ->
  (forall v, is_Some (d' !! v) -> is_Some (d !! v)) ->
  exists same, transform_with_replaced_values o cp d' (repl_graph d g) = Ok (same, g).
Proof.
  intros Hg Hr H1 H2. pose proof (C11_back_lemma d d' cp g Hg H1 H2) as Hb.
  pose proof (C11_lemma o cp d' (repl_graph d g) (C11_wf_lemma cp d g Hg Hr)) as Hl.
  destruct (transform_with_replaced_values _ _ _ _) as [[same g']|x].
  - destruct Hl as (_ & -> & _). exists same. by rewrite Hb.
  - destruct Hl as [_ Hl]. destruct Hl. intros n Hn Hs.
    simpl in Hn. apply elem_of_map in Hn as (m & -> & Hm).
    assert (repl_node d' (repl_node d m) = m) as ->; [|by apply Hg].
    destruct m as [v y]. unfold repl_node. simpl in *. rewrite (H1 v y Hm (H2 v Hs)). done.
Qed.

Lemma C12_order_lemma :
  (forall a, is_subgraph a a = true) /\
  (forall a b c, is_subgraph a b = true -> is_subgraph b c = true -> is_subgraph a c = true) /\
  (forall a b, is_subgraph a b = true -> is_subgraph b a = true -> graph_eqb a b = true) /\
  (forall a cp, is_subgraph (s_g (build_empty (new_builder cp))) a = true).
Proof.
  split_and!.
  - intros a. by apply C12_lemma.
  - intros a b c. rewrite !C12_lemma. set_solver +.
  - intros a b. rewrite !C12_lemma, graph_eqb_spec. intros [H1 H2] [H3 H4].
    split; by apply set_eq_subseteq.
  - intros a cp. apply C12_lemma. simpl. set_solver +.
Qed.

(** *** Rationals *)

Lemma qdiv_Q a b : b <> 0%Z -> (this (qdiv a b) == inject_Z a / inject_Z b)%Q.
Proof.
  intros Hb. unfold qdiv, Qcdiv, Qcmult, Qcinv, Q2Qc. cbn [this].
  rewrite !Qred_correct. done.
Qed.

Lemma qdiv_le a b c d : (0 < b)%Z -> (0 < d)%Z -> (qdiv a b <= qdiv c d)%Qc <-> (a * d <= c * b)%Z.
Proof.
  intros Hb Hd. unfold Qcle. rewrite !qdiv_Q by lia. unfold Qle, Qdiv, Qmult, Qinv, inject_Z. simpl.
  destruct b as [|b|]; try lia. destruct d as [|d|]; try lia. simpl. lia.
Qed.

Lemma qdiv_eq a b c d : (0 < b)%Z -> (0 < d)%Z -> qdiv a b = qdiv c d <-> (a * d = c * b)%Z.
Proof.
  intros Hb Hd. split.
  - intros He. pose proof (proj1 (qdiv_le a b c d Hb Hd)) as H1. pose proof (proj1 (qdiv_le c d a b Hd Hb)) as H2.
    rewrite He in *. specialize (H1 (Qcle_refl _)). specialize (H2 (Qcle_refl _)). lia.
  - intros He. apply Qcle_antisym; apply qdiv_le; lia.
Qed.

Lemma qdiv_1 : 1%Qc = qdiv 1 1.
Proof. by apply Qc_is_canon. Qed.
Lemma qdiv_0 : 0%Qc = qdiv 0 1.
Proof. by apply Qc_is_canon. Qed.

Lemma C13_lemma (a b : graph) :
  match similarity a b with
  | Ok q => total a b <> 0%Z /\ q = qdiv (shared a b) (total a b) /\
            similarity b a = Ok q /\ (0 <= q)%Qc /\ (q <= 1)%Qc /\
            (q = 1%Qc <-> graph_eqb a b = true) /\
            (q = 0%Qc <-> (forall n, ~ (n ∈ g_nodes a /\ n ∈ g_nodes b)) /\
                          (forall e, ~ (e ∈ g_edges a /\ e ∈ g_edges b)))
  | Err x => x = ZeroDivisionError /\ a = Graph ∅ ∅ /\ b = Graph ∅ ∅
  end.
Proof.
  rewrite !similarity_unfold, (shared_comm b a), (total_comm b a). unfold py_div.
  case_bool_decide as Ht.
  - apply total_zero in Ht. tauto.
  - pose proof (shared_total a b).
    split_and!; [done|done|done| | | |].
    + rewrite qdiv_0. apply qdiv_le; lia.
    + rewrite qdiv_1. apply qdiv_le; lia.
    + rewrite qdiv_1, qdiv_eq by lia. rewrite graph_eqb_spec. split.
      * intros Hq. assert (a = b) as ->; [|done]. apply shared_eq_total. lia.
      * intros [H1 H2]. assert (a = b) as He by (destruct a, b; simpl in *; congruence).
        apply shared_eq_total in He. lia.
    + rewrite qdiv_0, qdiv_eq by lia.
      assert ((shared a b * 1 = 0 * total a b)%Z <-> shared a b = 0%Z) as -> by lia.
      rewrite shared_zero. naive_solver.
Qed.

Lemma C16_lemma (o : oracle) (g : graph) (v : Var) (x : Val) :
  (have_value g v x = true <-> (v, x) ∈ values g) /\
  (have_variable g v = true <-> v ∈ included_variables g) /\
  (have_variable g v = true <-> exists y, (v, y) ∈ values g) /\
  (value_for_variable o g v = None <-> have_variable g v = false) /\
  (forall y, value_for_variable o g v = Some y -> (v, y) ∈ values g).
Proof.
  pose proof (have_variable_spec g v) as Hh. pose proof (value_for_variable_spec o g v) as Hv.
  split_and!.
  - unfold have_value. by rewrite bool_decide_eq_true.
  - by rewrite Hh, included_variables_spec.
  - done.
  - destruct (value_for_variable o g v) as [y|].
    + split; [done|]. intros Hf. assert (has_var (g_nodes g) v) as Hx by (by exists y).
      apply Hh in Hx. congruence.
    + split; [|done]. intros _. apply not_true_iff_false. tauto.
  - intros y Hy. by rewrite Hy in Hv.
Qed.

Lemma C17_laws_lemma (cp : provider) (g : graph) (vs ws : gset Var) :
  wf_graph cp g ->
  (forall x, x ∈ variables_subgraph_hash g (included_variables g) <->
     match x with inl n => n ∈ g_nodes g | inr e => e ∈ g_edges g end) /\
  (vs ⊆ ws -> variables_subgraph_hash g vs ⊆ variables_subgraph_hash g ws) /\
  variables_subgraph_hash g vs ∩ variables_subgraph_hash g ws = variables_subgraph_hash g (vs ∩ ws).
Proof.
  intros Hg. split_and!.
  - intros [n|e].
    + rewrite vsh_node. split; [tauto|]. intros Hn. split; [done|]. apply included_variables_spec.
      exists n.2. by destruct n.
    + rewrite vsh_edge. split; [tauto|]. intros He. split; [done|]. intros v [x Hx].
      apply included_variables_spec. exists x. by apply (wf_inside _ _ Hg e).
  - intros Hs [n|e]; rewrite ?vsh_node, ?vsh_edge; set_solver +Hs.
  - apply set_eq. intros [n|e]; rewrite elem_of_intersection, ?vsh_node, ?vsh_edge.
    + set_solver +.
    + split; [|set_solver +]. intros [[H1 H2] [_ H3]]. split; [done|]. intros v Hv.
      apply elem_of_intersection. auto.
Qed.

Lemma C14_external_lemma (o : oracle) (g : graph) (C : gset node) (f : option (gset relation)) :
  (forall e, e ∈ g_edges g -> two_nodes e.1) -> C <> ∅ ->
  exists m, external_nodes o g C f = Ok m /\ external_ok g f C m /\
    forall n, is_Some (m !! n) <-> n ∉ C /\ exists c, c ∈ C /\ rtc (alink g f) c n.
Proof.
  intros H2 HC. destruct (external_nodes_spec o g C f H2 HC) as (m & Hm & Hok).
  exists m. split_and!; [done|done|]. intros n. by apply external_keys.
Qed.

End bfs_facts.
