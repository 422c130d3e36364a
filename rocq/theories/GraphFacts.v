(** * GraphFacts: proofs about connectivity and the sample graph builder *)

From Verif Require Export BaseFacts Spec.

Section graph_facts.
Context {U : Universe}.

(** ** Small facts *)

Lemma elem_of_vars_of (X : gset node) v : v ∈ vars_of X <-> has_var X v.
Proof.
  unfold vars_of, has_var. rewrite elem_of_map. split.
  - intros ([v' x] & -> & ?). by exists x.
  - intros [x ?]. by exists (v, x).
Qed.

Lemma size_pair {A} `{Countable A} (x y : A) : x <> y -> size ({[x; y]} : gset A) = 2.
Proof. intros. rewrite size_union by set_solver. by rewrite !size_singleton. Qed.

Lemma size_2_pair {A} `{Countable A} (X : gset A) :
  size X = 2 -> exists x y, X = {[x; y]} /\ x <> y.
Proof.
  intros Hs. destruct (size_pos_elem_of X ltac:(lia)) as [x Hx].
  assert (size (X ∖ {[x]}) = 1) as Hs1.
  { rewrite size_difference by set_solver. rewrite size_singleton. lia. }
  destruct (size_1_elem_of _ Hs1) as [y Hy]. apply leibniz_equiv in Hy.
  exists x, y. split; [|set_solver].
  apply set_eq. intros z. destruct (decide (z = x)); set_solver.
Qed.

Lemma subset_size_eq {A} `{Countable A} (X Y : gset A) : X ⊆ Y -> size Y <= size X -> X = Y.
Proof.
  intros Hs Hsz. destruct (decide (Y ⊆ X)) as [|Hn]; [set_solver|].
  assert (size X < size Y) by (by apply subset_size). lia.
Qed.

Lemma pair_eq_inv {A} `{Countable A} (x y a b : A) :
  x <> y -> ({[x; y]} : gset A) = {[a; b]} -> (a = x /\ b = y) \/ (a = y /\ b = x).
Proof.
  intros Hxy Heq.
  assert (x = a \/ x = b) as Hx.
  { assert (x ∈ ({[a; b]} : gset A)) by (rewrite <- Heq; set_solver). set_solver. }
  assert (y = a \/ y = b) as Hy.
  { assert (y ∈ ({[a; b]} : gset A)) by (rewrite <- Heq; set_solver). set_solver. }
  destruct Hx, Hy; subst; try done; auto.
Qed.

Lemma link_sym es x y : link es x y -> link es y x.
Proof. intros (e & ? & ? & ?). by exists e. Qed.

Lemma rtc_link_sym es x y : rtc (link es) x y -> rtc (link es) y x.
Proof.
  induction 1 as [|x z y Hl _ IH]; [done|].
  eapply rtc_r; [done|]. by apply link_sym.
Qed.

Lemma link_mono es es' x y : es ⊆ es' -> link es x y -> link es' x y.
Proof. intros Hs (e & ? & ? & ?). exists e. set_solver. Qed.

Lemma rtc_link_mono es es' x y : es ⊆ es' -> rtc (link es) x y -> rtc (link es') x y.
Proof. intros Hs. apply rtc_congruence with (f := id). intros ??. by apply link_mono. Qed.

(** ** is_edges_connected *)

Definition adj (es : gset edge) (x y : node) : Prop := exists e, e ∈ es /\ e.1 = {[x; y]} /\ x <> y.

Lemma lookup_tmap_add m x y z :
  default ∅ (tmap_add m x y !! z) = (if decide (z = x) then {[y]} else ∅) ∪ default ∅ (m !! z).
Proof.
  unfold tmap_add. destruct (decide (z = x)) as [->|].
  - by rewrite lookup_insert.
  - rewrite lookup_insert_ne by done. set_solver.
Qed.

Lemma dom_tmap_add m x y : dom (tmap_add m x y) = {[x]} ∪ dom m.
Proof. unfold tmap_add. by rewrite dom_insert_L. Qed.

Lemma tracing_map_spec o es :
  match tracing_map o es with
  | Ok m => (forall e, e ∈ es -> size e.1 = 2) /\
            (forall x y, y ∈ default ∅ (m !! x) <-> adj es x y) /\
            (forall x, x ∈ dom m <-> touches es x)
  | Err err => err = AssertionError /\ exists e, e ∈ es /\ size e.1 <> 2
  end.
Proof.
  unfold tracing_map.
  apply (for_res_set_ind (fun es m =>
     (forall e, e ∈ es -> size e.1 = 2) /\
     (forall x y, y ∈ default ∅ (m !! x) <-> adj es x y) /\
     (forall x, x ∈ dom m <-> touches es x))).
  - split_and!; [set_solver| |].
    + intros x y. rewrite lookup_empty. unfold adj. set_solver.
    + intros x. rewrite dom_empty_L. unfold touches. set_solver.
  - intros Y e m o' HeX HeY HYX (H2 & Ha & Ht).
    pose proof (iter_set_length o' (endpoints e)) as Hlen.
    pose proof (NoDup_iter_set o' (endpoints e)) as Hnd.
    pose proof (fun z => elem_of_iter_set o' (endpoints e) z) as Hel.
    unfold endpoints in *.
    destruct (iter_set o' e.1) as [|x [|y [|]]]; simpl in Hlen.
    1,2,4: split; [done|]; exists e; split; [done|]; lia.
    assert (x <> y) as Hxy.
    { apply NoDup_cons in Hnd as [Hx _]. set_solver. }
    assert (e.1 = {[x; y]}) as He.
    { apply set_eq. intros z. rewrite <- Hel. set_solver +. }
    clear Hel Hnd.
    split_and!.
    + intros e' [->%elem_of_singleton|]%elem_of_union; [lia|auto].
    + intros a b. rewrite !lookup_tmap_add, !elem_of_union, Ha. unfold adj. split.
      * intros [Hb|[Hb|(e' & ? & ? & ?)]].
        -- destruct (decide (a = y)) as [->|]; [|set_solver +Hb].
           apply elem_of_singleton in Hb as ->. exists e. split_and!; [set_solver +| |done].
           rewrite He. set_solver +.
        -- destruct (decide (a = x)) as [->|]; [|set_solver +Hb].
           apply elem_of_singleton in Hb as ->. exists e. split_and!; [set_solver +|done|done].
        -- exists e'. split_and!; [by apply elem_of_union_r|done|done].
      * intros (e' & [->%elem_of_singleton|He']%elem_of_union & Hab & Hne).
        -- rewrite He in Hab. apply pair_eq_inv in Hab as [[-> ->]|[-> ->]]; [| |done].
           ++ right. left. rewrite decide_True by done. by apply elem_of_singleton.
           ++ left. rewrite decide_True by done. by apply elem_of_singleton.
        -- right. right. by exists e'.
    + intros z. rewrite !dom_tmap_add, !elem_of_union, !elem_of_singleton, Ht. unfold touches. split.
      * intros [->|[->|(e' & He' & Hz)]].
        -- exists e. rewrite He. set_solver +.
        -- exists e. rewrite He. set_solver +.
        -- exists e'. split; [set_solver +He'|done].
      * intros (e' & [->%elem_of_singleton|He']%elem_of_union & Hz).
        -- rewrite He in Hz. set_solver +Hz.
        -- right. right. by exists e'.
Qed.

(** Depth-first search: what [trace] adds. *)
Lemma trace_spec (tm : gmap node (gset node)) (R := fun x y => y ∈ default ∅ (tm !! x)) :
  (forall x y, R x y -> y ∈ dom tm) ->
  forall fuel o T n, n ∈ dom tm -> (size (dom tm ∖ T) < fuel)%nat ->
  exists T', trace fuel o tm T n = Ok T' /\ T ⊆ T' /\ n ∈ T' /\
    (forall x, x ∈ T' -> x ∈ T \/ rtc R n x) /\
    (forall x y, x ∈ T' -> x ∉ T -> R x y -> y ∈ T') /\
    (T ⊆ dom tm -> T' ⊆ dom tm).
Proof.
  intros Hdom. induction fuel as [|k IH]; intros o T n Hn Hf; [lia|]. simpl.
  case_bool_decide as HnT.
  { exists T. split_and!; set_solver. }
  set (N := default ∅ (tm !! n)).
  pose (Inv := fun (done T2 : gset node) =>
      {[n]} ∪ T ⊆ T2 /\ done ⊆ T2 /\
      (forall x, x ∈ T2 -> x ∈ T \/ rtc R n x) /\
      (forall x y, x ∈ T2 -> x ∉ T -> x <> n -> R x y -> y ∈ T2) /\
      (T ⊆ dom tm -> T2 ⊆ dom tm)).
  assert (match for_res (fun o' tr nx => trace k o' tm tr nx) (sub o 0) ({[n]} ∪ T) (iter_set o N) with
          | Ok T2 => Inv N T2 | Err _ => False end) as Hloop.
  { apply (for_res_set_ind Inv (fun _ => False)).
    - split_and!; [done|set_solver +| | |set_solver +Hn].
      + intros x [->%elem_of_singleton|]%elem_of_union; [right; apply rtc_refl|by left].
      + intros x y [->%elem_of_singleton|]%elem_of_union; done.
    - intros Y x T2 o' HxN HxY HYN (H1 & H2 & H3 & H4 & H5).
      assert (R n x) as HRx by done.
      destruct (IH o' T2 x) as (T3 & -> & G1 & G2 & G3 & G4 & G5).
      { by eapply Hdom. }
      { eapply Nat.lt_le_trans; [apply (subset_size _ (dom tm ∖ T))|lia].
        split; [set_solver +H1|]. intros Hsub. assert (n ∈ dom tm ∖ T2) as Hn2 by set_solver +Hsub Hn HnT.
        set_solver +Hn2 H1. }
      split_and!.
      + set_solver +H1 G1.
      + set_solver +H2 G1 G2.
      + intros z Hz. destruct (G3 z Hz) as [Hz2|Hz2]; [by apply H3|].
        right. by eapply rtc_l.
      + intros a b Ha HaT Han Hab. destruct (decide (a ∈ T2)) as [Ha2|Ha2].
        * apply G1. by eapply (H4 a).
        * by eapply (G4 a).
      + auto. }
  destruct (for_res _ (sub o 0) _ _) as [T2|e]; [|done].
  destruct Hloop as (H1 & H2 & H3 & H4 & H5).
  exists T2. split_and!; [done|set_solver +H1|set_solver +H1|done| |done].
  intros x y Hx HxT HR. destruct (decide (x = n)) as [->|Hxn].
  - apply H2. exact HR.
  - by eapply (H4 x).
Qed.

Lemma adj_link es x y : adj es x y -> link es x y.
Proof. intros (e & ? & He & ?). exists e. rewrite He. set_solver. Qed.

Lemma link_adj es x y : (forall e, e ∈ es -> size e.1 = 2) -> link es x y -> x = y \/ adj es x y.
Proof.
  intros H2 (e & He & Hx & Hy). destruct (size_2_pair _ (H2 e He)) as (a & b & Heq & Hab).
  destruct (decide (x = y)) as [|Hne]; [by left|right].
  exists e. split_and!; [done| |done]. rewrite Heq in *. set_solver.
Qed.

Lemma rtc_adj_link es x y : (forall e, e ∈ es -> size e.1 = 2) -> rtc (adj es) x y <-> rtc (link es) x y.
Proof.
  intros H2. split.
  - apply (rtc_congruence id). intros ??. apply adj_link.
  - induction 1 as [|x z y Hl _ IH]; [done|].
    destruct (link_adj _ _ _ H2 Hl) as [->|]; [done|]. by eapply rtc_l.
Qed.

(** C03 *)
Lemma is_edges_connected_spec o es :
  match is_edges_connected o es with
  | Ok b => es <> ∅ /\ (forall e, e ∈ es -> size e.1 = 2) /\ (b = true <-> edges_linked es)
  | Err err => (err = StopIteration /\ es = ∅) \/
               (err = AssertionError /\ exists e, e ∈ es /\ size e.1 <> 2)
  end.
Proof.
  unfold is_edges_connected. pose proof (tracing_map_spec (sub o 0) es) as Hm.
  destruct (tracing_map (sub o 0) es) as [tm|err]; cbn [mbind res_bind]; [|by right].
  destruct Hm as (H2 & Ha & Ht).
  pose proof (fun k a => elem_of_iter_map (sub o 1) tm k a) as Hel.
  destruct (iter_map (sub o 1) tm) as [|[start Y] rest] eqn:Hit.
  { left. split; [done|]. apply iter_map_nil in Hit as ->.
    apply set_eq. intros e. split; [|set_solver +]. intros He.
    destruct (size_2_pair _ (H2 e He)) as (a & b & Heq & Hab).
    assert (a ∈ dom (∅ : gmap node (gset node))) as Ha'; [|by rewrite dom_empty_L in Ha'; set_solver].
    apply Ht. exists e. rewrite Heq. set_solver. }
  assert (start ∈ dom tm) as Hstart.
  { apply elem_of_dom. exists Y. apply Hel. left. }
  assert (forall x y, y ∈ default ∅ (tm !! x) -> y ∈ dom tm) as Hdom.
  { intros x y (e & ? & He & ?)%Ha. apply Ht. exists e. rewrite He. set_solver. }
  destruct (trace_spec tm Hdom (S (size tm)) (sub o 2) ∅ start Hstart)
    as (T & HT & _ & G2 & G3 & G4 & G5).
  { rewrite difference_empty_L, size_dom. lia. }
  rewrite HT. simpl. specialize (G5 ltac:(set_solver)).
  assert (forall x, x ∈ T <-> rtc (link es) start x) as HTr.
  { intros x. rewrite <- rtc_adj_link by done. split.
    - intros Hx. destruct (G3 x Hx) as [|Hr]; [set_solver|].
      revert Hr. apply (rtc_congruence id). intros a b. apply Ha.
    - intros Hr. remember start as s eqn:Hs in Hr. revert Hs G2 Hstart.
      induction Hr as [x|x y z Hxy Hyz IH]; intros Hs G2 Hstart; [by subst|].
      assert (forall a b, a ∈ T -> rtc (adj es) a b -> b ∈ T) as Hcl.
      { intros a b Ha' Hab. induction Hab as [|a c b Hac _ IHab]; [done|].
        apply IHab. apply (G4 a); [done|set_solver|]. by apply Ha. }
      subst. eapply Hcl; [exact G2|]. by eapply rtc_l. }
  split_and!.
  - intros ->. apply Ht in Hstart as (e & ? & ?). set_solver.
  - done.
  - rewrite bool_decide_eq_true. rewrite <- size_dom. split.
    + intros Hsz x y Hx Hy.
      assert (T = dom tm) as HTd.
      { apply subset_size_eq; [done|lia]. }
      apply Ht in Hx, Hy. rewrite <- HTd in Hx, Hy.
      apply HTr in Hx, Hy. etrans; [by apply rtc_link_sym|done].
    + intros Hc. f_equal. apply set_eq. intros x. split; [|apply G5].
      intros Hx. apply HTr. apply Hc; by apply Ht.
Qed.

End graph_facts.
