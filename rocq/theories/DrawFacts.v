(** * DrawFacts: sequences of drawing calls *)

From Verif Require Import SpecDraw BaseFacts TextFacts.

Local Notation txt := (list N).

Section net.
Context {I : Type} `{EqDecision I}.
Implicit Types (net : network I) (cs l : list (dcall I)).

Definition named cs (i : I) : Prop := exists t k, DNode i t k ∈ cs.

(** What a network shows after the calls [cs]. *)
Record shows net cs : Prop := {
  sh_ids : NoDup (nw_nodes net).*1;
  sh_named : forall i, i ∈ (nw_nodes net).*1 <-> named cs i;
  sh_node : forall i t k, (i, (t, k)) ∈ nw_nodes net -> DNode i t k ∈ cs;
  sh_line : forall a b t k, (a, b, (t, k)) ∈ nw_edges net -> DEdge a b t k ∈ cs;
  sh_lines : forall a b t k, DEdge a b t k ∈ cs -> exists c d t' k', (c, d, (t', k')) ∈ nw_edges net /\ same_ends c d a b;
  sh_once : forall j j' a b c d x y, nw_edges net !! j = Some (a, b, x) -> nw_edges net !! j' = Some (c, d, y) ->
    same_ends a b c d -> j = j'
}.

Lemma shows_blank : shows blank [].
Proof.
  split; cbn.
  - constructor.
  - intros i. split; [by intros ?%elem_of_nil|]. intros (? & ? & []%elem_of_nil).
  - by intros ??? ?%elem_of_nil.
  - by intros ???? ?%elem_of_nil.
  - by intros ???? ?%elem_of_nil.
  - intros j j' * H. by rewrite lookup_nil in H.
Qed.

Lemma same_pair_spec (a b : I) e : same_pair a b e = true <-> same_ends e.1.1 e.1.2 a b.
Proof. unfold same_pair. rewrite bool_decide_eq_true. unfold same_ends. naive_solver. Qed.

Lemma existsb_pair (a b : I) es :
  existsb (same_pair a b) es = true <-> exists c d t k, (c, d, (t, k)) ∈ es /\ same_ends c d a b.
Proof.
  rewrite existsb_exists. split.
  - intros ([[c d] [t k]] & Hin & Hp). apply same_pair_spec in Hp. apply elem_of_list_In in Hin. by exists c, d, t, k.
  - intros (c & d & t & k & Hin & Hp). exists (c, d, (t, k)). by rewrite <- elem_of_list_In, same_pair_spec.
Qed.

Lemma named_app cs l i : named (cs ++ l) i <-> named cs i \/ named l i.
Proof. unfold named. setoid_rewrite elem_of_app. naive_solver. Qed.
Lemma named_one i t k i' : named [DNode i t k] i' <-> i' = i.
Proof. unfold named. setoid_rewrite elem_of_list_singleton. naive_solver. Qed.
Lemma named_edge a b t k i : ~ named [DEdge a b t k] i.
Proof. unfold named. setoid_rewrite elem_of_list_singleton. naive_solver. Qed.

Lemma same_ends_sym (a b c d : I) : same_ends a b c d -> same_ends c d a b.
Proof. unfold same_ends. naive_solver. Qed.

Lemma call_shows dr net cs (c : dcall I) net' : shows net cs -> do_call dr net c = Ok net' -> shows net' (cs ++ [c]).
Proof.
  intros [H1 H2 H3 H4 H5 H6]. destruct c as [i t k|a b t k]; cbn.
  - destruct (dr i); cbn; [|done]. case_bool_decide as Hi; intros [= <-]; (split; cbn).
    + done.
    + intros j. rewrite H2, named_app, named_one. apply H2 in Hi. naive_solver.
    + intros. apply elem_of_app. left. by apply H3.
    + intros. apply elem_of_app. left. by apply H4.
    + intros * [?|?%elem_of_list_singleton]%elem_of_app; [by eapply H5|done].
    + done.
    + rewrite fmap_app. cbn. apply NoDup_app. split; [done|]. split; [|apply NoDup_singleton].
      intros x Hx ->%elem_of_list_singleton. done.
    + intros j. rewrite fmap_app, elem_of_app, H2, named_app, named_one. cbn. by rewrite elem_of_list_singleton.
    + intros * [?|?%elem_of_list_singleton]%elem_of_app; apply elem_of_app; [left; by apply H3|right].
      apply elem_of_list_singleton. congruence.
    + intros. apply elem_of_app. left. by apply H4.
    + intros * [?|?%elem_of_list_singleton]%elem_of_app; [by eapply H5|done].
    + done.
  - destruct (bool_decide (a ∈ (nw_nodes net).*1)); cbn; [|done].
    destruct (bool_decide (b ∈ (nw_nodes net).*1)); cbn; [|done].
    destruct (existsb (same_pair a b) (nw_edges net)) eqn:He; intros [= <-].
    + apply existsb_pair in He. split; cbn.
      * done.
      * intros j. rewrite H2, named_app. pose proof (named_edge a b t k j). naive_solver.
      * intros. apply elem_of_app. left. by apply H3.
      * intros. apply elem_of_app. left. by apply H4.
      * intros * [?|Hq%elem_of_list_singleton]%elem_of_app; [by eapply H5|]. by inversion Hq; subst.
      * done.
    + assert (forall c d t' k', (c, d, (t', k')) ∈ nw_edges net -> ~ same_ends c d a b) as Hno.
      { intros c d t' k' Hin Hs. assert (existsb (same_pair a b) (nw_edges net) = true) as Hc; [|by rewrite Hc in He].
        apply existsb_pair. by exists c, d, t', k'. }
      split; cbn.
      * done.
      * intros j. rewrite H2, named_app. pose proof (named_edge a b t k j). naive_solver.
      * intros. apply elem_of_app. left. by apply H3.
      * intros * [?|?%elem_of_list_singleton]%elem_of_app; apply elem_of_app; [left; by apply H4|right].
        apply elem_of_list_singleton. congruence.
      * intros a' b' * [Hq|Hq%elem_of_list_singleton]%elem_of_app.
        -- destruct (H5 _ _ _ _ Hq) as (c & d & t' & k' & ? & ?). exists c, d, t', k'. split; [|done].
           apply elem_of_app. by left.
        -- inversion Hq; subst. exists a, b, t, k. split; [apply elem_of_app; right; by apply elem_of_list_singleton|by left].
      * intros j j' a1 b1 c1 d1 x y [Hj|[Hlj Hj]]%lookup_app_Some [Hj'|[Hlj' Hj']]%lookup_app_Some Hs.
        -- by eapply H6.
        -- apply list_lookup_singleton_Some in Hj' as [? [= <- <- <-]]. destruct x as [t' k'].
           apply elem_of_list_lookup_2 in Hj. by destruct (Hno _ _ _ _ Hj).
        -- apply list_lookup_singleton_Some in Hj as [? [= <- <- <-]]. destruct y as [t' k'].
           apply elem_of_list_lookup_2 in Hj'. destruct (Hno _ _ _ _ Hj'). by apply same_ends_sym.
        -- apply list_lookup_singleton_Some in Hj as [? _], Hj' as [? _]. lia.
Qed.

Lemma calls_shows dr o net cs l net' : shows net cs -> do_calls dr o net l = Ok net' -> shows net' (cs ++ l).
Proof.
  revert o net cs. induction l as [|c l IH]; intros o net cs Hs; cbn.
  - intros [= <-]. by rewrite app_nil_r.
  - destruct (do_call dr net c) as [net1|] eqn:Hc; [|done]. intros Hr.
    replace (cs ++ c :: l) with ((cs ++ [c]) ++ l) by (by rewrite <- app_assoc).
    eapply IH; [by eapply call_shows|exact Hr].
Qed.

(** A call succeeds if the node is drawable, or the ends of the line are drawn. *)
Definition possible (dr : I -> bool) cs (c : dcall I) : Prop :=
  match c with DNode i _ _ => dr i = true | DEdge a b _ _ => named cs a /\ named cs b end.

Lemma call_possible dr net cs c : shows net cs -> possible dr cs c -> exists net', do_call dr net c = Ok net'.
Proof.
  intros Hs Hp. destruct c as [i t k|a b t k]; cbn in *.
  - rewrite Hp. cbn. eauto.
  - destruct Hp as [Ha Hb]. apply (sh_named _ _ Hs) in Ha, Hb. do 2 (rewrite bool_decide_eq_true_2 by done). cbn. eauto.
Qed.

Lemma possible_mono dr cs l c : possible dr cs c -> possible dr (cs ++ l) c.
Proof. destruct c; cbn; [done|]. rewrite !named_app. naive_solver. Qed.

Lemma calls_possible dr o net cs l :
  shows net cs -> (forall c, c ∈ l -> possible dr cs c) -> exists net', do_calls dr o net l = Ok net'.
Proof.
  revert o net cs. induction l as [|c l IH]; intros o net cs Hs Hl; cbn; [eauto|].
  destruct (call_possible dr net cs c Hs) as [net1 H1]; [apply Hl; left|]. rewrite H1.
  apply (IH _ _ (cs ++ [c])); [by eapply call_shows|]. intros c' Hc'. apply possible_mono, Hl. by right.
Qed.

Lemma do_calls_oracle dr o o' net l : do_calls dr o net l = do_calls dr o' net l.
Proof.
  revert o o' net. induction l as [|c l IH]; intros o o' net; cbn; [done|]. destruct (do_call dr net c); [apply IH|done].
Qed.
Lemma do_calls_app dr o net l l' :
  do_calls dr o net (l ++ l') = net1 ← do_calls dr o net l; do_calls dr o net1 l'.
Proof.
  revert o net. induction l as [|c l IH]; intros o net; cbn; [done|]. destruct (do_call dr net c); [|done]. cbn.
  change (do_calls dr (sub o 0) a (l ++ l') = net1 ← do_calls dr (sub o 0) a l; do_calls dr o net1 l').
  rewrite IH. destruct (do_calls dr (sub o 0) a l) as [n|]; cbn; [|done]. apply do_calls_oracle.
Qed.

(** Nodes first, then lines between them. *)
Lemma calls_two dr o net cs l l' :
  shows net cs -> (forall c, c ∈ l -> possible dr cs c) -> (forall c, c ∈ l' -> possible dr (cs ++ l) c) ->
  exists net', do_calls dr o net (l ++ l') = Ok net'.
Proof.
  intros Hs H1 H2. destruct (calls_possible dr o net cs l Hs H1) as [n Hn]. rewrite do_calls_app, Hn. cbn.
  apply (calls_possible dr o n (cs ++ l)); [by eapply calls_shows|done].
Qed.

(** The only exception is AssertionError, and it is raised if a node is not drawable. *)
Lemma calls_error dr o net l e : do_calls dr o net l = Err e -> e = AssertionError.
Proof.
  revert o net. induction l as [|c l IH]; intros o net; cbn; [done|].
  destruct (do_call dr net c) as [|e'] eqn:Hc; [apply IH|]. intros [= <-]. destruct c; cbn in Hc.
  - destruct (dr i); cbn in Hc; congruence.
  - destruct (bool_decide (a ∈ (nw_nodes net).*1)); cbn in Hc; [|congruence].
    destruct (bool_decide (b ∈ (nw_nodes net).*1)); cbn in Hc; congruence.
Qed.
Lemma calls_undrawable dr o net l i t k : DNode i t k ∈ l -> dr i = false -> do_calls dr o net l = Err AssertionError.
Proof.
  intros Hin Hd. destruct (do_calls dr o net l) as [n|e] eqn:He; [|by rewrite (calls_error _ _ _ _ _ He)].
  exfalso. revert o net He. induction l as [|c l IH]; intros o net; [by apply elem_of_nil in Hin|].
  cbn. apply elem_of_cons in Hin as [<-|Hin].
  - cbn. by rewrite Hd.
  - destruct (do_call dr net c); [|done]. by apply IH.
Qed.

Lemma shows_pictures net cs (P : I -> txt -> option txt -> Prop) (R : I -> I -> txt -> option txt -> Prop) :
  shows net cs ->
  (forall i t k, DNode i t k ∈ cs -> P i t k) -> (forall i t k, P i t k -> named cs i) ->
  (forall a b t k, DEdge a b t k ∈ cs -> R a b t k) ->
  (forall a b t k, R a b t k -> exists c d t' k', DEdge c d t' k' ∈ cs /\ same_ends c d a b) ->
  pictures net P R.
Proof.
  intros [H1 H2 H3 H4 H5 H6] HP HP' HR HR'. split.
  - done.
  - intros. by apply HP, H3.
  - intros i t k Hi. apply H2. by eapply HP'.
  - intros. by apply HR, H4.
  - intros a b t k Hr. destruct (HR' _ _ _ _ Hr) as (c & d & t' & k' & Hin & Hs).
    destruct (H5 _ _ _ _ Hin) as (c' & d' & t'' & k'' & ? & ?). exists c', d', t'', k''. split; [done|].
    unfold same_ends in *. naive_solver.
  - done.
Qed.
End net.
