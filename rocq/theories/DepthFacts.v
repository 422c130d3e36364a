(** * DepthFacts: nested calls (C66) *)

From Coq Require Import Lia.
From stdpp Require Import relations.
From Verif Require Export Depth PropsGraph.
From Verif Require Import PropsJoin.

Section depth_facts.
Context {U : Universe}.

(** ** More nesting does not change a result *)

Lemma for_res_mono {S A} (f g : oracle -> S -> A -> res S) o s l r :
  (forall o s x r, f o s x = Ok r -> g o s x = Ok r) -> for_res f o s l = Ok r -> for_res g o s l = Ok r.
Proof.
  intros H. revert o s. induction l as [|x l IH]; intros o s; simpl; [done|].
  destruct (f (sub o 1) s x) as [s'|] eqn:E; [|done]. rewrite (H _ _ _ _ E). apply IH.
Qed.

Lemma trace_mono k j o tm T n T' : (k <= j)%nat -> trace k o tm T n = Ok T' -> trace j o tm T n = Ok T'.
Proof.
  revert j o T n T'. induction k as [|k IH]; intros j o T n T' Hj; simpl; [done|].
  destruct j as [|j]; [lia|]. simpl. case_bool_decide; [done|].
  apply for_res_mono. intros o' s x r. apply IH. lia.
Qed.

Lemma for_res_err {S A} (P : exn -> Prop) (f : oracle -> S -> A -> res S) o s l x :
  (forall o s a x, f o s a = Err x -> P x) -> for_res f o s l = Err x -> P x.
Proof.
  intros H. revert o s. induction l as [|a l IH]; intros o s; simpl; [done|].
  destruct (f (sub o 1) s a) as [s'|y] eqn:E; [apply IH|]. intros [= <-]. by eapply H.
Qed.

Lemma trace_err k o tm T n x : trace k o tm T n = Err x -> x = OutOfFuel.
Proof.
  revert o T n x. induction k as [|k IH]; intros o T n x; simpl; [by intros [= <-]|].
  case_bool_decide; [done|]. apply (for_res_err (fun y => y = OutOfFuel)). intros o' s a y. apply IH.
Qed.

Lemma within_cases limit o es :
  is_edges_connected_within limit o es = is_edges_connected o es \/
  is_edges_connected_within limit o es = Err OutOfFuel.
Proof.
  unfold is_edges_connected_within.
  pose proof (is_edges_connected_spec o es) as Hspec.
  unfold is_edges_connected in *. destruct (tracing_map (sub o 0) es) as [tm|err]; cbn [mbind res_bind] in *; [|by left].
  destruct (iter_map (sub o 1) tm) as [|[start Y] rest]; [by left|].
  destruct (trace limit (sub o 2) tm ∅ start) as [T|x] eqn:E; cbn [mbind res_bind]; [|right; by rewrite (trace_err _ _ _ _ _ _ E)].
  left. destruct (trace (S (size tm)) (sub o 2) tm ∅ start) as [T'|x] eqn:E'; cbn [mbind res_bind] in *.
  - pose proof (trace_mono limit (limit + S (size tm)) _ _ _ _ _ ltac:(lia) E) as H1.
    pose proof (trace_mono (S (size tm)) (limit + S (size tm)) _ _ _ _ _ ltac:(lia) E') as H2.
    rewrite H1 in H2. by injection H2 as ->.
  - pose proof (trace_err _ _ _ _ _ _ E') as ->. destruct Hspec as [[? _]|[? _]]; congruence.
Qed.

Lemma within_enough (limit : nat) (o : oracle) (es : gset edge) (X : gset node) :
  (forall n, touches es n -> n ∈ X) -> (size X < limit)%nat ->
  is_edges_connected_within limit o es = is_edges_connected o es.
Proof.
  intros HX HL. destruct (within_cases limit o es) as [H|H]; [done|].
  revert H. unfold is_edges_connected_within, is_edges_connected.
  pose proof (tracing_map_spec (sub o 0) es) as Hm.
  destruct (tracing_map (sub o 0) es) as [tm|err]; cbn [mbind res_bind]; [|done].
  destruct Hm as (H2 & Ha & Ht).
  pose proof (fun k a => elem_of_iter_map (sub o 1) tm k a) as Hel.
  destruct (iter_map (sub o 1) tm) as [|[start Y] rest] eqn:Hit; [done|].
  assert (start ∈ dom tm) as Hstart.
  { apply elem_of_dom. exists Y. apply Hel. left. }
  assert (forall x y, y ∈ default ∅ (tm !! x) -> y ∈ dom tm) as Hdom.
  { intros x y (e & ? & He & ?)%Ha. apply Ht. exists e. rewrite He. split; [done|]. set_solver +. }
  assert (dom tm ⊆ X) as Hsub by (intros x Hx; apply HX; by apply Ht).
  apply subseteq_size in Hsub.
  destruct (trace_spec tm Hdom limit (sub o 2) ∅ start Hstart) as (T & HT & _).
  { rewrite difference_empty_L. lia. }
  rewrite HT. done.
Qed.

(** ** What few nested calls can reach *)

Lemma trace_ball k o tm T n T' (R := fun x y => y ∈ default ∅ (tm !! x)) :
  trace k o tm T n = Ok T' -> forall x, x ∈ T' -> x ∈ T \/ exists j, (j < k)%nat /\ nsteps R j n x.
Proof.
  revert o T n T'. induction k as [|k IH]; intros o T n T'; simpl; [done|].
  case_bool_decide as HnT; [intros [= <-]; by left|].
  intros Hl. pose proof (for_res_set_ind
    (fun (_ : gset node) (T2 : gset node) => forall x, x ∈ T2 -> x ∈ T \/ exists j, (j < S k)%nat /\ nsteps R j n x)
    (fun _ => True) (fun o' tr nx => trace k o' tm tr nx) (sub o 0) o ({[n]} ∪ T) (default ∅ (tm !! n))) as Hi.
  rewrite Hl in Hi. apply Hi; clear Hi.
  - intros x [->%elem_of_singleton|]%elem_of_union; [|by left]. right. exists 0%nat. split; [lia|]. constructor.
  - intros Y y T2 o' Hy _ _ HT2. destruct (trace k o' tm T2 y) as [T3|] eqn:E; [|done].
    intros x Hx. destruct (IH _ _ _ _ E x Hx) as [H|(j & Hj & Hs)]; [by apply HT2|].
    right. exists (S j). split; [lia|]. by econstructor.
Qed.

(** The search ends in time only if all nodes are near the first one. *)
Lemma within_near (limit : nat) (o : oracle) (es : gset edge) r : is_edges_connected_within limit o es = Ok r -> edges_linked es ->
  exists start, touches es start /\ forall x, touches es x -> exists j, (j < limit)%nat /\ nsteps (link es) j start x.
Proof.
  unfold is_edges_connected_within.
  pose proof (tracing_map_spec (sub o 0) es) as Hm.
  destruct (tracing_map (sub o 0) es) as [tm|err]; cbn [mbind res_bind]; [|done].
  destruct Hm as (H2 & Ha & Ht).
  pose proof (fun k a => elem_of_iter_map (sub o 1) tm k a) as Hel.
  destruct (iter_map (sub o 1) tm) as [|[start Y] rest] eqn:Hit; [done|].
  assert (start ∈ dom tm) as Hstart.
  { apply elem_of_dom. exists Y. apply Hel. left. }
  assert (forall x y, y ∈ default ∅ (tm !! x) -> y ∈ dom tm) as Hdom.
  { intros x y (e & ? & He & ?)%Ha. apply Ht. exists e. rewrite He. split; [done|]. set_solver +. }
  destruct (trace limit (sub o 2) tm ∅ start) as [T|x] eqn:E; [|done]. intros _ Hl.
  destruct (trace_spec tm Hdom (limit + S (size tm)) (sub o 2) ∅ start Hstart)
    as (T' & HT & _ & G2 & _ & G4 & _).
  { rewrite difference_empty_L, size_dom. lia. }
  pose proof (trace_mono limit (limit + S (size tm)) _ _ _ _ _ ltac:(lia) E) as H1.
  assert (T' = T) as -> by (rewrite HT in H1; by injection H1).
  assert (forall a b, a ∈ T -> rtc (adj es) a b -> b ∈ T) as Hcl.
  { intros a b Ha' Hab. induction Hab as [|a c b Hac _ IHab]; [done|].
    apply IHab. apply (G4 a); [done|set_solver +|]. by apply Ha. }
  exists start. split; [by apply Ht|]. intros x Hx.
  assert (x ∈ T) as HxT.
  { apply (Hcl start); [done|]. apply rtc_adj_link; [done|]. apply Hl; [by apply Ht|done]. }
  destruct (trace_ball _ _ _ _ _ _ E x HxT) as [?|(j & Hj & Hs)]; [set_solver|].
  exists j. split; [done|]. clear -Hs Ha. induction Hs as [|j a b c Hab _ IH]; [constructor|].
  econstructor; [|exact IH]. apply adj_link. by apply Ha.
Qed.

(** ** Joining *)

Lemma join_edges_mono k j o b es : (k <= j)%nat -> (join_edges k o b es).2 <> Err OutOfFuel ->
  join_edges j o b es = join_edges k o b es.
Proof.
  revert j o b es. induction k as [|k IH]; intros j o b es Hj; simpl; [done|].
  destruct j as [|j]; [lia|]. simpl. destruct (join_pass b ∅ (iter_set o es)) as [b' [nc|x]]; [|done].
  case_bool_decide; [done|]. case_bool_decide; [done|]. apply IH. lia.
Qed.

Lemma join_within_cases limit o b s :
  builder_state b -> simple (b_edges b) -> (forall e, e ∈ g_edges (s_g s) -> two_nodes e.1) ->
  join_sample_within limit o b s = join_sample o b s \/ (join_sample_within limit o b s).2 = Err OutOfFuel.
Proof.
  intros Hb Hs H2. unfold join_sample_within. pose proof (C07_join_sample o b s Hb Hs H2) as H7.
  unfold join_sample in *. set (k := S (size (g_edges (s_g s)))) in *. clearbody k.
  destruct (is_compatible s (b_cp b)); simpl; [|by left].
  case_bool_decide; simpl; [by left|].
  destruct (decide ((join_edges limit o b (g_edges (s_g s))).2 = Err OutOfFuel)) as [|Hn]; [by right|left].
  rewrite <- (join_edges_mono limit (limit + k) o b (g_edges (s_g s))); [|lia|done].
  apply join_edges_mono; [lia|]. destruct (join_edges k o b (g_edges (s_g s))) as [b' [[]|x]]; [done|].
  simpl. intros [= ->]. by destruct H7.
Qed.

Lemma join_within_enough limit o b s :
  builder_state b -> simple (b_edges b) -> (forall e, e ∈ g_edges (s_g s) -> two_nodes e.1) ->
  (size (g_edges (s_g s)) < limit)%nat -> join_sample_within limit o b s = join_sample o b s.
Proof.
  intros Hb Hs H2 Hl. unfold join_sample_within. pose proof (C07_join_sample o b s Hb Hs H2) as H7.
  unfold join_sample in *. assert (S (size (g_edges (s_g s))) <= limit)%nat as Hk by lia.
  set (k := S (size (g_edges (s_g s)))) in *. clearbody k.
  destruct (is_compatible s (b_cp b)); simpl; [|done].
  case_bool_decide; simpl; [done|]. apply join_edges_mono; [lia|].
  destruct (join_edges k o b (g_edges (s_g s))) as [b' [[]|x]]; [done|].
  simpl. intros [= ->]. by destruct H7.
Qed.

(** ** External nodes *)

Lemma external_mono k j o g C f m : (k <= j)%nat ->
  external_nodes_fuel k o g C f = Ok m -> external_nodes_fuel j o g C f = Ok m.
Proof.
  revert j o C m. induction k as [|k IH]; intros j o C m Hj; simpl; [done|].
  destruct j as [|j]; [lia|]. simpl. destruct (belt_nodes (sub o 0) g C f) as [acc|]; cbn [mbind res_bind]; [|done].
  case_bool_decide; [done|].
  destruct (external_nodes_fuel k (sub o 1) g (C ∪ dom acc) f) as [rest|] eqn:E; cbn [mbind res_bind]; [|done].
  rewrite (IH j _ _ _ ltac:(lia) E). done.
Qed.

(** Everything that can be reached is fewer than [limit] steps away. *)
Definition near (g : graph) (f : option (gset relation)) (C : gset node) (limit : nat) : Prop :=
  forall n k, within g f C k n -> exists j, (j < limit)%nat /\ within g f C j n.

Lemma external_limit g f : (forall e, e ∈ g_edges g -> two_nodes e.1) ->
  forall limit o C, C <> ∅ ->
  match external_nodes_fuel limit o g C f with
  | Ok _ => near g f C limit
  | Err x => x = OutOfFuel /\ ~ near g f C limit
  end.
Proof.
  intros H2. induction limit as [|limit IH]; intros o C HC; cbn [external_nodes_fuel].
  { split; [done|]. intros Hn. apply set_choose_L in HC as [n Hin].
    destruct (Hn n 0%nat) as (j & Hj & _); [by apply within_0|lia]. }
  destruct (belt_nodes_spec (sub o 0) g C f H2 HC) as (acc & -> & Hacc). cbn [mbind res_bind].
  assert (forall n, n ∈ dom acc <-> dist g f C 1 n) as Hdom.
  { intros n. rewrite elem_of_dom. specialize (Hacc n). split.
    - intros [X HX]. rewrite HX in Hacc. destruct Hacc as [Hn Hacc].
      apply set_choose_L in Hn as [e He]. apply Hacc, belt_closer in He. tauto.
    - intros Hd. destruct (acc !! n) as [X|] eqn:HX; [by eexists|]. exfalso.
      pose proof Hd as [Hw Hd']. apply within_S in Hw as [Hw|(m & Hm & e & He & Ha & Hme & Hne)].
      + by apply (Hd' 0%nat); [lia|].
      + apply (Hacc e). split_and!; try done.
        * rewrite <- (within_0 g f C). apply Hd'. lia.
        * exists m. split; [done|]. by apply within_0 in Hm. }
  assert (forall m, m ∈ C ∪ dom acc <-> within g f C 1 m) as HC'.
  { intros m. rewrite elem_of_union, Hdom. split.
    - intros [Hm|[Hm _]]; [|done]. apply (within_mono _ _ _ 0); [lia|]. by apply within_0.
    - intros Hm. destruct (decide (m ∈ C)) as [|HmC]; [by left|right]. split; [done|].
      intros j Hj. assert (j = 0)%nat as -> by lia. by rewrite within_0. }
  case_bool_decide as Hemp.
  - intros n k Hk. exists 0%nat. split; [lia|]. apply within_0. revert n Hk. induction k as [|k IHk]; intros n Hk; [by apply within_0 in Hk|].
    apply within_S in Hk as [Hk|(m & Hm & Hl)]; [by apply IHk|]. apply IHk in Hm.
    assert (n ∈ C ∪ dom acc) as Hin.
    { apply HC'. apply within_S. right. exists m. split; [by apply within_0|done]. }
    rewrite Hemp, dom_empty_L in Hin. set_solver +Hin.
  - assert (C ∪ dom acc <> ∅) as HCn by (intros Hu; apply HC; set_solver +Hu).
    assert (near g f C (S limit) <-> near g f (C ∪ dom acc) limit) as Hiff.
    { split.
      - intros Hn n k Hk. apply (within_shift _ _ C) in Hk; [|done]. destruct (Hn n (S k) Hk) as (j & Hj & Hw).
        destruct j as [|j]; [|exists j; split; [lia|]; by apply (within_shift _ _ C)].
        exists 0%nat. split; [|apply within_0; apply within_0 in Hw; set_solver +Hw].
        assert (exists x, x ∈ dom acc) as [x Hx].
        { apply set_choose_L. intros Hd. apply Hemp. by apply dom_empty_inv_L in Hd. }
        apply Hdom in Hx. destruct (Hn x 1%nat) as (i & Hi & Hwi); [by destruct Hx|].
        destruct limit; [|lia]. assert (i = 0)%nat as -> by lia. destruct Hx as [_ Hx]. by destruct (Hx 0%nat); [lia|].
      - intros Hn n k Hk. destruct (Hn n k) as (j & Hj & Hw).
        + apply (within_shift _ _ C); [done|]. eapply within_mono; [|exact Hk]. lia.
        + exists (S j). split; [lia|]. by apply (within_shift _ _ C) in Hw. }
    specialize (IH (sub o 1) (C ∪ dom acc) HCn).
    destruct (external_nodes_fuel limit (sub o 1) g (C ∪ dom acc) f) as [rest|x] eqn:E; cbn [mbind res_bind].
    2:{ split; [by apply IH|]. rewrite Hiff. by apply IH. }
    destruct (external_nodes_fuel_spec g f H2 (limit + S (size (edge_nodes g ∖ (C ∪ dom acc)))) (sub o 1) (C ∪ dom acc) HCn)
      as (rest' & Hr & Hrest); [lia|].
    pose proof (external_mono _ (limit + S (size (edge_nodes g ∖ (C ∪ dom acc)))) _ _ _ _ _ (Nat.le_add_r _ _) E) as Hr'.
    rewrite Hr in Hr'. injection Hr' as ->.
    rewrite external_merge_spec; [by apply Hiff|].
    intros n [X HX]. specialize (Hrest n). rewrite HX in Hrest. destruct Hrest as [Hn Hrest].
    apply set_choose_L in Hn as [e He]. apply Hrest in He. apply closer_outside in He.
    apply not_elem_of_dom. set_solver +He.
Qed.

Lemma external_limit_lemma (limit : nat) (o : oracle) (g : graph) (C : gset node) (f : option (gset relation)) :
  (forall e, e ∈ g_edges g -> two_nodes e.1) -> C <> ∅ ->
  match external_nodes_fuel limit o g C f with
  | Ok m => external_nodes o g C f = Ok m /\ near g f C limit
  | Err x => x = OutOfFuel /\ ~ near g f C limit
  end.
Proof.
  intros H2 HC. pose proof (external_limit g f H2 limit o C HC) as H.
  destruct (external_nodes_fuel limit o g C f) as [m|x] eqn:E; [|done]. split; [|done].
  destruct (external_nodes_spec o g C f H2 HC) as (m' & Hm & _). rewrite Hm. unfold external_nodes in Hm.
  set (k := S (size (⋃ (endpoints <$> elements (g_edges g))))) in Hm. clearbody k.
  pose proof (external_mono limit (limit + k) _ _ _ _ _ ltac:(lia) E) as H3.
  pose proof (external_mono k (limit + k) _ _ _ _ _ ltac:(lia) Hm) as H4. rewrite H3 in H4. by injection H4 as ->.
Qed.
End depth_facts.
