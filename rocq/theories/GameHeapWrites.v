(** * GameHeapWrites: deep copies can be written without changing the original *)

From Coq Require Import ZArith Lia.
From stdpp Require Import base list numbers option gmap.
From Verif Require Import GameHeap SpecGameHeap GameHeapFacts.

Local Open Scope Z_scope.

(** A state all of whose lists, columns and agents are not in [h0]. *)
Definition solo (h0 : gheap) (n : addr) (s : gstate) (h : gheap) : Prop :=
  exists e fo ca aa ags, inv h0 e h n s fo ca aa ags /\ calm h0 e s /\ own_grid h0 h fo (g_food s).

Lemma own_grid_write h0 h a g x ob :
  match h !! x with Some (GGrid _ _ _) | Some (GColumns _) | Some (GColumn _) => False | _ => True end ->
  own_grid h0 h a g -> own_grid h0 (<[x := ob]> h) a g.
Proof.
  intros Hx (d & cols & H1 & H2 & H3 & ND & Hn). exists d, cols. rewrite !lookup_insert_ne.
  - split; [done|]. split; [done|]. split; [|done]. eapply Forall2_impl; [exact H3|]. unfold reads_column. intros c l Hc.
    rewrite lookup_insert_ne; [done|]. intros ->. by rewrite Hc in Hx.
  - intros ->. by rewrite H2 in Hx.
  - intros ->. by rewrite H1 in Hx.
Qed.
Lemma own_grid_more h0 h h' a g : h ⊆ h' -> own_grid h0 h a g -> own_grid h0 h' a g.
Proof.
  intros S (d & cols & H1 & H2 & H3 & ND & Hn). exists d, cols. split; [by eapply lk_sub|]. split; [by eapply lk_sub|].
  split; [|done]. eapply Forall2_impl; [exact H3|]. intros. by eapply reads_column_sub.
Qed.

(** Writing a cell keeps the columns. *)
Lemma set_cell_cols h fo w k d cols x y b h' : h !! fo = Some (GGrid w k d) -> h !! d = Some (GColumns cols) ->
  set_cell fo x y b h = (DOk tt, h') -> h' !! fo = Some (GGrid w k d) /\ h' !! d = Some (GColumns cols).
Proof.
  intros H1 H2. unfold set_cell.
  rewrite (pbind_ok _ _ _ _ _ (load_grid_eq _ _ _ _ _ H1)), (pbind_ok _ _ _ _ _ (load_columns_eq _ _ _ H2)).
  destruct (py_get cols x) as [c|]; [|done]. rewrite pure_ok. unfold load_column, load.
  destruct (h !! c) as [[]|] eqn:Hc; unfold mbind, prog_bind; rewrite ?Hc; try done. cbn.
  destruct (py_set l y b) as [l'|]; [|done]. cbn. intros [= <-].
  rewrite !lookup_insert_ne by (intros ->; congruence). done.
Qed.

Lemma write_agent h0 n s h i (f : astate -> astate) (m : prog unit) : solo h0 n s h ->
  (forall x y s0 c, h !! x = Some (GAgent s0 c (a_pacman y) (a_scared y)) -> h !! s0 = Some (GConf (a_start y)) -> h !! c = Some (GConf (a_conf y)) ->
     py_get match h !! n with Some (GData sd) => match h !! sd_agents sd with Some (GAgents l) => l | _ => [] end | _ => [] end i = DOk x ->
     exists h1 c', m h = (DOk tt, <[x := GAgent s0 c' (a_pacman (f y)) (a_scared (f y))]> h1) /\ h ⊆ h1 /\
       a_start (f y) = a_start y /\ h1 !! c' = Some (GConf (a_conf (f y)))) ->
  (forall e, py_get match h !! n with Some (GData sd) => match h !! sd_agents sd with Some (GAgents l) => l | _ => [] end | _ => [] end i = DErr e ->
     m h = (DErr e, h)) ->
  sim h0 (fun _ s' => solo h0 n s') (m h)
    (a ← py_get (g_agents s) i; l ← py_set (g_agents s) i (f a); DOk (with_ags s l)).
Proof.
  intros (e & fo & ca & aa & ags & I & C & O) H1 H2.
  rewrite (i_data _ _ _ _ _ _ _ _ _ I) in H1, H2. cbn [sd_of sd_agents] in H1, H2.
  rewrite (i_ags _ _ _ _ _ _ _ _ _ I) in H1, H2.
  pose proof (get_sim _ _ _ i (i_reads _ _ _ _ _ _ _ _ _ I)) as G. destruct (py_index (g_agents s) i) as [k|] eqn:Ei.
  - destruct G as (x & y & Hx & Hy & Gx & -> & Hr). destruct Hr as (s0 & c & R1 & R2 & R3).
    destruct (H1 x y s0 c R1 R2 R3 Gx) as (h1 & c' & -> & S1 & Es & Hc'). cbn [mbind dres_bind].
    rewrite (py_set_eq _ _ _ _ Ei). cbn [mbind dres_bind sim].
    pose proof (inv_sub _ _ _ _ _ _ _ _ _ _ S1 I) as I1. exists e, fo, ca, aa, ags. split; [|split].
    + eapply inv_agent; try done. rewrite Es. by eapply lk_sub.
    + done.
    + cbn [with_ags g_food]. apply own_grid_write; [|by eapply own_grid_more]. by rewrite (lk_sub _ _ _ _ S1 R1).
  - destruct G as [Gx ->]. rewrite (H2 _ Gx). cbn. split; [done|]. by eapply calm_sub.
Qed.

Lemma write_sim h0 n s h w : solo h0 n s h -> sim h0 (fun _ s' => solo h0 n s') (do_write n w h) (value_write s w).
Proof.
  intros So. destruct w as [x y b|l|i t|i c|x]; cbn [do_write value_write].
  - destruct So as (e & fo & ca & aa & ags & I & C & O).
    rewrite (pbind_ok _ _ _ _ _ (data_eq _ _ _ _ _ _ _ _ _ I)). cbn [sd_of sd_food].
    pose proof (set_cell_sim _ _ _ _ _ _ _ _ _ x y b I C O) as P. destruct O as (d & cols & O1 & O2 & O3 & O4 & O5).
    pose proof (set_cell_cols _ _ _ _ _ _ x y b (set_cell fo x y b h).2 O1 O2) as K.
    destruct (set_cell fo x y b h) as [[[]|er] h'], (grid_set (g_food s) x y b) as [g'|er'] eqn:Eg; try done.
    cbn [mbind dres_bind sim] in *. destruct (K eq_refl) as [K1 K2]. exists e, fo, ca, aa, ags. split; [exact P|]. split; [done|].
    destruct (i_food _ _ _ _ _ _ _ _ _ P) as (d' & cols' & P1 & P2 & P3). cbn [with_grid g_food] in P1, P3. cbn [g_food].
    exists d', cols'. split; [done|]. split; [done|]. split; [done|].
    cbn [snd] in K1, K2. assert (d' = d) as -> by congruence. assert (cols' = cols) as -> by congruence. done.
  - destruct So as (e & fo & ca & aa & ags & I & C & O).
    rewrite (pbind_ok _ _ _ _ _ (data_eq _ _ _ _ _ _ _ _ _ I)). cbn [sd_of sd_capsules sim store].
    exists e, fo, ca, aa, ags. split; [by apply inv_caps|]. split; [done|]. cbn [g_food].
    apply own_grid_write; [|done]. by rewrite (i_caps _ _ _ _ _ _ _ _ _ I).
  - apply (write_agent h0 n s h i (fun a => AState (a_start a) (a_conf a) (a_pacman a) t)); [done| |].
    + intros x y s0 c R1 R2 R3 Gx. destruct So as (e & fo & ca & aa & ags & I & C & O).
      rewrite (i_data _ _ _ _ _ _ _ _ _ I) in Gx. cbn [sd_of sd_agents] in Gx. rewrite (i_ags _ _ _ _ _ _ _ _ _ I) in Gx.
      exists h, c. erewrite pbind_ok; [|rewrite (agent_at_eq _ _ _ _ _ _ _ _ _ I), Gx; done].
      rewrite (pbind_ok _ _ _ _ _ (load_agent_eq _ _ _ _ _ _ R1)). done.
    + intros er Gx. destruct So as (e & fo & ca & aa & ags & I & C & O).
      rewrite (i_data _ _ _ _ _ _ _ _ _ I) in Gx. cbn [sd_of sd_agents] in Gx. rewrite (i_ags _ _ _ _ _ _ _ _ _ I) in Gx.
      apply pbind_err. by rewrite (agent_at_eq _ _ _ _ _ _ _ _ _ I), Gx.
  - apply (write_agent h0 n s h i (fun a => AState (a_start a) c (a_pacman a) (a_scared a))); [done| |].
    + intros x y s0 k R1 R2 R3 Gx. destruct So as (e & fo & ca & aa & ags & I & C & O).
      rewrite (i_data _ _ _ _ _ _ _ _ _ I) in Gx. cbn [sd_of sd_agents] in Gx. rewrite (i_ags _ _ _ _ _ _ _ _ _ I) in Gx.
      exists (<[fresh (dom h) := GConf c]> h), (fresh (dom h)). erewrite pbind_ok; [|rewrite (agent_at_eq _ _ _ _ _ _ _ _ _ I), Gx; done].
      rewrite (pbind_ok _ _ _ _ _ (load_agent_eq _ _ _ _ _ _ R1)), (pbind_ok _ _ _ _ _ (make_eq _ _)).
      split; [done|]. split; [apply fresh_sub|]. split; [done|]. apply lookup_insert.
    + intros er Gx. destruct So as (e & fo & ca & aa & ags & I & C & O).
      rewrite (i_data _ _ _ _ _ _ _ _ _ I) in Gx. cbn [sd_of sd_agents] in Gx. rewrite (i_ags _ _ _ _ _ _ _ _ _ I) in Gx.
      apply pbind_err. by rewrite (agent_at_eq _ _ _ _ _ _ _ _ _ I), Gx.
  - destruct So as (e & fo & ca & aa & ags & I & C & O).
    rewrite (set_data_eq _ _ _ _ (i_data _ _ _ _ _ _ _ _ _ I)). cbn [sim].
    exists e, fo, ca, aa, ags. split; [|split; [done|]].
    + match goal with |- inv _ _ _ _ ?s' _ _ _ _ => exact (inv_data h0 e h n s fo ca aa ags s' fo I (i_food _ _ _ _ _ _ _ _ _ I) eq_refl eq_refl eq_refl) end.
    + cbn [g_food]. apply own_grid_write; [|done]. by rewrite (i_data _ _ _ _ _ _ _ _ _ I).
Qed.

Lemma writes_sim h0 n ws : forall s h, solo h0 n s h -> sim h0 (fun _ s' => solo h0 n s') (do_writes n ws h) (value_writes s ws).
Proof.
  induction ws as [|w ws IH]; intros s h So; cbn [do_writes each value_writes]; [done|].
  eapply sim_bind; [by apply write_sim|]. intros [] s' h' So'. by apply IH.
Qed.

Lemma deep_solo h a s : reads_state h a s ->
  exists n h0 h', deep_copy_h a h = (DOk n, h') /\ h ⊆ h0 /\ solo h0 n (deep_copy s) h'.
Proof.
  intros R. unfold deep_copy_h. destruct (copy_data_inv _ _ _ R) as (n1 & h1 & e1 & fo1 & ca1 & aa1 & ags1 & E1 & S1 & _).
  rewrite (pbind_ok _ _ _ _ _ E1). pose proof (reads_state_sub _ _ _ _ S1 R) as R1.
  destruct (copy_data_inv _ _ _ R1) as (n & h2 & e & fo & ca & aa & ags & E2 & S2 & He & I).
  rewrite (pbind_ok _ _ _ _ _ E2). pose proof (reads_state_sub _ _ _ _ S2 R1) as (fo0 & ca0 & aa0 & e0 & ags0 & H1 & H2 & _).
  rewrite (pbind_ok _ _ _ _ _ (load_data_eq _ _ _ H1)). cbn [sd_food sd_food_eaten sd_capsule_eaten sd_moved].
  destruct (copy_grid_eq _ _ _ H2) as (g & h3 & E3 & S3 & _ & O3). rewrite (pbind_ok _ _ _ _ _ E3).
  pose proof (inv_sub _ _ _ _ _ _ _ _ _ _ S3 I) as I3.
  rewrite (pbind_ok _ _ _ _ _ (set_data_eq _ _ _ (with_food g) (i_data _ _ _ _ _ _ _ _ _ I3))).
  pose proof (inv_data _ _ _ _ _ _ _ _ _ (copy_state s) g I3 (own_reads _ _ _ _ O3) eq_refl eq_refl eq_refl) as I4.
  rewrite (pbind_ok _ _ _ _ _ (set_data_eq _ _ _ (with_events (g_food_eaten s) (g_capsule_eaten s) (g_moved s)) (i_data _ _ _ _ _ _ _ _ _ I4))).
  eexists n, h1, _. split; [reflexivity|]. split; [done|]. exists e, g, ca, aa, ags. split; [|split].
  - exact (inv_data h1 e _ n (copy_state s) g ca aa ags (deep_copy s) g I4 (i_food _ _ _ _ _ _ _ _ _ I4) eq_refl eq_refl eq_refl).
  - by right.
  - apply own_grid_write; [by rewrite lookup_insert|]. apply own_grid_write; [by rewrite (i_data _ _ _ _ _ _ _ _ _ I3)|].
    by eapply own_grid_sub.
Qed.

Lemma deep_writes_lemma h a s ws : reads_state h a s ->
  exists n h1, deep_copy_h a h = (DOk n, h1) /\
  match do_writes n ws h1, value_writes (deep_copy s) ws with
  | (DOk _, h2), DOk s' => reads_state h2 n s' /\ all_kept h h2
  | (DErr x, h2), DErr y => x = y /\ all_kept h h2
  | _, _ => False
  end.
Proof.
  intros R. destruct (deep_solo h a s R) as (n & h0 & h1 & E & S & So). exists n, h1. split; [done|].
  pose proof (writes_sim h0 n ws _ _ So) as P.
  destruct (do_writes n ws h1) as [[[]|x] h2], (value_writes (deep_copy s) ws) as [s'|y]; try done; cbn [sim] in P.
  - destruct P as (e & fo & ca & aa & ags & I & C & _). split; [by eapply inv_reads|]. apply kept_sub. etrans; [exact S|]. by eapply calm_sub.
  - destruct P as [-> P]. split; [done|]. apply kept_sub. by etrans.
Qed.
