(** * Facts about GameHeap.v: moves compute what Pacman.v says and write new objects only *)

From Coq Require Import ZArith Lia.
From stdpp Require Import base list numbers option gmap.
From Verif Require Import GameHeap SpecGameHeap.

Local Open Scope Z_scope.

(** ** Computations *)
Lemma pbind_ok {A B} (m : prog A) (f : A -> prog B) h a h' : m h = (DOk a, h') -> (m ≫= f) h = f a h'.
Proof. intros H. unfold mbind, prog_bind. by rewrite H. Qed.
Lemma pbind_err {A B} (m : prog A) (f : A -> prog B) h e h' : m h = (DErr e, h') -> (m ≫= f) h = (DErr e, h').
Proof. intros H. unfold mbind, prog_bind. by rewrite H. Qed.
Lemma pbind_assoc {A B C} (m : prog A) (f : A -> prog B) (g : B -> prog C) h :
  ((m ≫= f) ≫= g) h = (m ≫= fun a => f a ≫= g) h.
Proof. unfold mbind, prog_bind. by destruct (m h) as [[a|e] h']. Qed.
Lemma pure_ok {A B} (a : A) (f : A -> prog B) h : (pure_ (DOk a) ≫= f) h = f a h.
Proof. done. Qed.
Lemma pure_err {A B} x (f : A -> prog B) h : (pure_ (DErr x) ≫= f) h = (DErr x, h).
Proof. done. Qed.
Lemma make_eq ob h : make ob h = (DOk (fresh (dom h)), <[fresh (dom h) := ob]> h).
Proof. done. Qed.
Lemma store_eq a ob h : store a ob h = (DOk tt, <[a := ob]> h).
Proof. done. Qed.
Lemma load_eq a ob h : h !! a = Some ob -> load a h = (DOk ob, h).
Proof. intros H. unfold load. by rewrite H. Qed.

Section loads.
Context (h : gheap) (a : addr).
Lemma load_conf_eq c : h !! a = Some (GConf c) -> load_conf a h = (DOk c, h).
Proof. intros H. unfold load_conf. by rewrite (pbind_ok _ _ _ _ _ (load_eq _ _ _ H)). Qed.
Lemma load_agent_eq s c p t : h !! a = Some (GAgent s c p t) -> load_agent a h = (DOk (s, c, p, t), h).
Proof. intros H. unfold load_agent. by rewrite (pbind_ok _ _ _ _ _ (load_eq _ _ _ H)). Qed.
Lemma load_agents_eq l : h !! a = Some (GAgents l) -> load_agents a h = (DOk l, h).
Proof. intros H. unfold load_agents. by rewrite (pbind_ok _ _ _ _ _ (load_eq _ _ _ H)). Qed.
Lemma load_column_eq l : h !! a = Some (GColumn l) -> load_column a h = (DOk l, h).
Proof. intros H. unfold load_column. by rewrite (pbind_ok _ _ _ _ _ (load_eq _ _ _ H)). Qed.
Lemma load_columns_eq l : h !! a = Some (GColumns l) -> load_columns a h = (DOk l, h).
Proof. intros H. unfold load_columns. by rewrite (pbind_ok _ _ _ _ _ (load_eq _ _ _ H)). Qed.
Lemma load_grid_eq w k d : h !! a = Some (GGrid w k d) -> load_grid a h = (DOk (w, k, d), h).
Proof. intros H. unfold load_grid. by rewrite (pbind_ok _ _ _ _ _ (load_eq _ _ _ H)). Qed.
Lemma load_cells_eq l : h !! a = Some (GCells l) -> load_cells a h = (DOk l, h).
Proof. intros H. unfold load_cells. by rewrite (pbind_ok _ _ _ _ _ (load_eq _ _ _ H)). Qed.
Lemma load_eaten_eq l : h !! a = Some (GEaten l) -> load_eaten a h = (DOk l, h).
Proof. intros H. unfold load_eaten. by rewrite (pbind_ok _ _ _ _ _ (load_eq _ _ _ H)). Qed.
Lemma load_data_eq sd : h !! a = Some (GData sd) -> load_data a h = (DOk sd, h).
Proof. intros H. unfold load_data. by rewrite (pbind_ok _ _ _ _ _ (load_eq _ _ _ H)). Qed.
Lemma set_data_eq sd f : h !! a = Some (GData sd) -> set_data a f h = (DOk tt, <[a := GData (f sd)]> h).
Proof. intros H. unfold set_data. by rewrite (pbind_ok _ _ _ _ _ (load_data_eq _ H)). Qed.
End loads.

(** ** Reading grows with the heap *)
Lemma lk_sub (h h' : gheap) a ob : h ⊆ h' -> h !! a = Some ob -> h' !! a = Some ob.
Proof. intros H Ha. by eapply lookup_weaken. Qed.
Lemma reads_agent_sub h h' a x : h ⊆ h' -> reads_agent h a x -> reads_agent h' a x.
Proof. intros Hs (s & c & H1 & H2 & H3). exists s, c. repeat split; by eapply lk_sub. Qed.
Lemma reads_column_sub h h' a x : h ⊆ h' -> reads_column h a x -> reads_column h' a x.
Proof. apply lk_sub. Qed.
Lemma reads_grid_sub h h' a g : h ⊆ h' -> reads_grid h a g -> reads_grid h' a g.
Proof.
  intros Hs (d & cols & H1 & H2 & H3). exists d, cols. split; [by eapply lk_sub|]. split; [by eapply lk_sub|].
  eapply Forall2_impl; [done|]. intros. by eapply reads_column_sub.
Qed.
Lemma reads_state_sub h h' a s : h ⊆ h' -> reads_state h a s -> reads_state h' a s.
Proof.
  intros Hs (fo & ca & aa & e & ags & H1 & H2 & H3 & H4 & H5 & H6). exists fo, ca, aa, e, ags.
  repeat split; eauto using lk_sub, reads_grid_sub. eapply Forall2_impl; [done|]. intros. by eapply reads_agent_sub.
Qed.

Lemma fresh_none (h : gheap) : h !! fresh (dom h) = None.
Proof. apply not_elem_of_dom, is_fresh. Qed.
Lemma fresh_sub (h : gheap) ob : h ⊆ <[fresh (dom h) := ob]> h.
Proof. apply insert_subseteq, fresh_none. Qed.

Lemma none_sub (h h' : gheap) a : h ⊆ h' -> h' !! a = None -> h !! a = None.
Proof. intros S H. destruct (h !! a) eqn:E; [|done]. by rewrite (lk_sub _ _ _ _ S E) in H. Qed.

(** ** Making many objects *)
Lemma map_prog_make {A B} (R : gheap -> A -> B -> Prop) (R' : gheap -> addr -> B -> Prop) (f : A -> prog addr) :
  (forall h h' a b, h ⊆ h' -> R h a b -> R h' a b) -> (forall h h' a b, h ⊆ h' -> R' h a b -> R' h' a b) ->
  (forall h a b, R h a b -> exists x h', f a h = (DOk x, h') /\ h ⊆ h' /\ h !! x = None /\ is_Some (h' !! x) /\ R' h' x b) ->
  forall l k h, Forall2 (R h) l k ->
  exists xs h', map_prog f l h = (DOk xs, h') /\ h ⊆ h' /\ NoDup xs /\ Forall (fun x => h !! x = None /\ is_Some (h' !! x)) xs /\ Forall2 (R' h') xs k.
Proof.
  intros HR HR' Hf l. induction l as [|a l IH]; intros k h Hl.
  - apply Forall2_nil_inv_l in Hl as ->. exists [], h. split; [done|]. split; [done|]. split; [constructor|]. split; constructor.
  - apply Forall2_cons_inv_l in Hl as (b & k' & Hab & Hl & ->).
    destruct (Hf h a b Hab) as (x & h1 & E1 & S1 & N1 & D1 & R1).
    destruct (IH k' h1) as (xs & h2 & E2 & S2 & ND & F2 & R2).
    { eapply Forall2_impl; [done|]. intros. by eapply HR. }
    exists (x :: xs), h2. cbn [map_prog]. rewrite (pbind_ok _ _ _ _ _ E1), (pbind_ok _ _ _ _ _ E2).
    split; [done|]. split; [by etrans|]. split; [|split].
    + constructor; [|done]. intros Hin. rewrite Forall_forall in F2. destruct (F2 x Hin) as [Hn _].
      destruct D1 as [ob Hob]. congruence.
    + constructor.
      * split; [done|]. destruct D1 as [ob Hob]. exists ob. by eapply lk_sub.
      * eapply Forall_impl; [exact F2|]. intros y [Hy Hs]. split; [|done].
        destruct (h !! y) eqn:Hh; [|done]. by rewrite (lk_sub _ _ _ _ S1 Hh) in Hy.
    + constructor; [by eapply HR'|done].
Qed.

Lemma copy_agent_eq h a x : reads_agent h a x ->
  copy_agent a h = make (GAgent (match h !! a with Some (GAgent s _ _ _) => s | _ => 0%nat end)
                           (match h !! a with Some (GAgent _ c _ _) => c | _ => 0%nat end) (a_pacman x) (a_scared x)) h.
Proof.
  intros (s & c & H & _). unfold copy_agent. rewrite (pbind_ok _ _ _ _ _ (load_agent_eq _ _ _ _ _ _ H)). by rewrite H.
Qed.
Lemma copy_agent_step h a x : reads_agent h a x ->
  exists n h', copy_agent a h = (DOk n, h') /\ h ⊆ h' /\ h !! n = None /\ is_Some (h' !! n) /\ reads_agent h' n x.
Proof.
  intros H. rewrite (copy_agent_eq _ _ _ H). destruct H as (s & c & H1 & H2 & H3). rewrite H1, make_eq. eexists _, _. split; [done|].
  split; [apply fresh_sub|]. split; [apply fresh_none|]. split; [rewrite lookup_insert; eauto|].
  exists s, c. rewrite lookup_insert. split; [done|]. split; eapply lk_sub; try apply fresh_sub; done.
Qed.
Lemma copy_column_step h a l : reads_column h a l ->
  exists n h', (col ← load_column a; make (GColumn col)) h = (DOk n, h') /\ h ⊆ h' /\ h !! n = None /\ is_Some (h' !! n) /\ reads_column h' n l.
Proof.
  intros H. rewrite (pbind_ok _ _ _ _ _ (load_column_eq _ _ _ H)), make_eq. eexists _, _. split; [done|].
  split; [apply fresh_sub|]. split; [apply fresh_none|]. split; [rewrite lookup_insert; eauto|]. apply lookup_insert.
Qed.

(** A grid whose columns are not in [h0]. *)
Definition own_grid (h0 h : gheap) (a : addr) (g : grid) : Prop :=
  exists d cols, h !! a = Some (GGrid (gr_width g) (gr_height g) d) /\ h !! d = Some (GColumns cols) /\
    Forall2 (reads_column h) cols (gr_data g) /\ NoDup cols /\ Forall (fun c => h0 !! c = None) cols.
Lemma own_reads h0 h a g : own_grid h0 h a g -> reads_grid h a g.
Proof. intros (d & cols & H1 & H2 & H3 & _). by exists d, cols. Qed.

Lemma copy_grid_eq h a g : reads_grid h a g ->
  exists n h', copy_grid a h = (DOk n, h') /\ h ⊆ h' /\ h !! n = None /\ own_grid h h' n g.
Proof.
  intros (d & cols & H1 & H2 & H3). unfold copy_grid.
  rewrite (pbind_ok _ _ _ _ _ (load_grid_eq _ _ _ _ _ H1)).
  rewrite (pbind_ok _ _ _ _ _ (load_columns_eq _ _ _ H2)).
  destruct (map_prog_make reads_column reads_column (fun c => col ← load_column c; make (GColumn col))
              reads_column_sub reads_column_sub copy_column_step cols (gr_data g) h H3)
    as (xs & h1 & E1 & S1 & ND & F1 & R1).
  rewrite (pbind_ok _ _ _ _ _ E1), (pbind_ok _ _ _ _ _ (make_eq _ _)), make_eq.
  set (h2 := <[fresh (dom h1) := GColumns xs]> h1). assert (S2 : h1 ⊆ h2) by apply fresh_sub.
  eexists _, _. split; [done|]. assert (S3 : h2 ⊆ <[fresh (dom h2) := GGrid (gr_width g) (gr_height g) (fresh (dom h1))]> h2) by apply fresh_sub.
  split; [by etrans; [|etrans]|]. split.
  { apply (none_sub h h2); [by etrans|apply fresh_none]. }
  exists (fresh (dom h1)), xs. rewrite lookup_insert. split; [done|]. split; [eapply lk_sub; [exact S3|]; apply lookup_insert|].
  split; [|split; [done|]].
  - eapply Forall2_impl; [exact R1|]. intros. eapply reads_column_sub; [|done]. by etrans.
  - eapply Forall_impl; [exact F1|]. by intros x [? _].
Qed.

(** ** The state that is being made *)
Definition sd_of (s : gstate) (fo ca aa e : addr) : sdata :=
  SData (g_walls s) fo ca aa e (g_score s) (g_change s) (g_win s) (g_lose s) (g_food_eaten s) (g_capsule_eaten s) (g_moved s).

Record inv (h0 : gheap) (e : addr) (h : gheap) (n : addr) (s : gstate) (fo ca aa : addr) (ags : list addr) : Prop := {
  i_data : h !! n = Some (GData (sd_of s fo ca aa e));
  i_new : h0 !! n = None;
  i_food : reads_grid h fo (g_food s);
  i_caps : h !! ca = Some (GCells (g_capsules s));
  i_caps_new : h0 !! ca = None;
  i_ags : h !! aa = Some (GAgents ags);
  i_reads : Forall2 (reads_agent h) ags (g_agents s);
  i_nodup : NoDup ags;
  i_ags_new : Forall (fun x => h0 !! x = None) ags;
  i_old : <[e := GEaten (g_eaten s)]> h0 ⊆ h
}.
Definition calm (h0 : gheap) (e : addr) (s : gstate) : Prop := h0 !! e = None \/ h0 !! e = Some (GEaten (g_eaten s)).

Lemma inv_eaten h0 e h n s fo ca aa ags : inv h0 e h n s fo ca aa ags -> h !! e = Some (GEaten (g_eaten s)).
Proof. intros I. eapply lk_sub; [apply (i_old _ _ _ _ _ _ _ _ _ I)|]. apply lookup_insert. Qed.
Lemma calm_sub h0 e h n s fo ca aa ags : inv h0 e h n s fo ca aa ags -> calm h0 e s -> h0 ⊆ h.
Proof.
  intros I [C|C]; (etrans; [|apply (i_old _ _ _ _ _ _ _ _ _ I)]).
  - by apply insert_subseteq.
  - by rewrite insert_id.
Qed.
Lemma inv_reads h0 e h n s fo ca aa ags : inv h0 e h n s fo ca aa ags -> reads_state h n s.
Proof. intros I. pose proof (inv_eaten _ _ _ _ _ _ _ _ _ I). destruct I. exists fo, ca, aa, e, ags. done. Qed.

Lemma inv_sub h0 e h h' n s fo ca aa ags : h ⊆ h' -> inv h0 e h n s fo ca aa ags -> inv h0 e h' n s fo ca aa ags.
Proof.
  intros S []. split; eauto using lk_sub, reads_grid_sub.
  - eapply Forall2_impl; [done|]. intros. by eapply reads_agent_sub.
  - by etrans.
Qed.

(** Writing an object that is neither an agent nor a configuration. *)
Lemma reads_agent_other h x ob a y :
  match h !! x with Some (GAgent _ _ _ _) | Some (GConf _) => False | _ => True end -> reads_agent h a y -> reads_agent (<[x := ob]> h) a y.
Proof.
  intros Hx (s & c & H1 & H2 & H3). exists s, c. rewrite !lookup_insert_ne; [done|intros -> ..];
    repeat match goal with H : h !! _ = Some _ |- _ => rewrite H in Hx end; done.
Qed.
Lemma reads_grid_other h x ob a g :
  match h !! x with Some (GGrid _ _ _) | Some (GColumns _) | Some (GColumn _) => False | _ => True end ->
  reads_grid h a g -> reads_grid (<[x := ob]> h) a g.
Proof.
  intros Hx (d & cols & H1 & H2 & H3). exists d, cols. rewrite !lookup_insert_ne.
  - split; [done|]. split; [done|]. eapply Forall2_impl; [exact H3|]. intros c l Hc. unfold reads_column in *.
    rewrite lookup_insert_ne; [done|]. intros ->. by rewrite Hc in Hx.
  - intros ->. by rewrite H2 in Hx.
  - intros ->. by rewrite H1 in Hx.
Qed.
Lemma old_other (h0 : gheap) e l x ob h : h0 !! x = None -> x <> e -> <[e := GEaten l]> h0 ⊆ h -> <[e := GEaten l]> h0 ⊆ <[x := ob]> h.
Proof.
  intros Hx Hne S. apply map_subseteq_spec. intros y oy Hy. rewrite lookup_insert_ne; [by eapply lk_sub|].
  intros ->. rewrite lookup_insert_ne in Hy by done. congruence.
Qed.

Definition with_ags (s : gstate) (l : list astate) : gstate :=
  GState (g_walls s) (g_food s) (g_capsules s) l (g_eaten s) (g_score s) (g_change s) (g_win s) (g_lose s)
    (g_food_eaten s) (g_capsule_eaten s) (g_moved s).
Definition with_caps (s : gstate) (l : list (Z * Z)) : gstate :=
  GState (g_walls s) (g_food s) l (g_agents s) (g_eaten s) (g_score s) (g_change s) (g_win s) (g_lose s)
    (g_food_eaten s) (g_capsule_eaten s) (g_moved s).
Definition with_flags (s : gstate) (l : list bool) : gstate :=
  GState (g_walls s) (g_food s) (g_capsules s) (g_agents s) l (g_score s) (g_change s) (g_win s) (g_lose s)
    (g_food_eaten s) (g_capsule_eaten s) (g_moved s).
Definition with_grid (s : gstate) (g : grid) : gstate :=
  GState (g_walls s) g (g_capsules s) (g_agents s) (g_eaten s) (g_score s) (g_change s) (g_win s) (g_lose s)
    (g_food_eaten s) (g_capsule_eaten s) (g_moved s).

(** ** Writes *)
Lemma inv_data h0 e h n s fo ca aa ags s' fo' :
  inv h0 e h n s fo ca aa ags -> reads_grid h fo' (g_food s') -> g_capsules s' = g_capsules s -> g_agents s' = g_agents s ->
  g_eaten s' = g_eaten s -> inv h0 e (<[n := GData (sd_of s' fo' ca aa e)]> h) n s' fo' ca aa ags.
Proof.
  intros I Hf Hc Ha He. pose proof (inv_eaten _ _ _ _ _ _ _ _ _ I) as Ie. destruct I. split.
  - apply lookup_insert.
  - done.
  - apply reads_grid_other; [by rewrite i_data0|done].
  - rewrite lookup_insert_ne by (intros ->; congruence). by rewrite Hc.
  - done.
  - rewrite lookup_insert_ne by (intros ->; congruence). done.
  - rewrite Ha. eapply Forall2_impl; [done|]. intros. apply reads_agent_other; [by rewrite i_data0|done].
  - done.
  - done.
  - rewrite He. apply old_other; [done| |done]. intros ->. congruence.
Qed.
Lemma inv_set h0 e h n s fo ca aa ags s' f :
  inv h0 e h n s fo ca aa ags -> f (sd_of s fo ca aa e) = sd_of s' fo ca aa e -> g_food s' = g_food s -> g_capsules s' = g_capsules s ->
  g_agents s' = g_agents s -> g_eaten s' = g_eaten s ->
  exists h', set_data n f h = (DOk tt, h') /\ inv h0 e h' n s' fo ca aa ags.
Proof.
  intros I Hs Hf Hc Ha He. rewrite (set_data_eq _ _ _ f (i_data _ _ _ _ _ _ _ _ _ I)), Hs. eexists. split; [done|].
  eapply inv_data; try done. rewrite Hf. apply (i_food _ _ _ _ _ _ _ _ _ I).
Qed.
Lemma inv_caps h0 e h n s fo ca aa ags l :
  inv h0 e h n s fo ca aa ags -> inv h0 e (<[ca := GCells l]> h) n (with_caps s l) fo ca aa ags.
Proof.
  intros I. pose proof (inv_eaten _ _ _ _ _ _ _ _ _ I) as Ie. destruct I. split.
  - rewrite lookup_insert_ne by (intros ->; congruence). done.
  - done.
  - apply reads_grid_other; [by rewrite i_caps0|done].
  - apply lookup_insert.
  - done.
  - rewrite lookup_insert_ne by (intros ->; congruence). done.
  - eapply Forall2_impl; [done|]. intros. apply reads_agent_other; [by rewrite i_caps0|done].
  - done.
  - done.
  - apply old_other; [done| |done]. intros ->. congruence.
Qed.
Lemma inv_flags h0 e h n s fo ca aa ags l :
  inv h0 e h n s fo ca aa ags -> inv h0 e (<[e := GEaten l]> h) n (with_flags s l) fo ca aa ags.
Proof.
  intros I. pose proof (inv_eaten _ _ _ _ _ _ _ _ _ I) as Ie. destruct I. split.
  - rewrite lookup_insert_ne by (intros ->; congruence). done.
  - done.
  - apply reads_grid_other; [by rewrite Ie|done].
  - rewrite lookup_insert_ne by (intros ->; congruence). done.
  - done.
  - rewrite lookup_insert_ne by (intros ->; congruence). done.
  - eapply Forall2_impl; [done|]. intros. apply reads_agent_other; [by rewrite Ie|done].
  - done.
  - done.
  - cbn [with_flags g_eaten]. apply map_subseteq_spec. intros y oy. destruct (decide (y = e)) as [->|Hne].
    + by rewrite !lookup_insert.
    + intros Hy. rewrite lookup_insert_ne in Hy by done. rewrite lookup_insert_ne by done. eapply lk_sub; [exact i_old0|].
      by rewrite lookup_insert_ne.
Qed.
Lemma inv_agent h0 e h n s fo ca aa ags k x y a c :
  inv h0 e h n s fo ca aa ags -> ags !! k = Some x -> h !! a = Some (GConf (a_start y)) -> h !! c = Some (GConf (a_conf y)) ->
  inv h0 e (<[x := GAgent a c (a_pacman y) (a_scared y)]> h) n (with_ags s (<[k := y]> (g_agents s))) fo ca aa ags.
Proof.
  intros I Hk Ha Hc. pose proof (inv_eaten _ _ _ _ _ _ _ _ _ I) as Ie. destruct I.
  destruct (Forall2_lookup_l _ _ _ _ _ i_reads0 Hk) as (y0 & Hy0 & sx & cx & Hx & Hsx & Hcx).
  assert (Hnew : h0 !! x = None) by (rewrite Forall_forall in i_ags_new0; apply i_ags_new0; by eapply elem_of_list_lookup_2).
  split.
  - rewrite lookup_insert_ne by (intros ->; congruence). done.
  - done.
  - apply reads_grid_other; [by rewrite Hx|done].
  - rewrite lookup_insert_ne by (intros ->; congruence). done.
  - done.
  - rewrite lookup_insert_ne by (intros ->; congruence). done.
  - cbn [with_ags g_agents]. apply Forall2_same_length_lookup. split.
    { rewrite insert_length. by eapply Forall2_length. }
    intros j xj yj Hxj Hyj. destruct (decide (j = k)) as [->|Hjk].
    + rewrite list_lookup_insert in Hyj by (by eapply lookup_lt_Some). injection Hyj as <-.
      assert (xj = x) as -> by congruence. exists a, c. rewrite lookup_insert, !lookup_insert_ne by (intros ->; congruence). done.
    + rewrite list_lookup_insert_ne in Hyj by done.
      destruct (Forall2_lookup_lr _ _ _ _ _ _ i_reads0 Hxj Hyj) as (sj & cj & H1 & H2 & H3).
      assert (xj <> x) by (intros ->; apply Hjk; by eapply NoDup_lookup).
      exists sj, cj. rewrite !lookup_insert_ne by (intros ->; congruence). done.
  - done.
  - done.
  - apply old_other; [done| |done]. intros ->. congruence.
Qed.

(** ** Reading the state that is being made *)
Lemma get_sim {A B} (R : A -> B -> Prop) l1 l2 i : Forall2 R l1 l2 ->
  match py_index l2 i with
  | Some k => exists a b, l1 !! k = Some a /\ l2 !! k = Some b /\ py_get l1 i = DOk a /\ py_get l2 i = DOk b /\ R a b
  | None => py_get l1 i = DErr DIndexError /\ py_get l2 i = DErr DIndexError
  end.
Proof.
  intros F. pose proof (Forall2_length _ _ _ F) as L. unfold py_get.
  assert (py_index l1 i = py_index l2 i) as -> by (unfold py_index; by rewrite L).
  destruct (py_index l2 i) as [k|] eqn:E; [|done].
  assert (Hk : (k < length l2)%nat).
  { unfold py_index in E. destruct ((0 <=? _) && _) eqn:Eb; [|done]. injection E as <-. apply andb_true_iff in Eb as [H1%Z.leb_le H2%Z.ltb_lt]. lia. }
  destruct (lookup_lt_is_Some_2 _ _ Hk) as [b Hb]. destruct (Forall2_lookup_r _ _ _ _ _ F Hb) as (a & Ha & Hab).
  exists a, b. rewrite Ha, Hb. done.
Qed.

Lemma py_set_eq {A} (l : list A) i k a : py_index l i = Some k -> py_set l i a = DOk (<[k := a]> l).
Proof. intros H. unfold py_set. by rewrite H. Qed.

Section reading.
Context (h0 h : gheap) (e n : addr) (s : gstate) (fo ca aa : addr) (ags : list addr).
Hypothesis I : inv h0 e h n s fo ca aa ags.
Lemma data_eq : load_data n h = (DOk (sd_of s fo ca aa e), h).
Proof. apply load_data_eq, I. Qed.
Lemma agents_of_eq : agents_of n h = (DOk ags, h).
Proof. unfold agents_of. rewrite (pbind_ok _ _ _ _ _ data_eq). apply load_agents_eq, I. Qed.
Lemma agent_at_eq i : agent_at n i h = (py_get ags i, h).
Proof. unfold agent_at. by rewrite (pbind_ok _ _ _ _ _ agents_of_eq). Qed.
End reading.
Lemma conf_of_eq h x y : reads_agent h x y -> conf_of x h = (DOk (a_conf y), h).
Proof. intros (s & c & H1 & H2 & H3). unfold conf_of. rewrite (pbind_ok _ _ _ _ _ (load_agent_eq _ _ _ _ _ _ H1)). by apply load_conf_eq. Qed.

(** ** Simulation: the same result, or the same exception with the old objects unchanged *)
Definition sim {A B} (h0 : gheap) (Q : A -> B -> gheap -> Prop) (m : dres A * gheap) (r : dres B) : Prop :=
  match m, r with
  | (DOk a, h), DOk b => Q a b h
  | (DErr x, h), DErr y => x = y /\ h0 ⊆ h
  | _, _ => False
  end.
Lemma sim_bind {A B C D} h0 (Q : A -> B -> gheap -> Prop) (Q' : C -> D -> gheap -> Prop) (m : prog A) (f : A -> prog C) h r g :
  sim h0 Q (m h) r -> (forall a b h', Q a b h' -> sim h0 Q' (f a h') (g b)) -> sim h0 Q' ((m ≫= f) h) (r ≫= g).
Proof.
  intros Hm Hf. unfold mbind, prog_bind, dres_bind. destruct (m h) as [[a|x] h'], r as [b|y]; try done. by apply Hf.
Qed.

(** The state has the given value, or its invariant holds with some addresses. *)
Definition good (h0 : gheap) (e n : addr) (s : gstate) (h : gheap) : Prop := exists fo ca aa ags, inv h0 e h n s fo ca aa ags.

Lemma collide_sim h0 e h n s fo ca aa ags i k x y :
  inv h0 e h n s fo ca aa ags -> calm h0 e s -> py_index (g_agents s) i = Some k -> ags !! k = Some x -> g_agents s !! k = Some y ->
  sim h0 (fun _ s' => good h0 e n s') (collide_h n x i h) (collide s i y).
Proof.
  intros I C Ei Hx Hy. destruct (Forall2_lookup_lr _ _ _ _ _ _ (i_reads _ _ _ _ _ _ _ _ _ I) Hx Hy) as (sx & cx & H1 & H2 & H3).
  unfold collide_h, collide. rewrite (pbind_ok _ _ _ _ _ (load_agent_eq _ _ _ _ _ _ H1)).
  destruct (0 <? a_scared y).
  - destruct (inv_set _ _ _ _ _ _ _ _ _ (add_change s 200) (more_change 200) I) as (h1 & E1 & I1); [done..|].
    rewrite (pbind_ok _ _ _ _ _ E1), (pbind_ok _ _ _ _ _ (store_eq _ _ _)).
    assert (H2' : h1 !! sx = Some (GConf (a_start y))).
    { rewrite (set_data_eq _ _ _ _ (i_data _ _ _ _ _ _ _ _ _ I)) in E1. injection E1 as <-.
      rewrite lookup_insert_ne; [done|]. intros ->. pose proof (i_data _ _ _ _ _ _ _ _ _ I). congruence. }
    pose proof (inv_agent _ _ _ _ _ _ _ _ _ k x (AState (a_start y) (a_start y) (a_pacman y) 0) sx sx I1 Hx H2' H2') as I2.
    cbn [a_pacman a_scared] in I2. unfold set_agent. cbn [add_change g_agents]. rewrite (py_set_eq _ _ _ _ Ei).
    cbn [mbind dres_bind]. rewrite (pbind_ok _ _ _ _ _ (data_eq _ _ _ _ _ _ _ _ _ I2)).
    rewrite (pbind_ok _ _ _ _ _ (load_eaten_eq _ _ _ (inv_eaten _ _ _ _ _ _ _ _ _ I2))).
    cbn [with_ags add_change g_eaten g_agents sd_of sd_eaten g_walls g_food g_capsules g_score g_change g_win g_lose g_food_eaten g_capsule_eaten g_moved].
    destruct (py_set (g_eaten s) i true) as [l'|er] eqn:El.
    + rewrite pure_ok. cbn [mbind dres_bind sim store].
      pose proof (inv_flags _ _ _ _ _ _ _ _ _ l' I2) as I3. exists fo, ca, aa, ags. exact I3.
    + rewrite pure_err. cbn [mbind dres_bind sim]. split; [done|].
      eapply calm_sub; [exact I2|]. exact C.
  - rewrite (pbind_ok _ _ _ _ _ (data_eq _ _ _ _ _ _ _ _ _ I)). cbn [sd_of sd_win]. destruct (g_win s) eqn:Ew.
    + by exists fo, ca, aa, ags.
    + destruct (inv_set _ _ _ _ _ _ _ _ _ (add_change s (-500)) (more_change (-500)) I) as (h1 & E1 & I1); [done..|].
      rewrite (pbind_ok _ _ _ _ _ E1).
      destruct (inv_set _ _ _ _ _ _ _ _ _ (GState (g_walls s) (g_food s) (g_capsules s) (g_agents s) (g_eaten s) (g_score s) (g_change s - 500) (g_win s) true
              (g_food_eaten s) (g_capsule_eaten s) (g_moved s)) with_lose I1) as (h2 & E2 & I2); [done..|].
      rewrite E2, <-Ew. by exists fo, ca, aa, ags.
Qed.

Lemma check_ghost_sim h0 e h n s pac i :
  good h0 e n s h -> calm h0 e s -> sim h0 (fun _ s' => good h0 e n s') (check_ghost_h n pac i h) (check_ghost pac s i).
Proof.
  intros (fo & ca & aa & ags & I) C. unfold check_ghost_h, check_ghost.
  pose proof (agent_at_eq _ _ _ _ _ _ _ _ _ I i) as Ea.
  pose proof (get_sim _ _ _ i (i_reads _ _ _ _ _ _ _ _ _ I)) as G. destruct (py_index (g_agents s) i) as [k|] eqn:Ei.
  - destruct G as (x & y & Hx & Hy & Gx & Gy & Hr). rewrite Gx in Ea. rewrite Gy. rewrite (pbind_ok _ _ _ _ _ Ea). cbn [mbind dres_bind].
    rewrite (pbind_ok _ _ _ _ _ (conf_of_eq _ _ _ Hr)). destruct (can_kill _ _).
    + by eapply collide_sim.
    + by exists fo, ca, aa, ags.
  - destruct G as [Gx Gy]. rewrite Gx in Ea. rewrite Gy, (pbind_err _ _ _ _ _ Ea). split; [done|]. by eapply calm_sub.
Qed.

Lemma check_loop_sim h0 e n pac l : h0 !! e = None -> forall h s, good h0 e n s h ->
  sim h0 (fun _ s' => good h0 e n s') (each (check_ghost_h n pac) l h) (for_each (check_ghost pac) s l).
Proof.
  intros He. induction l as [|i l IH]; intros h s G; [done|]. cbn [each for_each]. eapply sim_bind; [apply check_ghost_sim; [done|by left]|].
  intros ? s' h' G'. by apply IH.
Qed.

Lemma check_death_sim h0 e h n s i :
  good h0 e n s h -> (if i =? 0 then h0 !! e = None else calm h0 e s) ->
  sim h0 (fun _ s' => good h0 e n s') (check_death_h n i h) (check_death s i).
Proof.
  intros G C. assert (C' : calm h0 e s) by (destruct (i =? 0); [by left|done]).
  destruct G as (fo & ca & aa & ags & I). unfold check_death_h, check_death.
  pose proof (agent_at_eq _ _ _ _ _ _ _ _ _ I 0) as Ea. pose proof (get_sim _ _ _ 0 (i_reads _ _ _ _ _ _ _ _ _ I)) as G.
  destruct (py_index (g_agents s) 0) as [k|] eqn:Ei.
  - destruct G as (x & y & Hx & Hy & Gx & Gy & Hr). rewrite Gx in Ea. rewrite Gy. rewrite (pbind_ok _ _ _ _ _ Ea). cbn [mbind dres_bind].
    rewrite (pbind_ok _ _ _ _ _ (conf_of_eq _ _ _ Hr)). destruct (i =? 0).
    + rewrite (pbind_ok _ _ _ _ _ (agents_of_eq _ _ _ _ _ _ _ _ _ I)), (Forall2_length _ _ _ (i_reads _ _ _ _ _ _ _ _ _ I)).
      apply check_loop_sim; [done|]. by exists fo, ca, aa, ags.
    + apply check_ghost_sim; [|done]. by exists fo, ca, aa, ags.
  - destruct G as [Gx Gy]. rewrite Gx in Ea. rewrite Gy, (pbind_err _ _ _ _ _ Ea). split; [done|]. by eapply calm_sub.
Qed.

(** ** Grids *)
Lemma load_columns_all h cols data : Forall2 (reads_column h) cols data -> map_prog load_column cols h = (DOk data, h).
Proof.
  revert data. induction cols as [|c cols IH]; intros data F.
  - by apply Forall2_nil_inv_l in F as ->.
  - apply Forall2_cons_inv_l in F as (l & data' & H & F & ->). cbn [map_prog].
    by rewrite (pbind_ok _ _ _ _ _ (load_column_eq _ _ _ H)), (pbind_ok _ _ _ _ _ (IH _ F)).
Qed.
Lemma count_cells_eq h a g : reads_grid h a g -> count_cells a h = (DOk (grid_count g true), h).
Proof.
  intros (d & cols & H1 & H2 & H3). unfold count_cells.
  rewrite (pbind_ok _ _ _ _ _ (load_grid_eq _ _ _ _ _ H1)), (pbind_ok _ _ _ _ _ (load_columns_eq _ _ _ H2)).
  by rewrite (pbind_ok _ _ _ _ _ (load_columns_all _ _ _ H3)).
Qed.
Lemma get_cell_eq h a g x y : reads_grid h a g -> get_cell a x y h = (grid_get g x y, h).
Proof.
  intros (d & cols & H1 & H2 & H3). unfold get_cell, grid_get.
  rewrite (pbind_ok _ _ _ _ _ (load_grid_eq _ _ _ _ _ H1)), (pbind_ok _ _ _ _ _ (load_columns_eq _ _ _ H2)).
  pose proof (get_sim _ _ _ x H3) as G. destruct (py_index (gr_data g) x) as [k|].
  - destruct G as (c & l & Hc & Hl & -> & -> & Hr). rewrite pure_ok. by rewrite (pbind_ok _ _ _ _ _ (load_column_eq _ _ _ Hr)).
  - destruct G as [-> ->]. done.
Qed.

(** Writing a cell of a grid with own columns *)
Lemma set_cell_sim h0 e h n s fo ca aa ags x y b :
  inv h0 e h n s fo ca aa ags -> calm h0 e s -> own_grid h0 h fo (g_food s) ->
  sim h0 (fun _ g' h' => inv h0 e h' n (with_grid s g') fo ca aa ags) (set_cell fo x y b h) (grid_set (g_food s) x y b).
Proof.
  intros I C (d & cols & H1 & H2 & H3 & ND & Hnew). unfold set_cell, grid_set.
  rewrite (pbind_ok _ _ _ _ _ (load_grid_eq _ _ _ _ _ H1)), (pbind_ok _ _ _ _ _ (load_columns_eq _ _ _ H2)).
  pose proof (get_sim _ _ _ x H3) as G. destruct (py_index (gr_data (g_food s)) x) as [k|] eqn:Ei.
  2:{ destruct G as [-> ->]. rewrite pure_err. split; [done|]. by eapply calm_sub. }
  destruct G as (c & l & Hc & Hl & -> & -> & Hr). rewrite pure_ok. rewrite (pbind_ok _ _ _ _ _ (load_column_eq _ _ _ Hr)).
  cbn [mbind dres_bind]. destruct (py_set l y b) as [l'|er].
  2:{ rewrite pure_err. split; [done|]. by eapply calm_sub. }
  rewrite pure_ok. cbn [mbind dres_bind]. rewrite (py_set_eq _ _ _ _ Ei). cbn [mbind dres_bind sim store].
  assert (Hn : h0 !! c = None) by (rewrite Forall_forall in Hnew; apply Hnew; by eapply elem_of_list_lookup_2).
  unfold reads_column in Hr. pose proof (inv_eaten _ _ _ _ _ _ _ _ _ I) as Ie. destruct I. split.
  - rewrite lookup_insert_ne by (intros ->; congruence). done.
  - done.
  - exists d, cols. rewrite !lookup_insert_ne by (intros ->; congruence). split; [done|]. split; [done|].
    cbn [with_grid g_food gr_data]. apply Forall2_same_length_lookup. split.
    { rewrite insert_length. by eapply Forall2_length. }
    intros j xj yj Hxj Hyj. unfold reads_column. destruct (decide (j = k)) as [->|Hjk].
    + rewrite list_lookup_insert in Hyj by (by eapply lookup_lt_Some). injection Hyj as <-.
      assert (xj = c) as -> by congruence. apply lookup_insert.
    + rewrite list_lookup_insert_ne in Hyj by done.
      rewrite lookup_insert_ne; [by eapply (Forall2_lookup_lr _ _ _ _ _ _ H3)|]. intros ->. apply Hjk. by eapply NoDup_lookup.
  - rewrite lookup_insert_ne by (intros ->; congruence). done.
  - done.
  - rewrite lookup_insert_ne by (intros ->; congruence). done.
  - eapply Forall2_impl; [done|]. intros. apply reads_agent_other; [by rewrite Hr|done].
  - done.
  - done.
  - apply old_other; [done| |done]. intros ->. congruence.
Qed.

Lemma own_grid_sub h0 h1 h a g : h0 ⊆ h1 -> own_grid h1 h a g -> own_grid h0 h a g.
Proof.
  intros S (d & cols & H1 & H2 & H3 & ND & Hn). exists d, cols. repeat split; [done..|].
  eapply Forall_impl; [exact Hn|]. intros c Hc. by eapply none_sub.
Qed.
Lemma own_grid_other h0 h a g x sd ob : h !! x = Some (GData sd) -> own_grid h0 h a g -> own_grid h0 (<[x := ob]> h) a g.
Proof.
  intros Hx (d & cols & H1 & H2 & H3 & ND & Hn). exists d, cols. rewrite !lookup_insert_ne by (intros ->; congruence).
  repeat split; [done..| |done|done]. eapply Forall2_impl; [exact H3|]. unfold reads_column. intros c l Hc.
  rewrite lookup_insert_ne; [done|]. intros ->. congruence.
Qed.

(** ** Eating *)
Lemma scare_loop h0 e n ks : forall h s fo ca aa ags, inv h0 e h n s fo ca aa ags -> Forall (fun k => (S k < length ags)%nat) ks ->
  exists h', each (fun i => a ← pure_ (py_get ags i); '(s, c, pm, _) ← load_agent a; store a (GAgent s c pm SCARED_TIME))
    ((fun k => 1 + Z.of_nat k) <$> ks) h = (DOk tt, h') /\
    inv h0 e h' n (with_ags s (foldl (fun l k => alter scare (S k) l) (g_agents s) ks)) fo ca aa ags.
Proof.
  induction ks as [|k ks IH]; intros h s fo ca aa ags I F.
  - exists h. split; [done|]. cbn [foldl]. by destruct s.
  - apply Forall_cons_1 in F as [Hk F]. cbn [fmap list_fmap each].
    assert (Hl : (S k < length (g_agents s))%nat) by (by rewrite <-(Forall2_length _ _ _ (i_reads _ _ _ _ _ _ _ _ _ I))).
    pose proof (get_sim _ _ _ (1 + Z.of_nat k) (i_reads _ _ _ _ _ _ _ _ _ I)) as G.
    assert (Ei : py_index (g_agents s) (1 + Z.of_nat k) = Some (S k)).
    { unfold py_index. destruct (Z.ltb_spec (1 + Z.of_nat k) 0); [lia|]. destruct (Z.leb_spec 0 (1 + Z.of_nat k)); [|lia].
      destruct (Z.ltb_spec (1 + Z.of_nat k) (Z.of_nat (length (g_agents s)))); [|lia]. cbn [andb]. f_equal. lia. }
    rewrite Ei in G. destruct G as (x & y & Hx & Hy & Gx & Gy & (a & c & H1 & H2 & H3)).
    rewrite Gx, pbind_assoc, pure_ok, pbind_assoc. rewrite (pbind_ok _ _ _ _ _ (load_agent_eq _ _ _ _ _ _ H1)).
    rewrite (pbind_ok _ _ _ _ _ (store_eq _ _ _)).
    pose proof (inv_agent _ _ _ _ _ _ _ _ _ (S k) x (scare y) a c I Hx H2 H3) as I1. cbn [scare a_pacman a_scared] in I1.
    destruct (IH _ _ _ _ _ _ I1 F) as (h' & E & I'). rewrite E. exists h'. split; [done|]. cbn [foldl].
    assert (alter scare (S k) (g_agents s) = <[S k := scare y]> (g_agents s)) as ->.
    { rewrite (list_alter_insert _ _ _ _ Hy) || idtac. apply list_eq. intros j. destruct (decide (j = S k)) as [->|Hj].
      - rewrite list_lookup_alter, list_lookup_insert by done. by rewrite Hy.
      - by rewrite list_lookup_alter_ne, list_lookup_insert_ne. }
    exact I'.
Qed.
Lemma scare_all l : foldl (fun l k => alter scare (S k) l) l (seq 0 (length l - 1)) = match l with a :: l => a :: (scare <$> l) | [] => [] end.
Proof.
  destruct l as [|a l]; [done|]. replace (length (a :: l) - 1)%nat with (length l) by (cbn; lia).
  assert (G : forall ks (x : astate) m, foldl (fun l k => alter scare (S k) l) (x :: m) ks = x :: foldl (fun l k => alter scare k l) m ks).
  { induction ks as [|k ks IH]; intros x m; [done|]. cbn [foldl]. apply IH. }
  rewrite G. f_equal.
  assert (G2 : forall ks (m : list astate), foldl (fun l k => alter scare (S k) l) m (ks) = foldl (fun l k => alter scare k l) m (S <$> ks)).
  { induction ks as [|k ks IH]; intros m; [done|]. cbn [foldl fmap list_fmap]. apply IH. }
  clear G. induction l as [|b l IH]; [done|]. cbn [length seq foldl]. rewrite <-fmap_S_seq, <-G2.
  assert (G : forall ks (x : astate) m, foldl (fun l k => alter scare (S k) l) (x :: m) ks = x :: foldl (fun l k => alter scare k l) m ks).
  { induction ks as [|k ks IH']; intros x m; [done|]. cbn [foldl]. apply IH'. }
  change (alter scare 0%nat (b :: l)) with (scare b :: l). rewrite G, IH. done.
Qed.

Lemma consume_sim h0 e h n s p : good h0 e n s h -> h0 !! e = None -> sim h0 (fun _ s' => good h0 e n s') (consume_h n p h) (consume s p).
Proof.
  intros (fo & ca & aa & ags & I) He. assert (C : forall s, calm h0 e s) by (intros; by left).
  unfold consume_h, consume. rewrite (pbind_ok _ _ _ _ _ (data_eq _ _ _ _ _ _ _ _ _ I)). cbn [sd_of sd_food sd_capsules sd_lose].
  pose proof (get_cell_eq _ _ _ p.1 p.2 (i_food _ _ _ _ _ _ _ _ _ I)) as Eb.
  unfold eat_food. destruct (grid_get (g_food s) p.1 p.2) as [b|er] eqn:Eg.
  2:{ rewrite (pbind_err _ _ _ _ _ Eb). split; [done|]. by eapply calm_sub. }
  rewrite (pbind_ok _ _ _ _ _ Eb). cbn [mbind dres_bind].
  apply (sim_bind h0 (fun _ s' h' => exists fo', inv h0 e h' n s' fo' ca aa ags /\ g_capsules s' = g_capsules s)).
  - destruct b; [|by exists fo].
    destruct (inv_set _ _ _ _ _ _ _ _ _ (add_change s 10) (more_change 10) I) as (h1 & E1 & I1); [done..|].
    rewrite (pbind_ok _ _ _ _ _ E1).
    destruct (copy_grid_eq _ _ _ (i_food _ _ _ _ _ _ _ _ _ I1)) as (fo' & h2 & E2 & S2 & N2 & O2).
    rewrite (pbind_ok _ _ _ _ _ E2). pose proof (inv_sub _ _ _ _ _ _ _ _ _ _ S2 I1) as I2.
    pose proof (set_data_eq _ _ _ (with_food fo') (i_data _ _ _ _ _ _ _ _ _ I2)) as E3. rewrite (pbind_ok _ _ _ _ _ E3).
    pose proof (inv_data _ _ _ _ _ _ _ _ _ (add_change s 10) fo' I2 (own_reads _ _ _ _ O2) eq_refl eq_refl eq_refl) as I3.
    assert (O3 : own_grid h0 (<[n := GData (sd_of (add_change s 10) fo' ca aa e)]> h2) fo' (g_food (add_change s 10))).
    { eapply own_grid_other; [apply (i_data _ _ _ _ _ _ _ _ _ I2)|]. eapply own_grid_sub; [|exact O2]. by eapply calm_sub. }
    pose proof (set_cell_sim _ _ _ _ _ _ _ _ _ p.1 p.2 false I3 (C _) O3) as S3.
    change (grid_copy (g_food s)) with (Grid (gr_width (g_food s)) (gr_height (g_food s)) (gr_data (g_food s))).
    change (g_food (add_change s 10)) with (g_food s) in S3.
    replace (Grid (gr_width (g_food s)) (gr_height (g_food s)) (gr_data (g_food s))) with (g_food s) by (by destruct (g_food s)).
    eapply sim_bind; [exact S3|]. intros [] g' h4 I4.
    edestruct (inv_set _ _ _ _ _ _ _ _ _ (GState (g_walls s) g' (g_capsules s) (g_agents s) (g_eaten s) (g_score s)
           (g_change s + 10) (g_win s) (g_lose s) (Some p) (g_capsule_eaten s) (g_moved s))
         (fun sd => with_events (Some p) (sd_capsule_eaten sd) (sd_moved sd) sd) I4) as (h5 & E5 & I5); [reflexivity..|].
    rewrite (pbind_ok _ _ _ _ _ E5). rewrite (pbind_ok _ _ _ _ _ (count_cells_eq _ _ _ (i_food _ _ _ _ _ _ _ _ _ I5))).
    cbn [g_food]. destruct ((grid_count g' true =? 0) && negb (g_lose s)).
    + match type of I5 with inv _ _ _ _ ?s5 _ _ _ _ => destruct (inv_set _ _ _ _ _ _ _ _ _ (add_change s5 500) (more_change 500) I5) as (h6 & E6 & I6); [done..|] end.
        rewrite (pbind_ok _ _ _ _ _ E6).
        edestruct (inv_set _ _ _ _ _ _ _ _ _ (GState (g_walls s) g' (g_capsules s) (g_agents s) (g_eaten s) (g_score s)
           (g_change s + 10 + 500) true (g_lose s) (Some p) (g_capsule_eaten s) (g_moved s)) with_win I6) as (h7 & E7 & I7); [reflexivity..|].
        rewrite E7. exists fo'. by rewrite orb_true_r.
    + exists fo'. by rewrite orb_false_r, Z.add_0_r.
  - clear I h Eb Eg. intros [] s1 h1 (fo' & I & Hc). unfold eat_capsule.
    pose proof (load_cells_eq _ _ _ (i_caps _ _ _ _ _ _ _ _ _ I)) as El. rewrite (pbind_ok _ _ _ _ _ El).
    destruct (bool_decide (p ∈ g_capsules s1)); [|by exists fo', ca, aa, ags].
    rewrite (pbind_ok _ _ _ _ _ (store_eq _ _ _)).
    pose proof (inv_caps _ _ _ _ _ _ _ _ _ (py_remove p (g_capsules s1)) I) as I2.
    edestruct (inv_set _ _ _ _ _ _ _ _ _ (GState (g_walls s1) (g_food s1) (py_remove p (g_capsules s1)) (g_agents s1) (g_eaten s1) (g_score s1)
           (g_change s1) (g_win s1) (g_lose s1) (g_food_eaten s1) (Some p) (g_moved s1))
         (fun sd => with_events (sd_food_eaten sd) (Some p) (sd_moved sd) sd) I2) as (h3 & E3 & I3); [reflexivity..|].
    rewrite (pbind_ok _ _ _ _ _ E3), (pbind_ok _ _ _ _ _ (agents_of_eq _ _ _ _ _ _ _ _ _ I3)).
    unfold range2. replace (Z.to_nat (Z.of_nat (length ags) - 1)) with (length ags - 1)%nat by lia.
    destruct (scare_loop h0 e n (seq 0 (length ags - 1)) _ _ _ _ _ _ I3) as (h4 & E4 & I4).
    { apply Forall_forall. intros k Hk%elem_of_seq. lia. }
    rewrite E4. exists fo', ca, aa, ags. cbn [g_agents] in I4.
    rewrite (Forall2_length _ _ _ (i_reads _ _ _ _ _ _ _ _ _ I3)) in I4. cbn [g_agents] in I4. rewrite scare_all in I4. exact I4.
Qed.

(** ** Moves *)
Lemma set_agent_eq s i k y : py_index (g_agents s) i = Some k -> set_agent s i y = DOk (with_ags s (<[k := y]> (g_agents s))).
Proof. intros H. unfold set_agent. by rewrite (py_set_eq _ _ _ _ H). Qed.

Lemma pacman_actions_sim h0 e h n s fo ca aa ags :
  inv h0 e h n s fo ca aa ags -> calm h0 e s ->
  sim h0 (fun l l' h' => l = l' /\ inv h0 e h' n s fo ca aa ags) (pacman_actions_h n h) (pacman_actions s).
Proof.
  intros I C. unfold pacman_actions_h, pacman_actions. pose proof (agent_at_eq _ _ _ _ _ _ _ _ _ I 0) as Ea.
  pose proof (get_sim _ _ _ 0 (i_reads _ _ _ _ _ _ _ _ _ I)) as G. destruct (py_index (g_agents s) 0) as [k|] eqn:Ei.
  2:{ destruct G as [Gx Gy]. rewrite Gx in Ea. rewrite Gy, (pbind_err _ _ _ _ _ Ea). split; [done|]. by eapply calm_sub. }
  destruct G as (x & y & Hx & Hy & Gx & Gy & Hr). rewrite Gx in Ea. rewrite Gy, (pbind_ok _ _ _ _ _ Ea). cbn [mbind dres_bind].
  destruct (copy_agent_step _ _ _ Hr) as (x' & h1 & E1 & S1 & _ & _ & R1).
  rewrite (pbind_ok _ _ _ _ _ E1), (pbind_ok _ _ _ _ _ (conf_of_eq _ _ _ R1)).
  pose proof (inv_sub _ _ _ _ _ _ _ _ _ _ S1 I) as I1. rewrite (pbind_ok _ _ _ _ _ (data_eq _ _ _ _ _ _ _ _ _ I1)).
  cbn [sd_of sd_walls pure_]. unfold pure_. destruct (possible_actions _ _); cbn [sim]; (split; [done|]); [done|by eapply calm_sub].
Qed.

Lemma pacman_apply_sim h0 e h n s act : good h0 e n s h -> h0 !! e = None ->
  sim h0 (fun _ s' => good h0 e n s') (pacman_apply_h n act h) (pacman_apply s act).
Proof.
  intros (fo & ca & aa & ags & I) He. assert (C : forall s, calm h0 e s) by (intros; by left).
  unfold pacman_apply_h, pacman_apply. eapply sim_bind; [by apply pacman_actions_sim|]. clear h I.
  intros l l' h [-> I]. destruct (bool_decide (act ∈ l')).
  2:{ split; [done|]. by eapply calm_sub. }
  pose proof (agent_at_eq _ _ _ _ _ _ _ _ _ I 0) as Ea.
  pose proof (get_sim _ _ _ 0 (i_reads _ _ _ _ _ _ _ _ _ I)) as G. destruct (py_index (g_agents s) 0) as [k|] eqn:Ei.
  2:{ destruct G as [Gx Gy]. rewrite Gx in Ea. rewrite Gy, (pbind_err _ _ _ _ _ Ea). split; [done|]. by eapply calm_sub. }
  destruct G as (x & y & Hx & Hy & Gx & Gy & Hr). rewrite Gx in Ea. rewrite Gy, (pbind_ok _ _ _ _ _ Ea). cbn [mbind dres_bind].
  rewrite (pbind_ok _ _ _ _ _ (conf_of_eq _ _ _ Hr)). set (c' := config_succ (a_conf y) (direction_to_vector act 2)).
  cbv zeta. rewrite (pbind_ok _ _ _ _ _ (make_eq _ _)). set (q := fresh (dom h)). set (h1 := <[q := GConf c']> h).
  assert (S1 : h ⊆ h1) by apply fresh_sub. pose proof (inv_sub _ _ _ _ _ _ _ _ _ _ S1 I) as I1.
  destruct (reads_agent_sub _ _ _ _ S1 Hr) as (a & c & H1 & H2 & H3).
  rewrite (pbind_ok _ _ _ _ _ (load_agent_eq _ _ _ _ _ _ H1)), (pbind_ok _ _ _ _ _ (store_eq _ _ _)).
  rewrite (set_agent_eq _ _ _ _ Ei). cbn [mbind dres_bind].
  pose proof (inv_agent _ _ _ _ _ _ _ _ _ k x (AState (a_start y) c' (a_pacman y) (a_scared y)) a q I1 Hx H2) as I2.
  cbn [a_conf a_pacman a_scared] in I2. specialize (I2 (lookup_insert _ _ _)).
  destruct (bool_decide _).
  - apply consume_sim; [|done]. by exists fo, ca, aa, ags.
  - by exists fo, ca, aa, ags.
Qed.

Lemma ghost_actions_sim h0 e h n s fo ca aa ags i :
  inv h0 e h n s fo ca aa ags -> calm h0 e s ->
  sim h0 (fun l l' h' => l = l' /\ h' = h) (ghost_actions_h n i h) (ghost_actions s i).
Proof.
  intros I C. unfold ghost_actions_h, ghost_actions, ghost_state. rewrite (pbind_ok _ _ _ _ _ (agents_of_eq _ _ _ _ _ _ _ _ _ I)).
  rewrite (Forall2_length _ _ _ (i_reads _ _ _ _ _ _ _ _ _ I)).
  destruct ((i =? 0) || (Z.of_nat (length (g_agents s)) <=? i)).
  { split; [done|]. by eapply calm_sub. }
  pose proof (get_sim _ _ _ i (i_reads _ _ _ _ _ _ _ _ _ I)) as G. destruct (py_index (g_agents s) i) as [k|] eqn:Ei.
  2:{ destruct G as [Gx Gy]. rewrite Gx, Gy, pure_err. split; [done|]. by eapply calm_sub. }
  destruct G as (x & y & Hx & Hy & Gx & Gy & Hr). rewrite Gx, Gy, pure_ok. cbn [mbind dres_bind].
  rewrite (pbind_ok _ _ _ _ _ (conf_of_eq _ _ _ Hr)), (pbind_ok _ _ _ _ _ (data_eq _ _ _ _ _ _ _ _ _ I)). cbn [sd_of sd_walls].
  destruct (possible_actions (a_conf y) (g_walls s)); [rewrite pure_ok|rewrite pure_err]; cbn [mbind dres_bind].
  - done.
  - split; [done|]. by eapply calm_sub.
Qed.

Lemma ghost_step_sim h0 e h n s act i : good h0 e n s h -> calm h0 e s ->
  sim h0 (fun _ s' => good h0 e n s')
    ((_ ← ghost_apply_h n act i; x ← agent_at n i; decrement_timer_h x) h)
    (s ← ghost_apply s act i; a ← py_get (g_agents s) i; set_agent s i (decrement_timer a)).
Proof.
  intros (fo & ca & aa & ags & I) C. unfold ghost_apply_h, ghost_apply. rewrite pbind_assoc.
  assert (Hb : forall {A B C} (r : dres A) (f : A -> dres B) (g : B -> dres C), ((r ≫= f) ≫= g) = (r ≫= fun a => f a ≫= g)) by (by intros ??? [?|?]).
  rewrite Hb. eapply sim_bind; [by eapply ghost_actions_sim|]. intros l l' h' [-> ->].
  destruct (bool_decide (act ∈ l')).
  2:{ cbn [mbind dres_bind]. split; [done|]. by eapply calm_sub. }
  pose proof (agent_at_eq _ _ _ _ _ _ _ _ _ I i) as Ea.
  pose proof (get_sim _ _ _ i (i_reads _ _ _ _ _ _ _ _ _ I)) as G. destruct (py_index (g_agents s) i) as [k|] eqn:Ei.
  2:{ destruct G as [Gx Gy]. rewrite Gx in Ea. rewrite Gy, pbind_assoc, (pbind_err _ _ _ _ _ Ea). split; [done|]. by eapply calm_sub. }
  destruct G as (x & y & Hx & Hy & Gx & Gy & Hr). rewrite Gx in Ea. rewrite Gy, pbind_assoc, (pbind_ok _ _ _ _ _ Ea). cbn [mbind dres_bind].
  destruct Hr as (a & c & H1 & H2 & H3).
  rewrite pbind_assoc, (pbind_ok _ _ _ _ _ (load_agent_eq _ _ _ _ _ _ H1)), pbind_assoc, (pbind_ok _ _ _ _ _ (load_conf_eq _ _ _ H3)).
  cbv zeta. set (c1 := config_succ _ _). rewrite pbind_assoc, (pbind_ok _ _ _ _ _ (make_eq _ _)).
  set (q := fresh (dom h)). rewrite (pbind_ok _ _ _ _ _ (store_eq _ _ _)).
  assert (Hq : h !! q = None) by apply fresh_none. assert (Hqx : q <> x) by (intros Heq; rewrite Heq in Hq; congruence).
  assert (Hqa : q <> a) by (intros Heq; rewrite Heq in Hq; congruence).
  assert (J : forall c2 t, inv h0 e (<[x := GAgent a q (a_pacman y) t]> (<[q := GConf c2]> h)) n
            (with_ags s (<[k := AState (a_start y) c2 (a_pacman y) t]> (g_agents s))) fo ca aa ags).
  { intros c2 t. assert (S1 : h ⊆ <[q := GConf c2]> h) by apply fresh_sub. pose proof (inv_sub _ _ _ _ _ _ _ _ _ _ S1 I) as I1.
    pose proof (inv_agent _ _ _ _ _ _ _ _ _ k x (AState (a_start y) c2 (a_pacman y) t) a q I1 Hx) as I2. apply I2.
    - by rewrite lookup_insert_ne.
    - apply lookup_insert. }
  rewrite (set_agent_eq _ _ _ _ Ei). cbn [mbind dres_bind with_ags g_agents].
  assert (Ei' : forall v : astate, py_index (<[k := v]> (g_agents s)) i = Some k) by (intros v; rewrite <-Ei; unfold py_index; by rewrite insert_length).
  assert (Hg : forall v, py_get (<[k := v]> (g_agents s)) i = DOk v).
  { intros v. unfold py_get. rewrite Ei', list_lookup_insert; [done|]. by eapply lookup_lt_Some. }
  rewrite Hg. cbn [mbind dres_bind].
  pose proof (agent_at_eq _ _ _ _ _ _ _ _ _ (J c1 (a_scared y)) i) as Ea'. rewrite Gx in Ea'. rewrite (pbind_ok _ _ _ _ _ Ea').
  unfold decrement_timer_h. rewrite (pbind_ok _ _ _ _ _ (load_agent_eq _ _ _ _ _ _ (lookup_insert _ _ _))).
  erewrite set_agent_eq by apply Ei'. cbn [with_ags g_agents]. rewrite list_insert_insert. unfold decrement_timer. cbn [a_start a_conf a_pacman a_scared sim].
  destruct (a_scared y =? 1).
  - rewrite pbind_assoc. erewrite pbind_ok; [|apply load_conf_eq; rewrite lookup_insert_ne by done; apply lookup_insert].
    rewrite (pbind_ok _ _ _ _ _ (store_eq _ _ _)). cbn [store sim]. exists fo, ca, aa, ags.
    rewrite (insert_commute _ q x) by done. rewrite insert_insert. rewrite (insert_insert h). apply J.
  - rewrite (pbind_ok (mret tt) _ _ _ _ eq_refl). cbn [store sim]. exists fo, ca, aa, ags. rewrite insert_insert. apply J.
Qed.

(** ** Copies *)
Lemma copy_data_inv h a s : reads_state h a s ->
  exists n h' e fo ca aa ags, copy_data a h = (DOk n, h') /\ h ⊆ h' /\ h !! e = Some (GEaten (g_eaten s)) /\ inv h e h' n (copy_state s) fo ca aa ags.
Proof.
  intros (fo0 & ca0 & aa0 & e & ags0 & H1 & H2 & H3 & H4 & H5 & H6). unfold copy_data.
  rewrite (pbind_ok _ _ _ _ _ (load_data_eq _ _ _ H1)). cbn [sd_food sd_capsules sd_agents sd_eaten sd_walls sd_score].
  unfold shallow_copy. rewrite pbind_assoc. destruct H2 as (d & cols & G1 & G2 & G3).
  rewrite (pbind_ok _ _ _ _ _ (load_grid_eq _ _ _ _ _ G1)), (pbind_ok _ _ _ _ _ (make_eq _ _)).
  set (fo := fresh (dom h)). set (h1 := <[fo := _]> h). assert (S1 : h ⊆ h1) by apply fresh_sub.
  rewrite (pbind_ok _ _ _ _ _ (load_cells_eq _ _ _ (lk_sub _ _ _ _ S1 H3))), (pbind_ok _ _ _ _ _ (make_eq _ _)).
  set (ca := fresh (dom h1)). set (h2 := <[ca := _]> h1). assert (S2 : h1 ⊆ h2) by apply fresh_sub.
  assert (S12 : h ⊆ h2) by (by etrans).
  rewrite (pbind_ok _ _ _ _ _ (load_agents_eq _ _ _ (lk_sub _ _ _ _ S12 H4))).
  destruct (map_prog_make reads_agent reads_agent copy_agent reads_agent_sub reads_agent_sub copy_agent_step ags0 (g_agents s) h2)
    as (ags & h3 & E3 & S3 & ND & F3 & R3).
  { eapply Forall2_impl; [exact H5|]. intros. by eapply reads_agent_sub. }
  rewrite (pbind_ok _ _ _ _ _ E3), (pbind_ok _ _ _ _ _ (make_eq _ _)).
  set (aa := fresh (dom h3)). set (h4 := <[aa := _]> h3). assert (S4 : h3 ⊆ h4) by apply fresh_sub.
  assert (S24 : h2 ⊆ h4) by (by etrans). assert (S04 : h ⊆ h4) by (by etrans).
  rewrite make_eq. set (n := fresh (dom h4)). set (h5 := <[n := _]> h4). assert (S5 : h4 ⊆ h5) by apply fresh_sub.
  exists n, h5, e, fo, ca, aa, ags. split; [done|]. split; [by etrans|]. split; [done|]. split.
  - apply lookup_insert.
  - eapply none_sub; [exact S04|]. apply fresh_none.
  - exists d, cols. split; [|split].
    + eapply lk_sub; [exact S5|]. eapply lk_sub; [exact S24|]. eapply lk_sub; [exact S2|]. apply lookup_insert.
    + eapply lk_sub; [exact S5|]. eapply lk_sub; [exact S04|]. done.
    + eapply Forall2_impl; [exact G3|]. intros. eapply reads_column_sub; [exact S5|]. eapply reads_column_sub; [exact S04|]. done.
  - eapply lk_sub; [exact S5|]. eapply lk_sub; [exact S24|]. apply lookup_insert.
  - eapply none_sub; [exact S1|]. apply fresh_none.
  - eapply lk_sub; [exact S5|]. apply lookup_insert.
  - eapply Forall2_impl; [exact R3|]. intros. eapply reads_agent_sub; [exact S5|]. eapply reads_agent_sub; [exact S4|]. done.
  - done.
  - eapply Forall_impl; [exact F3|]. intros x [Hx _]. eapply none_sub; [exact S12|done].
  - cbn [copy_state g_eaten]. rewrite insert_id by done. by etrans.
Qed.

Lemma inv_new_flags h0 e h n s fo ca aa ags l :
  inv h0 e h n s fo ca aa ags -> h0 ⊆ h ->
  exists e' h', (e ← make (GEaten l); set_data n (with_eaten e)) h = (DOk tt, h') /\ h0 !! e' = None /\ inv h0 e' h' n (with_flags s l) fo ca aa ags.
Proof.
  intros I S0. set (e' := fresh (dom h)). set (h1 := <[e' := GEaten l]> h). assert (S1 : h ⊆ h1) by apply fresh_sub.
  pose proof (inv_sub _ _ _ _ _ _ _ _ _ _ S1 I) as I1. assert (He' : h0 !! e' = None) by (eapply none_sub; [exact S0|apply fresh_none]).
  assert (Hd : h1 !! e' = Some (GEaten l)) by apply lookup_insert.
  exists e', (<[n := GData (sd_of (with_flags s l) fo ca aa e')]> h1).
  rewrite (pbind_ok _ _ _ _ _ (make_eq _ _)). fold e' h1. rewrite (set_data_eq _ _ _ _ (i_data _ _ _ _ _ _ _ _ _ I1)).
  split; [done|]. split; [done|]. destruct I1. split.
  - apply lookup_insert.
  - done.
  - apply reads_grid_other; [by rewrite i_data0|done].
  - rewrite lookup_insert_ne by (intros ->; congruence). done.
  - done.
  - rewrite lookup_insert_ne by (intros ->; congruence). done.
  - eapply Forall2_impl; [done|]. intros. apply reads_agent_other; [by rewrite i_data0|done].
  - done.
  - done.
  - apply old_other; [done|intros ->; congruence|]. cbn [with_flags g_eaten]. apply insert_mono. done.
Qed.

(** ** Flags in the value *)
Lemma dbind_ok {A B} (r : dres A) (f : A -> dres B) b : r ≫= f = DOk b -> exists a, r = DOk a /\ f a = DOk b.
Proof. destruct r as [a|e]; [by exists a|done]. Qed.
Lemma ghost_step_flags s i act s' :
  (s ← ghost_apply s act i; a ← py_get (g_agents s) i; set_agent s i (decrement_timer a)) = DOk s' -> g_eaten s' = g_eaten s.
Proof.
  intros (s0 & H0 & H1)%dbind_ok. assert (E0 : g_eaten s0 = g_eaten s).
  { unfold ghost_apply in H0. apply dbind_ok in H0 as (l & _ & H0). destruct (bool_decide _); [|done]. apply dbind_ok in H0 as (a & _ & H0).
    unfold set_agent in H0. by apply dbind_ok in H0 as (l' & _ & [= <-]). }
  rewrite <-E0. apply dbind_ok in H1 as (a & _ & H1). unfold set_agent in H1. by apply dbind_ok in H1 as (l' & _ & [= <-]).
Qed.
Lemma ghost_flags s i act s' : (i =? 0) = false -> generate_successor s i act = DOk s' ->
  g_eaten s' = g_eaten s \/ exists k, g_eaten s' = <[k := true]> (g_eaten s).
Proof.
  intros Hi. unfold generate_successor. rewrite Hi. destruct (g_win s || g_lose s); [done|].
  intros (s1 & H1 & H2)%dbind_ok. apply ghost_step_flags in H1. apply dbind_ok in H2 as (s2 & H2 & [= <-]). cbn [finish_move g_eaten copy_state] in *.
  unfold check_death in H2. apply dbind_ok in H2 as (p & _ & H2). rewrite Hi in H2. unfold check_ghost in H2. apply dbind_ok in H2 as (a & _ & H2).
  destruct (can_kill _ _).
  2:{ injection H2 as <-. left. congruence. }
  unfold collide in H2. destruct (0 <? a_scared a).
  - apply dbind_ok in H2 as (s3 & H3 & H2). apply dbind_ok in H2 as (l & Hl & [= <-]). cbn [g_eaten].
    assert (E3 : g_eaten s3 = g_eaten s1).
    { unfold set_agent in H3. by apply dbind_ok in H3 as (l' & _ & [= <-]). }
    unfold py_set in Hl. destruct (py_index (g_eaten s3) i) as [k|]; [|done]. injection Hl as <-. right. exists k. congruence.
  - destruct (g_win s1); injection H2 as <-; left; cbn [g_eaten]; congruence.
Qed.

Lemma keep_flags (h h' : gheap) e l l' : h !! e = Some (GEaten l) -> <[e := GEaten l']> h ⊆ h' ->
  Forall2 (fun b b' => b = true -> b' = true) l l' -> flags_only h h'.
Proof.
  intros He S F b t (fo & ca & aa & e0 & ags & H1 & H2 & H3 & H4 & H5 & H6).
  assert (L : forall x ob, h !! x = Some ob -> x <> e -> h' !! x = Some ob).
  { intros x ob Hx Hne. eapply lk_sub; [exact S|]. by rewrite lookup_insert_ne. }
  exists (with_flags t (if decide (e0 = e) then l' else g_eaten t)). split.
  - exists fo, ca, aa, e0, ags. cbn [with_flags g_walls g_food g_capsules g_agents g_eaten g_score g_change g_win g_lose g_food_eaten g_capsule_eaten g_moved].
    split; [apply L; [done|intros ->; congruence]|]. split; [|split; [|split; [|split]]].
    + destruct H2 as (d & cols & G1 & G2 & G3). exists d, cols. split; [apply L; [done|intros ->; congruence]|].
      split; [apply L; [done|intros ->; congruence]|]. eapply Forall2_impl; [exact G3|]. unfold reads_column. intros x y Hx. apply L; [done|intros ->; congruence].
    + apply L; [done|intros ->; congruence].
    + apply L; [done|intros ->; congruence].
    + eapply Forall2_impl; [exact H5|]. intros x y (s & c & G1 & G2 & G3). exists s, c. split; [|split]; (apply L; [done|intros ->; congruence]).
    + destruct (decide (e0 = e)) as [->|Hne]; [|by apply L]. eapply lk_sub; [exact S|]. apply lookup_insert.
  - split; [done|]. cbn [with_flags g_eaten]. destruct (decide (e0 = e)) as [->|Hne].
    + assert (g_eaten t = l) as -> by congruence. done.
    + clear. induction (g_eaten t); constructor; done.
Qed.
Lemma kept_sub h h' : h ⊆ h' -> all_kept h h'.
Proof. intros S b t. by apply reads_state_sub. Qed.
Lemma only_flags_refl t : only_flags t t.
Proof. split; [by destruct t|]. induction (g_eaten t); constructor; done. Qed.
Lemma kept_flags h h' : all_kept h h' -> flags_only h h'.
Proof. intros K b t H. exists t. split; [by apply K|apply only_flags_refl]. Qed.

(** ** Moves of the game *)
Lemma sim_finish h m r n e' s i :
  sim h (fun n' s' h' => n' = n /\ good h e' n s' h') m r ->
  (forall s' h', r = DOk s' -> good h e' n s' h' -> flags_only h h' /\ (i = 0 \/ g_eaten s' = g_eaten s -> h ⊆ h')) ->
  match m, r with
  | (DOk n, h'), DOk s' => reads_state h' n s' /\ h !! n = None /\ flags_only h h' /\ (i = 0 \/ g_eaten s' = g_eaten s -> h ⊆ h')
  | (DErr x, h'), DErr y => x = y /\ h ⊆ h'
  | _, _ => False
  end.
Proof.
  intros S F. destruct m as [[n'|x] h'], r as [s'|y]; try done. destruct S as [-> G]. destruct (F s' h' eq_refl G) as [F1 F2].
  destruct G as (fo & ca & aa & ags & I). split; [by eapply inv_reads|]. split; [apply I|done].
Qed.

Lemma finish_sim h e' n i h2 s2 : good h e' n s2 h2 ->
  sim h (fun n' s' h' => n' = n /\ good h e' n s' h')
    ((_ ← set_data n (fun sd => with_events (sd_food_eaten sd) (sd_capsule_eaten sd) (Some i) sd);
      _ ← set_data n (fun sd => with_score (sd_score sd + sd_change sd) sd); mret n) h2) (DOk (finish_move s2 i)).
Proof.
  intros (fo' & ca' & aa' & ags' & I2).
  destruct (inv_set _ _ _ _ _ _ _ _ _ (GState (g_walls s2) (g_food s2) (g_capsules s2) (g_agents s2) (g_eaten s2) (g_score s2) (g_change s2) (g_win s2) (g_lose s2)
    (g_food_eaten s2) (g_capsule_eaten s2) (Some i)) (fun sd => with_events (sd_food_eaten sd) (sd_capsule_eaten sd) (Some i) sd) I2) as (h3 & E3 & I3); [done..|].
  rewrite (pbind_ok _ _ _ _ _ E3).
  destruct (inv_set _ _ _ _ _ _ _ _ _ (finish_move s2 i) (fun sd => with_score (sd_score sd + sd_change sd) sd) I3) as (h4 & E4 & I4); [done..|].
  rewrite (pbind_ok _ _ _ _ _ E4). split; [done|]. by exists fo', ca', aa', ags'.
Qed.

Lemma successor_sim h a s i act : reads_state h a s ->
  match generate_successor_h a i act h, generate_successor s i act with
  | (DOk n, h'), DOk s' => reads_state h' n s' /\ h !! n = None /\ flags_only h h' /\ (i = 0 \/ g_eaten s' = g_eaten s -> h ⊆ h')
  | (DErr x, h'), DErr y => x = y /\ h ⊆ h'
  | _, _ => False
  end.
Proof.
  intros R. pose proof (ghost_flags s i act) as GF.
  assert (E0 : exists fo ca aa e, load_data a h = (DOk (sd_of s fo ca aa e), h)).
  { destruct R as (fo & ca & aa & e & ags & H1 & _). exists fo, ca, aa, e. by apply load_data_eq. }
  destruct E0 as (fo0 & ca0 & aa0 & e0 & E0). unfold generate_successor_h. rewrite (pbind_ok _ _ _ _ _ E0). cbn [sd_of sd_win sd_lose].
  clear E0 fo0 ca0 aa0 e0. unfold generate_successor in GF |- *. destruct (g_win s || g_lose s); [done|].
  destruct (copy_data_inv _ _ _ R) as (n & h1 & e & fo & ca & aa & ags & E1 & S1 & He & I).
  rewrite (pbind_ok _ _ _ _ _ E1). cbv zeta in GF |- *.
  destruct (i =? 0) eqn:Ei.
  - clear GF. apply Z.eqb_eq in Ei as ->. rewrite pbind_assoc, (pbind_ok _ _ _ _ _ (agents_of_eq _ _ _ _ _ _ _ _ _ I)).
    destruct (inv_new_flags _ _ _ _ _ _ _ _ _ ((fun _ => false) <$> ags) I S1) as (e' & h2 & E2 & He' & I2).
    assert (Hfl : with_flags (copy_state s) ((fun _ => false) <$> ags) = reset_eaten (copy_state s)).
    { unfold reset_eaten, with_flags. f_equal. pose proof (Forall2_length _ _ _ (i_reads _ _ _ _ _ _ _ _ _ I)) as L. cbn [copy_state g_agents] in L |- *.
      clear -L. revert L. generalize (g_agents s). induction ags as [|x ags IH]; intros [|y l] L; try done. cbn [fmap list_fmap]. f_equal. apply IH. by injection L. }
    rewrite Hfl in I2. eapply (sim_finish _ _ _ n e').
    + eapply (sim_bind h (fun _ s' => good h e' n s')).
      * assert (E2' : forall {B} (f : prog B), ((e ← make (GEaten ((fun _ => false) <$> ags)); _ ← set_data n (with_eaten e); f) h1 = f h2)).
        { intros B f. rewrite <-(pbind_assoc (make (GEaten ((fun _ => false) <$> ags))) (fun e => set_data n (with_eaten e)) (fun _ => f)).
          by rewrite (pbind_ok _ _ _ _ _ E2). }
        rewrite E2'. eapply sim_bind; [apply pacman_apply_sim; [by exists fo, ca, aa, ags|done]|].
        intros [] s3 h3 (fo3 & ca3 & aa3 & ags3 & I3).
        destruct (inv_set _ _ _ _ _ _ _ _ _ (add_change s3 (- TIME_PENALTY)) (more_change (- TIME_PENALTY)) I3) as (h4 & E4 & I4); [done..|].
        rewrite E4. by exists fo3, ca3, aa3, ags3.
      * intros [] s3 h3 G3. eapply sim_bind; [apply check_death_sim; [exact G3|done]|]. intros [] s4 h4 G4. by apply finish_sim.
    + intros s' h' _ (fo' & ca' & aa' & ags' & I'). assert (S' : h ⊆ h') by (eapply calm_sub; [exact I'|by left]).
      split; [|done]. by apply kept_flags, kept_sub.
  - assert (C : calm h e (copy_state s)) by (by right). eapply (sim_finish _ _ _ n e).
    + eapply (sim_bind h (fun _ s' h' => good h e n s' h' /\ calm h e s')).
      * pose proof (ghost_step_sim h e h1 n (copy_state s) act i) as G. feed specialize G; [by exists fo, ca, aa, ags|done|].
        destruct ((_ ← ghost_apply_h n act i; x ← agent_at n i; decrement_timer_h x) h1) as [[[]|x] h2]; cbn [sim] in *.
        2:{ destruct (s ← ghost_apply (copy_state s) act i; a ← py_get (g_agents s) i; set_agent s i (decrement_timer a)); done. }
        destruct (s ← ghost_apply (copy_state s) act i; a ← py_get (g_agents s) i; set_agent s i (decrement_timer a)) as [s1|] eqn:Es; [|done].
        split; [done|]. right. rewrite He. f_equal. f_equal. symmetry. by eapply (ghost_step_flags (copy_state s)).
      * intros [] s3 h3 [G3 C3]. eapply sim_bind; [apply check_death_sim; [exact G3|by rewrite Ei]|]. intros [] s4 h4 G4. by apply finish_sim.
    + intros s' h' Es (fo' & ca' & aa' & ags' & I'). destruct (GF s' eq_refl Es) as [Hf|(k & Hf)].
      * assert (S' : h ⊆ h') by (eapply calm_sub; [exact I'|right; by rewrite Hf]). split; [by apply kept_flags, kept_sub|done].
      * split.
        -- eapply keep_flags; [exact He|apply (i_old _ _ _ _ _ _ _ _ _ I')|]. rewrite Hf. clear. apply Forall2_same_length_lookup.
           split; [by rewrite insert_length|]. intros j x y Hx Hy ->. destruct (decide (j = k)) as [->|Hj].
           ++ rewrite list_lookup_insert in Hy by (by eapply lookup_lt_Some). by injection Hy.
           ++ rewrite list_lookup_insert_ne in Hy by done. congruence.
        -- intros [->|Hs]; [done|]. eapply calm_sub; [exact I'|]. right. by rewrite Hs.
Qed.

(** ** Deep copies and first states *)
Lemma deep_copy_sim h a s : reads_state h a s ->
  exists n h', deep_copy_h a h = (DOk n, h') /\ h ⊆ h' /\ h !! n = None /\ reads_state h' n (deep_copy s).
Proof.
  intros R. unfold deep_copy_h. destruct (copy_data_inv _ _ _ R) as (n1 & h1 & e1 & fo1 & ca1 & aa1 & ags1 & E1 & S1 & _).
  rewrite (pbind_ok _ _ _ _ _ E1). pose proof (reads_state_sub _ _ _ _ S1 R) as R1.
  destruct (copy_data_inv _ _ _ R1) as (n & h2 & e & fo & ca & aa & ags & E2 & S2 & He & I).
  rewrite (pbind_ok _ _ _ _ _ E2). pose proof (reads_state_sub _ _ _ _ S2 R1) as (fo0 & ca0 & aa0 & e0 & ags0 & H1 & H2 & _).
  rewrite (pbind_ok _ _ _ _ _ (load_data_eq _ _ _ H1)). cbn [sd_food sd_food_eaten sd_capsule_eaten sd_moved].
  destruct (copy_grid_eq _ _ _ H2) as (g & h3 & E3 & S3 & _ & O3). rewrite (pbind_ok _ _ _ _ _ E3).
  pose proof (inv_sub _ _ _ _ _ _ _ _ _ _ S3 I) as I3.
  rewrite (pbind_ok _ _ _ _ _ (set_data_eq _ _ _ (with_food g) (i_data _ _ _ _ _ _ _ _ _ I3))).
  pose proof (inv_data _ _ _ _ _ _ _ _ _ (copy_state s) g I3 (own_reads _ _ _ _ O3) eq_refl eq_refl eq_refl) as I4.
  destruct (inv_set _ _ _ _ _ _ _ _ _ (deep_copy s) (with_events (g_food_eaten s) (g_capsule_eaten s) (g_moved s)) I4) as (h5 & E5 & I5); [done..|].
  erewrite pbind_ok; [|exact E5]. exists n, h5. split; [done|]. split.
  - etrans; [exact S1|]. eapply calm_sub; [exact I5|]. by right.
  - split; [eapply none_sub; [exact S1|apply I5]|by eapply inv_reads].
Qed.

Lemma initial_sim h l m :
  exists n h', initial_state_h l m h = (DOk n, h') /\ h ⊆ h' /\ h !! n = None /\ reads_state h' n (initial_state l m).
Proof.
  unfold initial_state_h.
  destruct (map_prog_make (fun _ a b => a = b) reads_column (fun col => make (GColumn col)) (fun _ _ _ _ _ H => H) reads_column_sub) with
    (l := gr_data (l_food l)) (k := gr_data (l_food l)) (h := h) as (cols & h1 & E1 & S1 & _ & _ & R1).
  { intros h' a b ->. rewrite make_eq. eexists _, _. split; [done|]. split; [apply fresh_sub|]. split; [apply fresh_none|].
    unfold reads_column. rewrite lookup_insert. eauto. }
  { induction (gr_data (l_food l)); by constructor. }
  rewrite (pbind_ok _ _ _ _ _ E1), (pbind_ok _ _ _ _ _ (make_eq _ _)). set (h2 := <[_ := _]> h1). assert (S2 : h1 ⊆ h2) by apply fresh_sub.
  rewrite (pbind_ok _ _ _ _ _ (make_eq _ _)). set (h3 := <[fresh (dom h2) := _]> h2). assert (S3 : h2 ⊆ h3) by apply fresh_sub.
  rewrite (pbind_ok _ _ _ _ _ (make_eq _ _)). set (h4 := <[fresh (dom h3) := _]> h3). assert (S4 : h3 ⊆ h4) by apply fresh_sub.
  set (ags := initial_agents (l_agents l) 0 m).
  destruct (map_prog_make (fun _ a b => a = b /\ a_start b = a_conf b) reads_agent make_agent (fun _ _ _ _ _ H => H) reads_agent_sub) with
    (l := ags) (k := ags) (h := h4) as (xs & h5 & E5 & S5 & _ & _ & R5).
  { intros h' a b [-> Hab]. unfold make_agent. rewrite (pbind_ok _ _ _ _ _ (make_eq _ _)), make_eq. set (h'' := <[_ := _]> h'). eexists _, _.
    split; [done|]. assert (Sa : h' ⊆ h'') by apply fresh_sub. split; [etrans; [exact Sa|apply fresh_sub]|].
    split; [eapply none_sub; [exact Sa|apply fresh_none]|]. split; [rewrite lookup_insert; eauto|].
    exists (fresh (dom h')), (fresh (dom h')). rewrite lookup_insert. split; [done|].
    assert (G : <[fresh (dom h'') := GAgent (fresh (dom h')) (fresh (dom h')) (a_pacman b) (a_scared b)]> h'' !! fresh (dom h') = Some (GConf (a_conf b))).
    { eapply lk_sub; [apply fresh_sub|]. apply lookup_insert. }
    rewrite Hab. done. }
  { subst ags. generalize 0. induction (l_agents l) as [|[p pos] k IH]; intros z; [constructor|]. cbn [initial_agents].
    destruct p; [by constructor|]. destruct (z =? m); [done|]. by constructor. }
  rewrite (pbind_ok _ _ _ _ _ E5), (pbind_ok _ _ _ _ _ (make_eq _ _)). set (h6 := <[fresh (dom h5) := _]> h5). assert (S6 : h5 ⊆ h6) by apply fresh_sub.
  rewrite (pbind_ok _ _ _ _ _ (make_eq _ _)). set (h7 := <[fresh (dom h6) := _]> h6). assert (S7 : h6 ⊆ h7) by apply fresh_sub.
  rewrite make_eq. set (h8 := <[fresh (dom h7) := _]> h7). assert (S8 : h7 ⊆ h8) by apply fresh_sub.
  assert (T7 : h6 ⊆ h8) by (by etrans). assert (T6 : h5 ⊆ h8) by (by etrans). assert (T5 : h4 ⊆ h8) by (by etrans).
  assert (T4 : h3 ⊆ h8) by (by etrans). assert (T3 : h2 ⊆ h8) by (by etrans). assert (T2 : h1 ⊆ h8) by (by etrans).
  eexists _, h8. split; [done|]. split; [by etrans|]. split.
  { eapply (none_sub h h7); [|apply fresh_none]. etrans; [exact S1|]. etrans; [exact S2|]. etrans; [exact S3|]. etrans; [exact S4|]. etrans; [exact S5|]. etrans; [exact S6|]. exact S7. }
  eexists _, _, _, _, xs. split; [apply lookup_insert|]. cbn [initial_state g_food g_capsules g_agents g_eaten].
  split; [|split; [|split; [|split]]].
  - exists (fresh (dom h1)), cols. split; [eapply lk_sub; [exact T4|apply lookup_insert]|].
    split; [eapply lk_sub; [exact T3|apply lookup_insert]|]. eapply Forall2_impl; [exact R1|]. intros. eapply reads_column_sub; [exact T2|done].
  - eapply lk_sub; [exact T5|apply lookup_insert].
  - eapply lk_sub; [exact T7|apply lookup_insert].
  - eapply Forall2_impl; [exact R5|]. intros. eapply reads_agent_sub; [exact T6|done].
  - eapply lk_sub; [exact S8|]. unfold h7. rewrite lookup_insert. f_equal. f_equal.
    fold ags. pose proof (Forall2_length _ _ _ R5) as L. clear -L. revert L. generalize ags. induction xs as [|x xs IH]; intros [|y k] L; try done.
    cbn [fmap list_fmap]. f_equal. apply IH. by injection L.
Qed.

(** ** Flags do not matter for anything else *)
Definition dsame (r r' : dres gstate) : Prop :=
  match r, r' with DOk s, DOk t => only_flags s t | DErr x, DErr y => x = y | _, _ => False end.
Definition flags_le (l l' : list bool) : Prop := Forall2 (fun b b' : bool => b = true -> b' = true) l l'.
Lemma only_flags_with s l : flags_le (g_eaten s) l -> only_flags s (with_flags s l).
Proof. done. Qed.
Lemma flags_le_refl l : flags_le l l.
Proof. induction l; constructor; done. Qed.
Lemma only_flags_inv s t : only_flags s t -> t = with_flags s (g_eaten t) /\ flags_le (g_eaten s) (g_eaten t).
Proof. done. Qed.
Lemma only_flags_trans s t u : only_flags s t -> only_flags t u -> only_flags s u.
Proof.
  intros [H1 F1] [H2 F2]. split.
  - rewrite H2. rewrite H1. done.
  - clear H1 H2. revert F1 F2. generalize (g_eaten s), (g_eaten t), (g_eaten u). intros a b c F1. revert c.
    induction F1; intros c F2; inversion F2; subst; constructor; auto.
Qed.

Lemma set_agent_flags s l i y : set_agent (with_flags s l) i y = (s' ← set_agent s i y; DOk (with_flags s' l)).
Proof. unfold set_agent. cbn [with_flags g_agents]. by destruct (py_set (g_agents s) i y). Qed.
Lemma ghost_step_with s l act i :
  (s' ← ghost_apply (with_flags s l) act i; a ← py_get (g_agents s') i; set_agent s' i (decrement_timer a)) =
  (s' ← (s' ← ghost_apply s act i; a ← py_get (g_agents s') i; set_agent s' i (decrement_timer a)); DOk (with_flags s' l)).
Proof.
  unfold ghost_apply. change (ghost_actions (with_flags s l) i) with (ghost_actions s i). destruct (ghost_actions s i) as [legal|]; [|done].
  cbn [mbind dres_bind]. destruct (bool_decide (act ∈ legal)); [|done]. change (g_agents (with_flags s l)) with (g_agents s).
  destruct (py_get (g_agents s) i) as [a|]; [|done]. cbn [mbind dres_bind]. rewrite set_agent_flags. destruct (set_agent s i _) as [s1|]; [|done].
  cbn [mbind dres_bind]. change (g_agents (with_flags s1 l)) with (g_agents s1). destruct (py_get (g_agents s1) i) as [a1|]; [|done].
  cbn [mbind dres_bind]. by rewrite set_agent_flags.
Qed.
Lemma set_flags_le l l' i : flags_le l l' ->
  match py_set l i true, py_set l' i true with DOk k, DOk k' => flags_le k k' | DErr x, DErr y => x = y | _, _ => False end.
Proof.
  intros F. unfold py_set. assert (py_index l' i = py_index l i) as -> by (unfold py_index; by rewrite (Forall2_length _ _ _ F)).
  destruct (py_index l i) as [k|]; [|done]. by apply Forall2_insert.
Qed.
Lemma check_ghost_with s l pac i : flags_le (g_eaten s) l -> dsame (check_ghost pac s i) (check_ghost pac (with_flags s l) i).
Proof.
  intros F. unfold check_ghost. change (g_agents (with_flags s l)) with (g_agents s). destruct (py_get (g_agents s) i) as [a|]; [|done].
  cbn [mbind dres_bind]. destruct (can_kill _ _); [|by apply only_flags_with]. unfold collide. destruct (0 <? a_scared a).
  - change (add_change (with_flags s l) 200) with (with_flags (add_change s 200) l). rewrite set_agent_flags.
    destruct (set_agent (add_change s 200) i _) as [s1|] eqn:E1; [|done]. cbn [mbind dres_bind].
    assert (g_eaten s1 = g_eaten s) as He.
    { unfold set_agent in E1. by apply dbind_ok in E1 as (? & _ & [= <-]). }
    rewrite He. cbn [with_flags g_eaten]. pose proof (set_flags_le _ _ i F) as G.
    destruct (py_set (g_eaten s) i true) as [k|], (py_set l i true) as [k'|]; done.
  - cbn [with_flags g_win]. destruct (g_win s); [by apply only_flags_with|by split].
Qed.
Lemma successor_flags s t i act : only_flags s t -> dsame (generate_successor s i act) (generate_successor t i act).
Proof.
  intros [-> F]%only_flags_inv. revert F. generalize (g_eaten t). intros l F. unfold generate_successor. cbn [with_flags g_win g_lose].
  destruct (g_win s || g_lose s); [done|]. cbv zeta. destruct (i =? 0) eqn:Ei.
  - change (reset_eaten (copy_state (with_flags s l))) with (reset_eaten (copy_state s)).
    destruct (_ ≫= _) as [s1|]; [apply only_flags_refl|done].
  - change (copy_state (with_flags s l)) with (with_flags (copy_state s) l). rewrite ghost_step_with.
    destruct (s' ← ghost_apply (copy_state s) act i; a ← py_get (g_agents s') i; set_agent s' i (decrement_timer a)) as [s1|] eqn:E1; [|done].
    apply ghost_step_flags in E1. cbn [mbind dres_bind]. unfold check_death. rewrite Ei. change (g_agents (with_flags s1 l)) with (g_agents s1).
    destruct (py_get (g_agents s1) 0) as [p|]; [|done]. cbn [mbind dres_bind].
    assert (F1 : flags_le (g_eaten s1) l) by (by rewrite E1). pose proof (check_ghost_with s1 l (c_pos (a_conf p)) i F1) as G.
    destruct (check_ghost (c_pos (a_conf p)) s1 i) as [s2|], (check_ghost (c_pos (a_conf p)) (with_flags s1 l) i) as [t2|]; try done.
    destruct (only_flags_inv _ _ G) as [-> F2]. cbn [mbind dres_bind dsame]. by split.
Qed.

(** ** Any history of calls *)
Lemma same_result_flags h h' r v : flags_only h h' -> same_result h r v -> same_result h' r v.
Proof.
  intros K. destruct r as [a|x], v as [s|y]; try done. intros (t & R & F). destruct (K _ _ R) as (t' & R' & F').
  exists t'. split; [done|]. by eapply only_flags_trans.
Qed.
Lemma result_of_same h rs vs k : Forall2 (same_result h) rs vs -> same_result h (result_of rs k) (result_of vs k).
Proof.
  intros F. unfold result_of. destruct (rs !! k) as [r|] eqn:E.
  - destruct (Forall2_lookup_l _ _ _ _ _ F E) as (v & -> & H). done.
  - assert (vs !! k = None) as ->; [|done]. apply lookup_ge_None. apply lookup_ge_None in E. by rewrite <-(Forall2_length _ _ _ F).
Qed.
Lemma do_call_sim h rs vs c : Forall2 (same_result h) rs vs ->
  let '(r, h') := do_gcall rs c h in flags_only h h' /\ same_result h' r (do_vcall vs c).
Proof.
  intros F. destruct c as [l m|k i act|k]; cbn [do_gcall do_vcall].
  - destruct (initial_sim h l m) as (n & h' & -> & S & _ & R). split; [by apply kept_flags, kept_sub|].
    exists (initial_state l m). split; [done|apply only_flags_refl].
  - pose proof (result_of_same _ _ _ k F) as G. destruct (result_of rs k) as [a|x], (result_of vs k) as [s|y]; try done.
    2:{ rewrite pure_err. split; [|done]. by apply kept_flags, kept_sub. }
    destruct G as (t & R & Ft). rewrite pure_ok. cbn [mbind dres_bind]. pose proof (successor_sim _ _ _ i act R) as P.
    pose proof (successor_flags _ _ i act Ft) as Q.
    destruct (generate_successor_h a i act h) as [[n|x] h'], (generate_successor t i act) as [t'|y], (generate_successor s i act) as [s'|z]; try done.
    + destruct P as (P1 & P2 & P3 & _). split; [done|]. by exists t'.
    + destruct P as [-> P]. split; [by apply kept_flags, kept_sub|done].
  - pose proof (result_of_same _ _ _ k F) as G. destruct (result_of rs k) as [a|x], (result_of vs k) as [s|y]; try done.
    2:{ rewrite pure_err. split; [|done]. by apply kept_flags, kept_sub. }
    destruct G as (t & R & Ft). rewrite pure_ok. cbn [mbind dres_bind].
    destruct (deep_copy_sim _ _ _ R) as (n & h' & -> & S & _ & R'). split; [by apply kept_flags, kept_sub|].
    exists (deep_copy t). split; [done|]. destruct (only_flags_inv _ _ Ft) as [-> Fl]. by split.
Qed.
Lemma run_sim cs : forall h rs vs, Forall2 (same_result h) rs vs ->
  let '(rs', h') := run_gcalls cs rs h in flags_only h h' /\ Forall2 (same_result h') rs' (run_vcalls cs vs).
Proof.
  induction cs as [|c cs IH]; intros h rs vs F; cbn [run_gcalls run_vcalls].
  - split; [|done]. by apply kept_flags, kept_sub.
  - pose proof (do_call_sim _ _ _ c F) as G. destruct (do_gcall rs c h) as [r h1]. destruct G as [K G].
    assert (F1 : Forall2 (same_result h1) (rs ++ [r]) (vs ++ [do_vcall vs c])).
    { apply Forall2_app; [|by constructor]. eapply Forall2_impl; [exact F|]. intros. by eapply same_result_flags. }
    specialize (IH _ _ _ F1). destruct (run_gcalls cs (rs ++ [r]) h1) as [rs' h']. destruct IH as [K' F']. split; [|done].
    intros b t R. destruct (K _ _ R) as (t1 & R1 & O1). destruct (K' _ _ R1) as (t2 & R2 & O2). exists t2. split; [done|]. by eapply only_flags_trans.
Qed.

(** ** Equality and hashes *)
Lemma list_eqb_spec {A} (f : A -> A -> bool) l k : list_eqb f l k = true <-> Forall2 (fun a b => f a b = true) l k.
Proof.
  revert k. induction l as [|a l IH]; intros [|b k]; cbn [list_eqb]; split; intros H; try (by constructor); try done; try by inversion H.
  - apply andb_true_iff in H as [H1 H2]. constructor; [done|]. by apply IH.
  - inversion H; subst. apply andb_true_iff. split; [done|]. by apply IH.
Qed.
Lemma astate_eqb_spec a b : astate_eqb a b = true <-> a_conf a = a_conf b /\ a_scared a = a_scared b.
Proof.
  unfold astate_eqb, config_eqb. rewrite !andb_true_iff, !bool_decide_eq_true, Z.eqb_eq. destruct (a_conf a), (a_conf b); cbn.
  split; [intros [[-> ->] ->]; done|intros [[= -> ->] ->]; done].
Qed.
Lemma agents_eqb_spec l k : list_eqb astate_eqb l k = true <-> (fun a => (a_conf a, a_scared a)) <$> l = (fun a => (a_conf a, a_scared a)) <$> k.
Proof.
  rewrite list_eqb_spec. revert k. induction l as [|a l IH]; intros [|b k]; cbn [fmap list_fmap]; split; intros H; try (by constructor); try done; try by inversion H.
  - inversion H; subst. match goal with H : astate_eqb _ _ = true |- _ => apply astate_eqb_spec in H as [-> ->] end. f_equal. by apply IH.
  - injection H as H1 H2 H3. constructor; [by apply astate_eqb_spec|]. by apply IH.
Qed.
Lemma state_eqb_spec s t : state_eqb s t = true <->
  (fun a => (a_conf a, a_scared a)) <$> g_agents s = (fun a => (a_conf a, a_scared a)) <$> g_agents t /\
  gr_data (g_food s) = gr_data (g_food t) /\ g_capsules s = g_capsules t /\ g_score s = g_score t.
Proof.
  unfold state_eqb, grid_eqb. rewrite !andb_true_iff, agents_eqb_spec, !bool_decide_eq_true, Z.eqb_eq. tauto.
Qed.
Lemma hash_fields hpos hdir hint htuple s :
  state_hash hpos hdir hint htuple s =
  (htuple ((fun p => hint (config_hash hpos hdir hint p.1 + 13 * hint p.2)) <$> ((fun a => (a_conf a, a_scared a)) <$> g_agents s)) +
   13 * hint (grid_hash_int (Grid 0 0 (gr_data (g_food s)))) + 113 * htuple (hpos <$> g_capsules s) + 7 * hint (g_score s)) mod 1048575.
Proof. unfold state_hash. rewrite <-list_fmap_compose. done. Qed.

(** ** Reading as a function *)
Definition get_conf (h : gheap) (a : addr) : option config := match h !! a with Some (GConf c) => Some c | _ => None end.
Definition get_agent (h : gheap) (a : addr) : option astate :=
  match h !! a with
  | Some (GAgent s c p t) => s' ← get_conf h s; c' ← get_conf h c; Some (AState s' c' p t)
  | _ => None
  end.
Definition get_column (h : gheap) (a : addr) : option (list bool) := match h !! a with Some (GColumn l) => Some l | _ => None end.
Definition get_grid (h : gheap) (a : addr) : option grid :=
  match h !! a with
  | Some (GGrid w k d) => match h !! d with Some (GColumns cols) => l ← mapM (get_column h) cols; Some (Grid w k l) | _ => None end
  | _ => None
  end.
Definition get_state (h : gheap) (a : addr) : option gstate :=
  match h !! a with
  | Some (GData sd) =>
      match h !! sd_capsules sd, h !! sd_agents sd, h !! sd_eaten sd with
      | Some (GCells caps), Some (GAgents ags), Some (GEaten l) =>
          food ← get_grid h (sd_food sd); xs ← mapM (get_agent h) ags;
          Some (GState (sd_walls sd) food caps xs l (sd_score sd) (sd_change sd) (sd_win sd) (sd_lose sd)
                  (sd_food_eaten sd) (sd_capsule_eaten sd) (sd_moved sd))
      | _, _, _ => None
      end
  | _ => None
  end.
Lemma get_conf_spec h a c : get_conf h a = Some c <-> h !! a = Some (GConf c).
Proof. unfold get_conf. destruct (h !! a) as [[]|]; split; congruence. Qed.
Lemma get_agent_spec h a x : get_agent h a = Some x <-> reads_agent h a x.
Proof.
  unfold get_agent, reads_agent. destruct (h !! a) as [[]|] eqn:E; try (split; [done|intros (? & ? & ? & _); congruence]).
  split.
  - destruct (get_conf h start) as [s'|] eqn:E1; [|done]. destruct (get_conf h conf) as [c'|] eqn:E2; [|done]. cbn. intros [= <-].
    apply get_conf_spec in E1, E2. exists start, conf. done.
  - intros (s & c & [= -> -> -> ->] & H2 & H3). apply get_conf_spec in H2, H3. rewrite H2, H3. by destruct x.
Qed.
Lemma get_column_spec h a l : get_column h a = Some l <-> reads_column h a l.
Proof. unfold get_column, reads_column. destruct (h !! a) as [[]|]; split; congruence. Qed.
Lemma get_grid_spec h a g : get_grid h a = Some g <-> reads_grid h a g.
Proof.
  unfold get_grid, reads_grid. destruct (h !! a) as [[]|] eqn:E; try (split; [done|intros (? & ? & ? & _); congruence]).
  split.
  - destruct (h !! data) as [[]|] eqn:E1; try done. destruct (mapM _ _) as [k|] eqn:E2; [|done]. cbn. intros [= <-].
    exists data, l. split; [done|]. split; [done|]. apply mapM_Some in E2. eapply Forall2_impl; [exact E2|]. intros. by apply get_column_spec.
  - intros (d & cols & [= -> -> ->] & H2 & H3). rewrite H2.
    assert (mapM (get_column h) cols = Some (gr_data g)) as ->; [|by destruct g].
    apply mapM_Some. eapply Forall2_impl; [exact H3|]. intros. by apply get_column_spec.
Qed.
Lemma get_state_spec h a s : get_state h a = Some s <-> reads_state h a s.
Proof.
  unfold get_state, reads_state. destruct (h !! a) as [[]|] eqn:E; try (split; [done|intros (? & ? & ? & ? & ? & ? & _); congruence]).
  destruct sd as [w fo ca aa e sc ch wi lo fe ce mo]. cbn [sd_capsules sd_agents sd_eaten sd_food]. split.
  - destruct (h !! ca) as [[]|] eqn:E1; try done. destruct (h !! aa) as [[]|] eqn:E2; try done. destruct (h !! e) as [[]|] eqn:E3; try done.
    destruct (get_grid h fo) as [g|] eqn:E4; [|done]. cbn [mbind option_bind]. destruct (mapM _ _) as [xs|] eqn:E5; [|done]. cbn [mbind option_bind].
    intros [= <-]. exists fo, ca, aa, e, l0. cbn. apply get_grid_spec in E4. apply mapM_Some in E5.
    split; [done|]. split; [done|]. split; [done|]. split; [done|]. split; [|done]. eapply Forall2_impl; [exact E5|]. intros. by apply get_agent_spec.
  - intros (fo' & ca' & aa' & e' & ags & [= -> -> -> -> -> -> -> -> -> -> -> ->] & H2 & H3 & H4 & H5 & H6). rewrite H3, H4, H6.
    apply get_grid_spec in H2. rewrite H2. cbn [mbind option_bind].
    assert (mapM (get_agent h) ags = Some (g_agents s)) as ->; [|by destruct s].
    apply mapM_Some. eapply Forall2_impl; [exact H5|]. intros. by apply get_agent_spec.
Qed.
Lemma reads_state_fun h a s t : reads_state h a s -> reads_state h a t -> s = t.
Proof. rewrite <-!get_state_spec. congruence. Qed.

(** ** Statements for PropsGameHeap.v *)
Lemma not_read (h : gheap) n t : h !! n = None -> ~ reads_state h n t.
Proof. intros Hn (fo & ca & aa & e & ags & H & _). congruence. Qed.
Lemma successor_lemma h a s i act : reads_state h a s ->
  match generate_successor_h a i act h, generate_successor s i act with
  | (DOk n, h'), DOk s' => reads_state h' n s' /\ (forall t, ~ reads_state h n t) /\ flags_only h h' /\ (i = 0 \/ g_eaten s' = g_eaten s -> all_kept h h')
  | (DErr x, h'), DErr y => x = y /\ all_kept h h'
  | _, _ => False
  end.
Proof.
  intros R. pose proof (successor_sim h a s i act R) as P.
  destruct (generate_successor_h a i act h) as [[n|x] h'], (generate_successor s i act) as [s'|y]; try done.
  - destruct P as (P1 & P2 & P3 & P4). split; [done|]. split; [intros t; by apply not_read|]. split; [done|]. intros H. by apply kept_sub, P4.
  - destruct P as [-> P]. split; [done|]. by apply kept_sub.
Qed.
Lemma deep_copy_lemma h a s : reads_state h a s ->
  exists n h', deep_copy_h a h = (DOk n, h') /\ reads_state h' n (deep_copy s) /\ (forall t, ~ reads_state h n t) /\ all_kept h h'.
Proof.
  intros R. destruct (deep_copy_sim h a s R) as (n & h' & E & S & N & R'). exists n, h'. split; [done|]. split; [done|].
  split; [intros t; by apply not_read|by apply kept_sub].
Qed.
Lemma initial_lemma h l m :
  exists n h', initial_state_h l m h = (DOk n, h') /\ reads_state h' n (initial_state l m) /\ (forall t, ~ reads_state h n t) /\ all_kept h h'.
Proof.
  destruct (initial_sim h l m) as (n & h' & E & S & N & R'). exists n, h'. split; [done|]. split; [done|].
  split; [intros t; by apply not_read|by apply kept_sub].
Qed.
Lemma history_lemma cs : Forall2 (same_result (run_gcalls cs [] ∅).2) (run_gcalls cs [] ∅).1 (run_vcalls cs []).
Proof.
  pose proof (run_sim cs ∅ [] [] ltac:(constructor)) as H. destruct (run_gcalls cs [] ∅) as [rs h]. apply H.
Qed.
Lemma hash_lemma hpos hdir hint htuple s t :
  (state_eqb s t = true -> state_hash hpos hdir hint htuple s = state_hash hpos hdir hint htuple t) /\
  (0 <= state_hash hpos hdir hint htuple s < 1048575)%Z.
Proof.
  split; [|by apply Z.mod_pos_bound]. intros (H1 & H2 & H3 & H4)%state_eqb_spec. rewrite !hash_fields. by rewrite H1, H2, H3, H4.
Qed.
Lemma key_lemma hpos hdir hint htuple s t u : only_flags s t ->
  state_eqb s t = true /\ state_eqb t u = state_eqb s u /\ state_eqb u t = state_eqb u s /\
  state_hash hpos hdir hint htuple t = state_hash hpos hdir hint htuple s.
Proof. intros [-> _]%only_flags_inv. split; [by apply state_eqb_spec|done]. Qed.
