(** * PacmanMain: the statements about the demo game *)

From Coq Require Import ZArith Lia Ascii String.
From stdpp Require Import base list numbers option sets sorting strings.
From Verif Require Import SpecPacman DemoGridFacts PacmanMove PacmanStep PacmanInv PacmanLayout PacmanGame PacmanScore.

Lemma succ_walls s i d s' : fine s -> (0 <= i)%Z -> generate_successor s i d = DOk s' -> g_walls s' = g_walls s.
Proof.
  intros Hf Hi Hg. destruct (decide (i = 0%Z)) as [->|Hne].
  - destruct (pacman_inv _ _ _ Hf Hg) as (p & gs & k & Ha & _ & _ & _ & Hm). apply (pm_walls _ _ _ _ _ _ Hm).
  - destruct (ghost_inv s i d s' Hf) as (p' & a & k & _ & _ & _ & _ & _ & _ & _ & _ & ->); [lia|done|done].
Qed.

Lemma reachable_walls s0 s : fine s0 -> reachable s0 s -> g_walls s = g_walls s0 /\ length (g_agents s) = length (g_agents s0).
Proof.
  intros Hf. induction 1 as [|s i d s' Hr [IH1 IH2] Hi Hg]; [done|].
  assert (fine s) by (by eapply reachable_fine). split.
  - rewrite <- IH1. by eapply succ_walls.
  - rewrite <- IH2. by eapply num_agents_eq.
Qed.

Lemma on_board_inv text w s :
  on_board text w s -> fine s /\ exists l, layout_of text w l /\ g_walls s = l_walls l /\ good_text text w.
Proof.
  intros (l & max & Hg & Hl & Hm & Hr). destruct (layout_ok text w (gt_box _ _ Hg)) as (l' & El & Hlo). rewrite Hl in El. simplify_eq.
  pose proof (initial_fine text w l' max Hg Hlo Hm) as Hf. split; [by eapply reachable_fine|]. exists l'. split_and!; try done.
  by destruct (reachable_walls _ _ Hf Hr) as [-> _].
Qed.

Lemma free_open text w l k : good_text text w -> layout_of text w l -> free (l_walls l) k <-> open_cell text k.
Proof.
  intros Hg Hl. split.
  - intros Hf. destruct k as [x y]. assert (Hs : is_Some (cell (l_walls l) (x, y))) by (by eexists).
    destruct (lo_walls _ _ _ Hl) as (R & W & H). apply cell_rect in Hs; [|done]. rewrite W, H in Hs.
    destruct (char_at_box_Some text w x y (gt_box _ _ Hg) Hs) as [c Hc]. exists c. split; [done|]. intros ->.
    by apply (layout_free _ _ _ _ _ Hl Hc).
  - intros (c & Hc & Hne). apply dec_stable. intros Hn. by apply (layout_free _ _ _ _ _ Hl Hc) in Hn.
Qed.

Lemma positions text w s :
  on_board text w s ->
  exists p gs, g_agents s = p :: gs /\ pacman_place text p /\ Forall (fun a => ghost_place text a /\ (0 <= a_scared a <= 40)%Z) gs.
Proof.
  intros Hb. destruct (on_board_inv _ _ _ Hb) as (Hf & l & Hl & Ew & Hg). destruct (fi_agents s Hf) as (p & gs & Ha & (k & Hk & Hp) & Hgs).
  exists p, gs. rewrite Ew in *. split_and!; [done| |].
  - exists k. split; [by eapply free_open|done].
  - eapply Forall_impl; [exact Hgs|]. intros a [Hpl _ Ht Hc]. split; [|done]. destruct Hpl as [(k1 & Hk1 & _ & Hp1)|(k1 & d & Hk1 & Hn1 & Hp1 & Hd)].
    + left. exists k1. split; [by eapply free_open|done].
    + right. split.
      * destruct (decide (a_scared a = 0%Z)) as [E|]; [|lia]. destruct (Hc E) as [k2 Hk2]. by destruct (in_half_false _ _ _ _ Hk2 Hp1).
      * exists k1, d. split_and!; try done; by eapply free_open.
Qed.

Lemma pacman_rule text w s d s' :
  on_board text w s -> generate_successor s 0 d = DOk s' ->
  exists p gs k, g_agents s = p :: gs /\ in_cell (c_pos (a_conf p)) k /\ open_cell text (next_cell k d) /\ pacman_moves s p gs k d s'.
Proof.
  intros Hb Hgen. destruct (on_board_inv _ _ _ Hb) as (Hf & l & Hl & Ew & Hg).
  destruct (pacman_inv _ _ _ Hf Hgen) as (p & gs & k & Ha & Hk & Hp & Hn & Hm). exists p, gs, k. rewrite Ew in *. split_and!; try done.
  by eapply free_open.
Qed.

Lemma ghost_rule text w s i d s' :
  on_board text w s -> (0 < i)%Z -> generate_successor s i d = DOk s' ->
  exists a, g_agents s !! Z.to_nat i = Some a /\ ghost_moves s (Z.to_nat i) a d s'.
Proof.
  intros Hb Hi Hgen. destruct (on_board_inv _ _ _ Hb) as (Hf & _).
  destruct (ghost_moves_intro _ _ _ _ Hf Hi Hgen) as (a & k & Ha & _ & _ & _ & _ & Hm). eauto.
Qed.

Lemma pacman_choices text w s :
  on_board text w s -> g_win s = false -> g_lose s = false ->
  exists p gs k, g_agents s = p :: gs /\ in_cell (c_pos (a_conf p)) k /\
    exists l, legal_actions s 0 = DOk l /\ NoDup l /\ forall d, d ∈ l <-> open_cell text (next_cell k d).
Proof.
  intros Hb Hw Hlo. destruct (on_board_inv _ _ _ Hb) as (Hf & l & Hl & Ew & Hg).
  destruct (fi_agents s Hf) as (p & gs & Ha & (k & Hk & Hp) & Hgs). exists p, gs, k. split_and!; try done.
  eexists. split; [by apply (pacman_legal s p gs k)|]. split; [apply nodup_filter_dirs|]. intros d.
  rewrite elem_of_list_filter, Ew. rewrite (free_open _ _ _ _ Hg Hl). split; [tauto|]. intros; split; [done|apply elem_directions].
Qed.

Lemma ghost_filter_single d : d <> Stop -> ghost_filter d [d] = [d].
Proof. by destruct d. Qed.

Lemma ghost_choices text w s i a :
  on_board text w s -> g_win s = false -> g_lose s = false -> (0 < i)%nat -> g_agents s !! i = Some a ->
  exists l, legal_actions s (Z.of_nat i) = DOk l /\ l <> [] /\
    (forall k, in_cell (c_pos (a_conf a)) k -> forall d,
       d ∈ l <-> d <> Stop /\ open_cell text (next_cell k d) /\
                 (d = reverse_direction (c_dir (a_conf a)) -> forall e, e <> Stop -> open_cell text (next_cell k e) -> e = d)) /\
    (forall k d, half_way (c_pos (a_conf a)) k d -> l = [c_dir (a_conf a)]).
Proof.
  intros Hb Hw Hlo Hi Ha. destruct (on_board_inv _ _ _ Hb) as (Hf & lay & Hl & Ew & Hg).
  destruct (fi_agents s Hf) as (p & gs & Hags & _ & Hgs).
  assert (Hga : ghost_fine (g_walls s) a).
  { rewrite Hags in Ha. destruct i as [|j]; [lia|]. simpl in Ha. rewrite Forall_lookup in Hgs. by eapply Hgs. }
  destruct (ghost_possible (g_walls s) a (fi_closed s Hf) (gf_place _ _ Hga)) as (l & Hl' & Hnd & (e & He & Hel) & Hall).
  exists (ghost_filter (c_dir (a_conf a)) l). split; [by apply ghost_legal|]. split; [by eapply ghost_filter_nonempty|].
  destruct (gf_place _ _ Hga) as [(k & Hk & Hex & Hp)|(k & d & Hk & Hn & Hp & Hd)].
  - rewrite (possible_in_cell _ _ k) in Hl'; [|apply Hf|done..]. simplify_eq. split.
    + intros k1 Hk1 d. rewrite (in_cell_inj _ _ _ Hk1 Hp). rewrite ghost_filter_elem by apply nodup_filter_dirs.
      assert (Hf' : forall d, d ∈ filter (fun d => free (g_walls s) (next_cell k d)) directions <-> open_cell text (next_cell k d)).
      { intros d'. rewrite elem_of_list_filter, Ew, (free_open _ _ _ _ Hg Hl). split; [tauto|]. intros; split; [done|apply elem_directions]. }
      rewrite Hf'. split; intros (H1 & H2 & H3); (split_and!; [done|done|]); intros E e' Hs He'; apply H3; try done; by apply Hf'.
    + intros k1 d Hh. by destruct (in_half_false _ _ _ _ Hp Hh).
  - rewrite (possible_half _ _ k d) in Hl' by done. simplify_eq. split.
    + intros k1 Hk1. by destruct (in_half_false _ _ _ _ Hk1 Hp).
    + intros _ _ _. apply ghost_filter_single. apply Hp.
Qed.

Lemma legal_iff text w s i :
  on_board text w s -> g_win s = false -> g_lose s = false -> i < length (g_agents s) ->
  exists l, legal_actions s (Z.of_nat i) = DOk l /\ l <> [] /\
    (forall d, d ∈ l -> exists s', generate_successor s (Z.of_nat i) d = DOk s') /\
    (forall d, d ∉ l -> generate_successor s (Z.of_nat i) d = DErr (if decide (i = 0) then DIllegalAction else DIllegalGhostAction)).
Proof. intros Hb Hw Hl Hi. destruct (on_board_inv _ _ _ Hb) as [Hf _]. by apply progress. Qed.

Lemma over_stops s i d : g_win s || g_lose s = true -> legal_actions s i = DOk [] /\ generate_successor s i d = DErr DTerminal.
Proof. intros H. unfold legal_actions, generate_successor. by rewrite H. Qed.

(** ** Plays *)
Lemma play_never_raises text w l ghosts ag k :
  good_text text w -> make_layout text = DOk l -> (0 <= ghosts)%Z -> plays_legally ag ->
  exists g, game_run (num_agents l ghosts) ag k (new_game l ghosts) = DOk g.
Proof.
  intros Hg Hl Hm Hag. destruct (layout_ok text w (gt_box _ _ Hg)) as (l' & El & Hlo). rewrite Hl in El. simplify_eq.
  pose proof (new_game_inv text w l' ghosts Hg Hlo Hm) as Hi.
  eapply run_progress; [by eapply initial_fine| |done|done].
  unfold num_agents. destruct (initial_eq text w l' ghosts Hg Hlo Hm) as (p & gs & _ & _ & Hn & _ & _). lia.
Qed.

Lemma play_inv text w l ghosts ag k g :
  good_text text w -> make_layout text = DOk l -> (0 <= ghosts)%Z ->
  game_run (num_agents l ghosts) ag k (new_game l ghosts) = DOk g ->
  game_inv (initial_state l ghosts) (num_agents l ghosts) g /\ fine (initial_state l ghosts) /\
  Forall (fun m => (0 <= m.1)%Z) (gm_history g) /\ (1 <= num_agents l ghosts)%Z.
Proof.
  intros Hg Hl Hm Hrun. destruct (layout_ok text w (gt_box _ _ Hg)) as (l' & El & Hlo). rewrite Hl in El. simplify_eq.
  assert (Hn : (1 <= num_agents l' ghosts)%Z).
  { unfold num_agents. destruct (initial_eq text w l' ghosts Hg Hlo Hm) as (p & gs & _ & _ & Hn & _ & _). lia. }
  pose proof (initial_fine text w l' ghosts Hg Hlo Hm) as Hf.
  assert (Hi : game_inv (initial_state l' ghosts) (num_agents l' ghosts) g).
  { eapply run_inv; [done|lia| |done]. by eapply new_game_inv. }
  split_and!; try done. apply Forall_lookup. intros j [i d] Hj. cbn [fst]. rewrite (gi_order _ _ _ Hi _ _ _ Hj). apply Z.mod_pos_bound. lia.
Qed.

Lemma play_order text w l ghosts ag k g :
  good_text text w -> make_layout text = DOk l -> (0 <= ghosts)%Z ->
  game_run (num_agents l ghosts) ag k (new_game l ghosts) = DOk g ->
  (forall j i d, gm_history g !! j = Some (i, d) -> i = (Z.of_nat j mod num_agents l ghosts)%Z) /\
  replays (initial_state l ghosts) (gm_history g) (gm_state g) /\
  Z.of_nat (length (g_agents (gm_state g))) = num_agents l ghosts /\
  gm_over g = g_win (gm_state g) || g_lose (gm_state g) /\
  gm_moves g = 0%Z.
Proof.
  intros Hg Hl Hm Hrun. destruct (play_inv _ _ _ _ _ _ _ Hg Hl Hm Hrun) as (Hi & _ & _ & _). destruct Hi. done.
Qed.

(** The play goes on until the game is over. *)
Lemma run_length n ag k g g' :
  game_run n ag k g = DOk g' -> (length (gm_history g') = length (gm_history g) + k)%nat \/ gm_over g' = true.
Proof.
  revert g. induction k as [|k IH]; intros g Hrun; cbn [game_run] in Hrun; [simplify_eq; left; lia|].
  destruct (gm_over g) eqn:Eo; [simplify_eq; by right|]. destruct (game_round n ag g) as [g1|] eqn:E; [|done]. cbn [mbind dres_bind] in Hrun.
  destruct (IH _ Hrun) as [El|]; [|by right]. left. rewrite El. unfold game_round in E.
  destruct (ag _ _ _); [|done]. cbn [mbind dres_bind] in E. destruct (generate_successor _ _ _); [|done]. cbn [mbind dres_bind] in E. simplify_eq.
  cbn [gm_history]. rewrite app_length. simpl. lia.
Qed.

Lemma play_accounts text w l ghosts ag k g :
  good_text text w -> make_layout text = DOk l -> (0 <= ghosts)%Z -> (exists c, char_at text c = Some "."%char) ->
  game_run (num_agents l ghosts) ag k (new_game l ghosts) = DOk g ->
  accounts (initial_state l ghosts) (gm_state g) (pacman_turns (gm_history g)).
Proof.
  intros Hg Hl Hm [c Hc] Hrun. destruct (play_inv _ _ _ _ _ _ _ Hg Hl Hm Hrun) as (Hi & Hf & Hh & _).
  destruct (layout_ok text w (gt_box _ _ Hg)) as (l' & El & Hlo). rewrite Hl in El. simplify_eq.
  apply replays_accounts; try done; [|apply Hi]. exists c. unfold has_food. cbn [initial_state g_food]. by rewrite (lo_food _ _ _ Hlo _ _ Hc).
Qed.

(** Without food on the board nobody can win. *)
Lemma no_food_no_win s0 s :
  fine s0 -> g_win s0 = false -> (forall c, ~ has_food s0 c) -> reachable s0 s -> g_win s = false /\ forall c, ~ has_food s c.
Proof.
  intros Hf Hw Hno. induction 1 as [|s i d s' Hr [IHw IHf] Hi Hg]; [done|].
  assert (Hfs : fine s) by (by eapply reachable_fine).
  destruct (decide (i = 0%Z)) as [->|Hne].
  - destruct (pacman_inv _ _ _ Hfs Hg) as (p & gs & k & Ha & _ & _ & _ & Hm). split.
    + destruct (g_win s') eqn:E; [|done]. apply (pm_win _ _ _ _ _ _ Hm) in E as [E _]. by destruct (IHf (next_cell k d)).
    + destruct (pm_food _ _ _ _ _ _ Hm) as (_ & _ & _ & C). intros c Hc. unfold has_food in Hc. rewrite C in Hc.
      destruct (decide (c = next_cell k d)); [done|]. by apply (IHf c).
  - destruct (ghost_moves_intro s i d s' Hfs ltac:(lia) Hg) as (a & k & _ & _ & _ & _ & _ & [(_ & Ef & _ & Ew) _ _]).
    split; [done|]. intros c. unfold has_food. rewrite Ef. apply IHf.
Qed.

Lemma board_without_food text w s :
  on_board text w s -> (forall c, char_at text c <> Some "."%char) -> g_win s = false.
Proof.
  intros (l & max & Hg & Hl & Hm & Hr) Hno. destruct (layout_ok text w (gt_box _ _ Hg)) as (l' & El & Hlo). rewrite Hl in El. simplify_eq.
  eapply (no_food_no_win (initial_state l' max) s); [by eapply initial_fine|done| |done].
  intros [x y] Hc. unfold has_food in Hc. cbn [initial_state g_food] in Hc. 
  assert (Hs : is_Some (cell (l_food l') (x, y))) by (by eexists). destruct (lo_foods _ _ _ Hlo) as (R & W & H).
  apply cell_rect in Hs; [|done]. rewrite W, H in Hs.
  destruct (char_at_box_Some text w x y (gt_box _ _ Hg) Hs) as [c Hch]. rewrite (lo_food _ _ _ Hlo _ _ Hch) in Hc.
  injection Hc as Hc%bool_decide_eq_true. subst c. by apply (Hno (x, y)).
Qed.

(** ** The first state *)
Lemma first_agents text w l max :
  good_text text w -> make_layout text = DOk l -> (0 <= max)%Z ->
  exists p gs, g_agents (initial_state l max) = start_state true p :: (start_state false <$> take (Z.to_nat max) gs) /\
    char_at text p = Some "P"%char /\ NoDup gs /\ (forall g, g ∈ gs <-> exists c, char_at text g = Some c /\ is_ghost_char c) /\
    Z.of_nat (length (g_agents (initial_state l max))) = num_agents l max.
Proof.
  intros Hg Hl Hm. destruct (layout_ok text w (gt_box _ _ Hg)) as (l' & El & Hlo). rewrite Hl in El. simplify_eq.
  destruct (initial_eq text w l' max Hg Hlo Hm) as (p & gs & Ea & El & En & Hp & Hgs).
  exists p, gs. destruct (lo_agents _ _ _ Hlo) as (ns & Ens & _ & Hnd & Hns & _). rewrite El in Ens.
  assert (Hnum : forall n q, (n, q) ∈ ns -> n = 0%Z -> q = p).
  { intros n q Hin ->. destruct (proj1 (Hns _ _) Hin) as (c & Hc & Hnc). destruct (gt_pacman _ _ Hg) as [p0 Hp0].
    assert (c = "P"%char) as ->.
    { unfold agent_number in Hnc. repeat case_decide; simplify_eq; done. }
    apply Hp0 in Hc, Hp. congruence. }
  assert (Hgs' : gs = snd <$> filter (fun n => n.1 <> 0%Z) ns).
  { destruct ns as [|[n0 p0] ns]; [done|]. rewrite fmap_cons in Ens. cbn [fst snd] in Ens. injection Ens as E0 -> Ens.
    symmetry in E0. apply bool_decide_eq_true in E0. subst n0. rewrite filter_cons_False by (cbn [fst]; lia).
    apply NoDup_cons in Hnd as [Hni Hnd].
    assert (Hno : Forall (fun n : Z * (Z * Z) => n.1 <> 0%Z) ns).
    { apply Forall_forall. intros [n q] Hin. cbn [fst]. intros ->. apply Hni. rewrite <- (Hnum 0%Z q); [done|by apply elem_of_list_further|done]. }
    clear -Ens Hno. revert gs Ens. induction ns as [|[n q] ns IH]; intros [|g gs] Ens; try done.
    rewrite !fmap_cons in Ens. injection Ens as E1 E2 Ens. rewrite Forall_cons in Hno. destruct Hno as [Hn Hno].
    rewrite filter_cons_True by done. rewrite fmap_cons. cbn [snd] in *. subst. f_equal. by apply IH. }
  split_and!; try done.
  - rewrite Hgs'. apply NoDup_fmap_2_strong; [|by apply list.NoDup_filter].
    intros [n q] [n' q'] H1 H2 E. cbn [snd] in E. subst q'. apply elem_of_list_filter in H1 as [_ H1], H2 as [_ H2].
    apply Hns in H1 as (c & Hc & Hn), H2 as (c' & Hc' & Hn'). rewrite Hc in Hc'. simplify_eq. congruence.
  - intros g. split; [intros Hin; rewrite Forall_forall in Hgs; by apply Hgs|]. intros (c & Hc & Hgc). rewrite Hgs'.
    assert (exists n, agent_number c = Some n /\ n <> 0%Z) as (n & Hn & Hn0).
    { unfold is_ghost_char in Hgc. repeat (apply elem_of_cons in Hgc as [->|Hgc]; [by eexists; split; [reflexivity|]|]). by apply elem_of_nil in Hgc. }
    apply elem_of_list_fmap. exists (n, g). split; [done|]. apply elem_of_list_filter. split; [done|]. apply Hns. eauto.
  - rewrite Ea. cbn [length]. rewrite fmap_length, take_length. unfold num_agents. rewrite En. lia.
Qed.

(** ** Moves one after the other *)
Definition play (s : gstate) (h : list (Z * dir)) : dres gstate := for_each (fun s '(i, d) => generate_successor s i d) s h.

Lemma play_snoc s h i d : play s (h ++ [(i, d)]) = (s' ← play s h; generate_successor s' i d).
Proof.
  unfold play. rewrite for_each_app. destruct (for_each _ s h) as [s'|]; [|done]. cbn [mbind dres_bind for_each]. by destruct (generate_successor s' i d).
Qed.

Lemma play_replays s h s' : play s h = DOk s' <-> replays s h s'.
Proof.
  split.
  - revert s'. induction h as [|[i d] h IH] using rev_ind; intros s' Hp; [injection Hp as <-; constructor|].
    rewrite play_snoc in Hp. destruct (play s h) as [s1|]; [|done]. econstructor; [by apply IH|done].
  - induction 1 as [s|s h s1 i d s2 Hr IH Hg]; [done|]. by rewrite play_snoc, IH.
Qed.

Lemma play_reachable s h s' : play s h = DOk s' -> forallb (fun m => (0 <=? m.1)%Z) h = true -> reachable s s'.
Proof.
  intros Hp%play_replays Hh. eapply replays_reachable; [done|]. apply Forall_forall. intros m Hm. rewrite forallb_forall in Hh.
  apply Z.leb_le, Hh. by apply elem_of_list_In.
Qed.

(** ** Rows that are longer than the first *)
Lemma for_each_ext {A S} (f g : S -> A -> dres S) l s : (forall s a, a ∈ l -> f s a = g s a) -> for_each f s l = for_each g s l.
Proof.
  revert s. induction l as [|a l IH]; intros s H; [done|]. cbn [for_each]. rewrite H by (by left). destruct (g s a); [|done].
  cbn [mbind dres_bind]. apply IH. intros. apply H. by right.
Qed.

Lemma py_get_take {A} (l : list A) (n : nat) (x : Z) : (0 <= x < Z.of_nat n)%Z -> py_get (take n l) x = py_get l x.
Proof.
  intros Hx. destruct (l !! Z.to_nat x) as [a|] eqn:E.
  - rewrite (py_get_lookup l x a) by (done || lia). apply py_get_lookup; [lia|]. rewrite lookup_take by lia. done.
  - assert (H : forall k : list A, k !! Z.to_nat x = None -> py_get k x = DErr DIndexError).
    { intros k Hk. unfold py_get, py_index. apply lookup_ge_None in Hk. destruct (Z.ltb_spec x 0) as [|_]; [lia|].
      destruct (Z.leb_spec 0 x), (Z.ltb_spec x (Z.of_nat (length k))); done || lia. }
    rewrite !H; try done. rewrite lookup_take by lia. done.
Qed.

(** Characters beyond the width of the first row are not read. *)
Lemma layout_long text row0 :
  text !! 0 = Some row0 -> make_layout text = make_layout (take (length row0) <$> text).
Proof.
  intros H0. rewrite (make_layout_eq text row0 H0).
  assert (H0' : (take (length row0) <$> text) !! 0 = Some row0) by (rewrite list_lookup_fmap, H0; cbn; by rewrite firstn_all).
  rewrite (make_layout_eq _ row0 H0'). rewrite fmap_length.
  erewrite for_each_ext; [done|]. intros r [y x] Hin. apply elem_read_order in Hin as [Hy Hx].
  unfold read_step. rewrite fmap_length.
  destruct (text !! Z.to_nat (Z.of_nat (length text) - 1 - y)) as [row|] eqn:Er; [|apply lookup_ge_None in Er; lia].
  rewrite (py_get_lookup text _ row) by (done || lia).
  rewrite (py_get_lookup (take (length row0) <$> text) _ (take (length row0) row)) by (lia || by rewrite list_lookup_fmap, Er).
  cbn [mbind dres_bind]. by rewrite py_get_take.
Qed.
