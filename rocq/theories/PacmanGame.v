(** * PacmanGame: the first state and the game loop of the demo *)

From Coq Require Import ZArith Lia Ascii.
From stdpp Require Import base list numbers option sets sorting strings.
From Verif Require Import SpecPacman DemoGridFacts PacmanMove PacmanStep PacmanInv PacmanLayout.

(** ** The first state *)

Lemma initial_ghosts (gs : list (Z * Z)) n max :
  (n <= max)%Z -> initial_agents ((fun g => (false, g)) <$> gs) n max = start_state false <$> take (Z.to_nat (max - n)) gs.
Proof.
  revert n. induction gs as [|g gs IH]; intros n Hn; [by rewrite take_nil|]. rewrite fmap_cons. cbn [initial_agents].
  destruct (Z.eqb_spec n max) as [->|Hne].
  - rewrite IH by lia. rewrite Z.sub_diag. done.
  - rewrite IH by lia. replace (Z.to_nat (max - n)) with (S (Z.to_nat (max - (n + 1)))) by lia. done.
Qed.

Lemma filter_keep_all {A} (P : A -> Prop) `{forall a, Decision (P a)} (l : list A) : (forall a, a ∈ l -> P a) -> filter P l = l.
Proof.
  intros HP. induction l as [|a l IH]; [done|]. rewrite filter_cons, decide_True by (apply HP, elem_of_list_here).
  f_equal. apply IH. intros b Hb. by apply HP, elem_of_list_further.
Qed.

Lemma layout_pacman text w l :
  good_text text w -> layout_of text w l ->
  exists p gs, l_agents l = (true, p) :: ((fun g => (false, g)) <$> gs) /\ char_at text p = Some "P"%char /\
    Forall (fun g => exists c, char_at text g = Some c /\ is_ghost_char c) gs /\ l_ghosts l = Z.of_nat (length gs).
Proof.
  intros Hg Hl. destruct (gt_pacman text w Hg) as [p Hp]. destruct (lo_agents _ _ _ Hl) as (ns & Hags & Hsort & Hnd & Hns & Hcnt).
  assert (HP : (0%Z, p) ∈ ns) by (apply Hns; exists "P"%char; split; [by apply Hp|done]).
  assert (Hnum : forall n q, (n, q) ∈ ns -> (n = 0 /\ q = p \/ 0 < n)%Z /\ (n <> 0%Z -> exists c, char_at text q = Some c /\ is_ghost_char c)).
  { intros n q (c & Hc & Hn)%Hns. unfold agent_number in Hn. unfold is_ghost_char.
    destruct (decide (c = "P"%char)) as [->|]; [simplify_eq; split; [left; split; [done|by apply Hp]|done]|].
    assert (Hgc : (0 < n)%Z /\ c ∈ ["G"; "1"; "2"; "3"; "4"]%char).
    { destruct (decide (c = "G"%char \/ c = "1"%char)) as [[->| ->]|]; [simplify_eq; split; [lia|set_solver]..|].
      destruct (decide (c = "2"%char)) as [->|]; [simplify_eq; split; [lia|set_solver]|].
      destruct (decide (c = "3"%char)) as [->|]; [simplify_eq; split; [lia|set_solver]|].
      destruct (decide (c = "4"%char)) as [->|]; [simplify_eq; split; [lia|set_solver]|]. done. }
    destruct Hgc. split; [by right|eauto]. }
  destruct ns as [|n0 ns]; [by apply elem_of_nil in HP|].
  apply StronglySorted_inv in Hsort as [_ Hle].
  assert (E0 : n0 = (0%Z, p)).
  { apply elem_of_cons in HP as [<-|HP]; [done|]. rewrite Forall_forall in Hle. specialize (Hle _ HP).
    destruct n0 as [n q]. destruct (Hnum n q) as [[[-> ->]|Hn] _]; [apply elem_of_list_here|done|].
    unfold agent_le in Hle. simpl in Hle. lia. }
  subst n0. apply NoDup_cons in Hnd as [Hnin Hnd].
  assert (Hrest : forall n, n ∈ ns -> n.1 <> 0%Z).
  { intros [n q] Hin. destruct (Hnum n q) as [[[-> ->]|Hn] _]; [by apply elem_of_list_further|done|simpl; lia]. }
  exists p, ns.*2. split_and!.
  - rewrite Hags, fmap_cons. f_equal. rewrite <- list_fmap_compose. apply list_fmap_ext. intros i n Hn. simpl.
    rewrite bool_decide_false; [done|]. apply Hrest. by eapply elem_of_list_lookup_2.
  - by apply Hp.
  - apply Forall_fmap, Forall_forall. intros [n q] Hin. simpl.
    apply (Hnum n q); [by apply elem_of_list_further|]. by apply (Hrest (n, q)).
  - rewrite Hcnt, filter_cons, decide_False by (simpl; lia). rewrite fmap_length. f_equal. f_equal.
    apply filter_keep_all. done.
Qed.

Lemma layout_closed text w l : good_text text w -> layout_of text w l -> closed (l_walls l).
Proof.
  intros Hg Hl. destruct (lo_walls _ _ _ Hl) as (R & W & H). split; [done|]. intros x y Hf.
  assert (Hs : is_Some (cell (l_walls l) (x, y))) by (by eexists). apply cell_rect in Hs; [|done]. rewrite W, H in *.
  destruct (char_at_box_Some text w x y (gt_box _ _ Hg) Hs) as [c Hc].
  unfold free in Hf. rewrite (lo_wall _ _ _ Hl _ _ Hc) in Hf.
  assert (c <> "%"%char) as Hne by (intros ->; done).
  enough (~ (x = 0 \/ y = 0 \/ x = Z.of_nat w - 1 \/ y = Z.of_nat (length text) - 1)%Z) by lia.
  intros Hb. by apply Hne, (gt_border _ _ Hg x y).
Qed.

Lemma layout_free text w l p c : layout_of text w l -> char_at text p = Some c -> (c = "%"%char <-> ~ free (l_walls l) p).
Proof.
  intros Hl Hc. unfold free. rewrite (lo_wall _ _ _ Hl _ _ Hc). destruct (bool_decide_reflect (c = "%"%char)); split; try done.
Qed.

Lemma initial_eq text w l max :
  good_text text w -> layout_of text w l -> (0 <= max)%Z ->
  exists p gs, g_agents (initial_state l max) = start_state true p :: (start_state false <$> take (Z.to_nat max) gs) /\
    l_agents l = (true, p) :: ((fun g => (false, g)) <$> gs) /\ l_ghosts l = Z.of_nat (length gs) /\
    char_at text p = Some "P"%char /\ Forall (fun g => exists c, char_at text g = Some c /\ is_ghost_char c) gs.
Proof.
  intros Hg Hl Hm. destruct (layout_pacman text w l Hg Hl) as (p & gs & Hags & Hp & Hgs & Hn). exists p, gs. split_and!; try done.
  unfold initial_state. cbn [g_agents]. rewrite Hags. cbn [initial_agents]. rewrite initial_ghosts by lia. by rewrite Z.sub_0_r.
Qed.

Lemma initial_fine text w l max :
  good_text text w -> layout_of text w l -> (0 <= max)%Z -> fine (initial_state l max).
Proof.
  intros Hg Hl Hm. destruct (initial_eq text w l max Hg Hl Hm) as (p & gs & Ha & _ & _ & Hp & Hgs).
  split.
  - by eapply layout_closed.
  - unfold initial_state. cbn [g_food g_walls]. destruct (lo_foods _ _ _ Hl) as (R & W & H). destruct (lo_walls _ _ _ Hl) as (R' & W' & H').
    split_and!; [done|congruence..].
  - eexists _, _. split; [exact Ha|]. cbn [initial_state g_walls]. split.
    + exists p. split; [|done]. apply dec_stable. intros Hn. by apply (layout_free _ _ _ _ _ Hl Hp) in Hn.
    + apply Forall_fmap. apply Forall_take. eapply Forall_impl; [exact Hgs|]. intros g (c & Hc & Hch).
      assert (Hfree : free (l_walls l) g).
      { apply dec_stable. intros Hn. apply (layout_free _ _ _ _ _ Hl Hc) in Hn. subst c. unfold is_ghost_char in Hch. set_solver. }
      assert (Hexit : has_exit (l_walls l) g).
      { destruct (gt_ghosts _ _ Hg g c Hc Hch) as (d & Hd & c' & Hc' & Hne). exists d. split; [done|].
        apply dec_stable. intros Hn. by apply (layout_free _ _ _ _ _ Hl Hc') in Hn. }
      split; cbn [compose start_state a_conf a_start a_scared c_pos].
      * left. exists g. done.
      * exists g. done.
      * lia.
      * intros _. exists g. done.
  - cbn [initial_state g_eaten g_agents]. by rewrite fmap_length.
Qed.

(** ** Plays *)
Lemma legal_copy s i : g_win s = false -> g_lose s = false -> legal_actions (deep_copy s) i = legal_actions s i.
Proof. intros Hw Hl. unfold legal_actions. rewrite Hw, Hl. done. Qed.

Lemma num_agents_eq s i d s' : fine s -> (0 <= i)%Z -> generate_successor s i d = DOk s' -> length (g_agents s') = length (g_agents s).
Proof.
  intros Hf Hi Hg. destruct (decide (i = 0%Z)) as [->|Hne].
  - destruct (pacman_inv _ _ _ Hf Hg) as (p & gs & k & Ha & _ & _ & _ & Hm). rewrite (pm_agents _ _ _ _ _ _ Hm), Ha. simpl. by rewrite !fmap_length.
  - destruct (ghost_inv s i d s' Hf) as (p' & a & k & _ & _ & _ & _ & _ & _ & _ & _ & ->); [lia|done|].
    cbn [g_agents finish_move after_meet]. by rewrite insert_length.
Qed.

Record game_inv (s0 : gstate) (n : Z) (g : game) : Prop := {
  gi_reach : reachable s0 (gm_state g);
  gi_count : Z.of_nat (length (g_agents (gm_state g))) = n;
  gi_over : gm_over g = g_win (gm_state g) || g_lose (gm_state g);
  gi_replay : replays s0 (gm_history g) (gm_state g);
  gi_next : gm_next g = (Z.of_nat (length (gm_history g)) mod n)%Z;
  gi_order : forall j i d, gm_history g !! j = Some (i, d) -> i = (Z.of_nat j mod n)%Z;
  gi_moves : gm_moves g = 0%Z
}.

Lemma round_inv s0 n ag g g' :
  fine s0 -> (0 < n)%Z -> game_inv s0 n g -> game_round n ag g = DOk g' -> gm_over g = false -> game_inv s0 n g'.
Proof.
  intros Hf Hn [Hr Hc Ho Hre Hnx Hor Hmv] Hg Hov. unfold game_round in Hg.
  destruct (ag (gm_history g) (gm_next g) (deep_copy (gm_state g))) as [d|]; [|done]. cbn [mbind dres_bind] in Hg.
  destruct (generate_successor (gm_state g) (gm_next g) d) as [s'|] eqn:Es; [|done]. cbn [mbind dres_bind] in Hg. injection Hg as <-.
  assert (Hb : (0 <= gm_next g < n)%Z) by (rewrite Hnx; apply Z.mod_pos_bound; lia).
  split; cbn [gm_state gm_over gm_history gm_next gm_moves].
  - eapply (reach_move s0 (gm_state g) (gm_next g) d); [done|lia|done].
  - rewrite <- Hc. f_equal. eapply (num_agents_eq _ (gm_next g) d); [|lia|done]. by eapply reachable_fine.
  - by rewrite Hov.
  - by econstructor.
  - rewrite app_length. cbn [length]. rewrite Hnx, Nat2Z.inj_add. cbn. by rewrite Zplus_mod_idemp_l.
  - intros j i d' Hj. apply lookup_app_Some in Hj as [Hj|[Hge Hj]]; [by eapply Hor|].
    destruct (j - length (gm_history g)) as [|m] eqn:E; [|done]. simpl in Hj. injection Hj as <- <-. rewrite Hnx. do 2 f_equal. lia.
  - destruct (Z.eqb_spec (gm_next g) (n + 1)); [lia|done].
Qed.

Lemma run_inv s0 n ag k g g' :
  fine s0 -> (0 < n)%Z -> game_inv s0 n g -> game_run n ag k g = DOk g' -> game_inv s0 n g'.
Proof.
  intros Hf Hn. revert g. induction k as [|k IH]; intros g Hg Hrun; cbn [game_run] in Hrun; [by simplify_eq|].
  destruct (gm_over g) eqn:Eo; [by simplify_eq|]. destruct (game_round n ag g) as [g1|] eqn:E; [|done]. cbn [mbind dres_bind] in Hrun.
  eapply IH; [|done]. by eapply round_inv.
Qed.

Lemma run_progress s0 n ag k g :
  fine s0 -> (0 < n)%Z -> plays_legally ag -> game_inv s0 n g -> exists g', game_run n ag k g = DOk g'.
Proof.
  intros Hf Hn Hag. revert g. induction k as [|k IH]; intros g Hg; cbn [game_run]; [by eexists|].
  destruct (gm_over g) eqn:Eo; [by eexists|].
  assert (Hfs : fine (gm_state g)) by (eapply reachable_fine; [done|apply Hg]).
  assert (Hov : g_win (gm_state g) = false /\ g_lose (gm_state g) = false).
  { rewrite (gi_over _ _ _ Hg) in Eo. by apply orb_false_iff in Eo. }
  destruct Hov as [Hw Hl].
  assert (Hb : (0 <= gm_next g < n)%Z) by (rewrite (gi_next _ _ _ Hg); apply Z.mod_pos_bound; lia).
  destruct (progress (gm_state g) (Z.to_nat (gm_next g)) Hfs Hw Hl) as (l & Hleg & Hne & Hok & _).
  { pose proof (gi_count _ _ _ Hg). lia. }
  rewrite Z2Nat.id in Hleg, Hok by lia.
  destruct (Hag (gm_history g) (gm_next g) (deep_copy (gm_state g)) l) as (d & Hd & Hdl); [by rewrite legal_copy|done|].
  destruct (Hok d Hdl) as [s' Hs'].
  destruct (game_round n ag g) as [g1|] eqn:E.
  - cbn [mbind dres_bind]. apply IH. by eapply round_inv.
  - unfold game_round in E. rewrite Hd in E. cbn [mbind dres_bind] in E. rewrite Hs' in E. done.
Qed.

Lemma new_game_inv text w l ghosts :
  good_text text w -> layout_of text w l -> (0 <= ghosts)%Z ->
  game_inv (initial_state l ghosts) (num_agents l ghosts) (new_game l ghosts).
Proof.
  intros Hg Hl Hm. destruct (initial_eq text w l ghosts Hg Hl Hm) as (p & gs & Ha & _ & Hn & _ & _).
  split; cbn [new_game gm_state gm_over gm_history gm_next gm_moves]; try done.
  - constructor.
  - unfold num_agents. rewrite Ha. cbn [length]. rewrite fmap_length, take_length. lia.
  - constructor.
Qed.
