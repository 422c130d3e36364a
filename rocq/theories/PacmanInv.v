(** * PacmanInv: invariants of the demo game *)

From Coq Require Import ZArith Lia.
From stdpp Require Import base list numbers option sets.
From Verif Require Import SpecPacman DemoGridFacts PacmanMove PacmanStep.

Lemma not_over s i d s' : generate_successor s i d = DOk s' -> g_win s = false /\ g_lose s = false.
Proof. unfold generate_successor. by destruct (g_win s), (g_lose s). Qed.

Lemma pacman_inv s d s' :
  fine s -> generate_successor s 0 d = DOk s' ->
  exists p gs k, g_agents s = p :: gs /\ free (g_walls s) k /\ in_cell (c_pos (a_conf p)) k /\
    free (g_walls s) (next_cell k d) /\ pacman_moves s p gs k d s'.
Proof.
  intros Hf Hg. destruct (not_over _ _ _ _ Hg) as [Hw Hl].
  destruct (fi_agents s Hf) as (p & gs & Ha & (k & Hk & Hp) & Hgs). exists p, gs, k. split_and!; [done..| |].
  all: assert (Hfree : free (g_walls s) (next_cell k d)); [|try done].
  1, 2: revert Hg; unfold generate_successor; rewrite Hw, Hl; cbn [orb Z.eqb]; unfold pacman_apply, pacman_actions;
    cbn [reset_eaten copy_state g_agents g_walls]; rewrite Ha; change (py_get (p :: gs) 0) with (@DOk astate p); cbn [mbind dres_bind];
    rewrite (possible_in_cell _ _ k); [|apply Hf|done..]; cbn [mbind dres_bind];
    destruct (bool_decide_reflect (d ∈ filter (fun d => free (g_walls s) (next_cell k d)) directions)) as [Hin|]; [|done];
    intros _; by apply elem_of_list_filter in Hin as [? _].
  destruct (pacman_succ_eq s p gs k d) as (s1 & Es & Hm); try done. rewrite Hg in Es. by simplify_eq.
Qed.

Lemma Forall_meet W p b gs : Forall (ghost_fine W) gs -> Forall (ghost_fine W) (meet p <$> (frightened b <$> gs)).
Proof.
  intros Hgs. apply Forall_fmap, Forall_fmap. eapply Forall_impl; [exact Hgs|]. intros a Ha. simpl.
  by apply meet_fine, frightened_fine.
Qed.

Lemma pacman_fine s d s' : fine s -> generate_successor s 0 d = DOk s' -> fine s'.
Proof.
  intros Hf Hg. destruct (pacman_inv _ _ _ Hf Hg) as (p & gs & k & Ha & Hk & Hp & Hn & Hm).
  destruct (fi_agents s Hf) as (p' & gs' & Ha' & _ & Hgs). rewrite Ha in Ha'. simplify_eq.
  destruct (pm_food _ _ _ _ _ _ Hm) as (W & H & R & C). destruct (fi_food s Hf) as (_ & W' & H').
  split.
  - rewrite (pm_walls _ _ _ _ _ _ Hm). apply Hf.
  - rewrite (pm_walls _ _ _ _ _ _ Hm). split_and!; [done|congruence..].
  - rewrite (pm_walls _ _ _ _ _ _ Hm), (pm_agents _ _ _ _ _ _ Hm). eexists _, _. split_and!; [reflexivity| |by apply Forall_meet].
    exists (next_cell k d). done.
  - rewrite (pm_agents _ _ _ _ _ _ Hm), (pm_eaten _ _ _ _ _ _ Hm). simpl. by rewrite !fmap_length.
Qed.

Lemma ghost_inv s i d s' :
  fine s -> (0 < i)%Z -> generate_successor s i d = DOk s' ->
  exists p a k, g_agents s !! 0 = Some p /\ g_agents s !! Z.to_nat i = Some a /\ d <> Stop /\ free (g_walls s) k /\ free (g_walls s) (next_cell k d) /\
    (in_cell (c_pos (a_conf a)) k \/ half_way (c_pos (a_conf a)) k d) /\
    ghost_fine (g_walls s) (ghost_next a d) /\ ghost_step a d (a_conf (ghost_next a d)) /\
    s' = finish_move (after_meet (copy_state s) (<[Z.to_nat i := meet (c_pos (a_conf p)) (ghost_next a d)]> (g_agents s))
      (if eaten_at (c_pos (a_conf p)) (ghost_next a d) then <[Z.to_nat i := true]> (g_eaten s) else g_eaten s)
      (if eaten_at (c_pos (a_conf p)) (ghost_next a d) then 1 else 0)
      (if deadly_at (c_pos (a_conf p)) (ghost_next a d) then 1 else 0)
      (deadly_at (c_pos (a_conf p)) (ghost_next a d))) i.
Proof.
  intros Hf Hi Hg. destruct (not_over _ _ _ _ Hg) as [Hw Hl].
  destruct (fi_agents s Hf) as (p & gs & Hags & _ & Hgs).
  destruct (decide (i < Z.of_nat (length (g_agents s)))%Z) as [Hlt|Hge].
  2:{ exfalso. revert Hg. unfold generate_successor. rewrite Hw, Hl. cbn [orb]. destruct (Z.eqb_spec i 0); [lia|].
      unfold ghost_apply, ghost_actions, ghost_state. cbn [copy_state g_agents]. 
      destruct (Z.eqb_spec i 0); [lia|]. destruct (Z.leb_spec (Z.of_nat (length (g_agents s))) i); [done|lia]. }
  destruct (lookup_lt_is_Some_2 (g_agents s) (Z.to_nat i)) as [a Ha]; [lia|].
  assert (Hga : ghost_fine (g_walls s) a).
  { rewrite Hags in Ha. destruct (Z.to_nat i) as [|j] eqn:E; [lia|]. simpl in Ha. rewrite Forall_lookup in Hgs. by eapply Hgs. }
  destruct (ghost_possible (g_walls s) a (fi_closed s Hf) (gf_place _ _ Hga)) as (l & Hl' & Hnd & Hex & Hall).
  assert (Hd : d ∈ ghost_filter (c_dir (a_conf a)) l).
  { revert Hg. unfold generate_successor. rewrite Hw, Hl. cbn [orb]. destruct (Z.eqb_spec i 0); [lia|].
    unfold ghost_apply. rewrite <- (Z2Nat.id i) at 1 by lia. rewrite (ghost_actions_eq _ (Z.to_nat i) a l); [|lia|done..]. cbn [mbind dres_bind].
    destruct (bool_decide_reflect (d ∈ ghost_filter (c_dir (a_conf a)) l)); [done|done]. }
  destruct (ghost_succ_eq s (Z.to_nat i) a l d Hf Hw Hl ltac:(lia) Ha Hl' Hd) as (p' & Hp' & Eg).
  rewrite Z2Nat.id in Eg by lia.
  apply ghost_filter_elem in Hd as (Hds & Hdl & _); [|done]. destruct (Hall d Hdl Hds) as (k & Hk & Hn & Hpos).
  destruct (ghost_next_fine (g_walls s) a d k (fi_closed s Hf) Hga Hds Hk Hn Hpos) as [Hnf Hstep].
  exists p', a, k. split_and!; try done. rewrite Hg in Eg. by simplify_eq.
Qed.

Lemma ghost_fine_state s i d s' : fine s -> (0 < i)%Z -> generate_successor s i d = DOk s' -> fine s'.
Proof.
  intros Hf Hi Hg. destruct (ghost_inv _ _ _ _ Hf Hi Hg) as (p' & a & k & Hp' & Ha & _ & _ & _ & _ & Hnf & _ & ->).
  destruct (fi_agents s Hf) as (p & gs & Hags & Hp & Hgs).
  split; cbn [g_walls g_food g_agents g_eaten finish_move after_meet copy_state].
  - apply Hf.
  - apply Hf.
  - rewrite Hags in *. destruct (Z.to_nat i) as [|j] eqn:E; [lia|]. simpl in Ha |- *. eexists _, _. split_and!; [reflexivity|done|].
    apply Forall_insert; [done|]. by apply meet_fine.
  - rewrite insert_length. destruct (eaten_at _ _); rewrite ?insert_length; apply Hf.
Qed.

Lemma reachable_fine s0 s : fine s0 -> reachable s0 s -> fine s.
Proof.
  intros Hf. induction 1 as [|s i d s' Hr IH Hi Hg]; [done|].
  destruct (decide (i = 0%Z)) as [->|]; [by eapply pacman_fine|]. eapply (ghost_fine_state s i); [done|lia|done].
Qed.

Lemma ghost_moves_intro s i d s' :
  fine s -> (0 < i)%Z -> generate_successor s i d = DOk s' ->
  exists a k, g_agents s !! Z.to_nat i = Some a /\ d <> Stop /\ free (g_walls s) k /\ free (g_walls s) (next_cell k d) /\
    (in_cell (c_pos (a_conf a)) k \/ half_way (c_pos (a_conf a)) k d) /\
    ghost_moves s (Z.to_nat i) a d s'.
Proof.
  intros Hf Hi Hg. destruct (not_over _ _ _ _ Hg) as [Hw Hl].
  destruct (ghost_inv _ _ _ _ Hf Hi Hg) as (p & a & k & Hp & Ha & Hd & Hk & Hn & Hpos & Hnf & Hst & ->).
  exists a, k. split_and!; [done..|]. split.
  - done.
  - cbn [finish_move after_meet copy_state g_food_eaten g_capsule_eaten g_moved g_change g_score g_win]. split_and!; try done; [f_equal; lia|lia].
  - exists (ghost_next a d), p. split_and!; try done.
    cbn [g_score finish_move after_meet copy_state g_change g_win].
    destruct (eaten_at _ _), (deadly_at _ _); lia.
Qed.

(** ** Legal actions *)
Lemma pacman_legal s p gs k :
  fine s -> g_win s = false -> g_lose s = false -> g_agents s = p :: gs -> free (g_walls s) k -> in_cell (c_pos (a_conf p)) k ->
  legal_actions s 0 = DOk (filter (fun d => free (g_walls s) (next_cell k d)) directions).
Proof.
  intros Hf Hw Hl Ha Hk Hp. unfold legal_actions, pacman_actions. rewrite Hw, Hl, Ha. cbn [orb Z.eqb].
  change (py_get (p :: gs) 0) with (@DOk astate p). cbn [mbind dres_bind]. apply possible_in_cell; [apply Hf|done..].
Qed.

Lemma ghost_legal s i a l :
  g_win s = false -> g_lose s = false -> (0 < i)%nat -> g_agents s !! i = Some a ->
  possible_actions (a_conf a) (g_walls s) = DOk l ->
  legal_actions s (Z.of_nat i) = DOk (ghost_filter (c_dir (a_conf a)) l).
Proof.
  intros Hw Hl Hi Ha Hp. unfold legal_actions. rewrite Hw, Hl. cbn [orb]. destruct (Z.eqb_spec (Z.of_nat i) 0); [lia|].
  by apply ghost_actions_eq.
Qed.

(** In a state that is not over, every agent has an action, and exactly the legal actions succeed. *)
Lemma progress s i :
  fine s -> g_win s = false -> g_lose s = false -> i < length (g_agents s) ->
  exists l, legal_actions s (Z.of_nat i) = DOk l /\ l <> [] /\
    (forall d, d ∈ l -> exists s', generate_successor s (Z.of_nat i) d = DOk s') /\
    (forall d, d ∉ l -> generate_successor s (Z.of_nat i) d = DErr (if decide (i = 0) then DIllegalAction else DIllegalGhostAction)).
Proof.
  intros Hf Hw Hl Hi. destruct (fi_agents s Hf) as (p & gs & Ha & (k & Hk & Hp) & Hgs).
  destruct (decide (i = 0)) as [->|Hi0].
  - eexists. split; [by apply (pacman_legal s p gs k)|]. split_and!.
    + intros Hnil. assert (Hs : Stop ∈ filter (fun d => free (g_walls s) (next_cell k d)) directions).
      { apply elem_of_list_filter. split; [done|apply elem_directions]. }
      rewrite Hnil in Hs. by apply elem_of_nil in Hs.
    + intros d [Hd _]%elem_of_list_filter. destruct (pacman_succ_eq s p gs k d) as (s' & Es & _); eauto.
    + intros d Hd. change (Z.of_nat 0) with 0%Z. unfold generate_successor. rewrite Hw, Hl; cbn [orb Z.eqb]; unfold pacman_apply, pacman_actions;
      cbn [reset_eaten copy_state g_agents g_walls]; rewrite Ha; change (py_get (p :: gs) 0) with (@DOk astate p); cbn [mbind dres_bind].
      rewrite (possible_in_cell _ _ k); [|apply Hf|done..]; cbn [mbind dres_bind]. by rewrite bool_decide_false.
  - destruct (lookup_lt_is_Some_2 (g_agents s) i) as [a Hai]; [done|].
    assert (Hga : ghost_fine (g_walls s) a).
    { rewrite Ha in Hai. destruct i as [|j]; [lia|]. simpl in Hai. rewrite Forall_lookup in Hgs. by eapply Hgs. }
    destruct (ghost_possible (g_walls s) a (fi_closed s Hf) (gf_place _ _ Hga)) as (l & Hl' & Hnd & (e & He & Hel) & Hall).
    eexists. split; [apply ghost_legal; try done; lia|]. split_and!.
    + by eapply ghost_filter_nonempty.
    + intros d Hd. destruct (ghost_succ_eq s i a l d) as (p' & _ & Eg); try done; [lia|]. eauto.
    + intros d Hd. unfold generate_successor. rewrite Hw, Hl. cbn [orb]. destruct (Z.eqb_spec (Z.of_nat i) 0); [lia|].
      unfold ghost_apply. rewrite (ghost_actions_eq _ i a l); [|lia|done..]. cbn [mbind dres_bind]. by rewrite bool_decide_false.
Qed.
