(** * PacmanStep: the effect of a move in the demo game *)

From Coq Require Import ZArith Lia.
From stdpp Require Import base list numbers option sets.
From Verif Require Import SpecPacman DemoGridFacts PacmanMove.

(** ** Collisions *)
Definition after_meet (s : gstate) (l : list astate) (e : list bool) (ne nd : Z) (kill : bool) : gstate :=
  GState (g_walls s) (g_food s) (g_capsules s) l e (g_score s)
    (g_change s + 200 * ne - (if g_win s then 0 else 500 * nd)) (g_win s) (g_lose s || (negb (g_win s) && kill))
    (g_food_eaten s) (g_capsule_eaten s) (g_moved s).

Lemma can_kill_near p a : can_kill p (c_pos (a_conf a)) = near p a.
Proof. done. Qed.

Lemma ltb_decide x y : (x <? y)%Z = bool_decide (x < y)%Z.
Proof. destruct (Z.ltb_spec x y); [by rewrite bool_decide_true|by rewrite bool_decide_false by lia]. Qed.

Lemma gstate_eta s :
  s = GState (g_walls s) (g_food s) (g_capsules s) (g_agents s) (g_eaten s) (g_score s) (g_change s) (g_win s) (g_lose s)
        (g_food_eaten s) (g_capsule_eaten s) (g_moved s).
Proof. by destruct s. Qed.

Lemma collide_eq p s i a :
  g_agents s !! i = Some a -> i < length (g_eaten s) ->
  check_ghost p s (Z.of_nat i)
  = DOk (after_meet s (<[i := meet p a]> (g_agents s)) (if eaten_at p a then <[i := true]> (g_eaten s) else g_eaten s)
           (if eaten_at p a then 1 else 0) (if deadly_at p a then 1 else 0) (deadly_at p a)).
Proof.
  intros Ha He. unfold check_ghost. rewrite (py_get_lookup _ _ a) by (rewrite ?Nat2Z.id; done || lia). simpl.
  rewrite can_kill_near. unfold after_meet, meet, eaten_at, deadly_at. 
  destruct (near p a) eqn:En; simpl.
  - unfold collide. rewrite ltb_decide. destruct (bool_decide_reflect (0 < a_scared a)%Z) as [Hs|Hs]; simpl.
    + unfold set_agent. simpl. rewrite py_set_lookup by (apply lookup_lt_Some in Ha; lia). simpl.
      rewrite py_set_lookup by lia. simpl. rewrite !Nat2Z.id. f_equal. f_equal; [destruct (g_win s); lia|].
      destruct (g_lose s), (g_win s); done.
    + rewrite list_insert_id by done. destruct (g_win s) eqn:Ew.
      * f_equal. rewrite (gstate_eta s) at 1. rewrite Ew. f_equal; [lia|]. by destruct (g_lose s).
      * f_equal. f_equal; [lia|]. by destruct (g_lose s).
  - rewrite list_insert_id by done. f_equal. rewrite (gstate_eta s) at 1. f_equal; [destruct (g_win s); lia|].
    destruct (g_lose s), (g_win s); done.
Qed.

Lemma how_many_cons f a l : how_many f (a :: l) = ((if f a then 1 else 0) + how_many f l)%Z.
Proof. unfold how_many. simpl. destruct (f a); simpl; lia. Qed.

Lemma how_many_nonneg f l : (0 <= how_many f l)%Z.
Proof. unfold how_many. lia. Qed.

Lemma how_many_pos f l : (0 < how_many f l)%Z <-> exists a, a ∈ l /\ f a = true.
Proof.
  induction l as [|a l IH].
  - split; [unfold how_many; simpl; lia|]. intros (a & Ha & _). by apply elem_of_nil in Ha.
  - rewrite how_many_cons. pose proof (how_many_nonneg f l). destruct (f a) eqn:E.
    + split; [|lia]. intros _. exists a. split; [apply elem_of_list_here|done].
    + split.
      * intros Hp. destruct (proj1 IH) as (b & Hb & Ef); [lia|]. exists b. split; [by apply elem_of_list_further|done].
      * intros (b & Hb & Ef). apply elem_of_cons in Hb as [->|Hb]; [congruence|]. enough (0 < how_many f l)%Z by lia. apply IH. eauto.
Qed.

Lemma existsb_how_many f l : existsb f l = bool_decide (0 < how_many f l)%Z.
Proof.
  induction l as [|a l IH]; [done|]. rewrite how_many_cons. simpl. rewrite IH. pose proof (how_many_nonneg f l).
  destruct (f a); simpl; [by rewrite bool_decide_true by lia|]. done.
Qed.

Lemma collide_all p gs pre epre es s :
  g_agents s = pre ++ gs -> g_eaten s = epre ++ es -> length pre = length epre -> length gs = length es ->
  for_each (check_ghost p) s ((fun k => Z.of_nat (length pre + k)) <$> seq 0 (length gs))
  = DOk (after_meet s (pre ++ (meet p <$> gs)) (epre ++ zip_with (fun a (e : bool) => eaten_at p a || e) gs es)
           (how_many (eaten_at p) gs) (how_many (deadly_at p) gs) (existsb (deadly_at p) gs)).
Proof.
  revert pre epre es s. induction gs as [|a gs IH]; intros pre epre es s Ha He Hl Hg.
  - destruct es; [|done]. simpl. f_equal. unfold after_meet. rewrite (gstate_eta s) at 1. rewrite Ha, He.
    f_equal; [unfold how_many; simpl; destruct (g_win s); lia|]. destruct (g_lose s), (g_win s); done.
  - destruct es as [|e es]; [done|]. simpl in Hg. cbn [length seq fmap list_fmap for_each].
    rewrite Nat.add_0_r. rewrite (collide_eq p s (length pre) a);
      [|rewrite Ha; by rewrite lookup_app_r, Nat.sub_diag by lia|rewrite He, app_length; simpl; lia].
    cbn [mbind dres_bind].
    rewrite <- seq_shift. rewrite <- list_fmap_compose.
    set (s1 := after_meet _ _ _ _ _ _).
    specialize (IH (pre ++ [meet p a]) (epre ++ [eaten_at p a || e]) es s1).
    rewrite (list_fmap_ext _ (fun k => Z.of_nat (length (pre ++ [meet p a]) + k))) by (intros; simpl; rewrite app_length; simpl; lia).
    rewrite IH; clear IH.
    + f_equal. subst s1. unfold after_meet. cbn [g_walls g_food g_capsules g_agents g_eaten g_score g_change g_win g_lose g_food_eaten g_capsule_eaten g_moved].
      rewrite !how_many_cons. f_equal.
      * by rewrite <- app_assoc.
      * by rewrite <- app_assoc.
      * destruct (g_win s), (eaten_at p a), (deadly_at p a); lia.
      * simpl. destruct (g_win s), (g_lose s), (deadly_at p a); done.
    + subst s1. simpl. rewrite Ha. rewrite insert_app_r_alt by lia. rewrite Nat.sub_diag. simpl. by rewrite <- app_assoc.
    + subst s1. simpl. rewrite He. rewrite <- app_assoc. simpl. destruct (eaten_at p a); [|done].
      rewrite insert_app_r_alt by lia. by replace (length pre - length epre) with 0 by lia.
    + rewrite !app_length. simpl. lia.
    + lia.
Qed.

(** ** Pacman's move *)
Lemma range2_seq (n : nat) : range2 1 (Z.of_nat (S n)) = (fun k => Z.of_nat (1 + k)) <$> seq 0 n.
Proof.
  unfold range2. replace (Z.to_nat (Z.of_nat (S n) - 1)) with n by lia. apply list_fmap_ext. intros. lia.
Qed.

Lemma py_remove_split `{EqDecision A} (a : A) l : a ∈ l -> exists l1 l2, l = l1 ++ a :: l2 /\ a ∉ l1 /\ py_remove a l = l1 ++ l2.
Proof.
  induction l as [|b l IH]; intros Hin; [by apply elem_of_nil in Hin|]. cbn [py_remove]. destruct (decide (a = b)) as [<-|Hne].
  - exists [], l. split_and!; try done. by apply not_elem_of_nil.
  - apply elem_of_cons in Hin as [|Hin]; [done|]. destruct (IH Hin) as (l1 & l2 & -> & Hn & ->). exists (b :: l1), l2.
    split_and!; try done. by apply not_elem_of_cons.
Qed.

(** The state after Pacman's move to the middle of [q], before ghosts are met. *)
Definition moved_pacman (s : gstate) (p : astate) (gs : list astate) (q : Z * Z) (d : dir) (f : grid) (had : bool) : gstate :=
  let none_left := had && (grid_count f true =? 0)%Z in
  GState (g_walls s) f (if bool_decide (q ∈ g_capsules s) then py_remove q (g_capsules s) else g_capsules s)
    (AState (a_start p) (Config (mid q) (if decide (d = Stop) then c_dir (a_conf p) else d)) (a_pacman p) (a_scared p)
     :: (frightened (bool_decide (q ∈ g_capsules s)) <$> gs))
    (false :: ((fun _ => false) <$> gs)) (g_score s)
    (- 1 + (if had then 10 else 0) + (if none_left then 500 else 0)) none_left false
    (if had then Some q else None) (if bool_decide (q ∈ g_capsules s) then Some q else None) None.

Lemma config_move c k d :
  in_cell (c_pos c) k ->
  config_succ c (direction_to_vector d 2) = Config (mid (next_cell k d)) (if decide (d = Stop) then c_dir c else d).
Proof.
  intros Hp. unfold config_succ. rewrite vec_dir by lia.
  pose proof (step_full k d _ Hp) as Hs. unfold in_cell in Hs. rewrite Hs. done.
Qed.

Lemma fmap_id' {A} (f : A -> A) (l : list A) : (forall a, f a = a) -> f <$> l = l.
Proof. intros Hf. induction l as [|a l IH]; [done|]. rewrite fmap_cons. by rewrite Hf, IH. Qed.

Lemma pacman_apply_eq s p gs k d :
  g_agents s = p :: gs -> closed (g_walls s) -> free (g_walls s) k -> in_cell (c_pos (a_conf p)) k ->
  free (g_walls s) (next_cell k d) -> is_Some (cell (g_food s) (next_cell k d)) ->
  exists f had, cell (g_food s) (next_cell k d) = Some had /\
    pacman_apply (reset_eaten (copy_state s)) d ≫= (fun s => DOk (add_change s (- TIME_PENALTY)))
    = DOk (moved_pacman s p gs (next_cell k d) d f had) /\
    (if had then grid_set (g_food s) (next_cell k d).1 (next_cell k d).2 false = DOk f else f = g_food s).
Proof.
  intros Ha Hc Hk Hp Hn [had Hf]. set (q := next_cell k d) in *.
  assert (Hg : grid_get (g_food s) q.1 q.2 = DOk had) by (apply grid_get_cell; by rewrite <- surjective_pairing).
  unfold pacman_apply, pacman_actions. cbn [reset_eaten copy_state g_agents g_walls].
  rewrite Ha. change (py_get (p :: gs) 0) with (@DOk astate p). cbn [mbind dres_bind].
  rewrite (possible_in_cell _ _ k) by done. cbn [mbind dres_bind].
  rewrite bool_decide_true by (apply elem_of_list_filter; split; [done|apply elem_directions]).
  rewrite (config_move _ k) by done. fold q.
  unfold set_agent. cbn [reset_eaten copy_state g_agents g_walls]. rewrite Ha.
  rewrite py_set_lookup by (simpl; lia). cbn [mbind dres_bind].
  cbn [c_pos]. rewrite (nearest_in_cell (g_walls s) (mid q) q) by done.
  rewrite bool_decide_true by (unfold manhattan, at_cell, mid; cbn [fst snd]; lia).
  unfold consume, eat_food. cbn [g_food]. 
  cbn [g_food g_walls g_capsules g_agents g_eaten g_score g_change g_win g_lose g_food_eaten g_capsule_eaten g_moved reset_eaten copy_state].
  rewrite Hg. cbn [mbind dres_bind]. rewrite Ha. cbn [Z.to_nat insert list_insert fmap list_fmap].
  assert (Efr : scare <$> gs = frightened true <$> gs) by done.
  assert (Efr0 : gs = frightened false <$> gs) by (symmetry; by apply fmap_id').
  destruct had.
  - destruct (grid_set_cell (g_food s) q.1 q.2 true false) as (f & Ef & _); [by rewrite <- surjective_pairing|].
    exists f, true. split; [done|]. split; [|done].
    change (grid_copy (g_food s)) with (Grid (gr_width (g_food s)) (gr_height (g_food s)) (gr_data (g_food s))).
    replace (Grid (gr_width (g_food s)) (gr_height (g_food s)) (gr_data (g_food s))) with (g_food s) by (by destruct (g_food s)).
    rewrite Ef. cbn [mbind dres_bind]. f_equal. unfold add_change, eat_capsule, moved_pacman, TIME_PENALTY.
    cbn [g_food g_walls g_capsules g_agents g_eaten g_score g_change g_win g_lose g_food_eaten g_capsule_eaten g_moved].
    rewrite andb_true_r, orb_false_l. cbn [negb andb].
    destruct (bool_decide (q ∈ g_capsules s));
    cbn [g_food g_walls g_capsules g_agents g_eaten g_score g_change g_win g_lose g_food_eaten g_capsule_eaten g_moved].
    + f_equal; lia.
    + rewrite <- Efr0. f_equal; lia.
  - exists (g_food s), false. split; [done|]. split; [|done]. cbn [mbind dres_bind]. f_equal.
    unfold add_change, eat_capsule, moved_pacman, TIME_PENALTY.
    cbn [g_food g_walls g_capsules g_agents g_eaten g_score g_change g_win g_lose g_food_eaten g_capsule_eaten g_moved andb].
    destruct (bool_decide (q ∈ g_capsules s));
    cbn [g_food g_walls g_capsules g_agents g_eaten g_score g_change g_win g_lose g_food_eaten g_capsule_eaten g_moved].
    + done.
    + rewrite <- Efr0. done.
Qed.

Lemma zip_false f (gs : list astate) :
  zip_with (fun a (e : bool) => f a || e) gs ((fun _ => false) <$> gs) = f <$> gs.
Proof. induction gs as [|a gs IH]; [done|]. rewrite !fmap_cons. cbn [zip_with]. by rewrite orb_false_r, IH. Qed.

Lemma food_cell s k : fine s -> free (g_walls s) k -> is_Some (cell (g_food s) k).
Proof.
  intros Hf Hk. destruct (fi_food s Hf) as (Hr & Hw & Hh). destruct k as [x y]. apply cell_rect; [done|].
  destruct (fi_closed s Hf) as [_ Hc]. destruct (Hc _ _ Hk). lia.
Qed.

Lemma pacman_succ_eq s p gs k d :
  fine s -> g_win s = false -> g_lose s = false ->
  g_agents s = p :: gs -> free (g_walls s) k -> in_cell (c_pos (a_conf p)) k -> free (g_walls s) (next_cell k d) ->
  exists s', generate_successor s 0 d = DOk s' /\ pacman_moves s p gs k d s'.
Proof.
  intros Hf Hw Hl Ha Hk Hp Hn.
  destruct (pacman_apply_eq s p gs k d) as (f & had & Hhad & Happ & Hset); try done.
  { apply Hf. } { by apply food_cell. }
  set (q := next_cell k d) in *.
  unfold generate_successor. rewrite Hw, Hl. cbn [orb Z.eqb].
  rewrite Happ. cbn [mbind dres_bind]. unfold check_death.
  set (m := moved_pacman s p gs q d f had).
  set (gs1 := frightened (bool_decide (q ∈ g_capsules s)) <$> gs).
  set (p1 := AState (a_start p) (Config (mid q) (if decide (d = Stop) then c_dir (a_conf p) else d)) (a_pacman p) (a_scared p)).
  assert (Hlen : length (g_agents m) = S (length gs1)) by done.
  change (py_get (g_agents m) 0) with (@DOk astate p1). cbn [mbind dres_bind Z.eqb].
  rewrite Hlen, range2_seq. change (c_pos (a_conf p1)) with (mid q).
  pose proof (collide_all (mid q) gs1 [p1] [false] ((fun _ => false) <$> gs1) m) as Hall.
  cbn [length] in Hall. rewrite Hall; clear Hall; [|done| |done|by rewrite fmap_length].
  2:{ subst m gs1. unfold moved_pacman. cbn [g_eaten]. by rewrite <- list_fmap_compose. }
  cbn [mbind dres_bind]. rewrite zip_false.
  eexists. split; [reflexivity|].
  assert (Hfood : gr_width f = gr_width (g_food s) /\ gr_height f = gr_height (g_food s) /\ rectangular f /\
    (forall c, cell f c = if decide (c = q) then Some false else cell (g_food s) c) /\
    grid_count f true = (grid_count (g_food s) true - (if decide (cell (g_food s) q = Some true) then 1 else 0))%Z).
  { destruct (fi_food s Hf) as (Hr & _). destruct had.
    - destruct (grid_set_cell (g_food s) q.1 q.2 true false) as (f' & Ef & W & H & R & C & N); [by rewrite <- surjective_pairing|].
      rewrite Hset in Ef. simplify_eq. split_and!; [done|done|by apply R| |].
      + intros c. rewrite C. by rewrite <- surjective_pairing.
      + rewrite N, Hhad. destruct (decide (Some true = Some true)), (decide (true = true)), (decide (false = true)); try done. lia.
    - subst f. split_and!; try done.
      + intros c. destruct (decide (c = q)) as [->|]; [by rewrite Hhad|done].
      + rewrite Hhad. rewrite decide_False by done. lia. }
  destruct Hfood as (W & H & R & C & N).
  assert (Hwin : (had && (grid_count f true =? 0)%Z) = true <-> cell (g_food s) q = Some true /\ forall c, cell f c <> Some true).
  { rewrite andb_true_iff, Z.eqb_eq, grid_count_zero, Hhad. split; intros [X Y].
    - split; [by destruct had|]. intros [x y]. apply Y.
    - split; [congruence|]. intros x y. apply Y. }
  set (win := had && (grid_count f true =? 0)%Z) in *.
  assert (Ewin : g_win m = win) by done.
  split; cbn [g_walls g_food g_capsules g_agents g_eaten g_score g_win g_lose finish_move after_meet]; fold q.
  - done.
  - split_and!; [apply W|apply H|apply R|apply C].
  - apply N.
  - subst m. unfold moved_pacman. cbn [g_capsules]. destruct (decide (q ∈ g_capsules s)) as [Hq|Hq].
    + rewrite bool_decide_true by done. by apply py_remove_split.
    + by rewrite bool_decide_false.
  - unfold after_meet, finish_move. cbn [g_food_eaten g_capsule_eaten g_moved g_change g_score]. subst m. unfold moved_pacman.
    cbn [g_food_eaten g_capsule_eaten g_moved g_change g_score g_win]. rewrite Hhad. split_and!.
    + by destruct had.
    + by destruct (decide (q ∈ g_capsules s)); [rewrite bool_decide_true|rewrite bool_decide_false].
    + done.
    + lia.
  - done.
  - done.
  - rewrite Ewin. apply Hwin.
  - rewrite Ewin. subst m. unfold moved_pacman at 1. cbn [g_lose orb].
    rewrite andb_true_iff, negb_true_iff, existsb_exists. fold gs1. split.
    + intros [-> (a & Ha1 & Hd)]. split; [done|]. apply elem_of_list_In, elem_of_list_fmap in Ha1 as (b & -> & Hb). eauto.
    + intros [-> (b & Hb & Hd)]. split; [done|]. eexists. split; [|exact Hd]. apply elem_of_list_In. subst gs1.
      apply elem_of_list_fmap. eauto.
  - rewrite Ewin. subst m. unfold moved_pacman, after_meet. cbn [g_score g_change g_win]. fold gs1. fold win.
    rewrite Hhad. destruct had.
    + destruct (decide (Some true = Some true)); [|done]. destruct win; lia.
    + destruct (decide (Some false = Some true)); [done|]. destruct win; lia.
Qed.

(** ** A ghost's move *)
Lemma ghost_actions_eq s i a l :
  (0 < i)%nat -> g_agents s !! i = Some a -> possible_actions (a_conf a) (g_walls s) = DOk l ->
  ghost_actions s (Z.of_nat i) = DOk (ghost_filter (c_dir (a_conf a)) l).
Proof.
  intros Hi Ha Hl. pose proof (lookup_lt_Some _ _ _ Ha). unfold ghost_actions, ghost_state.
  destruct (Z.eqb_spec (Z.of_nat i) 0); [lia|]. destruct (Z.leb_spec (Z.of_nat (length (g_agents s))) (Z.of_nat i)); [lia|].
  cbn [orb]. rewrite (py_get_lookup _ _ a) by (rewrite ?Nat2Z.id; done || lia). cbn [mbind dres_bind]. rewrite Hl. done.
Qed.

Lemma in_half_false p k k' d : in_cell p k -> half_way p k' d -> False.
Proof.
  intros -> Hh. apply (half_not_cell _ _ _ k) in Hh. unfold manhattan, at_cell in Hh. cbn [fst snd] in Hh. lia.
Qed.

Lemma in_cell_inj p k k' : in_cell p k -> in_cell p k' -> k = k'.
Proof. unfold in_cell. intros -> [=]. destruct k, k'; simpl in *. f_equal; lia. Qed.

Lemma half_way_inj p k k' d : half_way p k d -> half_way p k' d -> k = k'.
Proof. intros [-> Hd] [E _]. destruct k, k', d; simpl in *; try done; simplify_eq; f_equal; lia. Qed.

Lemma ghost_possible W a :
  closed W -> ghost_ok W (a_conf a) ->
  exists l, possible_actions (a_conf a) W = DOk l /\ NoDup l /\ (exists d, d <> Stop /\ d ∈ l) /\
    forall d, d ∈ l -> d <> Stop ->
      exists k, free W k /\ free W (next_cell k d) /\ (in_cell (c_pos (a_conf a)) k \/ half_way (c_pos (a_conf a)) k d).
Proof.
  intros Hc [(k & Hk & (d & Hd & He) & Hp)|(k & d & Hk & Hn & Hp & Hd)].
  - eexists. split; [by apply (possible_in_cell _ _ k)|]. split_and!.
    + apply nodup_filter_dirs.
    + exists d. split; [done|]. apply elem_of_list_filter. split; [done|apply elem_directions].
    + intros e [Hf _]%elem_of_list_filter _. eauto.
  - exists [c_dir (a_conf a)]. split; [by eapply possible_half|]. rewrite Hd. split_and!.
    + apply NoDup_singleton.
    + exists d. split; [apply Hp|]. apply elem_of_list_here.
    + intros e ->%elem_of_list_singleton _. eauto.
Qed.

(** The ghost after a step and the decrease of the timer. *)
Definition ghost_next (a : astate) (d : dir) : astate :=
  decrement_timer (AState (a_start a) (config_succ (a_conf a) (direction_to_vector d (if (0 <? a_scared a)%Z then 1 else 2)%Z))
                     (a_pacman a) (a_scared a)).

Lemma config_succ_pos c v : c_pos (config_succ c v) = ((c_pos c).1 + v.1, (c_pos c).2 + v.2)%Z.
Proof. done. Qed.

Lemma nearest_half_eq W p k d :
  closed W -> free W k -> free W (next_cell k d) -> half_way p k d ->
  nearest_point p = match d with North | East => next_cell k d | _ => k end.
Proof.
  intros Hc Hk Hn [-> Hd]. destruct (closed_pos _ _ Hc Hk). destruct (closed_pos _ _ Hc Hn). destruct k as [x y].
  unfold nearest_point. destruct d; simpl in *; [..|done].
  - replace (x + x)%Z with (2 * x)%Z by lia. replace (y + (y + 1))%Z with (2 * y + 1)%Z by lia.
    destruct (round_cell x) as [->|]; [|lia]. by rewrite round_up by lia.
  - replace (x + x)%Z with (2 * x)%Z by lia. replace (y + (y - 1))%Z with (2 * (y - 1) + 1)%Z by lia.
    destruct (round_cell x) as [->|]; [|lia]. rewrite round_up by lia. f_equal; lia.
  - replace (y + y)%Z with (2 * y)%Z by lia. replace (x + (x + 1))%Z with (2 * x + 1)%Z by lia.
    destruct (round_cell y) as [->|]; [|lia]. by rewrite round_up by lia.
  - replace (y + y)%Z with (2 * y)%Z by lia. replace (x + (x - 1))%Z with (2 * (x - 1) + 1)%Z by lia.
    destruct (round_cell y) as [->|]; [|lia]. rewrite round_up by lia. f_equal; lia.
Qed.

Lemma ghost_next_fine W a d k :
  closed W -> ghost_fine W a -> d <> Stop -> free W k -> free W (next_cell k d) ->
  in_cell (c_pos (a_conf a)) k \/ half_way (c_pos (a_conf a)) k d ->
  ghost_fine W (ghost_next a d) /\ ghost_step a d (a_conf (ghost_next a d)).
Proof.
  intros Hc [Hpl Hst Ht Hcalm] Hd Hk Hn Hpos.
  assert (Hexn : has_exit W (next_cell k d)) by (by apply exit_back).
  assert (Hexk : has_exit W k) by (exists d; done).
  unfold ghost_next, decrement_timer. cbn [a_start a_conf a_pacman a_scared].
  rewrite succ_dir by (try destruct (0 <? a_scared a)%Z; lia || done).
  destruct (Z.ltb_spec 0 (a_scared a)) as [Hs|Hs].
  2:{ assert (E0 : a_scared a = 0%Z) by lia. destruct (Hcalm E0) as [k' Hk'].
      destruct Hpos as [Hpos|Hpos]; [|by destruct (in_half_false _ _ _ _ Hk' Hpos)].
      rewrite E0. cbn [Z.eqb Z.sub Z.add Z.opp Z.max Z.compare].
      pose proof (step_full k d _ Hpos) as Hfull. split.
      - split; cbn [a_start a_conf a_pacman a_scared]; [|done|lia|].
        + left. exists (next_cell k d). rewrite config_succ_pos. done.
        + intros _. exists (next_cell k d). rewrite config_succ_pos. done.
      - split; cbn [a_conf]; [by apply succ_dir|]. rewrite decide_True by done. intros k1 Hk1. rewrite config_succ_pos.
        rewrite (in_cell_inj _ _ _ Hk1 Hpos). done. }
  destruct (Z.eqb_spec (a_scared a) 1) as [E1|E1].
  - destruct Hpos as [Hpos|Hpos].
    + pose proof (step_half k d _ Hd Hpos) as Hh. rewrite <- config_succ_pos in Hh.
      rewrite (nearest_half_eq W _ k d) by done. split.
      * split; cbn [a_start a_conf a_pacman a_scared c_pos]; [|done|lia|].
        -- left. destruct d; eexists; split_and!; try reflexivity; done.
        -- intros _. destruct d; eexists; reflexivity.
      * split; [done|]. cbn [a_conf]. rewrite E1. simpl. split.
        -- intros k1 Hk1. by destruct (in_half_false _ _ _ _ Hpos Hk1).
        -- intros k1 Hk1. rewrite (in_cell_inj _ _ _ Hk1 Hpos). by destruct d.
    + pose proof (step_half_half k d _ Hpos) as Hh. rewrite <- config_succ_pos in Hh.
      rewrite (nearest_in_cell W _ (next_cell k d)) by done. split.
      * split; cbn [a_start a_conf a_pacman a_scared c_pos]; [|done|lia|].
        -- left. eexists. split_and!; [| |reflexivity]; done.
        -- intros _. by eexists.
      * split; [done|]. cbn [a_conf]. rewrite E1. simpl. split.
        -- intros k1 Hk1. rewrite (half_way_inj _ _ _ _ Hk1 Hpos). done.
        -- intros k1 Hk1. by destruct (in_half_false _ _ _ _ Hk1 Hpos).
  - destruct Hpos as [Hpos|Hpos].
    + pose proof (step_half k d _ Hd Hpos) as Hh. rewrite <- config_succ_pos in Hh. split.
      * split; cbn [a_start a_conf a_pacman a_scared c_pos]; [|done|lia|lia].
        right. exists k, d. split_and!; try done. by apply succ_dir.
      * split; cbn [a_conf]; [by apply succ_dir|]. rewrite decide_False by lia. split.
        -- intros k1 Hk1. by destruct (in_half_false _ _ _ _ Hpos Hk1).
        -- intros k1 Hk1. rewrite decide_False by lia. rewrite (in_cell_inj _ _ _ Hk1 Hpos). done.
    + pose proof (step_half_half k d _ Hpos) as Hh. rewrite <- config_succ_pos in Hh. split.
      * split; cbn [a_start a_conf a_pacman a_scared c_pos]; [|done|lia|lia].
        left. exists (next_cell k d). done.
      * split; cbn [a_conf]; [by apply succ_dir|]. rewrite decide_False by lia. split.
        -- intros k1 Hk1. rewrite (half_way_inj _ _ _ _ Hk1 Hpos). done.
        -- intros k1 Hk1. by destruct (in_half_false _ _ _ _ Hk1 Hpos).
Qed.

Lemma meet_fine W p a : ghost_fine W a -> ghost_fine W (meet p a).
Proof.
  intros Hg. unfold meet. destruct (eaten_at p a); [|done]. destruct (gf_start W a Hg) as (k & Hk & He & Hp).
  split; cbn [a_conf a_start a_scared]; [left|..|lia|]; eauto.
Qed.

Lemma frightened_fine W b a : ghost_fine W a -> ghost_fine W (frightened b a).
Proof. intros [Hp Hs Ht Hc]. destruct b; [|by split]. split; cbn [frightened a_conf a_start a_scared]; done || lia. Qed.

Lemma ghost_succ_eq s i a l d :
  fine s -> g_win s = false -> g_lose s = false -> (0 < i)%nat -> g_agents s !! i = Some a ->
  possible_actions (a_conf a) (g_walls s) = DOk l -> d ∈ ghost_filter (c_dir (a_conf a)) l ->
  exists p, g_agents s !! 0 = Some p /\
  generate_successor s (Z.of_nat i) d
  = DOk (finish_move (after_meet (copy_state s) (<[i := meet (c_pos (a_conf p)) (ghost_next a d)]> (g_agents s))
      (if eaten_at (c_pos (a_conf p)) (ghost_next a d) then <[i := true]> (g_eaten s) else g_eaten s)
      (if eaten_at (c_pos (a_conf p)) (ghost_next a d) then 1 else 0)
      (if deadly_at (c_pos (a_conf p)) (ghost_next a d) then 1 else 0)
      (deadly_at (c_pos (a_conf p)) (ghost_next a d))) (Z.of_nat i)).
Proof.
  intros Hf Hw Hl Hi Ha Hposs Hd. destruct (fi_agents s Hf) as (p & gs & Hags & _ & _).
  exists p. split; [by rewrite Hags|].
  pose proof (lookup_lt_Some _ _ _ Ha) as Hlt.
  unfold generate_successor. rewrite Hw, Hl. cbn [orb].
  destruct (Z.eqb_spec (Z.of_nat i) 0); [lia|].
  unfold ghost_apply. rewrite (ghost_actions_eq _ i a l) by done. cbn [mbind dres_bind].
  rewrite bool_decide_true by done. cbn [copy_state g_agents].
  rewrite (py_get_lookup _ _ a) by (rewrite ?Nat2Z.id; done || lia). cbn [mbind dres_bind].
  unfold set_agent at 2. cbn [copy_state g_agents]. rewrite py_set_lookup by lia. cbn [mbind dres_bind].
  cbn [g_agents]. rewrite Nat2Z.id.
  rewrite (py_get_lookup _ _ (AState (a_start a) (config_succ (a_conf a) (direction_to_vector d (if (0 <? a_scared a)%Z then 1 else 2)%Z))
                     (a_pacman a) (a_scared a))); [|lia|rewrite Nat2Z.id; by apply list_lookup_insert].
  cbn [mbind dres_bind]. unfold set_agent. cbn [g_agents]. rewrite py_set_lookup by (rewrite insert_length; lia).
  cbn [mbind dres_bind]. rewrite Nat2Z.id, list_insert_insert. fold (ghost_next a d).
  unfold check_death. cbn [g_agents].
  rewrite (py_get_lookup _ 0 p); [|lia|].
  2:{ rewrite list_lookup_insert_ne by (simpl; lia). by rewrite Hags. }
  cbn [mbind dres_bind]. destruct (Z.eqb_spec (Z.of_nat i) 0); [lia|].
  rewrite (collide_eq _ _ i (ghost_next a d)).
  - cbn [mbind dres_bind]. unfold after_meet.
    cbn [g_food g_walls g_capsules g_agents g_eaten g_score g_change g_win g_lose g_food_eaten g_capsule_eaten g_moved copy_state].
    by rewrite list_insert_insert.
  - cbn [g_agents]. by rewrite list_lookup_insert.
  - cbn [g_eaten copy_state]. by rewrite (fi_eaten s Hf).
Qed.
