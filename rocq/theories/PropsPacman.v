(** * PropsPacman: the demo game (C55 to C59) *)

From Coq Require Import ZArith Lia Ascii String.
From stdpp Require Import base list numbers option sets sorting strings.
From Verif Require Import ExamplesSets SpecPacman PacmanMain DemoPack PacmanLayout PacmanExamples.

(** ** C55: grids *)

(** A grid is restored from its packed bits. *)
Theorem C55_pack_roundtrip (g : grid) :
  rectangular g -> (0 <= gr_height g)%Z -> exists bits, pack_bits g = DOk bits /\ reconstitute_grid bits = DOk g.
Proof. exact (pack_roundtrip g). Qed.

(** [asList] lists the cells with the value, each once; [count] is their number. *)
Theorem C55_as_list (g : grid) (key : bool) :
  rectangular g -> (0 <= gr_height g)%Z ->
  exists l, grid_as_list g key = DOk l /\ NoDup l /\ forall c, c ∈ l <-> cell g c = Some key.
Proof. exact (as_list_spec g key). Qed.
Theorem C55_count (g : grid) (key : bool) (l : list (Z * Z)) :
  NoDup l -> (forall c, c ∈ l <-> cell g c = Some key) -> grid_count g key = Z.of_nat (length l).
Proof. exact (count_spec g key l). Qed.

(** Grids of one size are equal exactly if the numbers that are hashed are equal. *)
Theorem C55_hash (g g' : grid) :
  rectangular g -> rectangular g' -> gr_width g = gr_width g' -> gr_height g = gr_height g' -> (0 <= gr_height g)%Z ->
  grid_hash_int g = grid_hash_int g' <-> grid_eqb g g' = true.
Proof. exact (hash_eq g g'). Qed.

(** ** C56: where agents can be.  In all states of all games on a board with a closed border Pacman is in an open
    cell; a ghost is in an open cell or, only while scared, half way between two adjacent open cells; the timers are
    from 0 to 40. *)
Theorem C56_positions (text : list (list ascii)) (w : nat) (s : gstate) :
  on_board text w s ->
  exists p gs, g_agents s = p :: gs /\ pacman_place text p /\ Forall (fun a => ghost_place text a /\ (0 <= a_scared a <= 40)%Z) gs.
Proof. exact (positions text w s). Qed.

(** Pacman may go to every open neighbour cell and stay. *)
Theorem C56_pacman_choices (text : list (list ascii)) (w : nat) (s : gstate) :
  on_board text w s -> g_win s = false -> g_lose s = false ->
  exists p gs k, g_agents s = p :: gs /\ in_cell (c_pos (a_conf p)) k /\
    exists l, legal_actions s 0 = DOk l /\ NoDup l /\ forall d, d ∈ l <-> open_cell text (next_cell k d).
Proof. exact (pacman_choices text w s). Qed.

(** A ghost in a cell may go to every open neighbour cell, but not stay, and back only if there is no other way; half
    way between cells it may only go on.  There is always a way. *)
Theorem C56_ghost_choices (text : list (list ascii)) (w : nat) (s : gstate) (i : nat) (a : astate) :
  on_board text w s -> g_win s = false -> g_lose s = false -> (0 < i)%nat -> g_agents s !! i = Some a ->
  exists l, legal_actions s (Z.of_nat i) = DOk l /\ l <> [] /\
    (forall k, in_cell (c_pos (a_conf a)) k -> forall d,
       d ∈ l <-> d <> Stop /\ open_cell text (next_cell k d) /\
                 (d = reverse_direction (c_dir (a_conf a)) -> forall e, e <> Stop -> open_cell text (next_cell k e) -> e = d)) /\
    (forall k d, half_way (c_pos (a_conf a)) k d -> l = [c_dir (a_conf a)]).
Proof. exact (ghost_choices text w s i a). Qed.

(** [generateSuccessor] accepts exactly the legal actions. *)
Theorem C56_legal (text : list (list ascii)) (w : nat) (s : gstate) (i : nat) :
  on_board text w s -> g_win s = false -> g_lose s = false -> i < length (g_agents s) ->
  exists l, legal_actions s (Z.of_nat i) = DOk l /\ l <> [] /\
    (forall d, d ∈ l -> exists s', generate_successor s (Z.of_nat i) d = DOk s') /\
    (forall d, d ∉ l -> generate_successor s (Z.of_nat i) d = DErr (if decide (i = 0) then DIllegalAction else DIllegalGhostAction)).
Proof. exact (legal_iff text w s i). Qed.
Theorem C56_over (s : gstate) (i : Z) (d : dir) :
  g_win s || g_lose s = true -> legal_actions s i = DOk [] /\ generate_successor s i d = DErr DTerminal.
Proof. exact (over_stops s i d). Qed.

(** ** C57: what a move does, and the score *)
Theorem C57_pacman_move (text : list (list ascii)) (w : nat) (s : gstate) (d : dir) (s' : gstate) :
  on_board text w s -> generate_successor s 0 d = DOk s' ->
  exists p gs k, g_agents s = p :: gs /\ in_cell (c_pos (a_conf p)) k /\ open_cell text (next_cell k d) /\ pacman_moves s p gs k d s'.
Proof. exact (pacman_rule text w s d s'). Qed.
Theorem C57_ghost_move (text : list (list ascii)) (w : nat) (s : gstate) (i : Z) (d : dir) (s' : gstate) :
  on_board text w s -> (0 < i)%Z -> generate_successor s i d = DOk s' ->
  exists a, g_agents s !! Z.to_nat i = Some a /\ ghost_moves s (Z.to_nat i) a d s'.
Proof. exact (ghost_rule text w s i d s'). Qed.

(** After any play on a board with food: food only vanishes, by at most one piece per move of Pacman; the game is won
    exactly if there is no food left, never won and lost at once; and the score is 10 for each piece of food, 200 for each
    eaten ghost, 500 for winning, minus 1 for each move of Pacman and 500 for each ghost that hits Pacman. *)
Theorem C57_accounts (text : list (list ascii)) (w : nat) (l : layout) (ghosts : Z) (ag : agents) (k : nat) (g : game) :
  good_text text w -> make_layout text = DOk l -> (0 <= ghosts)%Z -> (exists c, char_at text c = Some "."%char) ->
  game_run (num_agents l ghosts) ag k (new_game l ghosts) = DOk g ->
  accounts (initial_state l ghosts) (gm_state g) (pacman_turns (gm_history g)).
Proof. exact (play_accounts text w l ghosts ag k g). Qed.

(** A board without food is never won. *)
Theorem C57_no_food (text : list (list ascii)) (w : nat) (s : gstate) :
  on_board text w s -> (forall c, char_at text c <> Some "."%char) -> g_win s = false.
Proof. exact (board_without_food text w s). Qed.

(** ** C58: the game loop *)

(** With agents that choose legal actions, it raises no exception. *)
Theorem C58_never_raises (text : list (list ascii)) (w : nat) (l : layout) (ghosts : Z) (ag : agents) (k : nat) :
  good_text text w -> make_layout text = DOk l -> (0 <= ghosts)%Z -> plays_legally ag ->
  exists g, game_run (num_agents l ghosts) ag k (new_game l ghosts) = DOk g.
Proof. exact (play_never_raises text w l ghosts ag k). Qed.

(** The agents move in turns, Pacman first; replaying the recorded moves gives the state; the number of agents stays;
    the game is over exactly if it is won or lost.  [numMoves] stays 0, it does not count. *)
Theorem C58_turns (text : list (list ascii)) (w : nat) (l : layout) (ghosts : Z) (ag : agents) (k : nat) (g : game) :
  good_text text w -> make_layout text = DOk l -> (0 <= ghosts)%Z ->
  game_run (num_agents l ghosts) ag k (new_game l ghosts) = DOk g ->
  (forall j i d, gm_history g !! j = Some (i, d) -> i = (Z.of_nat j mod num_agents l ghosts)%Z) /\
  replays (initial_state l ghosts) (gm_history g) (gm_state g) /\
  Z.of_nat (length (g_agents (gm_state g))) = num_agents l ghosts /\
  gm_over g = g_win (gm_state g) || g_lose (gm_state g) /\
  gm_moves g = 0%Z.
Proof. exact (play_order text w l ghosts ag k g). Qed.

(** It does not stop before the game is over. *)
Theorem C58_goes_on (n : Z) (ag : agents) (k : nat) (g g' : game) :
  game_run n ag k g = DOk g' -> (length (gm_history g') = length (gm_history g) + k)%nat \/ gm_over g' = true.
Proof. exact (run_length n ag k g g'). Qed.

(** ** C59: layouts *)
Theorem C59_layout (text : list (list ascii)) (w : nat) : box text w -> exists l, make_layout text = DOk l /\ layout_of text w l.
Proof. exact (layout_ok text w). Qed.

(** Rows that are shorter than the first raise [IndexError]; what is longer is not read. *)
Theorem C59_short_row (text : list (list ascii)) (row0 row : list ascii) :
  text !! 0 = Some row0 -> row ∈ text -> length row < length row0 -> make_layout text = DErr DIndexError.
Proof. exact (layout_short text row0 row). Qed.
Theorem C59_long_row (text : list (list ascii)) (row0 : list ascii) :
  text !! 0 = Some row0 -> make_layout text = make_layout (take (length row0) <$> text).
Proof. exact (layout_long text row0). Qed.
Theorem C59_no_row : make_layout [] = DErr DIndexError.
Proof. exact layout_empty. Qed.

(** The first state: agent 0 is Pacman at its place, the others are the first ghosts at theirs. *)
Theorem C59_first_state (text : list (list ascii)) (w : nat) (l : layout) (max : Z) :
  good_text text w -> make_layout text = DOk l -> (0 <= max)%Z ->
  exists p gs, g_agents (initial_state l max) = start_state true p :: (start_state false <$> take (Z.to_nat max) gs) /\
    char_at text p = Some "P"%char /\ NoDup gs /\ (forall g, g ∈ gs <-> exists c, char_at text g = Some c /\ is_ghost_char c) /\
    Z.of_nat (length (g_agents (initial_state l max))) = num_agents l max.
Proof. exact (first_agents text w l max). Qed.

(** ** Examples *)
Definition the_layout (text : list (list ascii)) : layout :=
  match make_layout text with DOk l => l | DErr _ => Layout (grid_new 0 0 false) (grid_new 0 0 false) [] [] 0 end.
Definition after (text : list (list ascii)) (ghosts : Z) (h : list (Z * dir)) : gstate :=
  match play (initial_state (the_layout text) ghosts) h with DOk s => s | DErr _ => initial_state (the_layout text) ghosts end.
Definition layout_okb (text : list (list ascii)) : bool := match make_layout text with DOk _ => true | DErr _ => false end.
Definition after_okb (text : list (list ascii)) (ghosts : Z) (h : list (Z * dir)) : bool :=
  match play (initial_state (the_layout text) ghosts) h with DOk _ => forallb (fun m => (0 <=? m.1)%Z) h | DErr _ => false end.

Lemma the_layout_ok text : layout_okb text = true -> make_layout text = DOk (the_layout text).
Proof. unfold layout_okb, the_layout. by destruct (make_layout text). Qed.
Lemma after_ok text ghosts h : after_okb text ghosts h = true -> reachable (initial_state (the_layout text) ghosts) (after text ghosts h).
Proof.
  unfold after_okb, after. destruct (play _ h) as [s|] eqn:E; [|done]. by apply play_reachable.
Qed.
Lemma after_on_board text w ghosts h :
  good_textb text w = true -> layout_okb text = true -> after_okb text ghosts h = true -> (0 <= ghosts)%Z ->
  on_board text w (after text ghosts h).
Proof. intros. exists (the_layout text), ghosts. split_and!; [by apply good_textb_ok|by apply the_layout_ok|done|by apply after_ok]. Qed.

(** The board that the demo loads is good. *)
Example C56_medium_classic : good_text medium_classic 20.
Proof. apply good_textb_ok. vm_compute. reflexivity. Qed.

(** Pacman eats a capsule, then a ghost: the ghost goes half cells while scared. *)
Definition small : list (list ascii) := board ["%%%%%%%%%"; "%P.o  G.%"; "%%%%%%%%%"]%string.
Definition small_moves : list (Z * dir) := [(0, East); (1, West); (0, East); (1, West); (0, East)]%Z.
Example C56_small : on_board small 9 (after small 1 (take 4 small_moves)) /\ on_board small 9 (after small 1 small_moves).
Proof. split; (apply after_on_board; [vm_compute; reflexivity..|done]). Qed.
Definition view (s : gstate) := (g_score s, a_scared <$> g_agents s, (fun a => c_pos (a_conf a)) <$> g_agents s).
Example C56_small_states :
  view (after small 1 (take 4 small_moves)) = (8, [0; 39], [(6, 2); (9, 2)])%Z /\ view (after small 1 small_moves) = (207, [0; 0], [(8, 2); (12, 2)])%Z.
Proof. split; vm_compute; reflexivity. Qed.

(** An agent that takes the first legal action. *)
Definition first_legal : agents := fun _ i s =>
  match legal_actions s i with DOk (d :: _) => DOk d | DOk [] => DErr DIndexError | DErr e => DErr e end.
Example C58_first_legal : plays_legally first_legal.
Proof. intros h i s l Hl Hne. unfold first_legal. rewrite Hl. destruct l as [|d l]; [done|]. exists d. split; [done|by left]. Qed.

Example C58_small_run :
  exists g, game_run (num_agents (the_layout small) 1) first_legal 6 (new_game (the_layout small) 1) = DOk g /\ length (gm_history g) = 6.
Proof.
  destruct (C58_never_raises small 9 (the_layout small) 1 first_legal 6) as [g Hg];
    [apply good_textb_ok; vm_compute; reflexivity|apply the_layout_ok; vm_compute; reflexivity|done|apply C58_first_legal|].
  exists g. split; [done|].
  assert (E : (match game_run (num_agents (the_layout small) 1) first_legal 6 (new_game (the_layout small) 1) with
               | DOk g => length (gm_history g) | DErr _ => 0 end) = 6) by (vm_compute; reflexivity).
  by rewrite Hg in E.
Qed.

Example C55_packed :
  let g := Grid 3 2 [[true; false]; [false; false]; [true; true]] in
  rectangular g /\ pack_bits g = DOk [3; 2; 587202560]%Z.
Proof. split; [split; [vm_compute; reflexivity|by_vm]|vm_compute; reflexivity]. Qed.

(** ** Refutations *)

(** Without walls at the border Pacman can leave the board, and then it can only go on. *)
Theorem C56_open_border_refuted : exists text w l s a,
  box text w /\ make_layout text = DOk l /\ reachable (initial_state l 0) s /\
  g_agents s !! 0 = Some a /\ ((c_pos (a_conf a)).1 < 0)%Z /\ legal_actions s 0 = DOk [West].
Proof.
  set (text := board ["%%%"; "P.."; "%%%"]%string). set (s := after text 0 [(0%Z, West)]).
  exists text, 3, (the_layout text), s, (AState (Config (0, 2)%Z Stop) (Config (-2, 2)%Z West) true 0%Z).
  split_and!.
  - split; [done|repeat constructor].
  - apply the_layout_ok. vm_compute. reflexivity.
  - apply after_ok. vm_compute. reflexivity.
  - vm_compute. reflexivity.
  - done.
  - vm_compute. reflexivity.
Qed.

(** To be caught can cost 1000 points. *)
Definition twins : list (list ascii) := board ["%%%%%%"; "%G G.%"; "%%P%%%"; "%%%%%%"]%string.
Theorem C57_caught_twice_refuted : exists text w s s',
  on_board text w s /\ generate_successor s 0 North = DOk s' /\ g_lose s' = true /\ (g_score s' = g_score s - 1 - 1000)%Z.
Proof.
  set (h := [(0, Stop); (1, East); (2, West)]%Z).
  exists twins, 6, (after twins 2 h), (after twins 2 (h ++ [(0%Z, North)])). split_and!.
  - apply after_on_board; [vm_compute; reflexivity..|done].
  - vm_compute. reflexivity.
  - vm_compute. reflexivity.
  - vm_compute. reflexivity.
Qed.

(** A state without food need not be won. *)
Theorem C57_no_food_refuted : exists text w s,
  on_board text w s /\ (forall c, ~ has_food s c) /\ g_win s = false.
Proof.
  set (text := board ["%%%%"; "%P %"; "%%%%"]%string). exists text, 4, (after text 0 [(0%Z, East)]).
  assert (H : on_board text 4 (after text 0 [(0%Z, East)])) by (apply after_on_board; [vm_compute; reflexivity..|done]).
  split_and!; [done| |vm_compute; reflexivity].
  intros c Hc. assert (Hx : exists c, has_food (after text 0 [(0%Z, East)]) c) by eauto.
  apply PacmanScore.some_food in Hx. revert Hx. vm_compute. discriminate.
Qed.

(** A ghost that is walled in has no legal action, so every action of its agent raises an exception. *)
Theorem C58_walled_in_refuted : exists text w l s,
  box text w /\ make_layout text = DOk l /\ s = initial_state l 1 /\ length (g_agents s) = 2 /\
  legal_actions s 1 = DOk [] /\ forall d, generate_successor s 1 d = DErr DIllegalGhostAction.
Proof.
  set (text := board ["%%%%%"; "%P%G%"; "%%%%%"]%string). exists text, 5, (the_layout text), (initial_state (the_layout text) 1).
  split_and!; try (vm_compute; reflexivity).
  - split; [done|repeat constructor].
Qed.

(** With two Pacmans on the board, the state has more agents than the game. *)
Theorem C59_two_pacmans_refuted : exists text w l,
  box text w /\ make_layout text = DOk l /\ (num_agents l 0 < Z.of_nat (length (g_agents (initial_state l 0))))%Z.
Proof.
  set (text := board ["%%%%"; "%PP%"; "%%%%"]%string). exists text, 4, (the_layout text). split_and!.
  - split; [done|repeat constructor].
  - apply the_layout_ok. vm_compute. reflexivity.
  - vm_compute. reflexivity.
Qed.

Print Assumptions C55_pack_roundtrip.
Print Assumptions C55_as_list.
Print Assumptions C55_count.
Print Assumptions C55_hash.
Print Assumptions C56_positions.
Print Assumptions C56_pacman_choices.
Print Assumptions C56_ghost_choices.
Print Assumptions C56_legal.
Print Assumptions C56_over.
Print Assumptions C56_open_border_refuted.
Print Assumptions C57_pacman_move.
Print Assumptions C57_ghost_move.
Print Assumptions C57_accounts.
Print Assumptions C57_no_food.
Print Assumptions C57_caught_twice_refuted.
Print Assumptions C57_no_food_refuted.
Print Assumptions C58_never_raises.
Print Assumptions C58_turns.
Print Assumptions C58_goes_on.
Print Assumptions C58_walled_in_refuted.
Print Assumptions C59_layout.
Print Assumptions C59_short_row.
Print Assumptions C59_long_row.
Print Assumptions C59_no_row.
Print Assumptions C59_first_state.
Print Assumptions C59_two_pacmans_refuted.
