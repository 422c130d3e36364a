(** * Pacman: the game of the demo (demo/game.py, demo/pacman.py, demo/layout.py)

    Coordinates are multiples of one half: positions start at cells, Pacman moves by 1 and a ghost by 1.0 or 0.5.  They
    are integers here, in half cells; floats hold them exactly up to [2^52].  Cells of grids are integers.

    Objects are values here (GameHeap.v has them on a heap).  [numCarrying] and [numReturned] are never used and left
    out, and so is the set [GameState.explored], which only grows. *)

From Coq Require Import ZArith Lia String Ascii.
From stdpp Require Import base list numbers option sorting.
From Verif Require Export DemoBase.

(** ** Directions and actions (game.py:49-67, 287-369) *)
Inductive dir := North | South | East | West | Stop.
Global Instance dir_eq_dec : EqDecision dir.
Proof. solve_decision. Defined.

(** game.py:291-297 [_directions], in the order of the dictionary *)
Definition directions : list dir := [North; South; East; West; Stop].
Definition dir_vec (d : dir) : Z * Z :=
  match d with North => (0, 1) | South => (0, -1) | East => (1, 0) | West => (-1, 0) | Stop => (0, 0) end%Z.

(** game.py:302-312 [reverseDirection] *)
Definition reverse_direction (d : dir) : dir :=
  match d with North => South | South => North | East => West | West => East | Stop => Stop end.

(** game.py:314-325 [vectorToDirection] *)
Definition vector_to_direction (v : Z * Z) : dir :=
  let '(dx, dy) := v in
  if (0 <? dy)%Z then North else if (dy <? 0)%Z then South else if (dx <? 0)%Z then West else if (0 <? dx)%Z then East
  else Stop.

(** game.py:327-330 [directionToVector]; the speed is in half cells. *)
Definition direction_to_vector (d : dir) (speed : Z) : Z * Z := (((dir_vec d).1 * speed)%Z, ((dir_vec d).2 * speed)%Z).

(** game.py:70-118 [Configuration]; the position is in half cells. *)
Record config := Config { c_pos : Z * Z; c_dir : dir }.
Global Instance config_eq_dec : EqDecision config.
Proof. solve_decision. Defined.

(** game.py:105-118 [generateSuccessor] *)
Definition config_succ (c : config) (v : Z * Z) : config :=
  let d := vector_to_direction v in
  Config (((c_pos c).1 + v.1)%Z, ((c_pos c).2 + v.2)%Z) (if decide (d = Stop) then c_dir c else d).

(** [int(x + 0.5)]: towards zero. *)
Definition round_half (h : Z) : Z := Z.quot (h + 1) 2.

(** util.py:534-542 [nearestPoint], in cells *)
Definition nearest_point (p : Z * Z) : Z * Z := (round_half p.1, round_half p.2).

(** util.py:225-227 [manhattanDistance], in half cells *)
Definition manhattan (p q : Z * Z) : Z := (Z.abs (p.1 - q.1) + Z.abs (p.2 - q.2))%Z.

(** A cell as a position. *)
Definition at_cell (c : Z * Z) : Z * Z := (2 * c.1, 2 * c.2)%Z.

(** game.py:332-350 [getPossibleActions]; the distance to the grid point is a multiple of one half, so it exceeds the
    tolerance .001 exactly if it is not 0. *)
Fixpoint open_dirs (walls : grid) (x y : Z) (l : list dir) : dres (list dir) :=
  match l with
  | [] => DOk []
  | d :: l =>
      w ← grid_get walls (x + (dir_vec d).1) (y + (dir_vec d).2);
      r ← open_dirs walls x y l;
      DOk (if (w : bool) then r else d :: r)
  end.
Definition possible_actions (c : config) (walls : grid) : dres (list dir) :=
  let n := nearest_point (c_pos c) in
  if bool_decide (manhattan (c_pos c) (at_cell n) > 0)%Z then DOk [c_dir c]
  else open_dirs walls n.1 n.2 directions.

(** ** States (game.py:120-160, 371-421) *)

(** game.py:120-160 [AgentState] *)
Record astate := AState { a_start : config; a_conf : config; a_pacman : bool; a_scared : Z }.
Global Instance astate_eq_dec : EqDecision astate.
Proof. solve_decision. Defined.

(** game.py:371-394 [GameStateData]; of the layout only the walls matter. *)
Record gstate := GState {
  g_walls : grid; g_food : grid; g_capsules : list (Z * Z); g_agents : list astate; g_eaten : list bool;
  g_score : Z; g_change : Z; g_win : bool; g_lose : bool;
  g_food_eaten : option (Z * Z); g_capsule_eaten : option (Z * Z); g_moved : option Z }.

(** game.py:375-393: the copy constructor resets what belongs to the last move, also the result of the game. *)
Definition copy_state (s : gstate) : gstate :=
  GState (g_walls s) (g_food s) (g_capsules s) (g_agents s) (g_eaten s) (g_score s) 0 false false None None None.

(** game.py:395-403 and pacman.py:229-232 [deepCopy]: keeps the last move but not the result of the game. *)
Definition deep_copy (s : gstate) : gstate :=
  GState (g_walls s) (g_food s) (g_capsules s) (g_agents s) (g_eaten s) (g_score s) 0 false false
    (g_food_eaten s) (g_capsule_eaten s) (g_moved s).

(** game.py:93-95, 139-142, 411-421 and pacman.py:234-238: [==] of states *)
Definition config_eqb (a b : config) : bool := bool_decide (c_pos a = c_pos b) && bool_decide (c_dir a = c_dir b).
Definition astate_eqb (a b : astate) : bool := config_eqb (a_conf a) (a_conf b) && (a_scared a =? a_scared b)%Z.
Fixpoint list_eqb {A} (f : A -> A -> bool) (l k : list A) : bool :=
  match l, k with
  | [], [] => true
  | a :: l, b :: k => f a b && list_eqb f l k
  | _, _ => false
  end.
Definition state_eqb (a b : gstate) : bool :=
  list_eqb astate_eqb (g_agents a) (g_agents b) && grid_eqb (g_food a) (g_food b) &&
  bool_decide (g_capsules a = g_capsules b) && (g_score a =? g_score b)%Z.

Definition set_agent (s : gstate) (i : Z) (a : astate) : dres gstate :=
  l ← py_set (g_agents s) i a;
  DOk (GState (g_walls s) (g_food s) (g_capsules s) l (g_eaten s) (g_score s) (g_change s) (g_win s) (g_lose s)
         (g_food_eaten s) (g_capsule_eaten s) (g_moved s)).
Definition add_change (s : gstate) (n : Z) : gstate :=
  GState (g_walls s) (g_food s) (g_capsules s) (g_agents s) (g_eaten s) (g_score s) (g_change s + n) (g_win s) (g_lose s)
    (g_food_eaten s) (g_capsule_eaten s) (g_moved s).

(** ** Rules (pacman.py:258-455) *)
Definition SCARED_TIME : Z := 40.
Definition TIME_PENALTY : Z := 1.

(** pacman.py:330-335 [PacmanRules.getLegalActions] *)
Definition pacman_actions (s : gstate) : dres (list dir) :=
  a ← py_get (g_agents s) 0; possible_actions (a_conf a) (g_walls s).

(** pacman.py:151-154 [getGhostState] *)
Definition ghost_state (s : gstate) (i : Z) : dres astate :=
  if (i =? 0)%Z || (Z.of_nat (length (g_agents s)) <=? i)%Z then DErr DBadGhostIndex else py_get (g_agents s) i.

(** pacman.py:386-399 [GhostRules.getLegalActions] *)
Definition ghost_actions (s : gstate) (i : Z) : dres (list dir) :=
  a ← ghost_state s i;
  l ← possible_actions (a_conf a) (g_walls s);
  let reverse := reverse_direction (c_dir (a_conf a)) in
  let l := if bool_decide (Stop ∈ l) then py_remove Stop l else l in
  DOk (if bool_decide (reverse ∈ l) && (1 <? length l)%nat then py_remove reverse l else l).

(** pacman.py:82-92 [GameState.getLegalActions] *)
Definition legal_actions (s : gstate) (i : Z) : dres (list dir) :=
  if g_win s || g_lose s then DOk []
  else if (i =? 0)%Z then pacman_actions s else ghost_actions s i.

(** pacman.py:359-379 [PacmanRules.consume] *)
Definition eat_food (s : gstate) (p : Z * Z) : dres gstate :=
  b ← grid_get (g_food s) p.1 p.2;
  if (b : bool) then
    f ← grid_set (grid_copy (g_food s)) p.1 p.2 false;
    let none_left := (grid_count f true =? 0)%Z && negb (g_lose s) in
    DOk (GState (g_walls s) f (g_capsules s) (g_agents s) (g_eaten s) (g_score s)
           (g_change s + 10 + (if none_left then 500 else 0)) (g_win s || none_left) (g_lose s)
           (Some p) (g_capsule_eaten s) (g_moved s))
  else DOk s.
Definition scare (a : astate) : astate := AState (a_start a) (a_conf a) (a_pacman a) SCARED_TIME.
Definition eat_capsule (s : gstate) (p : Z * Z) : gstate :=
  if bool_decide (p ∈ g_capsules s) then
    GState (g_walls s) (g_food s) (py_remove p (g_capsules s))
      (match g_agents s with a :: l => a :: (scare <$> l) | [] => [] end)
      (g_eaten s) (g_score s) (g_change s) (g_win s) (g_lose s) (g_food_eaten s) (Some p) (g_moved s)
  else s.
Definition consume (s : gstate) (p : Z * Z) : dres gstate := s ← eat_food s p; DOk (eat_capsule s p).

(** pacman.py:337-357 [PacmanRules.applyAction] *)
Definition pacman_apply (s : gstate) (act : dir) : dres gstate :=
  legal ← pacman_actions s;
  if bool_decide (act ∈ legal) then
    a ← py_get (g_agents s) 0;
    let c := config_succ (a_conf a) (direction_to_vector act 2) in
    s ← set_agent s 0 (AState (a_start a) c (a_pacman a) (a_scared a));
    let nearest := nearest_point (c_pos c) in
    if bool_decide (manhattan (at_cell nearest) (c_pos c) <= 1)%Z then consume s nearest else DOk s
  else DErr DIllegalAction.

(** pacman.py:401-412 [GhostRules.applyAction] *)
Definition ghost_apply (s : gstate) (act : dir) (i : Z) : dres gstate :=
  legal ← ghost_actions s i;
  if bool_decide (act ∈ legal) then
    a ← py_get (g_agents s) i;
    let speed := if (0 <? a_scared a)%Z then 1%Z else 2%Z in
    set_agent s i (AState (a_start a) (config_succ (a_conf a) (direction_to_vector act speed)) (a_pacman a) (a_scared a))
  else DErr DIllegalGhostAction.

(** pacman.py:414-419 [decrementTimer] *)
Definition decrement_timer (a : astate) : astate :=
  let c := if (a_scared a =? 1)%Z then Config (at_cell (nearest_point (c_pos (a_conf a)))) (c_dir (a_conf a)) else a_conf a in
  AState (a_start a) c (a_pacman a) (Z.max 0 (a_scared a - 1)).

(** pacman.py:449-451 [canKill]: 0.7 is between one and two half cells. *)
Definition can_kill (p q : Z * Z) : bool := bool_decide (manhattan q p <= 1)%Z.

(** pacman.py:436-447 [collide] *)
Definition collide (s : gstate) (i : Z) (a : astate) : dres gstate :=
  if (0 <? a_scared a)%Z then
    s ← set_agent (add_change s 200) i (AState (a_start a) (a_start a) (a_pacman a) 0);
    e ← py_set (g_eaten s) i true;
    DOk (GState (g_walls s) (g_food s) (g_capsules s) (g_agents s) e (g_score s) (g_change s) (g_win s) (g_lose s)
           (g_food_eaten s) (g_capsule_eaten s) (g_moved s))
  else if g_win s then DOk s
  else DOk (GState (g_walls s) (g_food s) (g_capsules s) (g_agents s) (g_eaten s) (g_score s) (g_change s - 500) (g_win s) true
              (g_food_eaten s) (g_capsule_eaten s) (g_moved s)).

(** pacman.py:421-434 [checkDeath] *)
Definition check_ghost (pac : Z * Z) (s : gstate) (i : Z) : dres gstate :=
  a ← py_get (g_agents s) i;
  if can_kill pac (c_pos (a_conf a)) then collide s i a else DOk s.
Definition check_death (s : gstate) (i : Z) : dres gstate :=
  p ← py_get (g_agents s) 0;
  if (i =? 0)%Z then for_each (check_ghost (c_pos (a_conf p))) s (range2 1 (Z.of_nat (length (g_agents s))))
  else check_ghost (c_pos (a_conf p)) s i.

(** pacman.py:94-125 [generateSuccessor] *)
Definition reset_eaten (s : gstate) : gstate :=
  GState (g_walls s) (g_food s) (g_capsules s) (g_agents s) ((fun _ => false) <$> g_agents s) (g_score s) (g_change s) (g_win s) (g_lose s)
    (g_food_eaten s) (g_capsule_eaten s) (g_moved s).
Definition finish_move (s : gstate) (i : Z) : gstate :=
  GState (g_walls s) (g_food s) (g_capsules s) (g_agents s) (g_eaten s) (g_score s + g_change s) (g_change s) (g_win s) (g_lose s)
    (g_food_eaten s) (g_capsule_eaten s) (Some i).
Definition generate_successor (s : gstate) (i : Z) (act : dir) : dres gstate :=
  if g_win s || g_lose s then DErr DTerminal
  else
    let s := copy_state s in
    s ← (if (i =? 0)%Z
         then s ← pacman_apply (reset_eaten s) act; DOk (add_change s (- TIME_PENALTY))
         else s ← ghost_apply s act i; a ← py_get (g_agents s) i; set_agent s i (decrement_timer a));
    s ← check_death s i;
    DOk (finish_move s i).

(** ** Layouts (layout.py:28-39, 96-131) *)
Record layout := Layout { l_walls : grid; l_food : grid; l_capsules : list (Z * Z); l_agents : list (bool * (Z * Z)); l_ghosts : Z }.

(** The objects of the board while the text is read; the agents with their numbers. *)
Record reading := Reading { r_walls : grid; r_food : grid; r_capsules : list (Z * Z); r_agents : list (Z * (Z * Z)); r_ghosts : Z }.

(** layout.py:117-131 [processLayoutChar] *)
Definition process_char (r : reading) (x y : Z) (c : ascii) : dres reading :=
  let 'Reading w f caps ags n := r in
  if (c =? "%")%char then w ← grid_set w x y true; DOk (Reading w f caps ags n)
  else if (c =? ".")%char then f ← grid_set f x y true; DOk (Reading w f caps ags n)
  else if (c =? "o")%char then DOk (Reading w f (caps ++ [(x, y)]) ags n)
  else if (c =? "P")%char then DOk (Reading w f caps (ags ++ [(0, (x, y))]) n)%Z
  else if (c =? "G")%char then DOk (Reading w f caps (ags ++ [(1, (x, y))]) (n + 1))%Z
  else if (c =? "1")%char then DOk (Reading w f caps (ags ++ [(1, (x, y))]) (n + 1))%Z
  else if (c =? "2")%char then DOk (Reading w f caps (ags ++ [(2, (x, y))]) (n + 1))%Z
  else if (c =? "3")%char then DOk (Reading w f caps (ags ++ [(3, (x, y))]) (n + 1))%Z
  else if (c =? "4")%char then DOk (Reading w f caps (ags ++ [(4, (x, y))]) (n + 1))%Z
  else DOk r.

(** [list.sort] of tuples [(i, (x, y))]: lexicographic. *)
Definition agent_le (a b : Z * (Z * Z)) : Prop :=
  (a.1 < b.1 \/ (a.1 = b.1 /\ (a.2.1 < b.2.1 \/ (a.2.1 = b.2.1 /\ a.2.2 <= b.2.2))))%Z.
Global Instance agent_le_dec : RelDecision agent_le.
Proof. intros a b. unfold agent_le. apply _. Defined.

(** layout.py:28-39, 96-115: the text as a list of rows *)
Definition make_layout (text : list (list ascii)) : dres layout :=
  row0 ← py_get text 0;
  let w := Z.of_nat (length row0) in
  let h := Z.of_nat (length text) in
  r ← for_each (fun (r : reading) '(y, x) =>
        row ← py_get text (h - 1 - y);
        c ← py_get row x;
        process_char r x y c)
      (Reading (grid_new w h false) (grid_new w h false) [] [] 0)
      (y ← range h; x ← range w; [(y, x)]);
  DOk (Layout (r_walls r) (r_food r) (r_capsules r)
         ((fun '(i, p) => (bool_decide (i = 0%Z), p)) <$> merge_sort agent_le (r_agents r)) (r_ghosts r)).

(** game.py:487-505 [initialize] *)
Fixpoint initial_agents (l : list (bool * (Z * Z))) (n max : Z) : list astate :=
  match l with
  | [] => []
  | (p, pos) :: l =>
      let a := AState (Config (at_cell pos) Stop) (Config (at_cell pos) Stop) p 0 in
      if p then a :: initial_agents l n max
      else if (n =? max)%Z then initial_agents l n max
      else a :: initial_agents l (n + 1) max
  end.
Definition initial_state (l : layout) (max_ghosts : Z) : gstate :=
  let ags := initial_agents (l_agents l) 0 max_ghosts in
  GState (l_walls l) (l_food l) (l_capsules l) ags ((fun _ => false) <$> ags) 0 0 false false None None None.

(** ** The game loop (game.py:513-729, pacman.py:274-297) without time limits and exception handling *)

(** Agents are arbitrary: the action may depend on all earlier moves (so on the state of the agent and on chance),
    the number of the agent, and a deep copy of the state. *)
Definition agents := list (Z * dir) -> Z -> gstate -> dres dir.

Record game := Game { gm_state : gstate; gm_over : bool; gm_history : list (Z * dir); gm_next : Z; gm_moves : Z }.

(** pacman.py:274-282 [newGame], with [startingIndex=0] *)
Definition new_game (l : layout) (ghosts : Z) : game := Game (initial_state l ghosts) false [] 0 0.
(** The number of agents of the game: [len([pacmanAgent] + ghostAgents[:layout.getNumGhosts()])]. *)
Definition num_agents (l : layout) (ghosts : Z) : Z := (1 + Z.min ghosts (l_ghosts l))%Z.

(** game.py:614-712: one round of the loop; [process] ends the game if the state is won or lost. *)
Definition game_round (n : Z) (ag : agents) (g : game) : dres game :=
  act ← ag (gm_history g) (gm_next g) (deep_copy (gm_state g));
  s ← generate_successor (gm_state g) (gm_next g) act;
  DOk (Game s (gm_over g || g_win s || g_lose s) (gm_history g ++ [(gm_next g, act)])
         ((gm_next g + 1) mod n) (if (gm_next g =? n + 1)%Z then gm_moves g + 1 else gm_moves g)).

(** At most [k] rounds. *)
Fixpoint game_run (n : Z) (ag : agents) (k : nat) (g : game) : dres game :=
  match k with
  | O => DOk g
  | S k => if gm_over g then DOk g else g ← game_round n ag g; game_run n ag k g
  end.
