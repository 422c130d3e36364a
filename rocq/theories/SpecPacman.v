(** * SpecPacman: specification vocabulary for the demo game *)

From Coq Require Import ZArith Lia String Ascii.
From stdpp Require Import base list numbers option sorting strings.
From Verif Require Export Pacman.

(** ** Boards *)

(** The cell [(x, y)] of a grid, counted from 0; no negative indices. *)
Definition cell (g : grid) (c : Z * Z) : option bool :=
  if (0 <=? c.1)%Z && (0 <=? c.2)%Z then col ← gr_data g !! Z.to_nat c.1; col !! Z.to_nat c.2 else None.

(** The data of the grid has the stated size. *)
Definition rectangular (g : grid) : Prop :=
  Z.of_nat (length (gr_data g)) = gr_width g /\ Forall (fun col => Z.of_nat (length col) = gr_height g) (gr_data g).

(** No wall at [c]. *)
Definition free (W : grid) (c : Z * Z) : Prop := cell W c = Some false.

(** The border of the board consists of walls. *)
Definition closed (W : grid) : Prop :=
  rectangular W /\
  forall x y, free W (x, y) -> (0 < x < gr_width W - 1 /\ 0 < y < gr_height W - 1)%Z.

(** The next cell in a direction. *)
Definition next_cell (c : Z * Z) (d : dir) : Z * Z :=
  match d with
  | North => (c.1, c.2 + 1) | South => (c.1, c.2 - 1) | East => (c.1 + 1, c.2) | West => (c.1 - 1, c.2) | Stop => c
  end%Z.

(** In the middle of a cell, or half way from a cell to the next. *)
Definition in_cell (p : Z * Z) (c : Z * Z) : Prop := p = (2 * c.1, 2 * c.2)%Z.
Definition half_way (p : Z * Z) (c : Z * Z) (d : dir) : Prop :=
  p = (c.1 + (next_cell c d).1, c.2 + (next_cell c d).2)%Z /\ d <> Stop.

Definition has_exit (W : grid) (c : Z * Z) : Prop := exists d, d <> Stop /\ free W (next_cell c d).

(** Pacman stands in a free cell. *)
Definition pacman_ok (W : grid) (c : config) : Prop := exists k, free W k /\ in_cell (c_pos c) k.

(** A ghost stands in a free cell, or is half way between two adjacent free cells and heads for the second. *)
Definition ghost_ok (W : grid) (c : config) : Prop :=
  (exists k, free W k /\ has_exit W k /\ in_cell (c_pos c) k) \/
  (exists k d, free W k /\ free W (next_cell k d) /\ half_way (c_pos c) k d /\ c_dir c = d).

(** The ghost is in its cell or half way, but only half way if scared; the timer is from 0 to 40. *)
Record ghost_fine (W : grid) (a : astate) : Prop := {
  gf_place : ghost_ok W (a_conf a);
  gf_start : exists k, free W k /\ has_exit W k /\ in_cell (c_pos (a_start a)) k;
  gf_timer : (0 <= a_scared a <= 40)%Z;
  gf_calm : a_scared a = 0%Z -> exists k, in_cell (c_pos (a_conf a)) k
}.

(** A state that agents may be in. *)
Record fine (s : gstate) : Prop := {
  fi_closed : closed (g_walls s);
  fi_food : rectangular (g_food s) /\ gr_width (g_food s) = gr_width (g_walls s) /\ gr_height (g_food s) = gr_height (g_walls s);
  fi_agents : exists p gs, g_agents s = p :: gs /\ pacman_ok (g_walls s) (a_conf p) /\ Forall (ghost_fine (g_walls s)) gs;
  fi_eaten : length (g_eaten s) = length (g_agents s)
}.

(** Amount of food. *)
Definition has_food (s : gstate) (c : Z * Z) : Prop := cell (g_food s) c = Some true.

(** ** Executions *)
Inductive reachable (s0 : gstate) : gstate -> Prop :=
| reach_start : reachable s0 s0
| reach_move s i a s' : reachable s0 s -> (0 <= i)%Z -> generate_successor s i a = DOk s' -> reachable s0 s'.

(** ** Layout texts; row 0 is at the top of the board *)
Definition char_at (text : list (list ascii)) (c : Z * Z) : option ascii :=
  if (0 <=? c.1)%Z && (0 <=? c.2)%Z && (c.2 <? Z.of_nat (length text))%Z
  then row ← text !! (length text - 1 - Z.to_nat c.2)%nat; row !! Z.to_nat c.1 else None.

(** All rows have the same length. *)
Definition box (text : list (list ascii)) (w : nat) : Prop := text <> [] /\ Forall (fun row => length row = w) text.

Definition is_ghost_char (c : ascii) : Prop := c ∈ ["G"; "1"; "2"; "3"; "4"]%char.

(** The number of an agent on the board; 0 is Pacman. *)
Definition agent_number (c : ascii) : option Z :=
  if decide (c = "P"%char) then Some 0%Z
  else if decide (c = "G"%char \/ c = "1"%char) then Some 1%Z
  else if decide (c = "2"%char) then Some 2%Z
  else if decide (c = "3"%char) then Some 3%Z
  else if decide (c = "4"%char) then Some 4%Z else None.

(** What a layout has at the place of each character. *)
Record layout_of (text : list (list ascii)) (w : nat) (l : layout) : Prop := {
  lo_walls : rectangular (l_walls l) /\ gr_width (l_walls l) = Z.of_nat w /\ gr_height (l_walls l) = Z.of_nat (length text);
  lo_wall : forall p c, char_at text p = Some c -> cell (l_walls l) p = Some (bool_decide (c = "%"%char));
  lo_foods : rectangular (l_food l) /\ gr_width (l_food l) = Z.of_nat w /\ gr_height (l_food l) = Z.of_nat (length text);
  lo_food : forall p c, char_at text p = Some c -> cell (l_food l) p = Some (bool_decide (c = "."%char));
  lo_capsules : NoDup (l_capsules l) /\ forall p, p ∈ l_capsules l <-> char_at text p = Some "o"%char;
  lo_agents : exists ns : list (Z * (Z * Z)),
    l_agents l = (fun n => (bool_decide (n.1 = 0%Z), n.2)) <$> ns /\ StronglySorted agent_le ns /\ NoDup ns /\
    (forall n p, (n, p) ∈ ns <-> exists c, char_at text p = Some c /\ agent_number c = Some n) /\
    l_ghosts l = Z.of_nat (length (filter (fun n => n.1 <> 0%Z) ns))
}.

(** A board with a closed border, one Pacman, and no ghost that is walled in. *)
Record good_text (text : list (list ascii)) (w : nat) : Prop := {
  gt_box : box text w;
  gt_border : forall x y c, char_at text (x, y) = Some c ->
    (x = 0 \/ y = 0 \/ x = Z.of_nat w - 1 \/ y = Z.of_nat (length text) - 1)%Z -> c = "%"%char;
  gt_pacman : exists p, forall q, char_at text q = Some "P"%char <-> q = p;
  gt_ghosts : forall p c, char_at text p = Some c -> is_ghost_char c ->
    exists d, d <> Stop /\ exists c', char_at text (next_cell p d) = Some c' /\ c' <> "%"%char
}.

(** ** The rules of the game *)

(** A ghost within half a cell of the position [p]. *)
Definition near (p : Z * Z) (a : astate) : bool :=
  bool_decide (Z.abs ((c_pos (a_conf a)).1 - p.1) + Z.abs ((c_pos (a_conf a)).2 - p.2) <= 1)%Z.
(** A ghost that Pacman at [p] eats, or one that kills Pacman. *)
Definition eaten_at (p : Z * Z) (a : astate) : bool := near p a && bool_decide (0 < a_scared a)%Z.
Definition deadly_at (p : Z * Z) (a : astate) : bool := near p a && negb (bool_decide (0 < a_scared a)%Z).
(** An eaten ghost is back at its start and not scared. *)
Definition meet (p : Z * Z) (a : astate) : astate :=
  if eaten_at p a then AState (a_start a) (a_start a) (a_pacman a) 0 else a.
Definition how_many (f : astate -> bool) (l : list astate) : Z := Z.of_nat (length (List.filter f l)).
Definition frightened (capsule : bool) (a : astate) : astate :=
  if capsule then AState (a_start a) (a_conf a) (a_pacman a) 40 else a.

(** The middle of a cell. *)
Definition mid (c : Z * Z) : Z * Z := (2 * c.1, 2 * c.2)%Z.

(** Pacman moves from cell [k] in direction [d]. *)
Record pacman_moves (s : gstate) (p : astate) (gs : list astate) (k : Z * Z) (d : dir) (s' : gstate) : Prop := {
  pm_walls : g_walls s' = g_walls s;
  pm_food : gr_width (g_food s') = gr_width (g_food s) /\ gr_height (g_food s') = gr_height (g_food s) /\ rectangular (g_food s') /\
    forall c, cell (g_food s') c = if decide (c = next_cell k d) then Some false else cell (g_food s) c;
  pm_count : (grid_count (g_food s') true
             = grid_count (g_food s) true - (if decide (cell (g_food s) (next_cell k d) = Some true) then 1 else 0))%Z;
  pm_capsules : if decide (next_cell k d ∈ g_capsules s)
                then exists l1 l2, g_capsules s = l1 ++ next_cell k d :: l2 /\ next_cell k d ∉ l1 /\ g_capsules s' = l1 ++ l2
                else g_capsules s' = g_capsules s;
  pm_events : g_food_eaten s' = (if decide (cell (g_food s) (next_cell k d) = Some true) then Some (next_cell k d) else None) /\
    g_capsule_eaten s' = (if decide (next_cell k d ∈ g_capsules s) then Some (next_cell k d) else None) /\
    g_moved s' = Some 0%Z /\ g_change s' = (g_score s' - g_score s)%Z;
  pm_agents : g_agents s'
    = AState (a_start p) (Config (mid (next_cell k d)) (if decide (d = Stop) then c_dir (a_conf p) else d))
        (a_pacman p) (a_scared p)
      :: (meet (mid (next_cell k d)) <$> (frightened (bool_decide (next_cell k d ∈ g_capsules s)) <$> gs));
  pm_eaten : g_eaten s'
    = false :: (eaten_at (mid (next_cell k d)) <$> (frightened (bool_decide (next_cell k d ∈ g_capsules s)) <$> gs));
  pm_win : g_win s' = true <-> cell (g_food s) (next_cell k d) = Some true /\ forall c, cell (g_food s') c <> Some true;
  pm_lose : g_lose s' = true <->
    g_win s' = false /\
    exists a, a ∈ gs /\ deadly_at (mid (next_cell k d))
                          (frightened (bool_decide (next_cell k d ∈ g_capsules s)) a) = true;
  pm_score : (g_score s'
    = g_score s - 1 + (if decide (cell (g_food s) (next_cell k d) = Some true) then 10 else 0) + (if g_win s' then 500 else 0)
      + 200 * how_many (eaten_at (mid (next_cell k d)))
                (frightened (bool_decide (next_cell k d ∈ g_capsules s)) <$> gs)
      - (if g_win s' then 0
         else 500 * how_many (deadly_at (mid (next_cell k d)))
                      (frightened (bool_decide (next_cell k d ∈ g_capsules s)) <$> gs)))%Z
}.

(** The ghost [a] moves in direction [d] to the place of [c]: a whole cell if it is not scared, else half a cell; when
    the fear ends it is put into a cell. *)
Definition ghost_step (a : astate) (d : dir) (c : config) : Prop :=
  c_dir c = d /\
  if decide (a_scared a = 0%Z) then forall k, in_cell (c_pos (a_conf a)) k -> in_cell (c_pos c) (next_cell k d)
  else
    (forall k, half_way (c_pos (a_conf a)) k d -> in_cell (c_pos c) (next_cell k d)) /\
    (forall k, in_cell (c_pos (a_conf a)) k ->
       if decide (a_scared a = 1%Z)
       then in_cell (c_pos c) (match d with North | East => next_cell k d | _ => k end)
       else half_way (c_pos c) k d).

(** Ghost [i] moves in direction [d]. *)
Record ghost_moves (s : gstate) (i : nat) (a : astate) (d : dir) (s' : gstate) : Prop := {
  gm_same : g_walls s' = g_walls s /\ g_food s' = g_food s /\ g_capsules s' = g_capsules s /\ g_win s' = false;
  gm_events : g_food_eaten s' = None /\ g_capsule_eaten s' = None /\ g_moved s' = Some (Z.of_nat i) /\ g_change s' = (g_score s' - g_score s)%Z;
  gm_agents : exists a1 p,
    g_agents s !! 0 = Some p /\ a_start a1 = a_start a /\ a_pacman a1 = a_pacman a /\ ghost_step a d (a_conf a1) /\
    a_scared a1 = Z.max 0 (a_scared a - 1) /\
    g_agents s' = <[i := meet (c_pos (a_conf p)) a1]> (g_agents s) /\
    g_eaten s' = (if eaten_at (c_pos (a_conf p)) a1 then <[i := true]> (g_eaten s) else g_eaten s) /\
    g_lose s' = deadly_at (c_pos (a_conf p)) a1 /\
    (g_score s' = g_score s + (if eaten_at (c_pos (a_conf p)) a1 then 200 else 0) - (if deadly_at (c_pos (a_conf p)) a1 then 500 else 0))%Z
}.

(** An agent at the start of a game. *)
Definition start_state (b : bool) (p : Z * Z) : astate := AState (Config (mid p) Stop) (Config (mid p) Stop) b 0.

(** ** Plays *)

(** An agent that chooses among the legal actions whenever there are some. *)
Definition plays_legally (ag : agents) : Prop :=
  forall h i s l, legal_actions s i = DOk l -> l <> [] -> exists d, ag h i s = DOk d /\ d ∈ l.

(** The moves of a list, one after the other. *)
Inductive replays : gstate -> list (Z * dir) -> gstate -> Prop :=
| replays_nil s : replays s [] s
| replays_snoc s h s1 i d s2 : replays s h s1 -> generate_successor s1 i d = DOk s2 -> replays s (h ++ [(i, d)]) s2.

(** How often Pacman moved. *)
Definition pacman_turns (h : list (Z * dir)) : Z := Z.of_nat (length (filter (fun m => m.1 = 0%Z) h)).

(** What a play has done to food, result and score. *)
Record accounts (s0 s : gstate) (turns : Z) : Prop := {
  ac_food : forall c, has_food s c -> has_food s0 c;
  ac_count : (0 <= grid_count (g_food s0) true - grid_count (g_food s) true <= turns)%Z;
  ac_win : g_win s = true <-> ~ exists c, has_food s c;
  ac_both : ~ (g_win s = true /\ g_lose s = true);
  ac_score : exists eaten deaths, (0 <= eaten)%Z /\ (0 <= deaths < Z.of_nat (length (g_agents s)))%Z /\ (g_lose s = true <-> 0 < deaths)%Z /\
    (g_score s - g_score s0 = 10 * (grid_count (g_food s0) true - grid_count (g_food s) true) - turns + 200 * eaten
       + (if g_win s then 500 else 0) - 500 * deaths)%Z
}.

(** A cell of the board that is not a wall. *)
Definition open_cell (text : list (list ascii)) (k : Z * Z) : Prop := exists c, char_at text k = Some c /\ c <> "%"%char.

(** Where the rules allow the agents to be. *)
Definition pacman_place (text : list (list ascii)) (a : astate) : Prop := exists k, open_cell text k /\ in_cell (c_pos (a_conf a)) k.
Definition ghost_place (text : list (list ascii)) (a : astate) : Prop :=
  (exists k, open_cell text k /\ in_cell (c_pos (a_conf a)) k) \/
  ((0 < a_scared a)%Z /\
   exists k d, open_cell text k /\ open_cell text (next_cell k d) /\ half_way (c_pos (a_conf a)) k d /\ c_dir (a_conf a) = d).

(** The states of a game on a board. *)
Definition on_board (text : list (list ascii)) (w : nat) (s : gstate) : Prop :=
  exists l max, good_text text w /\ make_layout text = DOk l /\ (0 <= max)%Z /\ reachable (initial_state l max) s.
