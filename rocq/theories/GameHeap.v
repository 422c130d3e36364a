(** * GameHeap: the states of the demo game as objects (demo/game.py, demo/pacman.py)

    Pacman.v treats states as values.  Here they are objects on a heap: which lists, agents and configurations a copy
    shares with the original, and which objects a move writes.

    Simplifications: a GameState and its GameStateData are one object; the layout is a value, as nothing writes it after
    it was read; columns of grids and [_eaten] are lists of booleans of different kinds, as no list is used as both. *)

From Coq Require Import ZArith.
From stdpp Require Import base list numbers option gmap.
From Verif Require Export Pacman.

Notation addr := nat.

(** game.py:371-393 [GameStateData] *)
Record sdata := SData {
  sd_walls : grid; sd_food : addr; sd_capsules : addr; sd_agents : addr; sd_eaten : addr;
  sd_score : Z; sd_change : Z; sd_win : bool; sd_lose : bool;
  sd_food_eaten : option (Z * Z); sd_capsule_eaten : option (Z * Z); sd_moved : option Z }.

Inductive gobj :=
| GConf (c : config)                                       (* Configuration (game.py:70) *)
| GAgent (start conf : addr) (pacman : bool) (scared : Z)  (* AgentState (game.py:120) *)
| GAgents (l : list addr)                                  (* the list [agentStates] *)
| GColumn (l : list bool)                                  (* [data[x]] of a grid *)
| GColumns (l : list addr)                                 (* [data] of a grid *)
| GGrid (w h : Z) (data : addr)                            (* Grid (game.py:162) *)
| GCells (l : list (Z * Z))                                (* the list [capsules] *)
| GEaten (l : list bool)                                   (* the list [_eaten] *)
| GData (sd : sdata).                                      (* GameState and GameStateData *)

Notation gheap := (gmap addr gobj).

(** Computations that read and write the heap; what was written before an exception stays. *)
Definition prog (A : Type) : Type := gheap -> dres A * gheap.
Global Instance prog_bind : MBind prog := fun A B f m h =>
  match m h with (DOk a, h') => f a h' | (DErr e, h') => (DErr e, h') end.
Global Instance prog_ret : MRet prog := fun A a h => (DOk a, h).

Definition pure_ {A} (r : dres A) : prog A := fun h => (r, h).
Definition raise {A} (e : dexn) : prog A := fun h => (DErr e, h).
(** A new object. *)
Definition make (ob : gobj) : prog addr := fun h => let a := fresh (dom h) in (DOk a, <[a := ob]> h).
Definition load (a : addr) : prog gobj := fun h =>
  match h !! a with Some ob => (DOk ob, h) | None => (DErr DAttributeError, h) end.
Definition store (a : addr) (ob : gobj) : prog unit := fun h => (DOk tt, <[a := ob]> h).

(** Reading an object of the expected kind. *)
Definition load_conf (a : addr) : prog config := ob ← load a; match ob with GConf c => mret c | _ => raise DAttributeError end.
Definition load_agent (a : addr) : prog (addr * addr * bool * Z) :=
  ob ← load a; match ob with GAgent s c p t => mret (s, c, p, t) | _ => raise DAttributeError end.
Definition load_agents (a : addr) : prog (list addr) := ob ← load a; match ob with GAgents l => mret l | _ => raise DAttributeError end.
Definition load_column (a : addr) : prog (list bool) := ob ← load a; match ob with GColumn l => mret l | _ => raise DAttributeError end.
Definition load_columns (a : addr) : prog (list addr) := ob ← load a; match ob with GColumns l => mret l | _ => raise DAttributeError end.
Definition load_grid (a : addr) : prog (Z * Z * addr) := ob ← load a; match ob with GGrid w h d => mret (w, h, d) | _ => raise DAttributeError end.
Definition load_cells (a : addr) : prog (list (Z * Z)) := ob ← load a; match ob with GCells l => mret l | _ => raise DAttributeError end.
Definition load_eaten (a : addr) : prog (list bool) := ob ← load a; match ob with GEaten l => mret l | _ => raise DAttributeError end.
Definition load_data (a : addr) : prog sdata := ob ← load a; match ob with GData sd => mret sd | _ => raise DAttributeError end.

(** [self.x = ...] *)
Definition set_data (n : addr) (f : sdata -> sdata) : prog unit := sd ← load_data n; store n (GData (f sd)).
Definition with_food (a : addr) (sd : sdata) : sdata :=
  SData (sd_walls sd) a (sd_capsules sd) (sd_agents sd) (sd_eaten sd) (sd_score sd) (sd_change sd) (sd_win sd) (sd_lose sd)
    (sd_food_eaten sd) (sd_capsule_eaten sd) (sd_moved sd).
Definition with_eaten (a : addr) (sd : sdata) : sdata :=
  SData (sd_walls sd) (sd_food sd) (sd_capsules sd) (sd_agents sd) a (sd_score sd) (sd_change sd) (sd_win sd) (sd_lose sd)
    (sd_food_eaten sd) (sd_capsule_eaten sd) (sd_moved sd).
Definition with_score (x : Z) (sd : sdata) : sdata :=
  SData (sd_walls sd) (sd_food sd) (sd_capsules sd) (sd_agents sd) (sd_eaten sd) x (sd_change sd) (sd_win sd) (sd_lose sd)
    (sd_food_eaten sd) (sd_capsule_eaten sd) (sd_moved sd).
Definition more_change (x : Z) (sd : sdata) : sdata :=
  SData (sd_walls sd) (sd_food sd) (sd_capsules sd) (sd_agents sd) (sd_eaten sd) (sd_score sd) (sd_change sd + x) (sd_win sd) (sd_lose sd)
    (sd_food_eaten sd) (sd_capsule_eaten sd) (sd_moved sd).
Definition with_win (sd : sdata) : sdata :=
  SData (sd_walls sd) (sd_food sd) (sd_capsules sd) (sd_agents sd) (sd_eaten sd) (sd_score sd) (sd_change sd) true (sd_lose sd)
    (sd_food_eaten sd) (sd_capsule_eaten sd) (sd_moved sd).
Definition with_lose (sd : sdata) : sdata :=
  SData (sd_walls sd) (sd_food sd) (sd_capsules sd) (sd_agents sd) (sd_eaten sd) (sd_score sd) (sd_change sd) (sd_win sd) true
    (sd_food_eaten sd) (sd_capsule_eaten sd) (sd_moved sd).
Definition with_events (f c : option (Z * Z)) (m : option Z) (sd : sdata) : sdata :=
  SData (sd_walls sd) (sd_food sd) (sd_capsules sd) (sd_agents sd) (sd_eaten sd) (sd_score sd) (sd_change sd) (sd_win sd) (sd_lose sd) f c m.

(** [[f(x) for x in l]] *)
Fixpoint map_prog {A B} (f : A -> prog B) (l : list A) : prog (list B) :=
  match l with
  | [] => mret []
  | a :: l => b ← f a; r ← map_prog f l; mret (b :: r)
  end.
(** [for x in l: f(x)] *)
Fixpoint each {A} (f : A -> prog unit) (l : list A) : prog unit :=
  match l with
  | [] => mret tt
  | a :: l => _ ← f a; each f l
  end.

(** ** Copies *)

(** game.py:147-153 [AgentState.copy]: the copy has the same configuration objects. *)
Definition copy_agent (a : addr) : prog addr := '(s, c, p, t) ← load_agent a; make (GAgent s c p t).

(** game.py:214-217 [shallowCopy]: the same [data]; 206-212 [copy], [deepCopy]: new columns. *)
Definition shallow_copy (g : addr) : prog addr := '(w, h, d) ← load_grid g; make (GGrid w h d).
Definition copy_grid (g : addr) : prog addr :=
  '(w, h, d) ← load_grid g;
  cols ← load_columns d;
  cols' ← map_prog (fun c => col ← load_column c; make (GColumn col)) cols;
  d' ← make (GColumns cols');
  make (GGrid w h d').

(** game.py:375-393, 405-409 and pacman.py:220-227: the copy constructor. *)
Definition copy_data (a : addr) : prog addr :=
  sd ← load_data a;
  food ← shallow_copy (sd_food sd);
  caps ← load_cells (sd_capsules sd);
  caps' ← make (GCells caps);
  ags ← load_agents (sd_agents sd);
  l ← map_prog copy_agent ags;
  ags' ← make (GAgents l);
  make (GData (SData (sd_walls sd) food caps' ags' (sd_eaten sd) (sd_score sd) 0 false false None None None)).

(** game.py:395-403 and pacman.py:229-232 [deepCopy]; [GameState(self)] (pacman.py:230) makes a copy that is dropped. *)
Definition deep_copy_h (a : addr) : prog addr :=
  _ ← copy_data a;
  n ← copy_data a;
  sd ← load_data a;
  food ← copy_grid (sd_food sd);
  _ ← set_data n (with_food food);
  _ ← set_data n (with_events (sd_food_eaten sd) (sd_capsule_eaten sd) (sd_moved sd));
  mret n.

(** ** Grids *)
Definition get_cell (g : addr) (x y : Z) : prog bool :=
  '(_, _, d) ← load_grid g; cols ← load_columns d; c ← pure_ (py_get cols x); col ← load_column c; pure_ (py_get col y).
(** [grid[x][y] = b] writes the column. *)
Definition set_cell (g : addr) (x y : Z) (b : bool) : prog unit :=
  '(_, _, d) ← load_grid g; cols ← load_columns d; c ← pure_ (py_get cols x); col ← load_column c;
  col' ← pure_ (py_set col y b); store c (GColumn col').
(** game.py:219-220 [count] *)
Definition count_cells (g : addr) : prog Z :=
  '(w, h, d) ← load_grid g; cols ← load_columns d; l ← map_prog load_column cols; mret (grid_count (Grid w h l) true).

(** ** Agents of a state *)
Definition agents_of (n : addr) : prog (list addr) := sd ← load_data n; load_agents (sd_agents sd).
Definition agent_at (n : addr) (i : Z) : prog addr := l ← agents_of n; pure_ (py_get l i).
(** [agentState.configuration] *)
Definition conf_of (a : addr) : prog config := '(_, c, _, _) ← load_agent a; load_conf c.

(** pacman.py:330-335; :143 [getPacmanState] copies the agent. *)
Definition pacman_actions_h (n : addr) : prog (list dir) :=
  a ← agent_at n 0; a ← copy_agent a; c ← conf_of a; sd ← load_data n; pure_ (possible_actions c (sd_walls sd)).

(** pacman.py:386-399, 151-154 *)
Definition ghost_actions_h (n : addr) (i : Z) : prog (list dir) :=
  l ← agents_of n;
  a ← (if (i =? 0)%Z || (Z.of_nat (length l) <=? i)%Z then raise DBadGhostIndex else pure_ (py_get l i));
  c ← conf_of a;
  sd ← load_data n;
  l ← pure_ (possible_actions c (sd_walls sd));
  let reverse := reverse_direction (c_dir c) in
  let l := if bool_decide (Stop ∈ l) then py_remove Stop l else l in
  mret (if bool_decide (reverse ∈ l) && (1 <? length l)%nat then py_remove reverse l else l).

(** ** Rules *)

(** pacman.py:359-379 [consume] *)
Definition consume_h (n : addr) (p : Z * Z) : prog unit :=
  sd ← load_data n;
  b ← get_cell (sd_food sd) p.1 p.2;
  _ ← (if (b : bool) then
         _ ← set_data n (more_change 10);
         food ← copy_grid (sd_food sd);
         _ ← set_data n (with_food food);
         _ ← set_cell food p.1 p.2 false;
         _ ← set_data n (fun sd => with_events (Some p) (sd_capsule_eaten sd) (sd_moved sd) sd);
         k ← count_cells food;
         if (k =? 0)%Z && negb (sd_lose sd) then _ ← set_data n (more_change 500); set_data n with_win else mret tt
       else mret tt);
  caps ← load_cells (sd_capsules sd);
  if bool_decide (p ∈ caps) then
    _ ← store (sd_capsules sd) (GCells (py_remove p caps));
    _ ← set_data n (fun sd => with_events (sd_food_eaten sd) (Some p) (sd_moved sd) sd);
    l ← agents_of n;
    each (fun i => a ← pure_ (py_get l i); '(s, c, pm, _) ← load_agent a; store a (GAgent s c pm SCARED_TIME))
      (range2 1 (Z.of_nat (length l)))
  else mret tt.

(** pacman.py:337-357 [PacmanRules.applyAction] *)
Definition pacman_apply_h (n : addr) (act : dir) : prog unit :=
  legal ← pacman_actions_h n;
  if bool_decide (act ∈ legal) then
    a ← agent_at n 0;
    c ← conf_of a;
    let c' := config_succ c (direction_to_vector act 2) in
    k ← make (GConf c');
    '(s, _, p, t) ← load_agent a;
    _ ← store a (GAgent s k p t);
    let nearest := nearest_point (c_pos c') in
    if bool_decide (manhattan (at_cell nearest) (c_pos c') <= 1)%Z then consume_h n nearest else mret tt
  else raise DIllegalAction.

(** pacman.py:401-412 [GhostRules.applyAction] *)
Definition ghost_apply_h (n : addr) (act : dir) (i : Z) : prog unit :=
  legal ← ghost_actions_h n i;
  if bool_decide (act ∈ legal) then
    a ← agent_at n i;
    '(s, k, p, t) ← load_agent a;
    c ← load_conf k;
    let speed := if (0 <? t)%Z then 1%Z else 2%Z in
    k' ← make (GConf (config_succ c (direction_to_vector act speed)));
    store a (GAgent s k' p t)
  else raise DIllegalGhostAction.

(** pacman.py:414-419 [decrementTimer]: writes the configuration. *)
Definition decrement_timer_h (a : addr) : prog unit :=
  '(s, k, p, t) ← load_agent a;
  _ ← (if (t =? 1)%Z then c ← load_conf k; store k (GConf (Config (at_cell (nearest_point (c_pos c))) (c_dir c))) else mret tt);
  store a (GAgent s k p (Z.max 0 (t - 1))).

(** pacman.py:436-447, 453-455 [collide], [placeGhost] *)
Definition collide_h (n a : addr) (i : Z) : prog unit :=
  '(s, k, p, t) ← load_agent a;
  if (0 <? t)%Z then
    _ ← set_data n (more_change 200);
    _ ← store a (GAgent s s p 0);
    sd ← load_data n;
    l ← load_eaten (sd_eaten sd);
    l' ← pure_ (py_set l i true);
    store (sd_eaten sd) (GEaten l')
  else
    sd ← load_data n;
    if sd_win sd then mret tt else _ ← set_data n (more_change (-500)); set_data n with_lose.

(** pacman.py:421-434 [checkDeath] *)
Definition check_ghost_h (n : addr) (pac : Z * Z) (i : Z) : prog unit :=
  a ← agent_at n i;
  c ← conf_of a;
  if can_kill pac (c_pos c) then collide_h n a i else mret tt.
Definition check_death_h (n : addr) (i : Z) : prog unit :=
  a ← agent_at n 0;
  c ← conf_of a;
  if (i =? 0)%Z then l ← agents_of n; each (check_ghost_h n (c_pos c)) (range2 1 (Z.of_nat (length l)))
  else check_ghost_h n (c_pos c) i.

(** pacman.py:94-125 [generateSuccessor].  Adding states to [explored] only reads them. *)
Definition generate_successor_h (a : addr) (i : Z) (act : dir) : prog addr :=
  sd ← load_data a;
  if sd_win sd || sd_lose sd then raise DTerminal
  else
    n ← copy_data a;
    _ ← (if (i =? 0)%Z then
           l ← agents_of n;
           e ← make (GEaten ((fun _ => false) <$> l));
           _ ← set_data n (with_eaten e);
           _ ← pacman_apply_h n act;
           set_data n (more_change (- TIME_PENALTY))
         else
           _ ← ghost_apply_h n act i;
           x ← agent_at n i;
           decrement_timer_h x);
    _ ← check_death_h n i;
    _ ← set_data n (fun sd => with_events (sd_food_eaten sd) (sd_capsule_eaten sd) (Some i) sd);
    _ ← set_data n (fun sd => with_score (sd_score sd + sd_change sd) sd);
    mret n.

(** game.py:487-505 [initialize] and pacman.py:276-277: a first state; start and configuration of an agent are the same object. *)
Definition make_agent (x : astate) : prog addr := k ← make (GConf (a_conf x)); make (GAgent k k (a_pacman x) (a_scared x)).
Definition initial_state_h (l : layout) (max_ghosts : Z) : prog addr :=
  cols ← map_prog (fun col => make (GColumn col)) (gr_data (l_food l));
  d ← make (GColumns cols);
  food ← make (GGrid (gr_width (l_food l)) (gr_height (l_food l)) d);
  caps ← make (GCells (l_capsules l));
  ags ← map_prog make_agent (initial_agents (l_agents l) 0 max_ghosts);
  aa ← make (GAgents ags);
  e ← make (GEaten ((fun _ => false) <$> ags));
  make (GData (SData (l_walls l) food caps aa e 0 0 false false None None None)).

(** ** Clients: any sequence of calls on the results of earlier calls, given by their numbers *)
Inductive gcall := GNew (l : layout) (max_ghosts : Z) | GSucc (k : nat) (i : Z) (act : dir) | GDeep (k : nat).
(** Where the earlier call raised or does not exist the client raises. *)
Definition result_of {A} (rs : list (dres A)) (k : nat) : dres A := default (DErr DIndexError) (rs !! k).
Definition do_gcall (rs : list (dres addr)) (c : gcall) : prog addr :=
  match c with
  | GNew l m => initial_state_h l m
  | GSucc k i act => a ← pure_ (result_of rs k); generate_successor_h a i act
  | GDeep k => a ← pure_ (result_of rs k); deep_copy_h a
  end.
Fixpoint run_gcalls (cs : list gcall) (rs : list (dres addr)) (h : gheap) : list (dres addr) * gheap :=
  match cs with
  | [] => (rs, h)
  | c :: cs => let '(r, h') := do_gcall rs c h in run_gcalls cs (rs ++ [r]) h'
  end.

(** ** Equality and hashing of states *)
Section hash.
(** The hashes of Python: of a pair of coordinates, a direction (a text), an integer, and of a tuple from those of its items. *)
Context (hpos : Z * Z -> Z) (hdir : dir -> Z) (hint : Z -> Z) (htuple : list Z -> Z).

(** game.py:97-100 *)
Definition config_hash (c : config) : Z := hint (hpos (c_pos c) + 13 * hdir (c_dir c)).
(** game.py:144-145 *)
Definition agent_hash (a : astate) : Z := hint (config_hash (a_conf a) + 13 * hint (a_scared a)).
(** game.py:423-433 and pacman.py:240-244; capsules are pairs of integers.  [%] is [mod] with the sign of the divisor. *)
Definition state_hash (s : gstate) : Z :=
  (htuple (agent_hash <$> g_agents s) + 13 * hint (grid_hash_int (g_food s)) + 113 * htuple (hpos <$> g_capsules s) +
   7 * hint (g_score s)) mod 1048575.
End hash.
