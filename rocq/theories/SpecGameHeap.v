(** * SpecGameHeap: what a state object shows, and what may change afterwards *)

From Coq Require Import ZArith.
From stdpp Require Import base list gmap.
From Verif Require Import GameHeap.

Section reads.
Context (h : gheap).

(** Following the references from an object gives this value. *)
Definition reads_agent (a : addr) (x : astate) : Prop :=
  exists s c, h !! a = Some (GAgent s c (a_pacman x) (a_scared x)) /\ h !! s = Some (GConf (a_start x)) /\ h !! c = Some (GConf (a_conf x)).
Definition reads_column (a : addr) (l : list bool) : Prop := h !! a = Some (GColumn l).
Definition reads_grid (a : addr) (g : grid) : Prop :=
  exists d cols, h !! a = Some (GGrid (gr_width g) (gr_height g) d) /\ h !! d = Some (GColumns cols) /\
    Forall2 reads_column cols (gr_data g).
Definition reads_state (a : addr) (s : gstate) : Prop :=
  exists food caps aa e ags,
    h !! a = Some (GData (SData (g_walls s) food caps aa e (g_score s) (g_change s) (g_win s) (g_lose s)
                            (g_food_eaten s) (g_capsule_eaten s) (g_moved s))) /\
    reads_grid food (g_food s) /\ h !! caps = Some (GCells (g_capsules s)) /\
    h !! aa = Some (GAgents ags) /\ Forall2 reads_agent ags (g_agents s) /\ h !! e = Some (GEaten (g_eaten s)).
End reads.

(** Everything but the flags [_eaten] is the same, and flags are only ever set. *)
Definition only_flags (s t : gstate) : Prop :=
  t = GState (g_walls s) (g_food s) (g_capsules s) (g_agents s) (g_eaten t) (g_score s) (g_change s) (g_win s) (g_lose s)
        (g_food_eaten s) (g_capsule_eaten s) (g_moved s) /\
  Forall2 (fun b b' => b = true -> b' = true) (g_eaten s) (g_eaten t).

(** All states that were there before are unchanged. *)
Definition all_kept (h h' : gheap) : Prop := forall b t, reads_state h b t -> reads_state h' b t.
(** They are unchanged but for flags. *)
Definition flags_only (h h' : gheap) : Prop :=
  forall b t, reads_state h b t -> exists t', reads_state h' b t' /\ only_flags t t'.

(** ** The same calls where states are values *)
Definition do_vcall (rs : list (dres gstate)) (c : gcall) : dres gstate :=
  match c with
  | GNew l m => DOk (initial_state l m)
  | GSucc k i act => s ← result_of rs k; generate_successor s i act
  | GDeep k => s ← result_of rs k; DOk (deep_copy s)
  end.
Fixpoint run_vcalls (cs : list gcall) (rs : list (dres gstate)) : list (dres gstate) :=
  match cs with [] => rs | c :: cs => run_vcalls cs (rs ++ [do_vcall rs c]) end.

(** A result as an object and as a value: the same exception, or an object that shows the value but for flags. *)
Definition same_result (h : gheap) (r : dres addr) (v : dres gstate) : Prop :=
  match r, v with
  | DOk a, DOk s => exists t, reads_state h a t /\ only_flags s t
  | DErr x, DErr y => x = y
  | _, _ => False
  end.

(** ** Clients that write into a state: a cell of the food, the list of capsules, the timer or a new configuration of an
    agent, the score *)
Inductive gwrite :=
| WFood (x y : Z) (b : bool)
| WCapsules (l : list (Z * Z))
| WTimer (i t : Z)
| WConf (i : Z) (c : config)
| WScore (x : Z).
Definition do_write (n : addr) (w : gwrite) : prog unit :=
  match w with
  | WFood x y b => sd ← load_data n; set_cell (sd_food sd) x y b
  | WCapsules l => sd ← load_data n; store (sd_capsules sd) (GCells l)
  | WTimer i t => a ← agent_at n i; '(s, c, p, _) ← load_agent a; store a (GAgent s c p t)
  | WConf i c => a ← agent_at n i; '(s, _, p, t) ← load_agent a; k ← make (GConf c); store a (GAgent s k p t)
  | WScore x => set_data n (with_score x)
  end.
Definition do_writes (n : addr) (ws : list gwrite) : prog unit := each (do_write n) ws.

(** The same where states are values. *)
Definition value_write (s : gstate) (w : gwrite) : dres gstate :=
  let set food caps ags score := GState (g_walls s) food caps ags (g_eaten s) score (g_change s) (g_win s) (g_lose s)
    (g_food_eaten s) (g_capsule_eaten s) (g_moved s) in
  match w with
  | WFood x y b => g ← grid_set (g_food s) x y b; DOk (set g (g_capsules s) (g_agents s) (g_score s))
  | WCapsules l => DOk (set (g_food s) l (g_agents s) (g_score s))
  | WTimer i t => a ← py_get (g_agents s) i; l ← py_set (g_agents s) i (AState (a_start a) (a_conf a) (a_pacman a) t);
                  DOk (set (g_food s) (g_capsules s) l (g_score s))
  | WConf i c => a ← py_get (g_agents s) i; l ← py_set (g_agents s) i (AState (a_start a) c (a_pacman a) (a_scared a));
                 DOk (set (g_food s) (g_capsules s) l (g_score s))
  | WScore x => DOk (set (g_food s) (g_capsules s) (g_agents s) x)
  end.
Fixpoint value_writes (s : gstate) (ws : list gwrite) : dres gstate :=
  match ws with [] => DOk s | w :: ws => s' ← value_write s w; value_writes s' ws end.
