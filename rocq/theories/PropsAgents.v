(** * PropsAgents: the agents of the demo (C63) *)

From Coq Require Import ZArith QArith Reals Qreals String Ascii.
From Flocq Require Import IEEE754.BinarySingleNaN.
From stdpp Require Import base list numbers option strings.
From Verif Require Import ExamplesSets SpecAgents AgentFacts AgentMain PacmanMain PacmanExamples PropsPacman.

(** ** C63: the agents choose legal actions *)

(** [RandomGhost] returns a legal action for every random number; the actions share the unit interval evenly, in the
    order of their names, up to [2^-52]. *)
Theorem C63_random_ghost (py_sum : list b64 -> b64) (s : gstate) (i : Z) (l : list dir) (r : b64) :
  python_sum py_sum -> i <> 0%Z -> legal_actions s i = DOk l -> l <> [] -> random_number r ->
  exists d, ghost_action py_sum RandomGhost s i r = DOk d /\ d ∈ l /\ in_share (shares l (uniform l)) (B2R r) d.
Proof. exact (random_lemma py_sum s i l r). Qed.

(** [DirectionalGhost] with the default probabilities returns a legal action for every random number.  The preferred
    actions, those that bring it closest to Pacman, or furthest if it is scared, share 4/5 of the unit interval, and
    all legal actions share 1/5. *)
Theorem C63_directional_ghost (py_sum : list b64 -> b64) (s : gstate) (i : nat) (a p : astate) (l : list dir) (r : b64) :
  python_sum py_sum -> (0 < i)%nat -> g_agents s !! i = Some a -> g_agents s !! 0%nat = Some p ->
  legal_actions s (Z.of_nat i) = DOk l -> l <> [] -> random_number r ->
  exists best d, NoDup best /\ (forall e, e ∈ best <-> prefers a (c_pos (a_conf p)) l e) /\
    ghost_action py_sum (DirectionalGhost f_0_8 f_0_8) s (Z.of_nat i) r = DOk d /\ d ∈ l /\
    in_share (shares l (directed l best)) (B2R r) d.
Proof. exact (directional_nat py_sum s i a p l r). Qed.

(** Without legal actions [RandomGhost] returns Stop and [DirectionalGhost] raises [ValueError]. *)
Theorem C63_no_action (py_sum : list b64 -> b64) (s : gstate) (i : Z) (a p : astate) (pa pf r : b64) :
  python_sum py_sum -> ghost_state s i = DOk a -> py_get (g_agents s) 0 = DOk p -> legal_actions s i = DOk [] ->
  ghost_action py_sum RandomGhost s i r = DOk Stop /\ ghost_action py_sum (DirectionalGhost pa pf) s i r = DErr DValueError.
Proof. exact (no_action_lemma py_sum s i a p pa pf r). Qed.

(** The keyboard agents: the move is legal; the stop key counts first, then south, north, east, west; without a key for
    a legal direction the agent goes on in its last direction, else it stops.  Keys count until others are pressed. *)
Theorem C63_keyboard (s : gstate) (i : Z) (l : list dir) (keys : list string) (n : nat) (k : keyboard) :
  legal_actions s i = DOk l -> l <> [] ->
  let ks := if decide (keys = []) then kb_keys k else keys in
  exists d, keyboard_action keys1 s i keys n k = DOk (d, Keyboard d ks) /\ keyboard_move (pressed1 ks) l (kb_last k) d.
Proof. exact (keyboard_lemma keys1 pressed1 s i l keys n k keys1_iff). Qed.
Theorem C63_keyboard2 (s : gstate) (i : Z) (l : list dir) (keys : list string) (n : nat) (k : keyboard) :
  legal_actions s i = DOk l -> l <> [] ->
  let ks := if decide (keys = []) then kb_keys k else keys in
  exists d, keyboard_action keys2 s i keys n k = DOk (d, Keyboard d ks) /\ keyboard_move (pressed2 ks) l (kb_last k) d.
Proof. exact (keyboard_lemma keys2 pressed2 s i l keys n k keys2_iff). Qed.
Theorem C63_keyboard_no_action (m : key_map) (s : gstate) (i : Z) (keys : list string) (n : nat) (k : keyboard) :
  legal_actions s i = DOk [] -> keyboard_action m s i keys n k = DErr DNoChoice.
Proof. exact (keyboard_no_action m s i keys n k). Qed.

(** A game of a keyboard agent and such ghosts on a good board raises no exception, whatever keys are pressed and
    whatever the random numbers are. *)
Theorem C63_demo (py_sum : list b64 -> b64) (m : key_map) (kinds : nat -> ghost_kind) (inp : inputs)
    (text : list (list ascii)) (w : nat) (l : layout) (ghosts : Z) (k : nat) :
  python_sum py_sum -> (m = keys1 \/ m = keys2) -> (forall n, default_ghost (kinds n)) -> (forall n, random_number (in_random inp n)) ->
  good_text text w -> make_layout text = DOk l -> (0 <= ghosts)%Z ->
  exists g, game_run (num_agents l ghosts) (demo_agents py_sum m kinds inp) k (new_game l ghosts) = DOk g.
Proof. exact (demo_lemma py_sum m kinds inp text w l ghosts k). Qed.

(** The demo as it is started by demo.py: the board mediumClassic, two random ghosts. *)
Theorem C63_medium_classic (py_sum : list b64 -> b64) (inp : inputs) (k : nat) :
  python_sum py_sum -> (forall n, random_number (in_random inp n)) ->
  exists g, game_run 3 (demo_agents py_sum keys1 (fun _ => RandomGhost) inp) k (new_game (the_layout medium_classic) 2) = DOk g.
Proof.
  intros Hsum Hr. assert (E : num_agents (the_layout medium_classic) 2 = 3%Z) by (vm_compute; reflexivity). rewrite <- E.
  apply (demo_lemma py_sum keys1 _ inp medium_classic 20 (the_layout medium_classic) 2 k Hsum (or_introl eq_refl)).
  - intros n. by left.
  - exact Hr.
  - exact C56_medium_classic.
  - apply the_layout_ok. vm_compute. reflexivity.
  - done.
Qed.

(** ** Examples *)
Example C63_random_numbers : random_number f_zero /\ random_number below_one /\ random_number (int_div 1 3).
Proof. split_and!; apply random_b; vm_compute; reflexivity. Qed.

Definition crossing : list (list ascii) := board ["%%%%%"; "%P%.%"; "%G .%"; "% %%%"; "%%%%%"]%string.
Definition crossing_state : gstate := after crossing 1 [(0, Stop)]%Z.
Example C63_crossing : on_board crossing 5 crossing_state /\ legal_actions crossing_state 1 = DOk [North; South; East].
Proof. split; [apply after_on_board; [vm_compute; reflexivity..|done]|vm_compute; reflexivity]. Qed.
(** East below 1/3, South above 2/3; the directional ghost goes North unless the random number is small or large. *)
Example C63_crossing_choices :
  ghost_action f_sum RandomGhost crossing_state 1 (int_div 1 4) = DOk East /\
  ghost_action f_sum RandomGhost crossing_state 1 (int_div 1 2) = DOk North /\
  ghost_action f_sum RandomGhost crossing_state 1 below_one = DOk South /\
  ghost_action f_sum (DirectionalGhost f_0_8 f_0_8) crossing_state 1 (int_div 1 16) = DOk East /\
  ghost_action f_sum (DirectionalGhost f_0_8 f_0_8) crossing_state 1 (int_div 1 4) = DOk North /\
  ghost_action f_sum (DirectionalGhost f_0_8 f_0_8) crossing_state 1 (int_div 9 10) = DOk North /\
  ghost_action f_sum (DirectionalGhost f_0_8 f_0_8) crossing_state 1 below_one = DOk South.
Proof. split_and!; vm_compute; reflexivity. Qed.
Example C63_keys :
  legal_actions crossing_state 0 = DOk [South; Stop] /\
  keyboard_action keys1 crossing_state 0 ["Up"; "x"; "s"]%string 0 new_keyboard = DOk (South, Keyboard South ["Up"; "x"; "s"]%string) /\
  keyboard_action keys1 crossing_state 0 ["Up"]%string 0 new_keyboard = DOk (Stop, Keyboard Stop ["Up"]%string) /\
  keyboard_action keys1 crossing_state 0 [] 0 (Keyboard South ["Up"]%string) = DOk (South, Keyboard South ["Up"]%string) /\
  keyboard_action keys1 crossing_state 0 ["Down"; "q"]%string 0 (Keyboard South []) = DOk (Stop, Keyboard Stop ["Down"; "q"]%string).
Proof. split_and!; vm_compute; reflexivity. Qed.

(** ** Refutations *)

(** With other probabilities the sum of the floats can be too small for a random number: [IndexError]. *)
Theorem C63_other_probability_refuted : exists text w s p l r,
  on_board text w s /\ legal_actions s 1 = DOk l /\ l <> [] /\ random_number r /\ random_number p /\
  ghost_action f_sum (DirectionalGhost p p) s 1 r = DErr DIndexError.
Proof.
  exists crossing, 5%nat, crossing_state, (int_div 7 10), [North; South; East], below_one.
  split; [apply C63_crossing|]. split; [apply C63_crossing|]. split; [done|].
  split; [apply random_b; vm_compute; reflexivity|]. split; [apply random_b; vm_compute; reflexivity|]. vm_compute. reflexivity.
Qed.

(** A ghost that is walled in answers Stop, which the rules refuse. *)
Definition walled : list (list ascii) := board ["%%%%%"; "%P%G%"; "%%%%%"]%string.
Theorem C63_walled_ghost_refuted : exists text w l s r,
  box text w /\ make_layout text = DOk l /\ reachable (initial_state l 1) s /\ random_number r /\
  ghost_action f_sum RandomGhost s 1 r = DOk Stop /\ generate_successor s 1 Stop = DErr DIllegalGhostAction.
Proof.
  exists walled, 5%nat, (the_layout walled), (initial_state (the_layout walled) 1), f_zero.
  split; [split; [done|apply (bool_decide_eq_true_1 _); vm_compute; reflexivity]|].
  split; [apply the_layout_ok; vm_compute; reflexivity|]. split; [constructor|].
  split; [apply random_b; vm_compute; reflexivity|]. split; vm_compute; reflexivity.
Qed.

Print Assumptions C63_random_ghost.
Print Assumptions C63_directional_ghost.
Print Assumptions C63_no_action.
Print Assumptions C63_keyboard.
Print Assumptions C63_keyboard2.
Print Assumptions C63_keyboard_no_action.
Print Assumptions C63_demo.
Print Assumptions C63_medium_classic.
Print Assumptions C63_other_probability_refuted.
Print Assumptions C63_walled_ghost_refuted.
