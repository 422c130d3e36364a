(** * Agents: the agents of the demo (demo/ghostAgents.py, demo/keyboardAgents.py, demo/demo.py) and how they sample
    (demo/util.py) *)

From Coq Require Import ZArith String Ascii.
From Flocq Require Import IEEE754.BinarySingleNaN.
From stdpp Require Import base list numbers option sorting strings.
From Verif Require Export Floats Pacman.

(** ** Counters (util.py:235-446): dictionaries in the order of insertion *)
Section counter.
Context {K V : Type} `{EqDecision K}.

(** [c[k] = v]: a key that is there keeps its place. *)
Fixpoint ct_set (k : K) (v : V) (c : list (K * V)) : list (K * V) :=
  match c with
  | [] => [(k, v)]
  | (k', v') :: c => if decide (k = k') then (k, v) :: c else (k', v') :: ct_set k v c
  end.

Fixpoint ct_find (k : K) (c : list (K * V)) : option V :=
  match c with
  | [] => None
  | (k', v) :: c => if decide (k = k') then Some v else ct_find k c
  end.

(** util.py:275-277 [__getitem__] puts [zero] into the counter if the key is not there. *)
Definition ct_get (zero : V) (k : K) (c : list (K * V)) : V * list (K * V) :=
  match ct_find k c with Some v => (v, c) | None => (zero, ct_set k zero c) end.

(** [c[k] += v] *)
Definition ct_incr (zero : V) (add : V -> V -> V) (k : K) (v : V) (c : list (K * V)) : list (K * V) :=
  let '(x, c) := ct_get zero k c in ct_set k (add x v) c.
End counter.

(** Python's [/] of floats whose divisor is not zero, and [float / int] for the length of a list; lists that are
    longer than [2^53] are not considered. *)
Definition fdiv : b64 -> b64 -> b64 := Bdiv mode_NE.
Definition nat_float (n : nat) : b64 := binary_normalize 53 1024 prec_gt_0_53 prec_lt_emax_53 mode_NE (Z.of_nat n) 0 false.

Section sampling.
(** The version of [sum], as in Floats.v. *)
Context (py_sum : list b64 -> b64).
Context {K : Type} `{EqDecision K}.

(** util.py:326-336 [Counter.normalize]; [self[key] = self[key] / total] for each key, in place. *)
Definition ct_normalize (c : list (K * b64)) : list (K * b64) :=
  let total := py_sum c.*2 in
  if Beqb total f_zero then c else (fun '(k, v) => (k, fdiv v total)) <$> c.

(** util.py:456-473 [normalize] of a list *)
Definition vec_normalize (l : list b64) : list b64 :=
  let s := py_sum l in if Beqb s f_zero then l else (fun x => fdiv x s) <$> l.

(** util.py:499-503: [total] is the sum so far, [v] the value at hand; [rest] are the pairs that follow. *)
Fixpoint sample_loop (r total : b64) (v : K) (rest : list (K * b64)) : dres K :=
  if Bltb total r then
    match rest with
    | [] => DErr DIndexError
    | (v', p) :: rest => sample_loop r (fadd total p) v' rest
    end
  else DOk v.

(** util.py:491-503 [sample] of a counter with the random number [r]; [items] are sorted. *)
Definition sample_items (items : list (K * b64)) (r : b64) : dres K :=
  let d := items.*2 in
  let d := if Beqb (py_sum d) f_one then d else vec_normalize d in
  match zip items.*1 d with
  | [] => DErr DIndexError
  | (v, p) :: rest => sample_loop r p v rest
  end.
End sampling.

(** ** Ghosts (ghostAgents.py) *)

(** game.py:50-54 *)
Definition dir_name (d : dir) : string :=
  match d with North => "North" | South => "South" | East => "East" | West => "West" | Stop => "Stop" end.

(** util.py:493 [sorted(distribution.items())]: the keys differ, so the probabilities are not compared. *)
Definition item_le (a b : dir * b64) : Prop := String.leb (dir_name a.1) (dir_name b.1) = true.
Global Instance item_le_dec : RelDecision item_le.
Proof. intros a b. unfold item_le. apply _. Defined.

Section ghosts.
Context (py_sum : list b64 -> b64).

(** util.py:524-527 [chooseFromDistribution] of a counter *)
Definition choose_from (dist : list (dir * b64)) (r : b64) : dres dir :=
  sample_items py_sum (merge_sort item_le dist) r.

(** ghostAgents.py:26-31 [GhostAgent.getAction] *)
Definition ghost_get_action (dist : list (dir * b64)) (r : b64) : dres dir :=
  match dist with [] => DOk Stop | _ => choose_from dist r end.

(** ghostAgents.py:39-43 [RandomGhost.getDistribution] *)
Definition random_distribution (s : gstate) (i : Z) : dres (list (dir * b64)) :=
  legal ← legal_actions s i;
  DOk (ct_normalize py_sum (fold_left (fun c a => ct_set a f_one c) legal [])).

(** The maximum and the minimum of a list that is not empty. *)
Definition py_max (l : list Z) : dres Z := match l with [] => DErr DValueError | x :: l => DOk (fold_left Z.max l x) end.
Definition py_min (l : list Z) : dres Z := match l with [] => DErr DValueError | x :: l => DOk (fold_left Z.min l x) end.

(** ghostAgents.py:52-81 [DirectionalGhost.getDistribution]; positions and distances are in half cells. *)
Definition directional_distribution (prob_attack prob_flee : b64) (s : gstate) (i : Z) : dres (list (dir * b64)) :=
  ghost ← ghost_state s i;
  legal ← legal_actions s i;
  pac ← py_get (g_agents s) 0;
  let pos := c_pos (a_conf ghost) in
  let scared := (0 <? a_scared ghost)%Z in
  let speed := if scared then 1%Z else 2%Z in
  let new_positions := (fun d => let v := direction_to_vector d speed in ((pos.1 + v.1)%Z, (pos.2 + v.2)%Z)) <$> legal in
  let distances := (fun q => manhattan q (c_pos (a_conf pac))) <$> new_positions in
  best ← (if scared then py_max distances else py_min distances);
  let p := if scared then prob_flee else prob_attack in
  let best_actions := (filter (fun x => x.2 = best) (zip legal distances)).*1 in
  let c := fold_left (fun c a => ct_set a (fdiv p (nat_float (length best_actions))) c) best_actions [] in
  let c := fold_left (fun c a => ct_incr f_zero fadd a (fdiv (fsub f_one p) (nat_float (length legal))) c) legal c in
  DOk (ct_normalize py_sum c).

Inductive ghost_kind := RandomGhost | DirectionalGhost (prob_attack prob_flee : b64).

Definition ghost_action (k : ghost_kind) (s : gstate) (i : Z) (r : b64) : dres dir :=
  dist ← (match k with
          | RandomGhost => random_distribution s i
          | DirectionalGhost pa pf => directional_distribution pa pf s i
          end);
  ghost_get_action dist r.
End ghosts.

(** ghostAgents.py:47: the literal 0.8 *)
Definition f_0_8 : b64 := int_div 8 10.

(** ** The keyboard (keyboardAgents.py) *)

(** The keys of an agent for each direction: keyboardAgents.py:24-28, 61-64 and 72-76, 80-83; key symbols as text. *)
Record key_map := KeyMap { km_keys : dir -> list string }.
Definition keys1 : key_map := KeyMap (fun d =>
  match d with
  | West => ["a"; "Left"] | East => ["d"; "Right"] | North => ["w"; "Up"] | South => ["s"; "Down"] | Stop => ["q"]
  end%string).
Definition keys2 : key_map := KeyMap (fun d =>
  match d with West => ["j"] | East => ["l"] | North => ["i"] | South => ["k"] | Stop => ["u"] end%string).

(** Is a key for [d] among the keys? *)
Definition has_key (m : key_map) (keys : list string) (d : dir) : bool := existsb (fun k => bool_decide (k ∈ keys)) (km_keys m d).

(** keyboardAgents.py:59-65, 78-84 [getMove]: later lines win. *)
Definition get_move (m : key_map) (keys : list string) (legal : list dir) : dir :=
  fold_left (fun move d => if has_key m keys d && bool_decide (d ∈ legal) then d else move) [West; East; North; South] Stop.

(** [random.choice(l)]: any element; [n] is chosen at random. *)
Definition random_choice {A} (l : list A) (n : nat) : dres A :=
  match l !! (n mod length l)%nat with Some a => DOk a | None => DErr DNoChoice end.

(** keyboardAgents.py:30-34: the agent remembers its last move and the keys. *)
Record keyboard := Keyboard { kb_last : dir; kb_keys : list string }.
Definition new_keyboard : keyboard := Keyboard Stop [].

(** keyboardAgents.py:36-57 [getAction]; [pressed] are the keys that wait or are down. *)
Definition keyboard_action (m : key_map) (s : gstate) (i : Z) (pressed : list string) (n : nat) (k : keyboard) : dres (dir * keyboard) :=
  let keys := match pressed with [] => kb_keys k | _ => pressed end in
  legal ← legal_actions s i;
  let move := get_move m keys legal in
  let move := if bool_decide (move = Stop) && bool_decide (kb_last k ∈ legal) then kb_last k else move in
  let move := if has_key m keys Stop && bool_decide (Stop ∈ legal) then Stop else move in
  move ← (if bool_decide (move ∈ legal) then DOk move else random_choice legal n);
  DOk (move, Keyboard move keys).

(** ** The demo (demo.py:30-49): a keyboard agent and ghosts *)

(** What comes from outside: the keys pressed, the random numbers and choices, at each move. *)
Record inputs := Inputs { in_keys : nat -> list string; in_random : nat -> b64; in_choice : nat -> nat }.

(** The keyboard agent after the moves of the history: it made the moves of agent 0; [n] is the number of the first
    move of the list. *)
Fixpoint keyboard_after (inp : inputs) (h : list (Z * dir)) (n : nat) (k : keyboard) : keyboard :=
  match h with
  | [] => k
  | (i, d) :: h =>
      keyboard_after inp h (S n)
        (if (i =? 0)%Z then Keyboard d (match in_keys inp n with [] => kb_keys k | l => l end) else k)
  end.

(** game.py:567-712 calls [getAction] of the agents in turn; [kinds] are the ghosts 1, 2, ... *)
Definition demo_agents (py_sum : list b64 -> b64) (m : key_map) (kinds : nat -> ghost_kind) (inp : inputs) : agents := fun h i s =>
  if (i =? 0)%Z
  then '(d, _) ← keyboard_action m s 0 (in_keys inp (length h)) (in_choice inp (length h)) (keyboard_after inp h 0 new_keyboard); DOk d
  else ghost_action py_sum (kinds (Z.to_nat i)) s i (in_random inp (length h)).
