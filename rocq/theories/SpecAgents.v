(** * SpecAgents: specification vocabulary for the agents of the demo *)

From Coq Require Import ZArith QArith Reals Qreals String.
From Flocq Require Import IEEE754.BinarySingleNaN.
From stdpp Require Import base list numbers option strings.
From Verif Require Export Agents SpecPacman.

(** What [random.random()] can give. *)
Definition random_number (r : b64) : Prop := is_finite r = true /\ (0 <= B2R r < 1)%R.

(** Python up to 3.11, or from 3.12 on. *)
Definition python_sum (py_sum : list b64 -> b64) : Prop := py_sum = f_sum \/ py_sum = f_sum_compensated.

(** The directions in the order of their names. *)
Definition by_name : list dir := [East; North; South; Stop; West].

(** The unit interval is cut into shares, in the order of names; [r] is in the share of [d], or next to it by no more
    than [2^-52]. *)
Definition shares (legal : list dir) (weight : dir -> Q) : list (dir * Q) :=
  (fun d => (d, weight d)) <$> filter (fun d => d ∈ legal) by_name.
Definition sum_q (l : list Q) : Q := fold_right Qplus 0%Q l.
Definition in_share (ws : list (dir * Q)) (r : R) (d : dir) : Prop :=
  exists l1 w l2, ws = l1 ++ (d, w) :: l2 /\
    (Q2R (sum_q l1.*2) - / 4503599627370496 <= r <= Q2R (sum_q l1.*2) + Q2R w + / 4503599627370496)%R.

(** All actions have the same probability. *)
Definition uniform (legal : list dir) (d : dir) : Q := 1 / inject_Z (Z.of_nat (length legal)).

(** Where the ghost [a] gets by the action [d]: a cell further, half a cell if it is scared. *)
Definition dest (a : astate) (d : dir) : Z * Z :=
  if decide (0 < a_scared a)%Z then next_cell (c_pos (a_conf a)) d else next_cell (next_cell (c_pos (a_conf a)) d) d.
Definition distance (p q : Z * Z) : Z := (Z.abs (p.1 - q.1) + Z.abs (p.2 - q.2))%Z.
(** The action brings the ghost closest to the place [p], or, if the ghost is scared, furthest from it. *)
Definition prefers (a : astate) (p : Z * Z) (legal : list dir) (d : dir) : Prop :=
  d ∈ legal /\
  forall e, e ∈ legal ->
    if decide (0 < a_scared a)%Z then (distance (dest a e) p <= distance (dest a d) p)%Z
    else (distance (dest a d) p <= distance (dest a e) p)%Z.
(** With probability 4/5 one of the preferred actions, else any legal action. *)
Definition directed (legal best : list dir) (d : dir) : Q :=
  ((if decide (d ∈ best) then (4 # 5) / inject_Z (Z.of_nat (length best)) else 0)
   + (1 # 5) / inject_Z (Z.of_nat (length legal)))%Q.

(** A ghost with the probabilities that the class gives by default. *)
Definition default_ghost (k : ghost_kind) : Prop := k = RandomGhost \/ k = DirectionalGhost f_0_8 f_0_8.

(** ** The keyboard *)
Definition pressed1 (keys : list string) (d : dir) : Prop :=
  match d with
  | West => "a" ∈ keys \/ "Left" ∈ keys
  | East => "d" ∈ keys \/ "Right" ∈ keys
  | North => "w" ∈ keys \/ "Up" ∈ keys
  | South => "s" ∈ keys \/ "Down" ∈ keys
  | Stop => "q" ∈ keys
  end%string.
Definition pressed2 (keys : list string) (d : dir) : Prop :=
  match d with West => "j" ∈ keys | East => "l" ∈ keys | North => "i" ∈ keys | South => "k" ∈ keys | Stop => "u" ∈ keys end%string.

(** The player asks for [d], a legal direction; of several the first of south, north, east, west counts. *)
Definition asks (pressed : dir -> Prop) (legal : list dir) (d : dir) : Prop :=
  exists before after, [South; North; East; West] = before ++ d :: after /\ pressed d /\ d ∈ legal /\
    forall e, e ∈ before -> ~ (pressed e /\ e ∈ legal).

(** What the keyboard agent does; [last] is its last move. *)
Record keyboard_move (pressed : dir -> Prop) (legal : list dir) (last d : dir) : Prop := {
  kb_legal : d ∈ legal;
  kb_stop : pressed Stop -> Stop ∈ legal -> d = Stop;
  kb_asked : ~ (pressed Stop /\ Stop ∈ legal) -> forall e, asks pressed legal e -> d = e;
  kb_goes_on : ~ (pressed Stop /\ Stop ∈ legal) -> (forall e, ~ asks pressed legal e) -> last ∈ legal -> d = last;
  kb_rests : ~ (pressed Stop /\ Stop ∈ legal) -> (forall e, ~ asks pressed legal e) -> last ∉ legal -> Stop ∈ legal -> d = Stop
}.
