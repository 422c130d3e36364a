(** * PropsGameHeap: the states of the demo game as objects (C65) *)

From Coq Require Import ZArith Lia.
From stdpp Require Import base list numbers option gmap.
From Verif Require Import GameHeap SpecGameHeap GameHeapFacts GameHeapWrites GameHeapExamples.

(** ** Moves *)

(** On whatever heap, a move makes a new state that shows the successor, or raises the same exception.  All states that were
    there keep what they show; only a ghost that is eaten in its own move sets flags [_eaten] in older states as well. *)
Theorem C65_successor (h : gheap) a s i act : reads_state h a s ->
  match generate_successor_h a i act h, generate_successor s i act with
  | (DOk n, h'), DOk s' =>
      reads_state h' n s' /\ (forall t, ~ reads_state h n t) /\ flags_only h h' /\
      (i = 0%Z \/ g_eaten s' = g_eaten s -> all_kept h h')
  | (DErr x, h'), DErr y => x = y /\ all_kept h h'
  | _, _ => False
  end.
Proof. exact (successor_lemma h a s i act). Qed.

(** What is read from an object is unique. *)
Theorem C65_reads_unique (h : gheap) a s t : reads_state h a s -> reads_state h a t -> s = t.
Proof. exact (reads_state_fun h a s t). Qed.

(** A deep copy is a new state that shows the same but for the result of the game, and changes nothing. *)
Theorem C65_deep_copy (h : gheap) a s : reads_state h a s ->
  exists n h', deep_copy_h a h = (DOk n, h') /\ reads_state h' n (deep_copy s) /\ (forall t, ~ reads_state h n t) /\ all_kept h h'.
Proof. exact (deep_copy_lemma h a s). Qed.

(** Whatever a client then writes into the copy (food, capsules, timers, new configurations, score), the copy shows what
    was written and all states that were there keep what they show. *)
Theorem C65_deep_copy_writes (h : gheap) a s ws : reads_state h a s ->
  exists n h1, deep_copy_h a h = (DOk n, h1) /\
  match do_writes n ws h1, value_writes (deep_copy s) ws with
  | (DOk _, h2), DOk s' => reads_state h2 n s' /\ all_kept h h2
  | (DErr x, h2), DErr y => x = y /\ all_kept h h2
  | _, _ => False
  end.
Proof. exact (deep_writes_lemma h a s ws). Qed.

Theorem C65_initial (h : gheap) l m :
  exists n h', initial_state_h l m h = (DOk n, h') /\ reads_state h' n (initial_state l m) /\ (forall t, ~ reads_state h n t) /\ all_kept h h'.
Proof. exact (initial_lemma h l m). Qed.

(** ** Histories *)

(** Whatever a client calls, at the end every state still shows the value it would have if states were values, up to flags:
    so states may be kept and expanded in any order, as search and the set [explored] do. *)
Theorem C65_history (cs : list gcall) :
  Forall2 (same_result (run_gcalls cs [] ∅).2) (run_gcalls cs [] ∅).1 (run_vcalls cs []).
Proof. exact (history_lemma cs). Qed.

(** Flags matter for flags only. *)
Theorem C65_flags_unused s t i act : only_flags s t ->
  match generate_successor s i act, generate_successor t i act with
  | DOk s', DOk t' => only_flags s' t'
  | DErr x, DErr y => x = y
  | _, _ => False
  end.
Proof. exact (successor_flags s t i act). Qed.

(** ** States as keys *)

(** [==] compares what Pacman and the ghosts are doing, the food, the capsules and the score. *)
Theorem C65_equal s t : state_eqb s t = true <->
  (fun a => (a_conf a, a_scared a)) <$> g_agents s = (fun a => (a_conf a, a_scared a)) <$> g_agents t /\
  gr_data (g_food s) = gr_data (g_food t) /\ g_capsules s = g_capsules t /\ g_score s = g_score t.
Proof. exact (state_eqb_spec s t). Qed.

(** Equal states have equal hashes, whatever the hashes of Python are, and flags change neither. *)
Theorem C65_hash hpos hdir hint htuple s t :
  (state_eqb s t = true -> state_hash hpos hdir hint htuple s = state_hash hpos hdir hint htuple t) /\
  (0 <= state_hash hpos hdir hint htuple s < 1048575)%Z.
Proof. exact (hash_lemma hpos hdir hint htuple s t). Qed.
Theorem C65_key_kept hpos hdir hint htuple s t u : only_flags s t ->
  state_eqb s t = true /\ state_eqb t u = state_eqb s u /\ state_eqb u t = state_eqb u s /\
  state_hash hpos hdir hint htuple t = state_hash hpos hdir hint htuple s.
Proof. exact (key_lemma hpos hdir hint htuple s t u). Qed.

(** ** Concrete cases and what does not hold *)

(** Hypotheses hold: there is a history with three states. *)
Example three_states : exists a b c, (run_gcalls two_moves [] ∅).1 = [DOk a; DOk b; DOk c] /\
  exists s, reads_state (run_gcalls two_moves [] ∅).2 c s /\ g_score s = 199%Z.
Proof. exact three_states_lemma. Qed.

(** An older state does change: here the state before a ghost is eaten gets its flag. *)
Theorem C65_parent_unchanged_refuted : exists cs c a s t,
  result_of (run_gcalls cs [] ∅).1 1 = DOk a /\
  reads_state (run_gcalls cs [] ∅).2 a s /\ reads_state (run_gcalls (cs ++ [c]) [] ∅).2 a t /\ g_eaten s <> g_eaten t.
Proof. exact parent_changes. Qed.

(** A deep copy has the configurations of the original: a client that moves Pacman in the copy moves it in the original too. *)
Theorem C65_deep_copy_independent_refuted : exists l n h a s t,
  run_gcalls [GNew l 1; GDeep 0] [] ∅ = ([DOk a; DOk n], h) /\
  reads_state h a s /\ reads_state (write_pos n 0 (8, 2)%Z h).2 a t /\
  (c_pos ∘ a_conf) <$> head (g_agents s) = Some (2, 2)%Z /\ (c_pos ∘ a_conf) <$> head (g_agents t) = Some (8, 2)%Z.
Proof. exact copy_shares. Qed.

(** A successor has the food of the original while none is eaten: a client that removes food from it removes it there too. *)
Theorem C65_successor_writes_refuted : exists l act n h a s t,
  run_gcalls [GNew l 1; GSucc 0 0 act] [] ∅ = ([DOk a; DOk n], h) /\
  reads_state h a s /\ reads_state (do_write n (WFood 4 1 false) h).2 a t /\
  grid_count (g_food s) true = 1%Z /\ grid_count (g_food t) true = 0%Z.
Proof. exact food_shared. Qed.

(** A deep copy of a state that is won or lost equals it, but the game is not over in it. *)
Theorem C65_deep_copy_over_refuted : exists cs s, result_of (run_vcalls cs []) 1 = DOk s /\ g_win s = true /\
  state_eqb (deep_copy s) s = true /\ generate_successor s 0 Stop = DErr DTerminal /\ dok (generate_successor (deep_copy s) 0 Stop) = true.
Proof. exact copy_over. Qed.

Print Assumptions C65_successor.
Print Assumptions C65_reads_unique.
Print Assumptions C65_deep_copy.
Print Assumptions C65_deep_copy_writes.
Print Assumptions C65_initial.
Print Assumptions C65_history.
Print Assumptions C65_flags_unused.
Print Assumptions C65_equal.
Print Assumptions C65_hash.
Print Assumptions C65_key_kept.
Print Assumptions C65_parent_unchanged_refuted.
Print Assumptions C65_deep_copy_independent_refuted.
Print Assumptions C65_successor_writes_refuted.
Print Assumptions C65_deep_copy_over_refuted.
