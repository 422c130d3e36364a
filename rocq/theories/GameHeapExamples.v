(** * Concrete histories for GameHeap.v *)

From Coq Require Import ZArith Lia String Ascii.
From stdpp Require Import base list numbers option gmap.
From Verif Require Import GameHeap SpecGameHeap GameHeapFacts PacmanExamples.

(** Pacman, a capsule and a ghost in a corridor: Pacman eats the capsule, then the ghost walks into Pacman. *)
Definition corridor : layout :=
  match make_layout (board ["%%%%%%"; "%PoG.%"; "%%%%%%"]%string) with DOk l => l | DErr _ => Layout (grid_new 0 0 false) (grid_new 0 0 false) [] [] 0 end.
Definition two_moves : list gcall := [GNew corridor 1; GSucc 0 0 East; GSucc 1 1 West].

(** What the objects of a history show. *)
Definition shown (r : list (dres addr) * gheap) (k : nat) : option gstate :=
  match result_of r.1 k with DOk a => get_state r.2 a | DErr _ => None end.
Lemma shown_some r k s : shown r k = Some s -> exists a, result_of r.1 k = DOk a /\ reads_state r.2 a s.
Proof. unfold shown. destruct (result_of r.1 k) as [a|]; [|done]. intros H. exists a. split; [done|]. by apply get_state_spec. Qed.

Lemma run_app cs cs' rs h : run_gcalls (cs ++ cs') rs h = let '(rs', h') := run_gcalls cs rs h in run_gcalls cs' rs' h'.
Proof.
  revert rs h. induction cs as [|c cs IH]; intros rs h; cbn [app run_gcalls]; [done|]. destruct (do_gcall rs c h) as [r h1]. apply IH.
Qed.
Lemma run_prefix cs rs h k : (k < length rs)%nat -> result_of (run_gcalls cs rs h).1 k = result_of rs k.
Proof.
  revert rs h. induction cs as [|c cs IH]; intros rs h Hk; cbn [run_gcalls]; [done|]. destruct (do_gcall rs c h) as [r h1].
  rewrite IH by (rewrite app_length; cbn; lia). unfold result_of. by rewrite lookup_app_l.
Qed.

Lemma run_length cs rs h : length (run_gcalls cs rs h).1 = (length rs + length cs)%nat.
Proof.
  revert rs h. induction cs as [|c cs IH]; intros rs h; cbn [run_gcalls length]; [cbn; lia|]. destruct (do_gcall rs c h) as [r h1].
  rewrite IH, app_length. cbn. lia.
Qed.

Definition flags_shown (r : list (dres addr) * gheap) (k : nat) : option (list bool) := g_eaten <$> shown r k.
Definition one_move : list gcall := [GNew corridor 1; GSucc 0 0 East].
Lemma flags_before : flags_shown (run_gcalls one_move [] ∅) 1 = Some [false; false].
Proof. vm_compute. reflexivity. Qed.
Lemma flags_after : flags_shown (run_gcalls (one_move ++ [GSucc 1 1 West]) [] ∅) 1 = Some [false; true].
Proof. vm_compute. reflexivity. Qed.

(** [state.data.agentStates[i].configuration.pos = p] by a client *)
Definition write_pos (n : addr) (i : Z) (p : Z * Z) : prog unit :=
  x ← agent_at n i; '(_, k, _, _) ← load_agent x; c ← load_conf k; store k (GConf (Config p (c_dir c))).

(** A copy of the first state, and the position of Pacman in the first state after writing that of the copy. *)
Definition copy_calls : list gcall := [GNew corridor 1; GDeep 0].
Definition written (r : list (dres addr) * gheap) : gheap :=
  match result_of r.1 1 with DOk n => (write_pos n 0 (8, 2)%Z r.2).2 | DErr _ => r.2 end.
Definition pacman_pos (s : option gstate) : option (Z * Z) := s ← s; (c_pos ∘ a_conf) <$> head (g_agents s).
Definition two_ok (rs : list (dres addr)) : bool := match rs with [DOk _; DOk _] => true | _ => false end.
Lemma pos_before : pacman_pos (shown (run_gcalls copy_calls [] ∅) 0) = Some (2, 2)%Z.
Proof. vm_compute. reflexivity. Qed.
Lemma pos_after : pacman_pos (shown ((run_gcalls copy_calls [] ∅).1, written (run_gcalls copy_calls [] ∅)) 0) = Some (8, 2)%Z.
Proof. vm_compute. reflexivity. Qed.
Lemma copied_ok : two_ok (run_gcalls copy_calls [] ∅).1 = true.
Proof. vm_compute. reflexivity. Qed.

Definition three_ok (rs : list (dres addr)) : bool := match rs with [DOk _; DOk _; DOk _] => true | _ => false end.
Definition score_of (s : option gstate) : option Z := g_score <$> s.
Lemma three_states_lemma : exists a b c, (run_gcalls two_moves [] ∅).1 = [DOk a; DOk b; DOk c] /\
  exists s, reads_state (run_gcalls two_moves [] ∅).2 c s /\ g_score s = 199%Z.
Proof.
  assert (H1 : three_ok (run_gcalls two_moves [] ∅).1 = true) by (vm_compute; reflexivity).
  assert (H2 : score_of (shown (run_gcalls two_moves [] ∅) 2) = Some 199%Z) by (vm_compute; reflexivity).
  revert H1 H2. generalize (run_gcalls two_moves [] ∅). intros [rs h] H1 H2. cbn [fst snd] in *.
  destruct rs as [|[a|] [|[b|] [|[c|] [|]]]]; try discriminate H1. exists a, b, c. split; [reflexivity|].
  unfold score_of in H2. destruct (shown ([DOk a; DOk b; DOk c], h) 2) as [s|] eqn:E; [|discriminate H2]. cbn in H2. injection H2 as H2.
  apply shown_some in E as (x & Hx & R). cbn in Hx. injection Hx as <-. exists s. split; [exact R|exact H2].
Qed.

Lemma parent_general cs c k l l' : (k < length cs)%nat ->
  flags_shown (run_gcalls cs [] ∅) k = Some l -> flags_shown (run_gcalls (cs ++ [c]) [] ∅) k = Some l' ->
  exists a s t, result_of (run_gcalls cs [] ∅).1 k = DOk a /\
  reads_state (run_gcalls cs [] ∅).2 a s /\ reads_state (run_gcalls (cs ++ [c]) [] ∅).2 a t /\ g_eaten s = l /\ g_eaten t = l'.
Proof.
  intros Hk B A. unfold flags_shown in *.
  destruct (shown (run_gcalls cs [] ∅) k) as [s|] eqn:E0; [|discriminate B].
  destruct (shown (run_gcalls (cs ++ [c]) [] ∅) k) as [t|] eqn:E1; [|discriminate A]. injection A as A. injection B as B.
  apply shown_some in E0 as (a & Ha & R0). apply shown_some in E1 as (a' & Ha' & R1). exists a, s, t.
  assert (a' = a) as ->.
  { enough (H : result_of (run_gcalls (cs ++ [c]) [] ∅).1 k = result_of (run_gcalls cs [] ∅).1 k) by congruence. rewrite run_app.
    pose proof (run_length cs [] ∅) as L. destruct (run_gcalls cs [] ∅) as [rs h]. apply run_prefix. cbn in L |- *. lia. }
  done.
Qed.
Lemma parent_changes : exists cs c a s t,
  result_of (run_gcalls cs [] ∅).1 1 = DOk a /\
  reads_state (run_gcalls cs [] ∅).2 a s /\ reads_state (run_gcalls (cs ++ [c]) [] ∅).2 a t /\ g_eaten s <> g_eaten t.
Proof.
  exists one_move, (GSucc 1 1 West).
  destruct (parent_general one_move (GSucc 1 1 West) 1 _ _ (le_n 2) flags_before flags_after) as (a & s & t & H1 & H2 & H3 & H4 & H5).
  exists a, s, t. split; [exact H1|]. split; [exact H2|]. split; [exact H3|]. rewrite H4, H5. discriminate.
Qed.

Lemma shares_general (r : list (dres addr) * gheap) p q :
  two_ok r.1 = true -> pacman_pos (shown r 0) = Some p -> pacman_pos (shown (r.1, written r) 0) = Some q ->
  exists n h a s t, r = ([DOk a; DOk n], h) /\ reads_state h a s /\ reads_state (write_pos n 0 (8, 2)%Z h).2 a t /\
    (c_pos ∘ a_conf) <$> head (g_agents s) = Some p /\ (c_pos ∘ a_conf) <$> head (g_agents t) = Some q.
Proof.
  destruct r as [rs h]. intros H B A. cbn [fst] in *. destruct rs as [|[a|] [|[n|] [|]]]; try discriminate H.
  assert (B' : pacman_pos (get_state h a) = Some p) by exact B.
  assert (A' : pacman_pos (get_state (write_pos n 0 (8, 2)%Z h).2 a) = Some q) by exact A. clear A B.
  destruct (get_state h a) as [s|] eqn:E0; [|discriminate B'].
  destruct (get_state (write_pos n 0 (8, 2)%Z h).2 a) as [t|] eqn:E1; [|discriminate A'].
  exists n, h, a, s, t. apply get_state_spec in E0, E1. done.
Qed.
Lemma copy_shares : exists l n h a s t,
  run_gcalls [GNew l 1; GDeep 0] [] ∅ = ([DOk a; DOk n], h) /\
  reads_state h a s /\ reads_state (write_pos n 0 (8, 2)%Z h).2 a t /\
  (c_pos ∘ a_conf) <$> head (g_agents s) = Some (2, 2)%Z /\ (c_pos ∘ a_conf) <$> head (g_agents t) = Some (8, 2)%Z.
Proof. exists corridor. exact (shares_general (run_gcalls copy_calls [] ∅) _ _ copied_ok pos_before pos_after). Qed.

Definition one_dot : layout :=
  match make_layout (board ["%%%%"; "%P.%"; "%%%%"]%string) with DOk l => l | DErr _ => Layout (grid_new 0 0 false) (grid_new 0 0 false) [] [] 0 end.
Lemma copy_over : exists cs s, result_of (run_vcalls cs []) 1 = DOk s /\ g_win s = true /\
  state_eqb (deep_copy s) s = true /\ generate_successor s 0 Stop = DErr DTerminal /\ dok (generate_successor (deep_copy s) 0 Stop) = true.
Proof.
  exists [GNew one_dot 0; GSucc 0 0 East]. eexists. split; [vm_compute; reflexivity|].
  split; [vm_compute; reflexivity|]. split; [vm_compute; reflexivity|]. split; vm_compute; reflexivity.
Qed.

(** The food of a successor is that of the original while none is eaten. *)
Definition food_left (s : option gstate) : option Z := (fun s => grid_count (g_food s) true) <$> s.
Definition food_written (r : list (dres addr) * gheap) : gheap :=
  match result_of r.1 1 with DOk n => (do_write n (WFood 4 1 false) r.2).2 | DErr _ => r.2 end.
Lemma food_before : food_left (shown (run_gcalls one_move [] ∅) 0) = Some 1%Z.
Proof. vm_compute. reflexivity. Qed.
Lemma food_after : food_left (shown ((run_gcalls one_move [] ∅).1, food_written (run_gcalls one_move [] ∅)) 0) = Some 0%Z.
Proof. vm_compute. reflexivity. Qed.
Lemma moved_ok : two_ok (run_gcalls one_move [] ∅).1 = true.
Proof. vm_compute. reflexivity. Qed.
Lemma food_general (r : list (dres addr) * gheap) p q :
  two_ok r.1 = true -> food_left (shown r 0) = Some p -> food_left (shown (r.1, food_written r) 0) = Some q ->
  exists n h a s t, r = ([DOk a; DOk n], h) /\ reads_state h a s /\ reads_state (do_write n (WFood 4 1 false) h).2 a t /\
    grid_count (g_food s) true = p /\ grid_count (g_food t) true = q.
Proof.
  destruct r as [rs h]. intros H B A. cbn [fst] in *. destruct rs as [|[a|] [|[n|] [|]]]; try discriminate H.
  assert (B' : food_left (get_state h a) = Some p) by exact B.
  assert (A' : food_left (get_state (do_write n (WFood 4 1 false) h).2 a) = Some q) by exact A. clear A B.
  destruct (get_state h a) as [s|] eqn:E0; [|discriminate B'].
  destruct (get_state (do_write n (WFood 4 1 false) h).2 a) as [t|] eqn:E1; [|discriminate A'].
  exists n, h, a, s, t. apply get_state_spec in E0, E1. cbn in A', B'. injection A' as A'. injection B' as B'. done.
Qed.
Lemma food_shared : exists l act n h a s t,
  run_gcalls [GNew l 1; GSucc 0 0 act] [] ∅ = ([DOk a; DOk n], h) /\
  reads_state h a s /\ reads_state (do_write n (WFood 4 1 false) h).2 a t /\
  grid_count (g_food s) true = 1%Z /\ grid_count (g_food t) true = 0%Z.
Proof. exists corridor, East. exact (food_general (run_gcalls one_move [] ∅) _ _ moved_ok food_before food_after). Qed.
