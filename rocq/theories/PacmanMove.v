(** * PacmanMove: legal actions and positions of the demo game *)

From Coq Require Import ZArith Lia.
From stdpp Require Import base list numbers option sets.
From Verif Require Import SpecPacman DemoGridFacts.

Global Instance free_dec W c : Decision (free W c).
Proof. unfold free. apply _. Defined.

Lemma next_vec k d : next_cell k d = (k.1 + (dir_vec d).1, k.2 + (dir_vec d).2)%Z.
Proof. destruct k, d; simpl; f_equal; lia. Qed.

Lemma next_reverse k d : next_cell (next_cell k d) (reverse_direction d) = k.
Proof. destruct k, d; simpl; f_equal; lia. Qed.

Lemma reverse_stop d : d <> Stop -> reverse_direction d <> Stop.
Proof. by destruct d. Qed.

Lemma reverse_ne d : d <> Stop -> reverse_direction d <> d.
Proof. by destruct d. Qed.

Lemma exit_back W k d : d <> Stop -> free W k -> has_exit W (next_cell k d).
Proof. intros Hd Hk. exists (reverse_direction d). split; [by apply reverse_stop|]. by rewrite next_reverse. Qed.

Lemma closed_pos W k : closed W -> free W k -> (0 < k.1 /\ 0 < k.2)%Z.
Proof. intros [_ Hc] Hk. destruct k as [x y]. destruct (Hc _ _ Hk). simpl. lia. Qed.

Lemma neighbour_cell W k d :
  closed W -> free W k ->
  exists b, cell W (next_cell k d) = Some b /\ grid_get W (k.1 + (dir_vec d).1) (k.2 + (dir_vec d).2) = DOk b.
Proof.
  intros [Hr Hc] Hk. destruct k as [x y]. destruct (Hc _ _ Hk) as [Hx Hy].
  assert (Hs : is_Some (cell W (next_cell (x, y) d))).
  { rewrite next_vec. apply cell_rect; [done|]. destruct d; simpl; lia. }
  destruct Hs as [b Hb]. exists b. split; [done|]. apply grid_get_cell. by rewrite <- next_vec.
Qed.

Lemma open_dirs_free W k l :
  closed W -> free W k -> open_dirs W k.1 k.2 l = DOk (filter (fun d => free W (next_cell k d)) l).
Proof.
  intros Hc Hk. induction l as [|d l IH]; [done|]. destruct (neighbour_cell W k d Hc Hk) as (b & Hb & Hg).
  cbn [open_dirs]. rewrite Hg. simpl. rewrite IH. simpl. f_equal. rewrite filter_cons.
  destruct (decide (free W (next_cell k d))) as [F|F]; unfold free in F; rewrite Hb in F; by destruct b.
Qed.

Lemma round_cell h : round_half (2 * h) = h \/ (h < 0)%Z.
Proof. unfold round_half. destruct (Z_lt_ge_dec h 0); [by right|]. left. rewrite Z.quot_div_nonneg by lia. 
  symmetry. apply (Z.div_unique _ _ _ 1); lia. Qed.

Lemma nearest_in_cell W p k : closed W -> free W k -> in_cell p k -> nearest_point p = k.
Proof.
  intros Hc Hk ->. destruct (closed_pos _ _ Hc Hk). unfold nearest_point. simpl.
  destruct (round_cell k.1) as [->|], (round_cell k.2) as [->|]; [by destruct k|lia..].
Qed.

Lemma round_up h : (0 <= h)%Z -> round_half (2 * h + 1) = (h + 1)%Z.
Proof. intros Hh. unfold round_half. rewrite Z.quot_div_nonneg by lia. symmetry. apply (Z.div_unique _ _ _ 0); lia. Qed.

Lemma nearest_half W p k d :
  closed W -> free W k -> free W (next_cell k d) -> half_way p k d ->
  nearest_point p = k \/ nearest_point p = next_cell k d.
Proof.
  intros Hc Hk Hn [-> Hd]. destruct (closed_pos _ _ Hc Hk). destruct (closed_pos _ _ Hc Hn). destruct k as [x y].
  unfold nearest_point. destruct d; simpl in *; [right|left|right|left|done].
  - replace (x + x)%Z with (2 * x)%Z by lia. replace (y + (y + 1))%Z with (2 * y + 1)%Z by lia.
    destruct (round_cell x) as [->|]; [|lia]. by rewrite round_up by lia.
  - replace (x + x)%Z with (2 * x)%Z by lia. replace (y + (y - 1))%Z with (2 * (y - 1) + 1)%Z by lia.
    destruct (round_cell x) as [->|]; [|lia]. rewrite round_up by lia. f_equal; lia.
  - replace (y + y)%Z with (2 * y)%Z by lia. replace (x + (x + 1))%Z with (2 * x + 1)%Z by lia.
    destruct (round_cell y) as [->|]; [|lia]. by rewrite round_up by lia.
  - replace (y + y)%Z with (2 * y)%Z by lia. replace (x + (x - 1))%Z with (2 * (x - 1) + 1)%Z by lia.
    destruct (round_cell y) as [->|]; [|lia]. rewrite round_up by lia. f_equal; lia.
Qed.

Lemma half_not_cell p k d q : half_way p k d -> manhattan p (at_cell q) <> 0%Z.
Proof.
  intros [-> Hd]. destruct k as [x y], q as [u v]. unfold manhattan, at_cell. destruct d; cbn [fst snd next_cell]; [lia..|done].
Qed.

Lemma possible_in_cell W c k :
  closed W -> free W k -> in_cell (c_pos c) k ->
  possible_actions c W = DOk (filter (fun d => free W (next_cell k d)) directions).
Proof.
  intros Hc Hk Hp. unfold possible_actions. rewrite (nearest_in_cell W _ k) by done.
  rewrite bool_decide_false.
  - by apply open_dirs_free.
  - rewrite Hp. unfold manhattan, at_cell. cbn [fst snd]. lia.
Qed.

Lemma possible_half W c k d :
  half_way (c_pos c) k d -> possible_actions c W = DOk [c_dir c].
Proof.
  intros Hp. unfold possible_actions. rewrite bool_decide_true; [done|].
  pose proof (half_not_cell _ _ _ (nearest_point (c_pos c)) Hp). unfold manhattan in *. lia.
Qed.

(** ** Steps *)
Lemma step_full k d p : in_cell p k -> in_cell (p.1 + (direction_to_vector d 2).1, p.2 + (direction_to_vector d 2).2)%Z (next_cell k d).
Proof. intros ->. unfold in_cell. destruct k, d; simpl; f_equal; lia. Qed.

Lemma step_half k d p :
  d <> Stop -> in_cell p k -> half_way (p.1 + (direction_to_vector d 1).1, p.2 + (direction_to_vector d 1).2)%Z k d.
Proof. intros Hd ->. split; [|done]. destruct k, d; simpl; f_equal; lia. Qed.

Lemma step_half_half k d p :
  half_way p k d -> in_cell (p.1 + (direction_to_vector d 1).1, p.2 + (direction_to_vector d 1).2)%Z (next_cell k d).
Proof. intros [-> Hd]. unfold in_cell. destruct k, d; simpl in *; f_equal; lia. Qed.

Lemma vec_dir d n : (0 < n)%Z -> vector_to_direction (direction_to_vector d n) = d.
Proof.
  intros Hn. unfold vector_to_direction, direction_to_vector.
  destruct d; cbn [dir_vec fst snd];
    repeat match goal with |- context [(?a <? ?b)%Z] => destruct (Z.ltb_spec a b) end; try done; lia.
Qed.

Lemma succ_dir c d n : (0 < n)%Z -> d <> Stop -> c_dir (config_succ c (direction_to_vector d n)) = d.
Proof. intros Hn Hd. unfold config_succ. rewrite vec_dir by done. cbn [c_dir]. by rewrite decide_False. Qed.

(** ** Removing actions *)
Lemma py_remove_subset {A} `{EqDecision A} (a b : A) l : b ∈ py_remove a l -> b ∈ l.
Proof.
  induction l as [|c l IH]; [done|]. simpl. destruct (decide (a = c)); rewrite !elem_of_cons; tauto.
Qed.

Lemma py_remove_other {A} `{EqDecision A} (a b : A) l : b <> a -> b ∈ l -> b ∈ py_remove a l.
Proof.
  intros Hne. induction l as [|c l IH]; [done|]. simpl. destruct (decide (a = c)) as [->|]; rewrite !elem_of_cons; [|tauto].
  intros [->|Hb]; done.
Qed.

Lemma py_remove_nodup {A} `{EqDecision A} (a : A) l : NoDup l -> a ∉ py_remove a l.
Proof.
  induction 1 as [|c l Hc Hl IH]; [apply not_elem_of_nil|]. simpl. destruct (decide (a = c)) as [->|]; [done|].
  by apply not_elem_of_cons.
Qed.

Lemma py_remove_NoDup {A} `{EqDecision A} (a : A) l : NoDup l -> NoDup (py_remove a l).
Proof.
  induction 1 as [|c l Hc Hl IH]; [constructor|]. simpl. destruct (decide (a = c)) as [->|]; [done|].
  constructor; [|done]. intros Hin%py_remove_subset. done.
Qed.

Lemma nodup_filter_dirs (P : dir -> Prop) `{forall d, Decision (P d)} : NoDup (filter P directions).
Proof. apply list.NoDup_filter. unfold directions. repeat (apply NoDup_cons; split; [set_solver|]). apply NoDup_nil_2. Qed.

Lemma elem_directions d : d ∈ directions.
Proof. unfold directions. destruct d; set_solver. Qed.

(** What [GhostRules.getLegalActions] makes of the possible actions. *)
Definition ghost_filter (d0 : dir) (l : list dir) : list dir :=
  let l := if bool_decide (Stop ∈ l) then py_remove Stop l else l in
  if bool_decide (reverse_direction d0 ∈ l) && (1 <? length l)%nat then py_remove (reverse_direction d0) l else l.

Lemma ghost_filter_elem d0 l d :
  NoDup l ->
  d ∈ ghost_filter d0 l <->
  d <> Stop /\ d ∈ l /\ (d = reverse_direction d0 -> forall e, e <> Stop -> e ∈ l -> e = d).
Proof.
  intros Hnd. unfold ghost_filter.
  set (m := if bool_decide (Stop ∈ l) then py_remove Stop l else l).
  assert (Hm : forall e, e ∈ m <-> e <> Stop /\ e ∈ l).
  { intros e. subst m. destruct (bool_decide_reflect (Stop ∈ l)) as [Hs|Hs].
    - split.
      + intros He. split; [intros ->; by apply (py_remove_nodup Stop l)|]. by eapply py_remove_subset.
      + intros [He Hl]. by apply py_remove_other.
    - split; [|tauto]. intros He. split; [congruence|done]. }
  assert (Hndm : NoDup m).
  { subst m. destruct (bool_decide _); [by apply py_remove_NoDup|done]. }
  clearbody m. destruct (bool_decide_reflect (reverse_direction d0 ∈ m)) as [Hr|Hr]; simpl.
  - destruct (Nat.ltb_spec 1 (length m)) as [Hlen|Hlen].
    + split.
      * intros Hd. pose proof (py_remove_subset _ _ _ Hd) as Hd'%Hm. destruct Hd'. split_and!; [done..|].
        intros ->. by destruct (py_remove_nodup _ _ Hndm Hd).
      * intros (Hd & Hl & Hrev). apply py_remove_other; [|by apply Hm]. intros ->.
        specialize (Hrev eq_refl).
        destruct m as [|a [|b m]]; simpl in Hlen; [lia..|].
        assert (a <> b) by (apply NoDup_cons in Hndm; set_solver).
        destruct (proj1 (Hm a)) as [Ha1 Ha2]; [set_solver|]. destruct (proj1 (Hm b)) as [Hb1 Hb2]; [set_solver|].
        pose proof (Hrev a Ha1 Ha2). pose proof (Hrev b Hb1 Hb2). congruence.
    + rewrite Hm. split; [|tauto]. intros [Hd Hl]. split_and!; [done..|]. intros _ e He Hel.
      destruct m as [|a [|b m]]; simpl in Hlen; [by apply elem_of_nil in Hr| |lia].
      assert (d ∈ [a]) as ->%elem_of_list_singleton by (by apply Hm).
      assert (e ∈ [a]) as ->%elem_of_list_singleton by (by apply Hm). done.
  - rewrite Hm. split; [|tauto]. intros [Hd Hl]. split_and!; [done..|]. intros ->. destruct Hr. by apply Hm.
Qed.

Lemma ghost_filter_nonempty d0 l d : NoDup l -> d <> Stop -> d ∈ l -> ghost_filter d0 l <> [].
Proof.
  intros Hnd Hd Hl Hnil.
  destruct (decide (Exists (fun e => e <> Stop /\ e <> reverse_direction d0) l)) as [(e & He & Hs & Hr)%Exists_exists|Hno].
  2: assert (Hx : d ∈ ghost_filter d0 l).
  - assert (e ∈ ghost_filter d0 l) as Hx; [|by rewrite Hnil in Hx; apply elem_of_nil in Hx].
    apply ghost_filter_elem; [done|]. split_and!; [done..|]. intros ->. done.
  - apply ghost_filter_elem; [done|]. split_and!; [done..|]. intros -> e He Hel.
    destruct (decide (e = reverse_direction d0)); [done|]. destruct Hno. apply Exists_exists. eauto.
  - rewrite Hnil in Hx. by apply elem_of_nil in Hx.
Qed.
