(** * AgentMain: the agents of the demo choose legal actions, with the stated probabilities *)

From Coq Require Import ZArith QArith Reals Qreals Lra Lia String Ascii.
From Flocq Require Import IEEE754.BinarySingleNaN Core.Core.
From stdpp Require Import base list numbers option sorting strings.
From Verif Require Import SpecAgents AgentFacts PacmanMain.

Lemma subs_elem {A} (l k : list A) x : k ∈ subs l -> x ∈ k -> x ∈ l.
Proof.
  revert k. induction l as [|a l IH]; intros k Hk Hx.
  - apply elem_of_list_singleton in Hk as ->. done.
  - cbn [subs] in Hk. apply elem_of_app in Hk as [Hk|Hk].
    + right. by eapply IH.
    + apply elem_of_list_fmap in Hk as (k' & -> & Hk). apply elem_of_cons in Hx as [->|Hx]; [left|right; by eapply IH].
Qed.
Lemma subs_nodup {A} (l k : list A) : k ∈ subs l -> NoDup l -> NoDup k.
Proof.
  revert k. induction l as [|a l IH]; intros k Hk Hl.
  - apply elem_of_list_singleton in Hk as ->. constructor.
  - apply NoDup_cons in Hl as [Ha Hl]. cbn [subs] in Hk. apply elem_of_app in Hk as [Hk|Hk].
    + by apply IH.
    + apply elem_of_list_fmap in Hk as (k' & -> & Hk). apply NoDup_cons. split; [|by apply IH].
      intros Hin. apply Ha. by eapply subs_elem.
Qed.
Lemma four_nodup : NoDup four.
Proof. apply (bool_decide_eq_true_1 _). vm_compute. reflexivity. Qed.

Lemma share_legal l w r d : in_share (shares l w) r d -> d ∈ l.
Proof.
  intros (l1 & x & l2 & E & _). assert (H : (d, x) ∈ shares l w) by (rewrite E; apply elem_of_app; right; left).
  unfold shares in H. apply elem_of_list_fmap in H as (e & [= -> ->] & H). apply elem_of_list_filter in H. tauto.
Qed.

Lemma nonempty_get (dist : list (dir * b64)) py_sum r : nonempty dist = true -> ghost_get_action py_sum dist r = choose_from py_sum dist r.
Proof. by destruct dist. Qed.

Lemma random_lemma py_sum s i l r :
  python_sum py_sum -> i <> 0%Z -> legal_actions s i = DOk l -> l <> [] -> random_number r ->
  exists d, ghost_action py_sum RandomGhost s i r = DOk d /\ d ∈ l /\ in_share (shares l (uniform l)) (B2R r) d.
Proof.
  intros Hsum Hi Hl Hne Hr. pose proof (ghost_legal_subs _ _ _ Hi Hl) as Hsub.
  pose proof (rcheck_ok _ Hsum) as Hc. unfold rcheck in Hc. rewrite forallb_forall in Hc. specialize (Hc l).
  rewrite <- elem_of_list_In in Hc. specialize (Hc Hsub). cbv beta in Hc.
  assert (nonempty l = true) as E by (destruct l; done). rewrite E in Hc. cbn [implb] in Hc. apply andb_true_iff in Hc as [Hn Hc].
  destruct (check_spec _ _ _ _ Hr Hc) as (d & Hd & Hs). exists d.
  split; [|split; [by eapply share_legal|done]].
  unfold ghost_action, random_distribution. rewrite Hl. cbn [mbind dres_bind]. fold (rdist py_sum l).
  by rewrite nonempty_get.
Qed.

Lemma random_no_action py_sum s i r : legal_actions s i = DOk [] -> python_sum py_sum -> ghost_action py_sum RandomGhost s i r = DOk Stop.
Proof.
  intros Hl Hs. unfold ghost_action, random_distribution. rewrite Hl. cbn [mbind dres_bind fold_left]. unfold ct_normalize.
  cbn [fmap list_fmap]. by destruct Hs as [-> | ->]; vm_compute.
Qed.

(** The distance after a move. *)
Lemma dest_eq a d p :
  manhattan ((c_pos (a_conf a)).1 + (direction_to_vector d (if (0 <? a_scared a)%Z then 1 else 2)%Z).1,
             (c_pos (a_conf a)).2 + (direction_to_vector d (if (0 <? a_scared a)%Z then 1 else 2)%Z).2)%Z p
  = distance (dest a d) p.
Proof.
  unfold manhattan, distance, dest, direction_to_vector. destruct (Z.ltb_spec 0 (a_scared a)), (decide (0 < a_scared a)%Z); try lia;
    destruct d; cbn [dir_vec next_cell fst snd]; f_equal; f_equal; lia.
Qed.

Lemma fold_max l : forall x, let m := fold_left Z.max l x in (x <= m)%Z /\ (forall y, y ∈ l -> (y <= m)%Z) /\ m ∈ x :: l.
Proof.
  induction l as [|y l IH]; intros x; cbn [fold_left].
  - split; [lia|]. split; [intros y Hy; by apply not_elem_of_nil in Hy|left].
  - destruct (IH (Z.max x y)) as (H1 & H2 & H3). split; [lia|]. split.
    + intros z [->|Hz]%elem_of_cons; [lia|by apply H2].
    + apply elem_of_cons in H3 as [H3|H3].
      * rewrite H3. destruct (Z.max_spec x y) as [[_ ->]|[_ ->]]; [right; left|left].
      * right. by right.
Qed.
Lemma fold_min l : forall x, let m := fold_left Z.min l x in (m <= x)%Z /\ (forall y, y ∈ l -> (m <= y)%Z) /\ m ∈ x :: l.
Proof.
  induction l as [|y l IH]; intros x; cbn [fold_left].
  - split; [lia|]. split; [intros y Hy; by apply not_elem_of_nil in Hy|left].
  - destruct (IH (Z.min x y)) as (H1 & H2 & H3). split; [lia|]. split.
    + intros z [->|Hz]%elem_of_cons; [lia|by apply H2].
    + apply elem_of_cons in H3 as [H3|H3].
      * rewrite H3. destruct (Z.min_spec x y) as [[_ ->]|[_ ->]]; [left|right; left].
      * right. by right.
Qed.
Lemma py_max_spec l : l <> [] -> exists m, py_max l = DOk m /\ m ∈ l /\ forall y, y ∈ l -> (y <= m)%Z.
Proof.
  destruct l as [|x l]; [done|]. intros _. destruct (fold_max l x) as (H1 & H2 & H3). eexists. split; [done|]. split; [done|].
  intros y [->|Hy]%elem_of_cons; [done|by apply H2].
Qed.
Lemma py_min_spec l : l <> [] -> exists m, py_min l = DOk m /\ m ∈ l /\ forall y, y ∈ l -> (m <= y)%Z.
Proof.
  destruct l as [|x l]; [done|]. intros _. destruct (fold_min l x) as (H1 & H2 & H3). eexists. split; [done|]. split; [done|].
  intros y [->|Hy]%elem_of_cons; [done|by apply H2].
Qed.

Lemma zip_fmap_self {A B} (f : A -> B) l : zip l (f <$> l) = (fun x => (x, f x)) <$> l.
Proof. induction l as [|x l IH]; [done|]. cbn [fmap list_fmap zip zip_with]. f_equal. exact IH. Qed.

Lemma directional_dist py_sum pa pf s i l a p :
  ghost_state s i = DOk a -> py_get (g_agents s) 0 = DOk p -> legal_actions s i = DOk l -> l <> [] ->
  exists best,
    directional_distribution py_sum pa pf s i
    = DOk (ddist py_sum (if decide (0 < a_scared a)%Z then pf else pa) l best) /\
    best ∈ subs l /\ best <> [] /\ forall d, d ∈ best <-> prefers a (c_pos (a_conf p)) l d.
Proof.
  intros Ha Hp Hl Hne. unfold directional_distribution. rewrite Ha, Hl, Hp. cbn [mbind dres_bind]. cbv zeta.
  rewrite <- list_fmap_compose.
  rewrite (list_fmap_ext _ (fun d => distance (dest a d) (c_pos (a_conf p)))) by (intros ? d _; apply dest_eq).
  set (f := fun d => distance (dest a d) (c_pos (a_conf p))).
  assert (Hdne : f <$> l <> []) by (destruct l; done).
  assert (exists m, (if (0 <? a_scared a)%Z then py_max (f <$> l) else py_min (f <$> l)) = DOk m /\ m ∈ f <$> l /\
     forall e, e ∈ l -> if decide (0 < a_scared a)%Z then (f e <= m)%Z else (m <= f e)%Z) as (m & Hm & Hin & Hall).
  { destruct (Z.ltb_spec 0 (a_scared a)), (decide (0 < a_scared a)%Z); try lia.
    - destruct (py_max_spec _ Hdne) as (m & H1 & H2 & H3). exists m. split_and!; [done..|].
      intros e He. apply H3. apply elem_of_list_fmap. eauto.
    - destruct (py_min_spec _ Hdne) as (m & H1 & H2 & H3). exists m. split_and!; [done..|].
      intros e He. apply H3. apply elem_of_list_fmap. eauto. }
  rewrite Hm. cbn [mbind dres_bind].
  assert (Hbest : forall d, d ∈ (filter (fun x => x.2 = m) (zip l (f <$> l))).*1 <-> d ∈ l /\ f d = m).
  { intros d. rewrite zip_fmap_self. rewrite elem_of_list_fmap. split.
    - intros ([d' x] & -> & H). apply elem_of_list_filter in H as [H1 H2]. apply elem_of_list_fmap in H2 as (e & [= -> ->] & He). done.
    - intros [H1 H2]. exists (d, f d). split; [done|]. apply elem_of_list_filter. split; [done|]. apply elem_of_list_fmap. eauto. }
  exists (filter (fun x => x.2 = m) (zip l (f <$> l))).*1. split; [|split; [apply filter_zip_subs|split]].
  - f_equal. unfold ddist. cbv zeta. destruct (Z.ltb_spec 0 (a_scared a)), (decide (0 < a_scared a)%Z); try lia; reflexivity.
  - intros E. apply elem_of_list_fmap in Hin as (d & Hd & Hdl).
    assert (Hx : d ∈ (filter (fun x => x.2 = m) (zip l (f <$> l))).*1) by (apply Hbest; done).
    rewrite E in Hx. by apply not_elem_of_nil in Hx.
  - intros d. rewrite Hbest. unfold prefers. apply elem_of_list_fmap in Hin as (d0 & Hd0 & Hdl0). split.
    + intros [Hd Hfd]. split; [done|]. intros e He. specialize (Hall e He). change (distance (dest a e) (c_pos (a_conf p))) with (f e).
      change (distance (dest a d) (c_pos (a_conf p))) with (f d). rewrite Hfd. done.
    + intros [Hd Hbest2]. split; [done|]. specialize (Hall d Hd). specialize (Hbest2 d0 Hdl0).
      change (distance (dest a d0) (c_pos (a_conf p))) with (f d0) in Hbest2.
      change (distance (dest a d) (c_pos (a_conf p))) with (f d) in Hbest2. destruct (decide _); lia.
Qed.

Lemma directional_lemma py_sum s i l r a p :
  python_sum py_sum -> i <> 0%Z -> ghost_state s i = DOk a -> py_get (g_agents s) 0 = DOk p ->
  legal_actions s i = DOk l -> l <> [] -> random_number r ->
  exists best d, NoDup best /\ (forall e, e ∈ best <-> prefers a (c_pos (a_conf p)) l e) /\
    ghost_action py_sum (DirectionalGhost f_0_8 f_0_8) s i r = DOk d /\ d ∈ l /\ in_share (shares l (directed l best)) (B2R r) d.
Proof.
  intros Hsum Hi Ha Hp Hl Hne Hr. pose proof (ghost_legal_subs _ _ _ Hi Hl) as Hsub.
  destruct (directional_dist py_sum f_0_8 f_0_8 s i l a p Ha Hp Hl Hne) as (best & Hd & Hbs & Hbne & Hbest).
  pose proof (dcheck_ok _ Hsum) as Hc. unfold dcheck in Hc. rewrite forallb_forall in Hc. specialize (Hc l).
  rewrite <- elem_of_list_In in Hc. specialize (Hc Hsub). cbv beta in Hc. rewrite forallb_forall in Hc. specialize (Hc best).
  rewrite <- elem_of_list_In in Hc. specialize (Hc Hbs). cbv beta in Hc.
  assert (nonempty best = true) as E by (destruct best; done). rewrite E in Hc. cbn [implb] in Hc. apply andb_true_iff in Hc as [Hn Hc].
  destruct (check_spec _ _ _ _ Hr Hc) as (d & Hd2 & Hs). exists best, d.
  split; [eapply subs_nodup; [done|]; eapply subs_nodup; [done|apply four_nodup]|]. split; [done|].
  split; [|split; [by eapply share_legal|done]].
  unfold ghost_action. rewrite Hd. cbn [mbind dres_bind].
  assert ((if decide (0 < a_scared a)%Z then f_0_8 else f_0_8) = f_0_8) as -> by (by destruct (decide _)).
  by rewrite nonempty_get.
Qed.

Lemma directional_no_action py_sum s i r a p pa pf :
  ghost_state s i = DOk a -> py_get (g_agents s) 0 = DOk p -> legal_actions s i = DOk [] ->
  ghost_action py_sum (DirectionalGhost pa pf) s i r = DErr DValueError.
Proof.
  intros Ha Hp Hl. unfold ghost_action, directional_distribution. rewrite Ha, Hl, Hp. cbn [mbind dres_bind fmap list_fmap py_max py_min].
  by destruct (0 <? a_scared a)%Z.
Qed.

Lemma legal_ghost_state s i l : i <> 0%Z -> legal_actions s i = DOk l -> l <> [] -> exists a p, ghost_state s i = DOk a /\ py_get (g_agents s) 0 = DOk p.
Proof.
  intros Hi Hl Hne. unfold legal_actions in Hl. destruct (g_win s || g_lose s); [injection Hl as <-; done|].
  destruct (Z.eqb_spec i 0) as [->|_]; [done|]. unfold ghost_actions in Hl. destruct (ghost_state s i) as [a|] eqn:E; [|done].
  exists a. unfold ghost_state in E. destruct (_ || _); [done|]. unfold py_get at 1 in E.
  destruct (g_agents s) as [|p ags] eqn:Eg.
  - exfalso. unfold py_index in E. cbn [length] in E. destruct (_ && _) eqn:Eb; [|done]. rewrite andb_true_iff, Z.leb_le, Z.ltb_lt in Eb. lia.
  - exists p. done.
Qed.

Lemma ghost_legal_action py_sum k s i l r :
  python_sum py_sum -> default_ghost k -> i <> 0%Z -> legal_actions s i = DOk l -> l <> [] -> random_number r ->
  exists d, ghost_action py_sum k s i r = DOk d /\ d ∈ l.
Proof.
  intros Hsum Hk Hi Hl Hne Hr. destruct Hk as [-> | ->].
  - destruct (random_lemma py_sum s i l r) as (d & H1 & H2 & _); eauto.
  - destruct (legal_ghost_state s i l Hi Hl Hne) as (a & p & Ha & Hp).
    destruct (directional_lemma py_sum s i l r a p) as (b & d & _ & _ & H1 & H2 & _); eauto.
Qed.

(** ** The keyboard *)
Lemma has_key_iff m keys d : has_key m keys d = true <-> exists k, k ∈ km_keys m d /\ k ∈ keys.
Proof.
  unfold has_key. rewrite existsb_exists. split.
  - intros (k & H1 & H2). apply elem_of_list_In in H1. apply bool_decide_eq_true in H2. eauto.
  - intros (k & H1 & H2). exists k. split; [by apply elem_of_list_In|]. by apply bool_decide_eq_true.
Qed.
Lemma keys1_iff keys d : has_key keys1 keys d = true <-> pressed1 keys d.
Proof.
  rewrite has_key_iff. destruct d; cbn [km_keys keys1 pressed1]; setoid_rewrite elem_of_list_In at 1; simpl; naive_solver.
Qed.
Lemma keys2_iff keys d : has_key keys2 keys d = true <-> pressed2 keys d.
Proof.
  rewrite has_key_iff. destruct d; cbn [km_keys keys2 pressed2]; setoid_rewrite elem_of_list_In at 1; simpl; naive_solver.
Qed.

Lemma asks_cases (pressed : dir -> Prop) l e : asks pressed l e ->
  let want d := pressed d /\ d ∈ l in
  e = South /\ want South \/ e = North /\ want North /\ ~ want South \/
  e = East /\ want East /\ ~ want South /\ ~ want North \/ e = West /\ want West /\ ~ want South /\ ~ want North /\ ~ want East.
Proof.
  intros (b & a & E & Hp & Hl & Hb). cbv zeta.
  destruct b as [|b1 b]; [injection E as <- _; tauto|]. injection E as <- E. pose proof (Hb South ltac:(left)).
  destruct b as [|b2 b]; [injection E as <- _; tauto|]. injection E as <- E. pose proof (Hb North ltac:(right; left)).
  destruct b as [|b3 b]; [injection E as <- _; tauto|]. injection E as <- E. pose proof (Hb East ltac:(right; right; left)).
  destruct b as [|b4 b]; [injection E as <- _; tauto|]. injection E as <- E. by destruct b.
Qed.
Lemma asks_iff (pressed : dir -> Prop) l e : asks pressed l e <->
  let want d := pressed d /\ d ∈ l in
  e = South /\ want South \/ e = North /\ want North /\ ~ want South \/
  e = East /\ want East /\ ~ want South /\ ~ want North \/ e = West /\ want West /\ ~ want South /\ ~ want North /\ ~ want East.
Proof.
  split; [apply asks_cases|]. cbv zeta. intros [(-> & H)|[(-> & H & H1)|[(-> & H & H1 & H2)|(-> & H & H1 & H2 & H3)]]].
  - exists [], [North; East; West]. split_and!; try tauto. intros d Hd. by apply not_elem_of_nil in Hd.
  - exists [South], [East; West]. split_and!; try tauto. intros d ->%elem_of_list_singleton. done.
  - exists [South; North], [West]. split_and!; try tauto. intros d Hd. apply elem_of_cons in Hd as [->|Hd]; [done|].
    apply elem_of_list_singleton in Hd as ->. done.
  - exists [South; North; East], []. split_and!; try tauto. intros d Hd. apply elem_of_cons in Hd as [->|Hd]; [done|].
    apply elem_of_cons in Hd as [->|Hd]; [done|]. apply elem_of_list_singleton in Hd as ->. done.
Qed.

Lemma get_move_spec m keys l (pressed : dir -> Prop) :
  (forall d, has_key m keys d = true <-> pressed d) ->
  (exists e, asks pressed l e /\ get_move m keys l = e) \/ ((forall e, ~ asks pressed l e) /\ get_move m keys l = Stop).
Proof.
  intros Hk. setoid_rewrite asks_iff. cbv zeta.
  assert (Hw : forall d, has_key m keys d && bool_decide (d ∈ l) = true <-> pressed d /\ d ∈ l).
  { intros d. rewrite andb_true_iff, bool_decide_eq_true, Hk. done. }
  pose proof (Hw South) as HS. pose proof (Hw North) as HN. pose proof (Hw East) as HE. pose proof (Hw West) as HW.
  unfold get_move. cbn [fold_left].
  destruct (has_key m keys South && _); [left; exists South; intuition discriminate|].
  destruct (has_key m keys North && _); [left; exists North; intuition discriminate|].
  destruct (has_key m keys East && _); [left; exists East; intuition discriminate|].
  destruct (has_key m keys West && _); [left; exists West; intuition discriminate|].
  right. split; [|done]. intros e. intuition discriminate.
Qed.

Lemma random_choice_spec {A} (l : list A) n : l <> [] -> exists a, random_choice l n = DOk a /\ a ∈ l.
Proof.
  intros Hne. unfold random_choice. destruct (l !! (n mod length l)%nat) as [a|] eqn:E.
  - exists a. split; [done|]. by eapply elem_of_list_lookup_2.
  - apply lookup_ge_None in E. assert (length l <> 0%nat) by (destruct l; done). pose proof (Nat.mod_upper_bound n (length l)). lia.
Qed.

Lemma asks_not_stop (pressed : dir -> Prop) l e : asks pressed l e -> e <> Stop /\ e ∈ l.
Proof. rewrite asks_iff. cbv zeta. intuition (subst; done). Qed.
Lemma asks_unique (pressed : dir -> Prop) l e e' : asks pressed l e -> asks pressed l e' -> e = e'.
Proof. rewrite !asks_iff. cbv zeta. intuition congruence. Qed.

Lemma keyboard_lemma m (pressed : list string -> dir -> Prop) s i l keys n k :
  (forall ks d, has_key m ks d = true <-> pressed ks d) ->
  legal_actions s i = DOk l -> l <> [] ->
  let ks := if decide (keys = []) then kb_keys k else keys in
  exists d, keyboard_action m s i keys n k = DOk (d, Keyboard d ks) /\ keyboard_move (pressed ks) l (kb_last k) d.
Proof.
  intros Hk Hl Hne ks. unfold keyboard_action.
  assert ((match keys with [] => kb_keys k | _ => keys end) = ks) as -> by (unfold ks; by destruct keys).
  rewrite Hl. cbn [mbind dres_bind]. cbv zeta.
  assert (Hstop : has_key m ks Stop && bool_decide (Stop ∈ l) = true <-> pressed ks Stop /\ Stop ∈ l).
  { by rewrite andb_true_iff, bool_decide_eq_true, Hk. }
  destruct (has_key m ks Stop && bool_decide (Stop ∈ l)) eqn:Es.
  - destruct Hstop as [Hstop _]. specialize (Hstop eq_refl). rewrite bool_decide_eq_true_2 by tauto. cbn [mbind dres_bind].
    exists Stop. split; [done|]. split; tauto.
  - assert (Hns : ~ (pressed ks Stop /\ Stop ∈ l)) by (intros H; apply Hstop in H; discriminate).
    destruct (get_move_spec m ks l (pressed ks) (Hk ks)) as [(e & He & ->)|[Hno ->]].
    + destruct (asks_not_stop _ _ _ He) as [Hes Hel]. rewrite (bool_decide_eq_false_2 (e = Stop)) by done. cbn [andb].
      rewrite bool_decide_eq_true_2 by done. cbn [mbind dres_bind]. exists e. split; [done|]. split; [done|tauto| | |].
      * intros _ e' He'. by eapply asks_unique.
      * intros _ Hn. by apply Hn in He.
      * intros _ Hn. by apply Hn in He.
    + rewrite (bool_decide_eq_true_2 (Stop = Stop)) by done. cbn [andb].
      destruct (bool_decide (kb_last k ∈ l)) eqn:Hlast; [apply bool_decide_eq_true in Hlast|apply bool_decide_eq_false in Hlast].
      * rewrite bool_decide_eq_true_2 by done. cbn [mbind dres_bind]. exists (kb_last k). split; [done|]. split; [done|tauto| |done|].
        -- intros _ e He. by apply Hno in He.
        -- done.
      * destruct (bool_decide (Stop ∈ l)) eqn:Hst; [apply bool_decide_eq_true in Hst|apply bool_decide_eq_false in Hst].
        -- cbn [mbind dres_bind]. exists Stop. split; [done|]. split; [done|done| |done|done]. intros _ e He. by apply Hno in He.
        -- destruct (random_choice_spec l n Hne) as (d & -> & Hd). cbn [mbind dres_bind]. exists d. split; [done|].
           split; [done|tauto| |done|done]. intros _ e He. by apply Hno in He.
Qed.

Lemma keyboard_no_action m s i keys n k : legal_actions s i = DOk [] -> keyboard_action m s i keys n k = DErr DNoChoice.
Proof.
  intros Hl. unfold keyboard_action. rewrite Hl. cbn [mbind dres_bind]. cbv zeta.
  assert (E : forall d : dir, bool_decide (d ∈ []) = false) by (intros d; apply bool_decide_eq_false_2, not_elem_of_nil).
  rewrite !E. done.
Qed.

(** ** The demo *)
Lemma demo_plays py_sum m kinds inp :
  python_sum py_sum -> (m = keys1 \/ m = keys2) -> (forall n, default_ghost (kinds n)) -> (forall n, random_number (in_random inp n)) ->
  plays_legally (demo_agents py_sum m kinds inp).
Proof.
  intros Hsum Hm Hk Hr h i s l Hl Hne. unfold demo_agents. destruct (Z.eqb_spec i 0) as [->|Hi].
  - assert (exists pressed : list string -> dir -> Prop, forall ks d, has_key m ks d = true <-> pressed ks d) as [pr Hpr].
    { destruct Hm as [-> | ->]; [exists pressed1; apply keys1_iff|exists pressed2; apply keys2_iff]. }
    destruct (keyboard_lemma m pr s 0 l (in_keys inp (length h)) (in_choice inp (length h)) (keyboard_after inp h 0 new_keyboard) Hpr Hl Hne)
      as (d & Hd & Hmv). cbv zeta in Hd. rewrite Hd. exists d. split; [done|]. by destruct Hmv.
  - by apply ghost_legal_action.
Qed.

Lemma demo_lemma py_sum m kinds inp text w l ghosts k :
  python_sum py_sum -> (m = keys1 \/ m = keys2) -> (forall n, default_ghost (kinds n)) -> (forall n, random_number (in_random inp n)) ->
  good_text text w -> make_layout text = DOk l -> (0 <= ghosts)%Z ->
  exists g, game_run (num_agents l ghosts) (demo_agents py_sum m kinds inp) k (new_game l ghosts) = DOk g.
Proof. intros. eapply play_never_raises; [done..|]. by apply demo_plays. Qed.

(** ** For the statements *)
Lemma random_b r : is_finite r && Bleb f_zero r && Bltb r f_one = true -> random_number r.
Proof.
  rewrite !andb_true_iff. intros [[Hf H0] H1]. split; [done|]. rewrite Bleb_correct in H0 by done. rewrite Bltb_correct in H1 by done.
  assert (E1 : B2R f_one = 1%R) by apply Bone_correct. rewrite E1 in H1. cbn [B2R f_zero] in H0.
  destruct (Rle_bool_spec 0 (B2R r)); [|done]. destruct (Rlt_bool_spec (B2R r) 1); [|done]. done.
Qed.

Lemma directional_nat py_sum s (i : nat) a p l r :
  python_sum py_sum -> (0 < i)%nat -> g_agents s !! i = Some a -> g_agents s !! 0%nat = Some p ->
  legal_actions s (Z.of_nat i) = DOk l -> l <> [] -> random_number r ->
  exists best d, NoDup best /\ (forall e, e ∈ best <-> prefers a (c_pos (a_conf p)) l e) /\
    ghost_action py_sum (DirectionalGhost f_0_8 f_0_8) s (Z.of_nat i) r = DOk d /\ d ∈ l /\
    in_share (shares l (directed l best)) (B2R r) d.
Proof.
  intros Hsum Hi Ha Hp Hl Hne Hr. pose proof (lookup_lt_Some _ _ _ Ha) as Hlt.
  assert (Hget : forall (j : nat) x, g_agents s !! j = Some x -> py_get (g_agents s) (Z.of_nat j) = DOk x).
  { intros j x Hj. pose proof (lookup_lt_Some _ _ _ Hj). unfold py_get, py_index. destruct (Z.ltb_spec (Z.of_nat j) 0); [lia|].
    destruct (Z.leb_spec 0 (Z.of_nat j)); [|lia]. destruct (Z.ltb_spec (Z.of_nat j) (Z.of_nat (length (g_agents s)))); [|lia]. cbn [andb].
    by rewrite Nat2Z.id, Hj. }
  apply (directional_lemma py_sum s (Z.of_nat i) l r a p); try done.
  - lia.
  - unfold ghost_state. destruct (Z.eqb_spec (Z.of_nat i) 0); [lia|]. destruct (Z.leb_spec (Z.of_nat (length (g_agents s))) (Z.of_nat i)); [lia|].
    cbn [orb]. by apply Hget.
  - by apply (Hget 0%nat).
Qed.

Lemma no_action_lemma py_sum s i a p pa pf r :
  python_sum py_sum -> ghost_state s i = DOk a -> py_get (g_agents s) 0 = DOk p -> legal_actions s i = DOk [] ->
  ghost_action py_sum RandomGhost s i r = DOk Stop /\ ghost_action py_sum (DirectionalGhost pa pf) s i r = DErr DValueError.
Proof. intros. split; [by apply random_no_action|by eapply directional_no_action]. Qed.
