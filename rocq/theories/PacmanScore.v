(** * PacmanScore: food, result and score of the demo game *)

From Coq Require Import ZArith Lia Ascii.
From stdpp Require Import base list numbers option sets sorting strings.
From Verif Require Import SpecPacman DemoGridFacts PacmanMove PacmanStep PacmanInv PacmanLayout PacmanGame.

Lemma replays_reachable s0 h s : replays s0 h s -> Forall (fun m => (0 <= m.1)%Z) h -> reachable s0 s.
Proof.
  induction 1 as [s|s h s1 i d s2 Hr IH Hg]; intros Hh; [constructor|].
  apply Forall_app in Hh as [Hh Hi]. rewrite Forall_singleton in Hi. cbn [fst] in Hi. exact (reach_move s s1 i d s2 (IH Hh) Hi Hg).
Qed.

Lemma pacman_turns_snoc h i d : pacman_turns (h ++ [(i, d)]) = (pacman_turns h + if decide (i = 0) then 1 else 0)%Z.
Proof.
  unfold pacman_turns. rewrite list.filter_app, app_length, filter_cons. cbn [fst].
  destruct (decide (i = 0%Z)); simpl; lia.
Qed.

Lemma how_many_le f l : (how_many f l <= Z.of_nat (length l))%Z.
Proof.
  unfold how_many. induction l as [|a l IH]; simpl; [lia|]. destruct (f a); simpl; lia.
Qed.

Lemma some_food s : (exists c, has_food s c) <-> (0 < grid_count (g_food s) true)%Z.
Proof.
  pose proof (grid_count_nonneg (g_food s) true). split.
  - intros [[x y] Hc]. enough (grid_count (g_food s) true <> 0)%Z by lia. intros E. rewrite grid_count_zero in E. by apply (E x y).
  - intros Hp. destruct (decide (Exists (fun col => true ∈ col) (gr_data (g_food s)))) as [Hex|Hno].
    + apply Exists_exists in Hex as (col & Hcol & Hin). apply elem_of_list_lookup in Hcol as [i Hi], Hin as [j Hj].
      exists (Z.of_nat i, Z.of_nat j). unfold has_food. apply cell_Some. rewrite !Nat2Z.id. split_and!; [lia..|eauto].
    + exfalso. enough (grid_count (g_food s) true = 0)%Z by lia. apply grid_count_zero. intros x y (_ & _ & col & Hi & Hj)%cell_Some.
      apply Hno, Exists_exists. exists col. split; by eapply elem_of_list_lookup_2.
Qed.

Lemma replays_accounts s0 h s :
  fine s0 -> g_win s0 = false -> g_lose s0 = false -> (exists c, has_food s0 c) ->
  replays s0 h s -> Forall (fun m => (0 <= m.1)%Z) h -> accounts s0 s (pacman_turns h).
Proof.
  intros Hf Hw0 Hl0 Hfood. induction 1 as [s|s0 h s1 i d s2 Hr IH Hg]; intros Hh.
  - split; try done.
    + unfold pacman_turns. simpl. lia.
    + rewrite Hw0. split; [done|]. by intros [].
    + rewrite Hw0. by intros [].
    + exists 0%Z, 0%Z. rewrite Hw0, Hl0. destruct (fi_agents s Hf) as (p & gs & -> & _). cbn [length]. split_and!; [lia|lia|lia|done|].
      unfold pacman_turns. simpl. lia.
  - apply Forall_app in Hh as [Hh Hi]. rewrite Forall_singleton in Hi. cbn [fst] in Hi.
    destruct (IH Hf Hw0 Hl0 Hfood Hh) as [If Ic Iw Ib (e & kd & He & Hk & Hlk & Hs)].
    assert (Hf1 : fine s1) by (eapply reachable_fine; [done|by eapply replays_reachable]).
    destruct (not_over _ _ _ _ Hg) as [Hw1 Hl1]. rewrite Hw1, Hl1 in *.
    assert (kd = 0%Z) as -> by (destruct (decide (0 < kd)%Z) as [Hp|]; [by apply Hlk in Hp|lia]).
    rewrite pacman_turns_snoc. destruct (decide (i = 0%Z)) as [->|Hne].
    + destruct (pacman_inv _ _ _ Hf1 Hg) as (p & gs & k & Ha & Hk1 & Hp & Hn & Hm).
      destruct (pm_food _ _ _ _ _ _ Hm) as (_ & _ & _ & C). pose proof (pm_count _ _ _ _ _ _ Hm) as N.
      pose proof (pm_win _ _ _ _ _ _ Hm) as Hwin. pose proof (pm_lose _ _ _ _ _ _ Hm) as Hlose. pose proof (pm_score _ _ _ _ _ _ Hm) as Hsc.
      set (gs1 := frightened (bool_decide (next_cell k d ∈ g_capsules s1)) <$> gs) in *.
      assert (Hsub : forall c, has_food s2 c -> has_food s1 c).
      { intros c Hc. unfold has_food in *. rewrite C in Hc. destruct (decide (c = next_cell k d)); done. }
      assert (Hd : (0 < how_many (deadly_at (mid (next_cell k d))) gs1)%Z <->
                   exists a, a ∈ gs /\ deadly_at (mid (next_cell k d)) (frightened (bool_decide (next_cell k d ∈ g_capsules s1)) a) = true).
      { rewrite how_many_pos. split.
        - intros (a & (b & -> & Hb)%elem_of_list_fmap & Hd). eauto.
        - intros (b & Hb & Hd). eexists. split; [|exact Hd]. apply elem_of_list_fmap. eauto. }
      split.
      * intros c Hc. by apply If, Hsub.
      * rewrite N. destruct (decide _); lia.
      * rewrite Hwin. split.
        -- intros [_ Hno] [c Hc]. by apply (Hno c).
        -- intros Hno. split.
           ++ destruct (decide (cell (g_food s1) (next_cell k d) = Some true)) as [|Hnf]; [done|]. exfalso.
              rewrite Z.sub_0_r in N. assert (Hs1 : exists c, has_food s1 c).
              { apply some_food. destruct (decide (0 < grid_count (g_food s1) true)%Z); [done|]. exfalso.
                assert (~ exists c, has_food s1 c) as Hx by (rewrite some_food; lia). by apply Iw in Hx. }
              apply some_food in Hs1. rewrite <- N in Hs1. by apply some_food in Hs1.
           ++ intros c Hc. apply Hno. by exists c.
      * intros [Hx Hy]. apply Hlose in Hy as [Hy _]. congruence.
      * exists (e + how_many (eaten_at (mid (next_cell k d))) gs1)%Z,
          (if g_win s2 then 0 else how_many (deadly_at (mid (next_cell k d))) gs1)%Z.
        pose proof (how_many_nonneg (eaten_at (mid (next_cell k d))) gs1).
        pose proof (how_many_nonneg (deadly_at (mid (next_cell k d))) gs1).
        pose proof (how_many_le (deadly_at (mid (next_cell k d))) gs1).
        assert (length gs1 = length gs) as Hgl by (subst gs1; by rewrite fmap_length).
        split_and!.
        -- lia.
        -- destruct (g_win s2); lia.
        -- rewrite (pm_agents _ _ _ _ _ _ Hm). cbn [length]. rewrite fmap_length. fold gs1. destruct (g_win s2); lia.
        -- rewrite Hlose. destruct (g_win s2); [split; [intros [? _]; done|lia]|]. rewrite <- Hd. split; [intros [_ ?]; lia|]. intros; split; [done|lia].
        -- rewrite N. destruct (decide (cell (g_food s1) (next_cell k d) = Some true)), (g_win s2); lia.
    + destruct (ghost_moves_intro s1 i d s2 Hf1 ltac:(lia) Hg) as (a & k & Ha & _ & _ & _ & _ & [(Ew & Ef & Ecp & Ewin) _ (a1 & p & Hp & _ & _ & _ & _ & Eags & _ & Elose & Esc)]).
      assert (Hsame : forall c, has_food s2 c <-> has_food s1 c) by (intros c; unfold has_food; by rewrite Ef).
      split.
      * intros c Hc. by apply If, Hsame.
      * rewrite Ef. lia.
      * rewrite Ewin. split; [done|]. intros Hno. apply Iw. intros [c Hc]. apply Hno. exists c. by apply Hsame.
      * rewrite Ewin. by intros [].
      * exists (e + if eaten_at (c_pos (a_conf p)) a1 then 1 else 0)%Z, (if deadly_at (c_pos (a_conf p)) a1 then 1 else 0)%Z.
        rewrite Eags, insert_length, Ewin, Elose, Ef. 
        assert (2 <= length (g_agents s1)) by (apply lookup_lt_Some in Ha; lia).
        split_and!; [destruct (eaten_at _ _); lia|destruct (deadly_at _ _); lia|destruct (deadly_at _ _); lia|
          by destruct (deadly_at _ _)|].
        rewrite Esc. destruct (eaten_at _ _), (deadly_at _ _); lia.
Qed.
