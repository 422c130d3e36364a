(** * DepthJoinLimit: make_joined ends with a limit that is large enough (C66) *)

From Coq Require Import Lia.
From Verif Require Import DepthJoinFacts.

Section depth_join_limit.
Context {U : Universe}.

(** ** A larger limit gives no new failure *)

Lemma jss_mono k o l : same_or_deep (join_sample_set_within k o l) (join_sample_set_within (S k) o l).
Proof.
  revert o l. induction k as [|k IH]; intros o l; [by right|].
  destruct l as [|a [|b l]]; [by left..|].
  change (same_or_deep (r ← join_sample_set_within k (sub o 0) (b :: l); ss_union (sub o 1) a r)
    (r ← join_sample_set_within (S k) (sub o 0) (b :: l); ss_union (sub o 1) a r)).
  apply sod_bind; [apply IH|]. intros r. apply sod_refl.
Qed.

Lemma jf_mono k o cp l acc : same_or_deep (join_factors_within k o cp l acc) (join_factors_within (S k) o cp l acc).
Proof.
  revert o l acc. induction k as [|k IH]; intros o l acc; [by right|].
  destruct l as [|m l]; [by left|].
  change (join_factors_within (S (S k)) o cp (m :: l) acc) with
    (l ← map_res (fun o' '(g, c) =>
        match ssb_add acc (Sample (cp_id cp) g) c with
        | (_, Err e) => Err e
        | (a, Ok _) => join_factors_within (S k) o' cp l a
        end) (sub o 0) (iter_map (sub o 1) m);
     join_sample_set_within (S k) (sub o 2) l).
  change (join_factors_within (S k) o cp (m :: l) acc) with
    (l ← map_res (fun o' '(g, c) =>
        match ssb_add acc (Sample (cp_id cp) g) c with
        | (_, Err e) => Err e
        | (a, Ok _) => join_factors_within k o' cp l a
        end) (sub o 0) (iter_map (sub o 1) m);
     join_sample_set_within k (sub o 2) l).
  apply sod_bind.
  - apply sod_map_res. intros o' [g c]. destruct (ssb_add acc (Sample (cp_id cp) g) c) as [a [?|?]]; [apply IH|by left].
  - intros r. apply jss_mono.
Qed.

Lemma jv_mono k o cp F v vals : same_or_deep (join_variable_within k o cp F v vals) (join_variable_within (S k) o cp F v vals).
Proof.
  unfold join_variable_within. apply sod_bind; [|intros; apply sod_refl].
  apply sod_for_res. intros o' s x. apply sod_bind; [apply jf_mono|intros; apply sod_refl].
Qed.

Lemma make_joined_mono k o sp : same_or_deep (make_joined_within k o sp) (make_joined_within (S k) o sp).
Proof.
  unfold make_joined_within. apply sod_bind; [apply sod_refl|]. intros F.
  apply sod_bind; [|intros; apply sod_refl]. apply sod_for_res. intros o' s [v X]. apply jv_mono.
Qed.

(** ** Large enough *)

Definition eventually {A} (f : nat -> A) (a : A) : Prop := exists n, forall k, (n <= k)%nat -> f k = a.

Lemma ev_refl {A} (a : A) : eventually (fun _ => a) a.
Proof. by exists 0%nat. Qed.

Lemma ev_bind {A B} (x : nat -> res A) (y : res A) (f : nat -> A -> res B) (g : A -> res B) :
  eventually x y -> (forall a, eventually (fun k => f k a) (g a)) -> eventually (fun k => x k ≫= f k) (y ≫= g).
Proof.
  intros [n Hn] H. destruct y as [a|e].
  - destruct (H a) as [m Hm]. exists (n + m)%nat. intros k Hk. rewrite Hn by lia. apply Hm. lia.
  - exists n. intros k Hk. by rewrite Hn.
Qed.

Lemma ev_for_res {S A} (f : nat -> oracle -> S -> A -> res S) (g : oracle -> S -> A -> res S) o s l :
  (forall o s x, eventually (fun k => f k o s x) (g o s x)) -> eventually (fun k => for_res (f k) o s l) (for_res g o s l).
Proof.
  intros H. revert o s. induction l as [|x l IH]; intros o s; [by exists 0%nat|].
  destruct (H (sub o 1) s x) as [n Hn]. cbn [for_res]. destruct (g (sub o 1) s x) as [s'|e].
  - destruct (IH (sub o 0) s') as [m Hm]. exists (n + m)%nat. intros k Hk. rewrite Hn by lia. apply Hm. lia.
  - exists n. intros k Hk. by rewrite Hn.
Qed.

Lemma jf_eventually o cp l acc : eventually (fun k => join_factors_within k o cp l acc) (join_factors o cp l acc).
Proof.
  assert (exists n, forall m : gmap graph Z, m ∈ l -> (size m <= n)%nat) as [n Hn].
  { induction l as [|m l [n IH]]; [exists 0%nat; by intros m Hm%elem_of_nil|]. exists (size m + n)%nat.
    intros m' [->|Hm]%elem_of_cons; [lia|]. specialize (IH m' Hm). lia. }
  exists (S (length l + n)). intros k Hk. apply jf_enough; [lia|]. intros m Hm%Hn. lia.
Qed.

Lemma make_joined_eventually o sp : eventually (fun k => make_joined_within k o sp) (make_joined o sp).
Proof.
  unfold make_joined_within, make_joined. apply (ev_bind (fun _ => factorized (sub o 0) sp)); [apply ev_refl|]. intros F.
  apply (ev_bind (fun k => for_res _ _ _ _)); [|intros a; apply ev_refl]. apply ev_for_res. intros o' s [v X].
  unfold join_variable_within, join_variable. apply (ev_bind (fun k => for_res _ _ _ _)); [|intros a; apply ev_refl].
  apply ev_for_res. intros o'' j x. apply (ev_bind (fun k => join_factors_within k _ _ _ _)); [apply jf_eventually|]. intros a. apply ev_refl.
Qed.

Lemma threshold {A} (f : nat -> res A) (y : res A) : (forall k, same_or_deep (f k) y) -> (forall k, same_or_deep (f k) (f (S k))) ->
  eventually f y -> exists n, forall k, f k = if bool_decide (n <= k)%nat then y else Err OutOfFuel.
Proof.
  intros Hc Hm [n Hn].
  assert (forall i j, (i <= j)%nat -> f j = Err OutOfFuel -> f i = Err OutOfFuel) as Hdown.
  { intros i j Hij. induction Hij as [|j Hij IH]; [done|]. intros H. apply IH. destruct (Hm j) as [Hj|Hj]; congruence. }
  revert Hn. induction n as [|n IH]; intros Hn.
  - exists 0%nat. intros k. rewrite bool_decide_true by lia. apply Hn. lia.
  - assert ({f n = Err OutOfFuel} + {f n <> Err OutOfFuel}) as [Hd|Hd].
    { destruct (f n) as [a|e]; [by right|]. destruct e; try (by right); by left. }
    + exists (S n). intros k. case_bool_decide as Hk; [by apply Hn|]. apply (Hdown k n); [lia|done].
    + apply IH. intros k Hk. destruct (decide (k = n)) as [->|Hne]; [|apply Hn; lia]. destruct (Hc n) as [H|H]; done.
Qed.

Lemma make_joined_threshold o sp : exists n, forall k,
  make_joined_within k o sp = if bool_decide (n <= k)%nat then make_joined o sp else Err OutOfFuel.
Proof.
  apply (threshold (fun k => make_joined_within k o sp)); [intros k; apply make_joined_cases|intros k; apply make_joined_mono|].
  apply make_joined_eventually.
Qed.

(** ** joined_on_variables *)

Lemma group_mono k o ss : same_or_deep (group_intersecting_within k o ss) (group_intersecting_within (S k) o ss).
Proof.
  unfold group_intersecting_within. apply sod_bind; [|intros; apply sod_refl].
  destruct (group_loop k (sub o 1) _) as [r|x] eqn:E; [left|right].
  - symmetry. apply (group_loop_mono k (S k)); [lia|done].
  - by rewrite (group_loop_err _ _ _ _ E).
Qed.

Lemma cross_mono k o cp gs j : same_or_deep (cross_join_within k o cp gs j) (cross_join_within (S k) o cp gs j).
Proof.
  revert o gs j. induction k as [|k IH]; intros o gs j; [by right|].
  destruct gs as [|g0 gs]; [by left|].
  change (cross_join_within (S (S k)) o cp (g0 :: gs) j) with
    (for_res (fun o' ssb '(g, c) =>
        match ssb_add j (sample_of g0 g) c with
        | (_, Err e) => Err e
        | (j', Ok _) =>
            r ← cross_join_within (S k) (sub o' 0) cp gs j';
            match ssb_add_all (sub o' 1) ssb r with
            | (b, Ok _) => Ok b
            | (_, Err e) => Err e
            end
        end) (sub o 0) (ssb_new cp) (ss_items (sub o 1) g0)).
  change (cross_join_within (S k) o cp (g0 :: gs) j) with
    (for_res (fun o' ssb '(g, c) =>
        match ssb_add j (sample_of g0 g) c with
        | (_, Err e) => Err e
        | (j', Ok _) =>
            r ← cross_join_within k (sub o' 0) cp gs j';
            match ssb_add_all (sub o' 1) ssb r with
            | (b, Ok _) => Ok b
            | (_, Err e) => Err e
            end
        end) (sub o 0) (ssb_new cp) (ss_items (sub o 1) g0)).
  apply sod_for_res. intros o' s [g c]. destruct (ssb_add j (sample_of g0 g) c) as [j' [?|?]]; [|by left].
  apply sod_bind; [apply IH|intros; apply sod_refl].
Qed.

Lemma joined_on_mono k o sp X : same_or_deep (joined_on_variables_within k o sp X) (joined_on_variables_within (S k) o sp X).
Proof.
  unfold joined_on_variables_within. apply sod_bind; [|intros; apply sod_refl]. apply sod_for_res. intros o' acc v.
  unfold join_on_within. apply sod_bind; [apply group_mono|]. intros m. apply sod_bind; [apply cross_mono|intros; apply sod_refl].
Qed.

Lemma joined_on_eventually o sp X : eventually (fun k => joined_on_variables_within k o sp X) (joined_on_variables o sp X).
Proof.
  unfold joined_on_variables_within, joined_on_variables. apply (ev_bind (fun k => for_res _ _ _ _)); [|intros a; apply ev_refl].
  apply ev_for_res. intros o' acc v. unfold join_on_within, join_on.
  apply (ev_bind (fun k => group_intersecting_within k _ _)).
  - eexists. intros k Hk. apply group_enough. exact Hk.
  - intros m. apply (ev_bind (fun k => cross_join_within k _ _ _ _)); [|intros a; apply ev_refl].
    eexists. intros k Hk. apply cross_enough. exact Hk.
Qed.

Lemma joined_on_threshold o sp X : exists n, forall k,
  joined_on_variables_within k o sp X = if bool_decide (n <= k)%nat then joined_on_variables o sp X else Err OutOfFuel.
Proof.
  apply (threshold (fun k => joined_on_variables_within k o sp X)); [intros k; apply joined_on_cases|intros k; apply joined_on_mono|].
  apply joined_on_eventually.
Qed.

End depth_join_limit.
