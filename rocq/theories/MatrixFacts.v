(** * MatrixFacts: lists of lists in the demo *)

From Coq Require Import ZArith Lia Sorting.Sorted.
From stdpp Require Import base list numbers option.
From Verif Require Import DemoGridFacts SpecUtil.

Lemma range_nat_S n : range (Z.of_nat (S n)) = range (Z.of_nat n) ++ [Z.of_nat n].
Proof. rewrite Nat2Z.inj_succ, <- Z.add_1_r. apply range_S. lia. Qed.
Lemma py_get_over {A} (l : list A) (n : nat) : length l <= n -> py_get l (Z.of_nat n) = DErr DIndexError.
Proof.
  intros H. unfold py_get, py_index. destruct (Z.ltb_spec (Z.of_nat n) 0); [lia|].
  destruct (Z.ltb_spec (Z.of_nat n) (Z.of_nat (length l))); [lia|]. by rewrite andb_false_r.
Qed.
Lemma py_get_nat {A} (l : list A) (n : nat) x : l !! n = Some x -> py_get l (Z.of_nat n) = DOk x.
Proof. intros H. apply py_get_lookup; [lia|]. by rewrite Nat2Z.id. Qed.
Lemma for_each_err {S A} (f : S -> A -> dres S) s l k e : DemoBase.for_each f s l = DErr e -> DemoBase.for_each f s (l ++ k) = DErr e.
Proof. intros H. by rewrite for_each_app, H. Qed.

Section invert.
Context {A : Type}.
Implicit Types (a res : list (list A)) (outer : list A).

Definition append_one outer : list (list A) -> Z -> dres (list (list A)) := fun res i =>
  row ← py_get res i; x ← py_get outer i; py_set res i (row ++ [x]).
Definition grown (n : nat) outer res : list (list A) :=
  imap (fun j row => if j <? n then row ++ option_list (outer !! j) else row) res.

Lemma append_step outer res n : n < length outer -> n < length res ->
  append_one outer (grown n outer res) (Z.of_nat n) = DOk (grown (S n) outer res).
Proof.
  intros H1 H2. destruct (lookup_lt_is_Some_2 _ _ H1) as [x Hx]. destruct (lookup_lt_is_Some_2 _ _ H2) as [row Hrow].
  unfold append_one. rewrite (py_get_nat _ n row).
  2:{ unfold grown. rewrite list_lookup_imap, Hrow. simpl. by rewrite Nat.ltb_irrefl. }
  cbn [mbind dres_bind]. rewrite (py_get_nat _ n x Hx). cbn [mbind dres_bind].
  rewrite py_set_lookup by (unfold grown; rewrite imap_length; lia). rewrite Nat2Z.id. f_equal.
  apply list_eq. intros j. unfold grown. rewrite list_lookup_imap. destruct (decide (j = n)) as [->|Hj].
  - rewrite list_lookup_insert by (rewrite imap_length; lia). rewrite Hrow. simpl.
    destruct (Nat.ltb_spec n (S n)); [|lia]. by rewrite Hx.
  - rewrite list_lookup_insert_ne by done. rewrite list_lookup_imap. destruct (res !! j); simpl; [|done].
    destruct (Nat.ltb_spec j n), (Nat.ltb_spec j (S n)); try lia; done.
Qed.
Lemma append_all outer res n : n <= length outer -> n <= length res ->
  DemoBase.for_each (append_one outer) res (range (Z.of_nat n)) = DOk (grown n outer res).
Proof.
  induction n as [|n IH]; intros H1 H2.
  - change (range (Z.of_nat 0)) with (@nil Z). simpl. f_equal. unfold grown. symmetry.
    apply list_eq. intros j. rewrite list_lookup_imap. by destruct (res !! j).
  - rewrite range_nat_S, for_each_app, IH by lia. cbn [mbind dres_bind DemoBase.for_each].
    rewrite append_step by lia. done.
Qed.
Lemma append_over outer res : length res < length outer ->
  DemoBase.for_each (append_one outer) res (range (Z.of_nat (length outer))) = DErr DIndexError.
Proof.
  intros H. replace (length outer) with (S (length res) + (length outer - S (length res))) by lia.
  generalize (length outer - S (length res)) as d. intros d. induction d as [|d IH].
  - rewrite Nat.add_0_r, range_nat_S, for_each_app, append_all by lia. cbn [mbind dres_bind DemoBase.for_each].
    unfold append_one. rewrite (py_get_over (grown (length res) outer res)); [done|]. unfold grown. rewrite imap_length. lia.
  - rewrite Nat.add_succ_r, range_nat_S. by apply for_each_err.
Qed.

Definition add_row : list (list A) -> list A -> dres (list (list A)) := fun res outer =>
  DemoBase.for_each (append_one outer) res (range (Z.of_nat (length outer))).
Lemma add_row_ok outer res : length outer <= length res -> add_row res outer = DOk (grown (length outer) outer res).
Proof. intros H. by apply append_all. Qed.
Lemma add_row_over outer res : length res < length outer -> add_row res outer = DErr DIndexError.
Proof. apply append_over. Qed.
Lemma rows_loop (rows : list (list A)) : forall res, (forall row, row ∈ rows -> length row <= length res) ->
  exists r, DemoBase.for_each add_row res rows = DOk r /\ length r = length res /\
    forall j, r !! j = (fun row => row ++ column rows j) <$> res !! j.
Proof.
  induction rows as [|outer rows IH]; intros res Hl; simpl.
  - exists res. split; [done|]. split; [done|]. intros j. destruct (res !! j); simpl; [|done]. by rewrite app_nil_r.
  - rewrite add_row_ok by (apply Hl; left). cbn [mbind dres_bind].
    destruct (IH (grown (length outer) outer res)) as (r & Hr & Hlen & Hj).
    { intros row Hrow. unfold grown. rewrite imap_length. apply Hl. by right. }
    exists r. split; [done|]. split; [rewrite Hlen; apply imap_length|].
    intros j. rewrite Hj. unfold grown. rewrite list_lookup_imap. destruct (res !! j) as [row|]; simpl; [|done]. f_equal.
    destruct (Nat.ltb_spec j (length outer)).
    + destruct (lookup_lt_is_Some_2 outer j) as [x Hx]; [done|]. rewrite Hx. simpl. by rewrite <- app_assoc.
    + rewrite (lookup_ge_None_2 outer j) by lia. done.
Qed.
Lemma rows_fail (rows : list (list A)) : forall res row, row ∈ rows -> length res < length row ->
  DemoBase.for_each add_row res rows = DErr DIndexError.
Proof.
  induction rows as [|outer rows IH]; intros res row Hrow Hl; [by apply elem_of_nil in Hrow|]. simpl.
  destruct (decide (length outer <= length res)).
  - rewrite add_row_ok by lia. cbn [mbind dres_bind]. apply elem_of_cons in Hrow as [->|Hrow]; [lia|].
    eapply IH; [done|]. unfold grown. rewrite imap_length. done.
  - rewrite add_row_over by lia. done.
Qed.

Lemma invert_unfold a : array_invert a = DemoBase.for_each add_row ((fun _ => []) <$> a) a.
Proof. done. Qed.
Lemma invert_lemma a : (forall row, row ∈ a -> length row <= length a) ->
  exists r, array_invert a = DOk r /\ length r = length a /\ forall j, j < length a -> r !! j = Some (column a j).
Proof.
  intros H. rewrite invert_unfold. destruct (rows_loop a ((fun _ => []) <$> a)) as (r & Hr & Hlen & Hj).
  { intros row Hrow. rewrite fmap_length. by apply H. }
  exists r. split; [done|]. rewrite fmap_length in Hlen. split; [done|]. intros j Hlt. rewrite Hj, list_lookup_fmap.
  destruct (lookup_lt_is_Some_2 a j Hlt) as [x Hx]. by rewrite Hx.
Qed.
Lemma invert_fail a row : row ∈ a -> length a < length row -> array_invert a = DErr DIndexError.
Proof. intros H1 H2. rewrite invert_unfold. eapply rows_fail; [done|]. by rewrite fmap_length. Qed.
End invert.

(** Cells of a matrix in reading order *)
Section cells.
Context {A : Type} `{EqDecision A}.

Definition holds_at (m : list (list A)) (v : A) (c : Z * Z) : Prop :=
  exists row, m !! Z.to_nat c.1 = Some row /\ row !! Z.to_nat c.2 = Some v.
Global Instance holds_at_dec m v c : Decision (holds_at m v c).
Proof.
  unfold holds_at. destruct (m !! Z.to_nat c.1) as [row|]; [|right; naive_solver].
  destruct (decide (row !! Z.to_nat c.2 = Some v)); [left; naive_solver|right; naive_solver].
Defined.

Definition look (m : list (list A)) (v : A) : list (Z * Z) -> Z * Z -> dres (list (Z * Z)) := fun cells '(r, c) =>
  row ← py_get m r; x ← py_get row c; DOk (if decide (x = v) then cells ++ [(r, c)] else cells).

Lemma look_loop m v (L : list (Z * Z)) : forall cells,
  (forall c, c ∈ L -> (0 <= c.1)%Z /\ (0 <= c.2)%Z /\ exists row x, m !! Z.to_nat c.1 = Some row /\ row !! Z.to_nat c.2 = Some x) ->
  DemoBase.for_each (look m v) cells L = DOk (cells ++ filter (holds_at m v) L).
Proof.
  induction L as [|[r c] L IH]; intros cells H; simpl; [by rewrite app_nil_r|].
  destruct (H (r, c)) as (H1 & H2 & row & x & Hrow & Hx); [left|]. simpl in *.
  rewrite (py_get_lookup _ _ _ H1 Hrow). cbn [mbind dres_bind]. rewrite (py_get_lookup _ _ _ H2 Hx). cbn [mbind dres_bind].
  rewrite IH by (intros; apply H; by right). rewrite filter_cons. destruct (decide (x = v)) as [->|].
  - rewrite decide_True by (by exists row). by rewrite <- app_assoc.
  - rewrite decide_False; [done|]. intros (row' & Hr' & Hx'). simpl in *. congruence.
Qed.

Definition grid_cells (n w : nat) : list (Z * Z) := r ← range (Z.of_nat n); c ← range (Z.of_nat w); [(r, c)].
Lemma elem_grid_cells n w c : c ∈ grid_cells n w <-> (0 <= c.1 < Z.of_nat n)%Z /\ (0 <= c.2 < Z.of_nat w)%Z.
Proof.
  unfold grid_cells. rewrite elem_of_list_bind. split.
  - intros (r & Hc & Hr). apply elem_of_list_bind in Hc as (k & Hk%elem_of_list_singleton & Hk').
    subst c. by rewrite <- !elem_of_range.
  - intros [H1 H2]. exists c.1. rewrite elem_of_range. split; [|done]. apply elem_of_list_bind.
    exists c.2. rewrite elem_of_range. split; [|done]. apply elem_of_list_singleton. by destruct c.
Qed.
Lemma sorted_app {X} (R : X -> X -> Prop) l k : StronglySorted R l -> StronglySorted R k ->
  (forall x y, x ∈ l -> y ∈ k -> R x y) -> StronglySorted R (l ++ k).
Proof.
  induction 1 as [|x l Hl IH Hx]; intros Hk H; simpl; [done|]. constructor.
  - apply IH; [done|]. intros y z Hy Hz. apply H; [by right|done].
  - rewrite Forall_app. split; [done|]. apply Forall_forall. intros y Hy. apply H; [left|done].
Qed.
Lemma sorted_filter {X} (R : X -> X -> Prop) (P : X -> Prop) `{forall x, Decision (P x)} l :
  StronglySorted R l -> StronglySorted R (filter P l).
Proof.
  induction 1 as [|x l Hl IH Hx]; [constructor|]. rewrite filter_cons. destruct (decide (P x)); [|done].
  constructor; [done|]. rewrite Forall_forall in *. intros y Hy. apply Hx. by apply elem_of_list_filter in Hy as [_ Hy].
Qed.
Lemma sorted_cells n w : StronglySorted reads_before (grid_cells n w).
Proof.
  assert (forall r, StronglySorted reads_before (c ← range (Z.of_nat w); [(r, c)])) as Hrow.
  { intros r. induction w as [|w IH]; [constructor|]. rewrite range_nat_S, bind_app. apply sorted_app; [done|repeat constructor|].
    intros x y Hx Hy%elem_of_list_singleton. apply elem_of_list_bind in Hx as (k & Hk%elem_of_list_singleton & Hr%elem_of_range).
    subst. right. simpl. lia. }
  induction n as [|n IH]; [constructor|]. unfold grid_cells in *. rewrite range_nat_S, bind_app. apply sorted_app; [done| |].
  - simpl. rewrite app_nil_r. apply Hrow.
  - intros x y Hx Hy. apply elem_grid_cells in Hx. simpl in Hy. rewrite app_nil_r in Hy.
    apply elem_of_list_bind in Hy as (k & Hk%elem_of_list_singleton & _). subst. left. simpl. lia.
Qed.

Lemma matrix_lemma (row0 : list A) rows v : let m := row0 :: rows in
  (forall row, row ∈ m -> length row0 <= length row) ->
  exists cells, matrix_as_list m v = DOk cells /\ StronglySorted reads_before cells /\
    (forall c, c ∈ cells -> (0 <= c.1)%Z /\ (0 <= c.2)%Z) /\
    forall i j : nat, (Z.of_nat i, Z.of_nat j) ∈ cells <-> j < length row0 /\ exists row, m !! i = Some row /\ row !! j = Some v.
Proof.
  intros m Hm. exists (filter (holds_at m v) (grid_cells (length m) (length row0))). split; [|split; [|split]].
  - unfold matrix_as_list. change (py_get m 0) with (DOk row0 : dres (list A)). cbn [mbind dres_bind].
    fold (grid_cells (length m) (length row0)). change (DemoBase.for_each (look m v) [] (grid_cells (length m) (length row0)) = DOk ([] ++ filter (holds_at m v) (grid_cells (length m) (length row0)))).
    apply look_loop. intros [r c] [H1 H2]%elem_grid_cells. simpl in *. split; [lia|]. split; [lia|].
    destruct (lookup_lt_is_Some_2 m (Z.to_nat r)) as [row Hrow]; [simpl; lia|].
    destruct (lookup_lt_is_Some_2 row (Z.to_nat c)) as [x Hx].
    { apply elem_of_list_lookup_2 in Hrow. apply Hm in Hrow. lia. }
    by exists row, x.
  - apply sorted_filter, sorted_cells.
  - intros c [_ Hc]%elem_of_list_filter. apply elem_grid_cells in Hc. lia.
  - intros i j. rewrite elem_of_list_filter, elem_grid_cells. unfold holds_at. simpl. rewrite !Nat2Z.id. split.
    + intros [(row & H1 & H2) [_ H3]]. split; [lia|]. by exists row.
    + intros [Hj (row & H1 & H2)]. split; [by exists row|]. split; [|lia]. apply lookup_lt_Some in H1. simpl in H1. lia.
Qed.
Lemma matrix_empty (v : A) : matrix_as_list [] v = DErr DIndexError.
Proof. done. Qed.
Lemma look_fail m v (L : list (Z * Z)) c : forall cells, c ∈ L ->
  (forall c, c ∈ L -> (0 <= c.1 < Z.of_nat (length m))%Z /\ (0 <= c.2)%Z) ->
  (forall row, m !! Z.to_nat c.1 = Some row -> length row <= Z.to_nat c.2) ->
  DemoBase.for_each (look m v) cells L = DErr DIndexError.
Proof.
  induction L as [|[r k] L IH]; intros cells Hc HL Hs; [by apply elem_of_nil in Hc|]. simpl.
  destruct (HL (r, k)) as [H1 H2]; [left|]. simpl in *.
  destruct (lookup_lt_is_Some_2 m (Z.to_nat r)) as [row Hrow]; [lia|].
  rewrite (py_get_lookup _ _ _ (proj1 H1) Hrow). cbn [mbind dres_bind].
  destruct (row !! Z.to_nat k) as [x|] eqn:Hx.
  - rewrite (py_get_lookup _ _ _ H2 Hx). cbn [mbind dres_bind]. apply elem_of_cons in Hc as [->|Hc].
    + simpl in *. apply Hs in Hrow. apply lookup_lt_Some in Hx. lia.
    + apply IH; [done| |done]. intros y Hy. apply HL. by right.
  - apply lookup_ge_None_1 in Hx. rewrite <- (Z2Nat.id k) by done. by rewrite py_get_over.
Qed.
Lemma matrix_short (row0 : list A) rows row v : row ∈ rows -> length row < length row0 -> matrix_as_list (row0 :: rows) v = DErr DIndexError.
Proof.
  intros Hrow Hl. apply elem_of_list_lookup_1 in Hrow as [i Hi].
  unfold matrix_as_list. change (py_get (row0 :: rows) 0) with (DOk row0 : dres (list A)). cbn [mbind dres_bind].
  apply (look_fail (row0 :: rows) v (grid_cells (length (row0 :: rows)) (length row0)) (Z.of_nat (S i), Z.of_nat (length row))).
  - apply elem_grid_cells. apply lookup_lt_Some in Hi. simpl. lia.
  - intros c Hc%elem_grid_cells. lia.
  - intros row' H. cbn [fst snd] in *. rewrite Nat2Z.id in H |- *. assert (Some row = Some row') as [= <-]; [|done]. rewrite <- H, <- Hi. reflexivity.
Qed.
End cells.
