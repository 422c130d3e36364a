(** * DemoGridFacts: Python lists and grids of the demo *)

From Coq Require Import ZArith Lia.
From stdpp Require Import base list list_numbers numbers option.
From Verif Require Import SpecPacman.

Lemma bind_DOk {A B} (r : dres A) (f : A -> dres B) b : (r ≫= f) = DOk b -> exists a, r = DOk a /\ f a = DOk b.
Proof. destruct r; simpl; [eauto|discriminate]. Qed.

Lemma py_get_lookup {A} (l : list A) (i : Z) a :
  (0 <= i)%Z -> l !! Z.to_nat i = Some a -> py_get l i = DOk a.
Proof.
  intros Hi Hl. unfold py_get, py_index. pose proof (lookup_lt_Some _ _ _ Hl) as Hlt.
  destruct (Z.ltb_spec i 0) as [|_]; [lia|].
  destruct (Z.leb_spec 0 i) as [_|]; [|lia]. destruct (Z.ltb_spec i (Z.of_nat (length l))) as [_|]; [|lia].
  simpl. by rewrite Hl.
Qed.

Lemma py_get_inv {A} (l : list A) (i : Z) a :
  (0 <= i)%Z -> py_get l i = DOk a -> l !! Z.to_nat i = Some a.
Proof.
  intros Hi. unfold py_get, py_index. destruct (Z.ltb_spec i 0) as [|_]; [lia|].
  destruct (_ && _); [|discriminate]. destruct (l !! Z.to_nat i); [|discriminate]. by intros [= ->].
Qed.

Lemma py_set_lookup {A} (l : list A) (i : Z) a :
  (0 <= i < Z.of_nat (length l))%Z -> py_set l i a = DOk (<[Z.to_nat i := a]> l).
Proof.
  intros Hi. unfold py_set, py_index. destruct (Z.ltb_spec i 0) as [|_]; [lia|].
  destruct (Z.leb_spec 0 i) as [_|]; [|lia]. destruct (Z.ltb_spec i (Z.of_nat (length l))) as [_|]; [|lia]. done.
Qed.

Lemma py_set_inv {A} (l l' : list A) (i : Z) a :
  (0 <= i)%Z -> py_set l i a = DOk l' -> (i < Z.of_nat (length l))%Z /\ l' = <[Z.to_nat i := a]> l.
Proof.
  intros Hi. unfold py_set, py_index. destruct (Z.ltb_spec i 0) as [|_]; [lia|].
  destruct (Z.leb_spec 0 i) as [_|]; [|lia]. destruct (Z.ltb_spec i (Z.of_nat (length l))) as [?|]; [|discriminate].
  by intros [= <-].
Qed.

Lemma seq_lookup (n k : nat) : k < n -> seq 0 n !! k = Some k.
Proof. intros Hk. apply lookup_seq. lia. Qed.

Lemma range_lookup_lt (n : Z) k : k < Z.to_nat n -> range n !! k = Some (Z.of_nat k).
Proof. intros Hk. unfold range. by rewrite list_lookup_fmap, seq_lookup. Qed.

Lemma range_length (n : Z) : length (range n) = Z.to_nat n.
Proof. unfold range. by rewrite fmap_length, seq_length. Qed.

Lemma elem_of_range (n i : Z) : i ∈ range n <-> (0 <= i < n)%Z.
Proof.
  unfold range. rewrite elem_of_list_fmap. split.
  - intros (k & -> & Hk%elem_of_seq). lia.
  - intros Hi. exists (Z.to_nat i). rewrite elem_of_seq. lia.
Qed.

Lemma elem_of_range2 (a b i : Z) : i ∈ range2 a b <-> (a <= i < b)%Z.
Proof.
  unfold range2. rewrite elem_of_list_fmap. split.
  - intros (k & -> & Hk%elem_of_seq). lia.
  - intros Hi. exists (Z.to_nat (i - a)). rewrite elem_of_seq. lia.
Qed.

Lemma range_S (n : Z) : (0 <= n)%Z -> range (n + 1) = range n ++ [n].
Proof.
  intros Hn. unfold range. replace (Z.to_nat (n + 1)) with (Z.to_nat n + 1) by lia.
  rewrite seq_app, fmap_app. simpl. rewrite Z2Nat.id by lia. done.
Qed.

Lemma for_each_app {S A} (f : S -> A -> dres S) s l k :
  for_each f s (l ++ k) = s' ← for_each f s l; for_each f s' k.
Proof.
  revert s. induction l as [|a l IH]; intros s; [done|]. simpl. destruct (f s a); simpl; [apply IH|done].
Qed.

(** ** Cells *)
Lemma cell_Some g x y b :
  cell g (x, y) = Some b <->
  (0 <= x)%Z /\ (0 <= y)%Z /\ exists col, gr_data g !! Z.to_nat x = Some col /\ col !! Z.to_nat y = Some b.
Proof.
  unfold cell. simpl. destruct (Z.leb_spec 0 x), (Z.leb_spec 0 y); simpl.
  1: rewrite bind_Some.
  all: split; intros Hx; try done; try (by destruct Hx as (? & ? & ? & ? & ?)); try lia.
  by destruct Hx as (? & ? & ?).
Qed.

Lemma cell_rect g x y :
  rectangular g -> is_Some (cell g (x, y)) <-> (0 <= x < gr_width g /\ 0 <= y < gr_height g)%Z.
Proof.
  intros [Hw Hh]. split.
  - intros [b Hb%cell_Some]. destruct Hb as (? & ? & col & Hc & Hb).
    pose proof (lookup_lt_Some _ _ _ Hc). pose proof (lookup_lt_Some _ _ _ Hb).
    rewrite Forall_lookup in Hh. specialize (Hh _ _ Hc). lia.
  - intros [Hx Hy]. destruct (lookup_lt_is_Some_2 (gr_data g) (Z.to_nat x)) as [col Hc]; [lia|].
    rewrite Forall_lookup in Hh. specialize (Hh _ _ Hc).
    destruct (lookup_lt_is_Some_2 col (Z.to_nat y)) as [b Hb]; [lia|].
    exists b. rewrite cell_Some. split_and!; [lia..|]. by exists col.
Qed.

Lemma grid_get_cell g x y b : cell g (x, y) = Some b -> grid_get g x y = DOk b.
Proof.
  intros (Hx & Hy & col & Hc & Hb)%cell_Some. unfold grid_get. rewrite (py_get_lookup _ _ col) by done.
  simpl. by apply py_get_lookup.
Qed.

Lemma grid_get_inv g x y b : (0 <= x)%Z -> (0 <= y)%Z -> grid_get g x y = DOk b -> cell g (x, y) = Some b.
Proof.
  intros Hx Hy (col & Hc & Hb)%bind_DOk. apply py_get_inv in Hc; [|done]. apply py_get_inv in Hb; [|done].
  apply cell_Some. split_and!; [done..|]. by exists col.
Qed.

(** ** Counting *)
Definition col_count (l : list bool) (b : bool) : Z := Z.of_nat (length (filter (fun c => c = b) l)).

Lemma col_count_app l k b : col_count (l ++ k) b = (col_count l b + col_count k b)%Z.
Proof. unfold col_count. rewrite list.filter_app, app_length. lia. Qed.

Lemma col_count_cons c l b : col_count (c :: l) b = ((if decide (c = b) then 1 else 0) + col_count l b)%Z.
Proof. unfold col_count. rewrite filter_cons. destruct (decide (c = b)); simpl; lia. Qed.

Lemma col_count_insert l i b c v :
  l !! i = Some b ->
  col_count (<[i := c]> l) v
  = (col_count l v - (if decide (b = v) then 1 else 0) + (if decide (c = v) then 1 else 0))%Z.
Proof.
  revert i. induction l as [|d l IH]; intros [|i] Hi; simplify_eq/=; rewrite !col_count_cons.
  - lia.
  - rewrite (IH _ Hi). lia.
Qed.

Definition data_count (d : list (list bool)) (b : bool) : Z :=
  fold_right (fun l n => (col_count l b + n)%Z) 0%Z d.

Lemma data_count_insert d i col col' v :
  d !! i = Some col -> data_count (<[i := col']> d) v = (data_count d v - col_count col v + col_count col' v)%Z.
Proof.
  revert i. induction d as [|e d IH]; intros [|i] Hi; simplify_eq/=; [lia|]. rewrite (IH _ Hi). lia.
Qed.

Lemma grid_count_data g b : grid_count g b = data_count (gr_data g) b.
Proof. done. Qed.

Lemma col_count_nonneg l b : (0 <= col_count l b)%Z.
Proof. unfold col_count. lia. Qed.

Lemma data_count_nonneg d b : (0 <= data_count d b)%Z.
Proof. induction d as [|c d IH]; simpl; [lia|]. pose proof (col_count_nonneg c b). lia. Qed.

Lemma col_count_zero l b : col_count l b = 0%Z <-> b ∉ l.
Proof.
  induction l as [|c l IH]; [split; [intros _; apply not_elem_of_nil|done]|].
  rewrite col_count_cons, not_elem_of_cons. pose proof (col_count_nonneg l b).
  destruct (decide (c = b)) as [->|Hne]; split; intros Hx.
  - lia.
  - by destruct Hx.
  - split; [congruence|]. apply IH. lia.
  - destruct Hx as [_ Hx]. apply IH in Hx. lia.
Qed.

Lemma grid_count_zero g b : grid_count g b = 0%Z <-> forall x y, cell g (x, y) <> Some b.
Proof.
  rewrite grid_count_data. split.
  - intros H0 x y (Hx & Hy & col & Hc & Hb)%cell_Some.
    assert (Hin : col ∈ gr_data g) by (eapply elem_of_list_lookup_2; done).
    assert (Hz : col_count col b = 0%Z).
    { clear Hc. revert H0 Hin. generalize (gr_data g). induction l as [|e d IH]; simpl; intros H0 Hin; [by apply elem_of_nil in Hin|].
      pose proof (col_count_nonneg e b). pose proof (data_count_nonneg d b). 
      apply elem_of_cons in Hin as [->|Hin]; [lia|]. apply IH; [lia|done]. }
    apply col_count_zero in Hz. apply Hz. by eapply elem_of_list_lookup_2.
  - intros Hno. assert (Hall : forall i col, gr_data g !! i = Some col -> b ∉ col).
    { intros i col Hc Hin. apply elem_of_list_lookup in Hin as [j Hj].
      apply (Hno (Z.of_nat i) (Z.of_nat j)). apply cell_Some. split_and!; [lia..|]. exists col. by rewrite !Nat2Z.id. }
    revert Hall. generalize (gr_data g). induction l as [|e d IH]; intros Hall; [done|]. simpl.
    rewrite IH by (intros i; apply (Hall (S i))). assert (Hz : col_count e b = 0%Z) by (apply col_count_zero, (Hall 0); done). lia.
Qed.

Lemma grid_count_nonneg g b : (0 <= grid_count g b)%Z.
Proof. apply data_count_nonneg. Qed.

(** ** Writing a cell *)
Lemma grid_set_cell g x y b0 b :
  cell g (x, y) = Some b0 ->
  exists g', grid_set g x y b = DOk g' /\ gr_width g' = gr_width g /\ gr_height g' = gr_height g /\
    (rectangular g -> rectangular g') /\
    (forall c, cell g' c = if decide (c = (x, y)) then Some b else cell g c) /\
    (forall v, grid_count g' v
       = (grid_count g v - (if decide (b0 = v) then 1 else 0) + (if decide (b = v) then 1 else 0))%Z).
Proof.
  intros (Hx & Hy & col & Hc & Hb)%cell_Some.
  pose proof (lookup_lt_Some _ _ _ Hc) as Hlc. pose proof (lookup_lt_Some _ _ _ Hb) as Hlb.
  eexists. split_and!.
  - unfold grid_set. rewrite (py_get_lookup _ _ col) by done. simpl.
    rewrite py_set_lookup by lia. simpl. rewrite py_set_lookup by lia. simpl. reflexivity.
  - done.
  - done.
  - intros [Hw Hh]. split; simpl.
    + by rewrite insert_length.
    + apply Forall_insert; [done|]. rewrite insert_length. rewrite Forall_lookup in Hh. by apply (Hh (Z.to_nat x)).
  - intros [x' y']. unfold cell. simpl.
    destruct (Z.leb_spec 0 x'), (Z.leb_spec 0 y'); simpl; [|destruct (decide _); [simplify_eq; lia|done]..].
    destruct (decide (Z.to_nat x' = Z.to_nat x)) as [Ex|Ex].
    + rewrite Ex, list_lookup_insert by done. simpl. rewrite Hc. simpl.
      destruct (decide (Z.to_nat y' = Z.to_nat y)) as [Ey|Ey].
      * rewrite Ey, list_lookup_insert by done. rewrite decide_True; [done|]. f_equal; lia.
      * rewrite list_lookup_insert_ne by done. rewrite decide_False; [done|]. intros [= -> ->]. done.
    + rewrite list_lookup_insert_ne by done. rewrite decide_False; [done|]. intros [= -> ->]. done.
  - intros v. rewrite !grid_count_data. simpl. rewrite (data_count_insert _ _ col) by done.
    rewrite (col_count_insert _ _ b0) by done. lia.
Qed.

(** Grids of one size are equal if their cells are. *)
Lemma grid_ext g g' :
  rectangular g -> rectangular g' -> gr_width g = gr_width g' -> gr_height g = gr_height g' ->
  (forall c, cell g c = cell g' c) -> g = g'.
Proof.
  intros [Hw Hh] [Hw' Hh'] Ew Eh Hc. destruct g as [w h d], g' as [w' h' d']; simpl in *. rewrite <- Ew, <- Eh in *. f_equal.
  apply list_eq. intros i. rewrite Forall_lookup in Hh, Hh'.
  destruct (d !! i) as [col|] eqn:E, (d' !! i) as [col'|] eqn:E'.
  - f_equal. apply list_eq. intros j. specialize (Hc (Z.of_nat i, Z.of_nat j)). unfold cell in Hc. simpl in Hc.
    destruct (Z.leb_spec 0 (Z.of_nat i)), (Z.leb_spec 0 (Z.of_nat j)); [|lia..]. simpl in Hc.
    rewrite !Nat2Z.id, E, E' in Hc. done.
  - apply lookup_lt_Some in E. apply lookup_ge_None in E'. lia.
  - apply lookup_lt_Some in E'. apply lookup_ge_None in E. lia.
  - done.
Qed.

Lemma grid_new_rect w h b : (0 <= w)%Z -> (0 <= h)%Z -> rectangular (grid_new w h b).
Proof.
  intros Hw Hh. split; simpl.
  - rewrite fmap_length, range_length. lia.
  - apply Forall_fmap, Forall_true. intros x. simpl. rewrite fmap_length, range_length. lia.
Qed.

Lemma grid_new_cell w h b x y :
  (0 <= x < w)%Z -> (0 <= y < h)%Z -> cell (grid_new w h b) (x, y) = Some b.
Proof.
  intros Hx Hy. apply cell_Some. split_and!; [lia..|]. eexists. split.
  - simpl. rewrite list_lookup_fmap. rewrite range_lookup_lt by lia. reflexivity.
  - rewrite list_lookup_fmap. rewrite range_lookup_lt by lia. reflexivity.
Qed.
