(** * PropsUtil: containers, counters and matrices of the demo (C64) *)

From Coq Require Import ZArith Lia String Sorting.Sorted.
From stdpp Require Import base list numbers option strings.
From Verif Require Import SpecUtil UtilFacts CounterFacts MatrixFacts.

(** ** Containers *)

(** Whatever calls a client makes, and however heapq arranges the entries, a priority queue answers as it should: the item
    of the least priority that has waited longest is served, [update] lowers a priority and never raises it. *)
Theorem C64_priority_queue {A} `{EqDecision A} (o : oracle) (cs : list (call_of A)) :
  calls by_priority [] cs (pq_calls o pq_new cs).
Proof. exact (pq_calls_lemma cs o pq_new [] new_holds). Qed.

(** While no item waits twice, this says what the answer is and what waits afterwards. *)
Theorem C64_priority_queue_determined {A} (l : list (Z * A)) c a1 l1 a2 l2 : NoDup l.*2 ->
  by_priority l c a1 l1 -> by_priority l c a2 l2 -> a1 = a2 /\ l1 = l2.
Proof. exact (by_priority_unique l c a1 l1 a2 l2). Qed.

(** All pushes, then all pops: sorted by priority, and by arrival among equals. *)
Theorem C64_heap_sort {A} `{EqDecision A} (o : oracle) (l : list (Z * A)) :
  exists k, stably_sorted l k /\
    pq_calls o pq_new (((fun e : Z * A => CPush e.2 e.1) <$> l) ++ replicate (length l) CPop) =
    replicate (length l) ANone ++ ((fun e : Z * A => AItem e.2) <$> k).
Proof. exact (heap_sort_lemma o l). Qed.

Theorem C64_stack {A} (cs : list (call_of A)) : calls lifo [] cs (list_calls stack_push [] cs).
Proof. exact (stack_lemma cs []). Qed.
Theorem C64_queue {A} (cs : list (call_of A)) : calls fifo [] cs (list_calls queue_push [] cs).
Proof. exact (queue_lemma cs []). Qed.

(** With a priority function, pushing is pushing with the priority of the function.  The inherited [update] of an item
    that does not wait should push it, but raises [TypeError]. *)
Theorem C64_with_function {A} `{EqDecision A} (f : A -> Z) o q x : (ANone, pqf_push f o q x) = pq_call o q (CPush x (f x)).
Proof. done. Qed.
Theorem C64_with_function_update_refuted : exists (q : pqueue nat) (x : nat) (p : Z),
  x ∉ (pq_heap q).*2 /\ forall o, pqf_update o q x p = DErr DTypeError.
Proof. exists pq_new, 0, 1%Z. split; [apply not_elem_of_nil|done]. Qed.

Example C64_queue_example :
  pq_calls (fun p => [length p; 1]) pq_new
    [CPush "a" 2%Z; CPush "b" 1%Z; CPush "c" 2%Z; CUpdate "c" 0%Z; CUpdate "b" 5%Z; CPop; CPop; CPop; CPop; CEmpty]%string =
  [ANone; ANone; ANone; ANone; ANone; AItem "c"; AItem "b"; AItem "a"; ARaise DIndexError; ABool true]%string.
Proof. vm_compute. reflexivity. Qed.
Example C64_sorted_example : stably_sorted [(2, "a"); (1, "b"); (2, "c"); (1, "d")]%Z%string [(1, "b"); (1, "d"); (2, "a"); (2, "c")]%Z%string.
Proof.
  split; [|split].
  - by apply (bool_decide_eq_true_1 _); vm_compute.
  - repeat constructor; simpl; lia.
  - intros p. rewrite !filter_cons. simpl. destruct (decide (1 = p)%Z), (decide (2 = p)%Z); try done. lia.
Qed.
Example C64_determined_example : NoDup [(2, "a"); (1, "b"); (2, "c")]%Z%string.*2.
Proof. apply (bool_decide_eq_true_1 _). vm_compute. reflexivity. Qed.

(** ** Counters *)
Section counters.
Context {K : Type} `{EqDecision K}.
Implicit Types (a b c d : list (K * Z)).

(** [c[k]] is the count; no count changes, but [k] is a key afterwards. *)
Theorem C64_item c k : dict c ->
  counts c k (ct_item k c).1 /\ dict (ct_item k c).2 /\
  (forall k' v, counts (ct_item k c).2 k' v <-> counts c k' v) /\
  (forall k', k' ∈ (ct_item k c).2.*1 <-> k' = k \/ k' ∈ c.*1).
Proof. exact (item_lemma c k). Qed.

Theorem C64_increment_all keys n c : dict c ->
  dict (ct_increment_all keys n c) /\
  (forall k, k ∈ (ct_increment_all keys n c).*1 <-> k ∈ keys \/ k ∈ c.*1) /\
  (forall k v, counts c k v -> counts (ct_increment_all keys n c) k (v + n * occurrences k keys)%Z).
Proof. exact (increment_all_lemma keys n c). Qed.

(** [ks]: any list of different keys with all keys of the counter. *)
Theorem C64_total c f ks : dict c -> (forall k, counts c k (f k)) -> NoDup ks -> (forall k, k ∈ c.*1 -> k ∈ ks) ->
  ct_total c = sum_over ks f.
Proof. exact (total_lemma c f ks). Qed.

(** The sum and the difference: the union of the keys, and the counts key by key. *)
Theorem C64_add a b : dict a -> dict b ->
  dict (ct_add a b) /\ (forall k, k ∈ (ct_add a b).*1 <-> k ∈ a.*1 \/ k ∈ b.*1) /\
  forall k x y, counts a k x -> counts b k y -> counts (ct_add a b) k (x + y).
Proof. exact (add_lemma a b). Qed.
Theorem C64_sub a b : dict a -> dict b ->
  dict (ct_sub a b) /\ (forall k, k ∈ (ct_sub a b).*1 <-> k ∈ a.*1 \/ k ∈ b.*1) /\
  forall k x y, counts a k x -> counts b k y -> counts (ct_sub a b) k (x - y).
Proof. exact (sub_lemma a b). Qed.

(** The dot product, over any list of different keys with the common ones. *)
Theorem C64_mul a b f g ks : dict a -> dict b ->
  (forall k, counts a k (f k)) -> (forall k, counts b k (g k)) ->
  NoDup ks -> (forall k, k ∈ a.*1 -> k ∈ b.*1 -> k ∈ ks) ->
  ct_mul a b = sum_over ks (fun k => f k * g k)%Z.
Proof. exact (mul_lemma a b f g ks). Qed.

(** [d + c] with a plain dictionary [d] on the left has the result [None] and adds [d] to [c]. *)
Theorem C64_radd d c : dict c -> dict d -> exists c', ct_radd c (LDict d) = DOk (None, c') /\ dict c' /\
  (forall k, k ∈ c'.*1 <-> k ∈ c.*1 \/ k ∈ d.*1) /\
  forall k x y, counts c k x -> counts d k y -> counts c' k (x + y).
Proof. exact (radd_lemma d c). Qed.
End counters.

(** Documented, but not so: the key of the highest count and the keys by count (for any counter with a key, and for any
    counter); [0 + c], as in [sum] of a list of counters. *)
Theorem C64_arg_max_refuted : forall c : list (nat * Z), c <> [] -> ct_arg_max c = DErr DTypeError.
Proof. by intros []. Qed.
Example C64_arg_max_case : [(0, 5%Z)] <> [] /\ dict [(0, 5%Z)].
Proof. split; [done|apply NoDup_singleton]. Qed.
Theorem C64_sorted_keys_refuted : forall c : list (nat * Z), ct_sorted_keys c = DErr DAttributeError.
Proof. done. Qed.
Theorem C64_zero_plus_refuted : forall c : list (nat * Z), ct_radd c LNumber = DErr DAttributeError.
Proof. done. Qed.

(** The counters in the documentation (util.py:401-408, 427-434). *)
Definition doc_a : list (string * Z) := [("first", -2); ("second", 4)]%Z%string.
Definition doc_b : list (string * Z) := [("first", 3); ("third", 1)]%Z%string.
Example C64_doc_dicts : dict doc_a /\ dict doc_b.
Proof. split; apply (bool_decide_eq_true_1 _); vm_compute; reflexivity. Qed.
Example C64_doc : ct_add doc_a doc_b = [("first", 1); ("second", 4); ("third", 1)]%Z%string /\
  ct_sub doc_a doc_b = [("first", -5); ("second", 4); ("third", -1)]%Z%string /\ ct_mul doc_a doc_b = (-6)%Z /\ ct_total doc_a = 2%Z.
Proof. repeat split. Qed.
Example C64_doc_counts : counts doc_a "first"%string (-2) /\ counts doc_a "fourth"%string 0.
Proof. split; [left; left|right]. split; [|done]. apply (bool_decide_eq_false_1 _). vm_compute. reflexivity. Qed.

(** ** Matrices *)

(** [arrayInvert]: row [j] of the result is column [j]; there are as many rows as before, so rows without entries follow
    if the matrix is higher than wide.  A row that is longer than the matrix is high raises [IndexError]. *)
Theorem C64_array_invert {A} (a : list (list A)) : (forall row, row ∈ a -> length row <= length a) ->
  exists r, array_invert a = DOk r /\ length r = length a /\ forall j, j < length a -> r !! j = Some (column a j).
Proof. exact (invert_lemma a). Qed.
Theorem C64_array_invert_wide_refuted {A} (a : list (list A)) row : row ∈ a -> length a < length row -> array_invert a = DErr DIndexError.
Proof. exact (invert_fail a row). Qed.
Example C64_invert_square : array_invert [[1; 2]; [3; 4]] = DOk [[1; 3]; [2; 4]].
Proof. reflexivity. Qed.
Example C64_invert_high : array_invert [[1]; [2]] = DOk [[1; 2]; []].
Proof. reflexivity. Qed.
Example C64_invert_wide : array_invert [[1; 2]] = DErr DIndexError.
Proof. reflexivity. Qed.

(** [matrixAsList]: the cells with the value, in reading order. *)
Theorem C64_matrix_as_list {A} `{EqDecision A} (row0 : list A) rows v :
  (forall row, row ∈ row0 :: rows -> length row0 <= length row) ->
  exists cells, matrix_as_list (row0 :: rows) v = DOk cells /\ StronglySorted reads_before cells /\
    (forall c, c ∈ cells -> (0 <= c.1)%Z /\ (0 <= c.2)%Z) /\
    forall i j : nat, (Z.of_nat i, Z.of_nat j) ∈ cells <->
      j < length row0 /\ exists row, (row0 :: rows) !! i = Some row /\ row !! j = Some v.
Proof. exact (matrix_lemma row0 rows v). Qed.
Theorem C64_matrix_raises {A} `{EqDecision A} (m : list (list A)) v :
  (m = [] \/ exists row0 rows row, m = row0 :: rows /\ row ∈ rows /\ length row < length row0) ->
  matrix_as_list m v = DErr DIndexError.
Proof. intros [->|(row0 & rows & row & -> & H1 & H2)]; [done|]. exact (matrix_short row0 rows row v H1 H2). Qed.
Example C64_matrix : matrix_as_list [[true; false]; [false; true]] true = DOk [(0, 0); (1, 1)]%Z.
Proof. reflexivity. Qed.

Print Assumptions C64_priority_queue.
Print Assumptions C64_priority_queue_determined.
Print Assumptions C64_heap_sort.
Print Assumptions C64_stack.
Print Assumptions C64_queue.
Print Assumptions C64_with_function.
Print Assumptions C64_with_function_update_refuted.
Print Assumptions C64_item.
Print Assumptions C64_increment_all.
Print Assumptions C64_total.
Print Assumptions C64_add.
Print Assumptions C64_sub.
Print Assumptions C64_mul.
Print Assumptions C64_radd.
Print Assumptions C64_arg_max_refuted.
Print Assumptions C64_sorted_keys_refuted.
Print Assumptions C64_zero_plus_refuted.
Print Assumptions C64_array_invert.
Print Assumptions C64_array_invert_wide_refuted.
Print Assumptions C64_matrix_as_list.
Print Assumptions C64_matrix_raises.
