(** * Util: containers of the demo (demo/util.py)

    Counters have integer counts here; the floats of [normalize] and sampling are in Agents.v.  A counter is a dictionary
    in the order of insertion ([ct_set], [ct_get] in Agents.v). *)

From Coq Require Import ZArith.
From stdpp Require Import base list numbers option.
From Verif Require Export Base DemoBase Agents.

(** ** Stack and Queue (util.py:133-168); the end of the Python list is the end of the list here *)
Section lists.
Context {A : Type}.

Definition stack_push (x : A) (l : list A) : list A := l ++ [x].
Definition queue_push (x : A) (l : list A) : list A := x :: l.
(** [list.pop()] *)
Definition list_pop (l : list A) : dres (A * list A) :=
  match last l with Some x => DOk (x, removelast l) | None => DErr DIndexError end.
Definition list_empty (l : list A) : bool := (length l =? 0)%nat.
End lists.

(** ** PriorityQueue (util.py:170-222)

    [heapq] belongs to Python.  Assumed of it: [heappush] adds the entry, [heapify] keeps the entries, [heappop] removes the
    least one (IndexError if there is none).  How the entries are arranged in the list is arbitrary (the oracle).
    Priorities are integers.  The counts of the entries differ, so the items are never compared. *)
Section queue.
Context {A : Type} `{EqDecision A}.

Notation entry := (Z * Z * A)%type.
Record pqueue := PQueue { pq_heap : list entry; pq_count : Z }.
Definition pq_new : pqueue := PQueue [] 0.

(** Tuples are compared by priority, then by count. *)
Definition entry_lt (a b : entry) : bool := (a.1.1 <? b.1.1)%Z || ((a.1.1 =? b.1.1)%Z && (a.1.2 <? b.1.2)%Z).

(** The least entry and the others. *)
Fixpoint take_least (e : entry) (l : list entry) : entry * list entry :=
  match l with
  | [] => (e, [])
  | x :: l => if entry_lt x e then let '(m, r) := take_least x l in (m, e :: r) else let '(m, r) := take_least e l in (m, x :: r)
  end.

(** util.py:181-184 *)
Definition pq_push (o : oracle) (q : pqueue) (item : A) (priority : Z) : pqueue :=
  PQueue (iter_list o ((priority, pq_count q, item) :: pq_heap q)) (pq_count q + 1).

(** util.py:186-188 *)
Definition pq_pop (o : oracle) (q : pqueue) : dres (A * pqueue) :=
  match pq_heap q with
  | [] => DErr DIndexError
  | e :: l => let '(m, r) := take_least e l in DOk (m.2, PQueue (iter_list o r) (pq_count q))
  end.

(** util.py:190-191 *)
Definition pq_empty (q : pqueue) : bool := (length (pq_heap q) =? 0)%nat.

(** util.py:193-206 [update]: the first entry of the item, and the entries around it *)
Fixpoint find_item (item : A) (before l : list entry) : option (list entry * entry * list entry) :=
  match l with
  | [] => None
  | e :: l => if decide (e.2 = item) then Some (before, e, l) else find_item item (before ++ [e]) l
  end.
Definition pq_update (o : oracle) (q : pqueue) (item : A) (priority : Z) : pqueue :=
  match find_item item [] (pq_heap q) with
  | Some (l1, e, l2) =>
      if (e.1.1 <=? priority)%Z then q
      else PQueue (iter_list o ((l1 ++ l2) ++ [(priority, e.1.2, item)])) (pq_count q)
  | None => pq_push o q item priority
  end.

(** util.py:208-222 [PriorityQueueWithFunction] *)
Definition pqf_push (f : A -> Z) (o : oracle) (q : pqueue) (item : A) : pqueue := pq_push o q item (f item).
(** The inherited [update] (util.py:193-206) calls [self.push(item, priority)], which takes one argument here. *)
Definition pqf_update (o : oracle) (q : pqueue) (item : A) (priority : Z) : dres pqueue :=
  match find_item item [] (pq_heap q) with Some _ => DOk (pq_update o q item priority) | None => DErr DTypeError end.
End queue.
Arguments pqueue : clear implicits.

(** ** Clients: a sequence of calls.  [pop] of an empty container raises and changes nothing. *)
Inductive call_of (A : Type) := CPush (x : A) (p : Z) | CPop | CUpdate (x : A) (p : Z) | CEmpty.
Arguments CPush {_} _ _.
Arguments CPop {_}.
Arguments CUpdate {_} _ _.
Arguments CEmpty {_}.
Inductive answer (A : Type) := ANone | AItem (x : A) | ABool (b : bool) | ARaise (e : dexn).
Arguments ANone {_}.
Arguments AItem {_} _.
Arguments ABool {_} _.
Arguments ARaise {_} _.

Section clients.
Context {A : Type} `{EqDecision A}.

Definition pq_call (o : oracle) (q : pqueue A) (c : call_of A) : answer A * pqueue A :=
  match c with
  | CPush x p => (ANone, pq_push o q x p)
  | CPop => match pq_pop o q with DOk (x, q') => (AItem x, q') | DErr e => (ARaise e, q) end
  | CUpdate x p => (ANone, pq_update o q x p)
  | CEmpty => (ABool (pq_empty q), q)
  end.
(** [Stack] and [Queue] have no priorities and no [update]. *)
Definition list_call (push : A -> list A -> list A) (l : list A) (c : call_of A) : answer A * list A :=
  match c with
  | CPush x _ => (ANone, push x l)
  | CPop => match list_pop l with DOk (x, l') => (AItem x, l') | DErr e => (ARaise e, l) end
  | CUpdate _ _ => (ARaise DAttributeError, l)
  | CEmpty => (ABool (list_empty l), l)
  end.

Fixpoint pq_calls (o : oracle) (q : pqueue A) (cs : list (call_of A)) : list (answer A) :=
  match cs with [] => [] | c :: cs => let '(a, q') := pq_call (sub o 0) q c in a :: pq_calls (sub o 1) q' cs end.
Fixpoint list_calls (push : A -> list A -> list A) (l : list A) (cs : list (call_of A)) : list (answer A) :=
  match cs with [] => [] | c :: cs => let '(a, l') := list_call push l c in a :: list_calls push l' cs end.
End clients.

(** ** Counters (util.py:235-446) *)
Section counters.
Context {K : Type} `{EqDecision K}.
Notation counter := (list (K * Z)).

Definition ct_mem (k : K) (c : counter) : bool := bool_decide (k ∈ c.*1).
(** [c[k]] and the counter afterwards *)
Definition ct_item (k : K) (c : counter) : Z * counter := ct_get 0%Z k c.
(** [c[k]] where the key is known to be there *)
Definition ct_val (k : K) (c : counter) : Z := (ct_item k c).1.

(** util.py:279-291 [incrementAll] *)
Definition ct_increment_all (keys : list K) (n : Z) (c : counter) : counter := fold_left (fun c k => ct_incr 0%Z Z.add k n c) keys c.

(** util.py:293-301 [argMax]: [dict.items()] has no index in Python 3. *)
Definition ct_arg_max (c : counter) : dres (option K) := match c with [] => DOk None | _ => DErr DTypeError end.

(** util.py:303-318 [sortedKeys]: [dict.items()] has no method [sort] in Python 3. *)
Definition ct_sorted_keys (c : counter) : dres (list K) := DErr DAttributeError.

(** util.py:320-324 [totalCount] *)
Definition ct_total (c : counter) : Z := fold_left (fun s v => (s + v)%Z) c.*2 0%Z.

(** util.py:352-376 [__mul__] *)
Definition ct_mul (a b : counter) : Z :=
  let '(x, y) := if (length b <? length a)%nat then (b, a) else (a, b) in
  fold_left (fun s k => if ct_mem k y then (s + ct_val k x * ct_val k y)%Z else s) x.*1 0%Z.

(** util.py:396-420 [__add__]; also [a += b], as there is no [__iadd__] *)
Definition ct_add (a b : counter) : counter :=
  let r := fold_left (fun r k => ct_set k (if ct_mem k b then ct_val k a + ct_val k b else ct_val k a)%Z r) a.*1 [] in
  fold_left (fun r k => if ct_mem k a then r else ct_set k (ct_val k b) r) b.*1 r.

(** util.py:422-446 [__sub__] *)
Definition ct_sub (a b : counter) : counter :=
  let r := fold_left (fun r k => ct_set k (if ct_mem k b then ct_val k a - ct_val k b else ct_val k a)%Z r) a.*1 [] in
  fold_left (fun r k => if ct_mem k a then r else ct_set k (-1 * ct_val k b)%Z r) b.*1 r.

(** util.py:378-394 [__radd__]: [d + c] with a plain dictionary [d] comes here; the counter [c] changes and the result is [None].
    With a number, as in [0 + c], there is no [items]. *)
Inductive left_operand := LDict (d : counter) | LNumber.
Definition ct_radd (c : counter) (y : left_operand) : dres (option counter * counter) :=
  match y with
  | LDict d => DOk (None, fold_left (fun c '(k, v) => ct_incr 0%Z Z.add k v c) d c)
  | LNumber => DErr DAttributeError
  end.
End counters.

(** ** Matrices (util.py:553-573) *)

(** util.py:553-561 [arrayInvert] *)
Definition array_invert {A} (a : list (list A)) : dres (list (list A)) :=
  DemoBase.for_each (fun res outer =>
    DemoBase.for_each (fun res (i : Z) =>
      row ← py_get res i; x ← py_get outer i; py_set res i (row ++ [x])) res (range (Z.of_nat (length outer))))
    ((fun _ => []) <$> a) a.

(** util.py:563-573 [matrixAsList] *)
Definition matrix_as_list {A} `{EqDecision A} (m : list (list A)) (v : A) : dres (list (Z * Z)) :=
  row0 ← py_get m 0;
  DemoBase.for_each (fun (cells : list (Z * Z)) '(r, c) =>
    row ← py_get m r; x ← py_get row c; DOk (if decide (x = v) then cells ++ [(r, c)] else cells)) []
    (r ← range (Z.of_nat (length m)); c ← range (Z.of_nat (length row0)); [(r, c)]).
