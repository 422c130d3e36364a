(** * DemoBase: Python lists, exceptions and boolean grids of the demo (demo/game.py) *)

From Coq Require Import ZArith Lia.
From stdpp Require Import base list numbers option.

(** ** Exceptions of the demo *)
Inductive dexn :=
| DIndexError            (* list index out of range *)
| DValueError            (* negative number in a packed grid; [list.remove] *)
| DTypeError             (* an operation that the type does not have in Python 3 *)
| DAttributeError
| DIllegalAction         (* Exception("Illegal action ...") *)
| DIllegalGhostAction    (* Exception("Illegal ghost action ...") *)
| DTerminal              (* Exception("Can't generate a successor of a terminal state.") *)
| DBadGhostIndex         (* Exception("Invalid index passed to getGhostState") *)
| DNoChoice.             (* [random.choice] of an empty list: IndexError *)

Inductive dres (A : Type) := DOk (a : A) | DErr (e : dexn).
Arguments DOk {_} _.
Arguments DErr {_} _.

Global Instance dres_bind : MBind dres := fun A B f x => match x with DOk a => f a | DErr e => DErr e end.
Global Instance dres_ret : MRet dres := fun A a => DOk a.

Definition dok {A} (r : dres A) : bool := match r with DOk _ => true | DErr _ => false end.

(** ** Python lists *)

(** The place of a Python index in a list: negative indices count from the end. *)
Definition py_index {A} (l : list A) (i : Z) : option nat :=
  let n := Z.of_nat (length l) in
  let j := if (i <? 0)%Z then (i + n)%Z else i in
  if (0 <=? j)%Z && (j <? n)%Z then Some (Z.to_nat j) else None.

(** [l[i]] *)
Definition py_get {A} (l : list A) (i : Z) : dres A :=
  match py_index l i with
  | Some k => match l !! k with Some a => DOk a | None => DErr DIndexError end
  | None => DErr DIndexError
  end.

(** [l[i] = a] *)
Definition py_set {A} (l : list A) (i : Z) (a : A) : dres (list A) :=
  match py_index l i with
  | Some k => DOk (<[k := a]> l)
  | None => DErr DIndexError
  end.

(** [l.remove(a)] for an element that is in the list: the first occurrence. *)
Fixpoint py_remove `{EqDecision A} (a : A) (l : list A) : list A :=
  match l with
  | [] => []
  | b :: l => if decide (a = b) then l else b :: py_remove a l
  end.

(** [for a in l: s = f(s, a)] *)
Fixpoint for_each {S A} (f : S -> A -> dres S) (s : S) (l : list A) : dres S :=
  match l with
  | [] => DOk s
  | a :: l => s' ← f s a; for_each f s' l
  end.

(** [range(n)] and [range(a, b)] *)
Definition range (n : Z) : list Z := Z.of_nat <$> seq 0 (Z.to_nat n).
Definition range2 (a b : Z) : list Z := (fun k => a + Z.of_nat k)%Z <$> seq 0 (Z.to_nat (b - a)).

(** ** Grid (game.py:162-275) *)

Definition CELLS_PER_INT : Z := 30.

(** [data[x]] is the column [x]. *)
Record grid := Grid { gr_width : Z; gr_height : Z; gr_data : list (list bool) }.

Global Instance grid_eq_dec : EqDecision grid.
Proof. solve_decision. Defined.

(** game.py:170-178 [Grid.__init__] without [bitRepresentation] *)
Definition grid_new (w h : Z) (b : bool) : grid :=
  Grid w h ((fun _ => (fun _ => b) <$> range h) <$> range w).

(** [grid[x][y]] *)
Definition grid_get (g : grid) (x y : Z) : dres bool := col ← py_get (gr_data g) x; py_get col y.

(** [grid[x][y] = b]: changes the column in place. *)
Definition grid_set (g : grid) (x y : Z) (b : bool) : dres grid :=
  col ← py_get (gr_data g) x;
  col' ← py_set col y b;
  data ← py_set (gr_data g) x col';
  DOk (Grid (gr_width g) (gr_height g) data).

(** game.py:206-209 [copy] *)
Definition grid_copy (g : grid) : grid := Grid (gr_width g) (gr_height g) (gr_data g).

(** game.py:191-193 [__eq__]: compares the cells only. *)
Definition grid_eqb (a b : grid) : bool := bool_decide (gr_data a = gr_data b).

(** game.py:195-204 [__hash__] up to [hash(int)]: the cells as binary digits. *)
Definition grid_hash_int (g : grid) : Z :=
  (fold_left (fun '(base, h) (l : list bool) =>
     fold_left (fun '(base, h) (i : bool) => (base * 2, if i then h + base else h)%Z) l (base, h))
   (gr_data g) (1, 0)%Z).2.

(** game.py:219-220 [count] *)
Definition grid_count (g : grid) (item : bool) : Z :=
  fold_right (fun l n => (Z.of_nat (length (filter (fun b => b = item) l)) + n)%Z) 0%Z (gr_data g).

(** game.py:222-227 [asList] *)
Definition grid_as_list (g : grid) (key : bool) : dres (list (Z * Z)) :=
  for_each (fun (acc : list (Z * Z)) '(x, y) => b ← grid_get g x y; DOk (if eqb b key then acc ++ [(x, y)] else acc)) []
    (x ← range (gr_width g); y ← range (gr_height g); [(x, y)]).

(** game.py:248-251 [_cellIndexToPosition]; only called with a positive height. *)
Definition cell_of (h i : Z) : Z * Z := (i / h, i mod h)%Z.

(** game.py:229-246 [packBits] *)
Definition pack_bits (g : grid) : dres (list Z) :=
  '(bits, cur) ← for_each (fun (st : list Z * Z) (i : Z) =>
      let '(bits, cur) := st in
      let bit := (CELLS_PER_INT - i mod CELLS_PER_INT - 1)%Z in
      let '(x, y) := cell_of (gr_height g) i in
      b ← grid_get g x y;
      let cur := if (b : bool) then (cur + 2 ^ bit)%Z else cur in
      DOk (if ((i + 1) mod CELLS_PER_INT =? 0)%Z then (bits ++ [cur], 0%Z) else (bits, cur)))
    ([gr_width g; gr_height g], 0%Z) (range (gr_height g * gr_width g));
  DOk (bits ++ [cur]).

(** game.py:265-275 [_unpackInt] *)
Definition unpack_int (packed size : Z) : dres (list bool) :=
  if (packed <? 0)%Z then DErr DValueError
  else DOk (fold_left (fun '(bools, packed) i =>
              let n := (2 ^ (CELLS_PER_INT - i - 1))%Z in
              if (n <=? packed)%Z then (bools ++ [true], packed - n)%Z else (bools ++ [false], packed))
            (range size) ([], packed)).1.

(** game.py:253-263 [_unpackBits]; [break] leaves the inner loop only. *)
Fixpoint unpack_cells (g : grid) (cell : Z) (bits : list bool) : dres (grid * Z) :=
  match bits with
  | [] => DOk (g, cell)
  | b :: bits =>
      if (cell =? gr_width g * gr_height g)%Z then DOk (g, cell)
      else let '(x, y) := cell_of (gr_height g) cell in
           g' ← grid_set g x y b; unpack_cells g' (cell + 1) bits
  end.
Definition unpack_bits (g : grid) (bits : list Z) : dres grid :=
  '(g, _) ← for_each (fun (st : grid * Z) (packed : Z) => let '(g, cell) := st in bools ← unpack_int packed CELLS_PER_INT; unpack_cells g cell bools)
              (g, 0%Z) bits;
  DOk g.

(** game.py:277-281 [reconstituteGrid] of a tuple; an empty [bitRepresentation] is not unpacked, which is the same. *)
Definition reconstitute_grid (bits : list Z) : dres grid :=
  match bits with
  | w :: h :: rest => unpack_bits (grid_new w h false) rest
  | _ => DErr DValueError
  end.
