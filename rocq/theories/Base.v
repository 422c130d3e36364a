(** * Base: Python-level vocabulary used by the model (results, exceptions, loops, iteration order).

    Nothing here is specific to the library.  Paths cited as [graph_components.py] etc. in the other
    files are relative to /repo/Python/research/scripts/relnet/. *)

From Coq Require Export ZArith QArith Qabs Qcanon.
From stdpp Require Export gmap strings list sets fin_maps fin_map_dom.
Global Open Scope nat_scope.
Global Open Scope stdpp_scope.

(** Exceptions the modelled code can raise.  [OutOfFuel] is an artefact of the model (a recursion that
    would not have terminated within the given fuel); the theorems show that it never occurs. *)
Inductive exn :=
  | AssertionError | TypeError | ZeroDivisionError | StopIteration | IndexError | KeyError | ValueError | OverflowError | AttributeError
  | OutOfFuel.

Global Instance exn_eq_dec : EqDecision exn.
Proof. solve_decision. Defined.

(** Result of a call: a value or a raised exception. *)
Inductive res (A : Type) := Ok (a : A) | Err (e : exn).
Global Arguments Ok {A} a.
Global Arguments Err {A} e.

Global Instance res_ret : MRet res := fun A a => Ok a.
Global Instance res_bind : MBind res := fun A B f m =>
  match m with Ok a => f a | Err e => Err e end.
Global Instance res_fmap : FMap res := fun A B f m =>
  match m with Ok a => Ok (f a) | Err e => Err e end.

(** Python's [assert cond]. *)
Definition passert (b : bool) : res unit := if b then Ok tt else Err AssertionError.

Definition is_ok {A} (r : res A) : bool := match r with Ok _ => true | Err _ => false end.

(** ** Iteration order

    The order in which a Python set (and, after building it from sets, a dict) is iterated is not
    determined by its content.  [perm_by code l] is the permutation of [l] described by [code]: every
    permutation of [l] is [perm_by code l] for some [code] (see [perm_by_complete] in BaseFacts.v).
    An [oracle] supplies a code for every loop of an execution: it is a tree of codes, the loop at the
    current position uses [o []] and sub-computations use [sub o 0], [sub o 1], ... , so two loops
    never share a code and no relation between their orders is assumed. *)
Fixpoint perm_by {A} (code : list nat) (l : list A) : list A :=
  match l with
  | [] => []
  | x :: l' =>
      let r := perm_by (tl code) l' in
      let i := hd 0%nat code in
      take i r ++ x :: drop i r
  end.

Definition oracle := list nat -> list nat.
Definition sub (o : oracle) (n : nat) : oracle := fun p => o (n :: p).

Definition iter_list {A} (o : oracle) (l : list A) : list A := perm_by (o []) l.
Definition iter_set `{Countable A} (o : oracle) (X : gset A) : list A := iter_list o (elements X).
Definition iter_map `{Countable K} {A} (o : oracle) (m : gmap K A) : list (K * A) :=
  iter_list o (map_to_list m).

(** [for x in l: s = f(s, x)], each iteration with its own part of the oracle. *)
Fixpoint for_each {S A} (f : oracle -> S -> A -> S) (o : oracle) (s : S) (l : list A) : S :=
  match l with
  | [] => s
  | x :: l' => for_each f (sub o 0) (f (sub o 1) s x) l'
  end.

(** Same, with a body that may raise (the state is lost when it does: used for local accumulators). *)
Fixpoint for_res {S A} (f : oracle -> S -> A -> res S) (o : oracle) (s : S) (l : list A) : res S :=
  match l with
  | [] => Ok s
  | x :: l' => match f (sub o 1) s x with
               | Ok s' => for_res f (sub o 0) s' l'
               | Err e => Err e
               end
  end.

(** Same, for a body that mutates an object which survives the exception. *)
Fixpoint for_mut {S A} (f : oracle -> S -> A -> S * res unit) (o : oracle) (s : S) (l : list A)
  : S * res unit :=
  match l with
  | [] => (s, Ok tt)
  | x :: l' => match f (sub o 1) s x with
               | (s', Ok _) => for_mut f (sub o 0) s' l'
               | (s', Err e) => (s', Err e)
               end
  end.

(** List comprehension [[f(x) for x in l]] whose body may raise. *)
Fixpoint map_res {A B} (f : oracle -> A -> res B) (o : oracle) (l : list A) : res (list B) :=
  match l with
  | [] => Ok []
  | x :: l' => match f (sub o 1) x with
               | Ok y => match map_res f (sub o 0) l' with
                         | Ok ys => Ok (y :: ys)
                         | Err e => Err e
                         end
               | Err e => Err e
               end
  end.

(** Sum and product of integers (Python's [sum], [math.prod]). *)
Definition zsum (l : list Z) : Z := foldr Z.add 0%Z l.
Definition zprod (l : list Z) : Z := foldr Z.mul 1%Z l.
Definition qsum (l : list Qc) : Qc := foldr Qcplus (Q2Qc 0) l.

(** Exact value of the Python expression [a / b] on ints (floats are idealised as rationals here;
    Floats.v treats rounding). *)
Definition qdiv (a b : Z) : Qc := (Q2Qc (inject_Z a) / Q2Qc (inject_Z b))%Qc.
Definition py_div (a b : Z) : res Qc :=
  if bool_decide (b = 0%Z) then Err ZeroDivisionError else Ok (qdiv a b).

(** [math.isclose(p, 1.0, rel_tol=1e-9, abs_tol=0.0)] on exact numbers:
    [abs(p - 1) <= 1e-9 * max(abs(p), 1)]. *)
Definition qabs (x : Qc) : Qc := Q2Qc (Qabs.Qabs (this x)).
Definition isclose_one (p : Qc) : bool :=
  let tol := (Q2Qc (1 # 1000000000) * (if Qclt_le_dec (qabs p) (Q2Qc 1) then Q2Qc 1 else qabs p))%Qc in
  if Qclt_le_dec tol (qabs (p - Q2Qc 1)%Qc) then false else true.
