(** * Nets: model of experiments/comparing_with_bayes_network.py and experiments/comparing_with_markov_network.py

    The scripts run for one network each ([net_config]; [nodes] and [edges]); here the network is a parameter.
    Everything is a [str].  pgmpy (the network the graph is compared with) is not modelled: what it computes is
    specified in SpecNet.v.  Below, [bayes.py] and [markov.py] stand for the two files.  Printing is left out. *)

From stdpp Require Import pretty.
From Coq Require Import String.
From Verif Require Export RelationGraph.

Local Existing Instance StrU.

(** bayes.py:69,71,81,85,105 [f"{var}({j})"], markov.py:69,73,74 *)
Definition value_name (v : Var) (j : nat) : Val := (v ++ "(" ++ pretty j ++ ")")%string.

(** Python's [p in s] on strings. *)
Fixpoint occurs_in (p s : string) : bool :=
  String.prefix p s || match s with EmptyString => false | String _ s' => occurs_in p s' end.

(** Python's [l[i]] *)
Definition item {A} (l : list A) (i : nat) : res A := match l !! i with Some x => Ok x | None => Err IndexError end.

(** bayes.py:66-71 [_value_combination]; it is never called with an empty list ([variables[0]] would raise). *)
Fixpoint value_combination (variables : list (Var * nat)) : list (list Val) :=
  match variables with
  | [] => []
  | (var, card) :: rest =>
      match rest with
      | [] => (fun j => [value_name var j]) <$> seq 0 card
      | _ => j ← seq 0 card; vs ← value_combination rest; [value_name var j :: vs]
      end
  end.

Section bayes.
(** The probabilities in the tables, and the conversion of one to a number of outcomes (bayes.py:111-112; see
    [scale_f] in NetFloats.v for the floats). *)
Context {T : Type} (scale : T -> res Z).

(** A value of [net_config] (bayes.py:36-47). *)
Record cpd := Cpd {
  c_card : nat;
  c_values : list (list T);
  c_parents : option (list Var);
  c_parent_cards : option (list nat)
}.

(** [if l] for an optional list. *)
Definition given {A} (l : option (list A)) : list A := default [] l.

(** bayes.py:74-87 [_value_map_from_cpd] *)
Definition value_map_from_cpd (var : Var) (c : cpd) : res (gmap (gset Val) T) :=
  for_res (fun _ m i =>
      match given (c_parents c), given (c_parent_cards c) with
      | (_ :: _) as p_var, (_ :: _) as p_card =>
          let p_vs := (fun vs => value_name var i :: vs) <$> value_combination (zip p_var p_card) in
          row ← item (c_values c) i;
          Ok (foldl (fun m '(v, p) => <[list_to_set v := p]> m) m (zip p_vs row))
      | _, _ =>
          row ← item (c_values c) i;
          p ← item row 0;
          Ok (<[{[value_name var i]} := p]> m)
      end) (fun _ => []) ∅ (seq 0 (c_card c)).

(** bayes.py:95 [next(v for v in vs if p_v in v)] *)
Definition first_with (p : Var) (vs : list Val) : res Val :=
  match List.find (occurs_in p) vs with Some v => Ok v | None => Err StopIteration end.

(** bayes.py:90-100 [_build_outcome] *)
Definition build_outcome (rgb : rgbuilder) (var : Var) (p_var : option (list Var)) (vs : list Val) : res sample :=
  match given p_var with
  | (_ :: _) as ps =>
      b ← for_res (fun _ b p_v =>
            x ← first_with p_v vs;
            y ← first_with var vs;
            match add_relation b {[(p_v, x); (var, y)]} (Directed p_v var ("r" : Rel)) with
            | (b', Ok _) => Ok b'
            | (_, Err e) => Err e
            end) (fun _ => []) (new_builder (rb_cp rgb)) ps;
      build b
  | [] =>
      _ ← passert (bool_decide (length vs = 1));
      v ← item vs 0;
      build_single_node (new_builder (rb_cp rgb)) var v
  end.

(** bayes.py:103-121 [make_relation_graph]; [net] lists the items of the dict [net_config], [i] is the identity of
    the new provider. *)
Definition make_bayes_graph (o : oracle) (i : nat) (net : list (Var * cpd)) : res space :=
  rgb ← rgb_init i
          (Some (list_to_map ((fun '(var, c) => (var, list_to_set (value_name var <$> seq 0 (c_card c)))) <$> net)))
          (Some {["r" : Rel]}) None None;
  rgb ← for_res (fun o rgb '(var, c) =>
          m ← value_map_from_cpd var c;
          for_res (fun o rgb '(vs, prop) =>
              outcome ← build_outcome rgb var (c_parents c) (iter_set o vs);
              count ← scale prop;
              match add_outcome rgb outcome count with
              | (rgb', Ok _) => Ok rgb'
              | (_, Err e) => Err e
              end) (sub o 0) rgb (iter_map (sub o 1) m)) o rgb net;
  rgb_build rgb.

End bayes.
Global Arguments cpd : clear implicits.

(** bayes.py:129-130 [_value_map_from_graph] *)
Definition value_map_from_graph (o : oracle) (sp : space) : gmap (gset Val) Z :=
  for_each (fun _ m '(g, c) => <[set_map snd (values g) := c]> m) (sub o 0) ∅ (ss_items o (sp_out sp)).

(** bayes.py:133-135 and markov.py:85-87 [_normalize]; floats are idealised as rationals. *)
Definition normalize `{Countable K} (m : gmap K Z) : res (gmap K Qc) :=
  let total := zsum (map_to_list m).*2 in
  if bool_decide (m ≠ ∅) && bool_decide (total = 0%Z) then Err ZeroDivisionError
  else Ok ((fun c => qdiv c total) <$> m).

(** bayes.py:217-224, the loop of [_run_inference_on]; the script takes value 0 of every variable, here the number of
    the value is given too.  [make_joined] returns a [RelationGraph], so [isinstance(inf_graph_i, ConditionalGraph)]
    never holds. *)
Definition run_inference (o : oracle) (rel_graph : space) (variables : list (Var * nat)) : res space :=
  for_res (fun o inf_graph '(v, j) =>
      ev ← build_single_node (sp_sample_builder rel_graph) v (value_name v j);
      cg ← conditional_graph inf_graph ev;
      make_joined o (sp_relation_graph (cg_space cg))) o rel_graph variables.

(** markov.py:67-82 [make_relation_graph] *)
Definition make_markov_graph (i : nat) (nodes : list Var) (edges : list (Var * Var * list Z)) : res space :=
  rgb ← rgb_init i
          (Some (list_to_map ((fun n => (n, {[value_name n 0; value_name n 1]})) <$> nodes)))
          (Some {["r" : Rel]}) None None;
  rgb ← for_res (fun _ rgb '(e0, e1, values) =>
          for_res (fun _ rgb '(sid, tid, k) =>
              match add_relation (new_builder (rb_cp rgb)) {[(e0, value_name e0 sid); (e1, value_name e1 tid)]} (Plain ("r" : Rel)) with
              | (b, Ok _) =>
                  outcome ← build b;
                  count ← item values k;
                  match add_outcome rgb outcome count with
                  | (rgb', Ok _) => Ok rgb'
                  | (_, Err e) => Err e
                  end
              | (_, Err e) => Err e
              end) (fun _ => []) rgb [(0, 0, 0); (0, 1, 1); (1, 0, 2); (1, 1, 3)]) (fun _ => []) rgb edges;
  rgb_build rgb.

(** markov.py:37-53 [joined_values], for any number of nodes: all tuples of 0 and 1. *)
Fixpoint joined_values (n : nat) : list (list nat) :=
  match n with 0 => [[]] | S n => ((fun t => 0 :: t) <$> joined_values n) ++ ((fun t => 1 :: t) <$> joined_values n) end.

(** markov.py:99-103 [_get_relation_graph_prop].  [c.items().pop()] takes any item. *)
Definition relation_graph_prop (o : oracle) (nodes : list Var) (sp : space) : res (gmap (list nat) Qc) :=
  all ← map_res (fun o t =>
          c ← find_for_values o sp (list_to_set (zip_with (fun n j => (n, value_name n j)) nodes t));
          Ok (t, c)) (sub o 0) (joined_values (length nodes));
  m ← for_res (fun o m '(t, c) =>
          if ss_bool c
          then match ss_items o c with (_, n) :: _ => Ok (<[t := n]> m) | [] => Err KeyError end
          else Ok m) (sub o 1) (∅ : gmap (list nat) Z) all;
  normalize m.
