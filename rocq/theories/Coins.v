(** * Coins: examples/building_net_from_coin_toss.py

    Reads reports of coin tosses such as "5¢ H" and "1¢ H then 5¢ H" and counts them as the outcomes of a relation graph.
    Paths are relative to /repo/Python/research/scripts/.  Text is a list of code points; variables, values and relations
    are Python strings ([StrU]).  Printing and drawing (Draw.v) are left out. *)

From Coq Require Import ZArith String Ascii.
From Verif Require Export Base RelationGraph Text.

Section coins.
Local Existing Instance StrU.
Local Notation txt := (list N).

(** [t.split(' ')] *)
Fixpoint split_spaces (t : txt) : list txt :=
  match t with
  | [] => [[]]
  | c :: t' =>
      if bool_decide (c = 32%N) then [] :: split_spaces t'
      else match split_spaces t' with
           | w :: ws => (c :: w) :: ws
           | [] => [[c]]
           end
  end.

(** The code point of the cent sign. *)
Definition cents (s : string) : txt := lit s ++ [162%N].

(** building_net_from_coin_toss.py:52-71 [pare_var]; [None] if no case matches. *)
Definition pare_var (var val : txt) : option node :=
  if bool_decide (var = cents "1") then
    if bool_decide (val = lit "H") then Some ("V1", "h1")
    else if bool_decide (val = lit "T") then Some ("V1", "t1") else None
  else if bool_decide (var = cents "5") then
    if bool_decide (val = lit "H") then Some ("V2", "h2")
    else if bool_decide (val = lit "T") then Some ("V2", "t2") else None
  else if bool_decide (var = cents "25") then
    if bool_decide (val = lit "H") then Some ("V3", "h3")
    else if bool_decide (val = lit "T") then Some ("V3", "t3") else None
  else None.

(** Python's [int] on a text; [None] is ValueError. *)
Context (py_int : txt -> option Z).
Definition read_int (t : txt) : res Z := match py_int t with Some z => Ok z | None => Err ValueError end.

(** building_net_from_coin_toss.py:50-81 [build_outcome].  [[:-1]] drops the last character.  [None] is the result if no
    case matches the words.  If [pare_var] gives [None]: [*None] is a TypeError (:73); a set of [None] alone has one
    element, which validate_endpoints (relnet/sample_graph.py:66) refuses; otherwise :68 there unpacks [None]. *)
Definition build_outcome (t : txt) (b : builder) : res (option sample) :=
  match split_spaces t with
  | [var_1; val_1] =>
      match pare_var var_1 val_1 with
      | Some (v, x) => s ← build_single_node b v x; Ok (Some s)
      | None => Err TypeError
      end
  | [var_1; val_1; _; var_2; val_2] =>
      i ← read_int (removelast var_1);
      j ← read_int (removelast var_2);
      let r : Rel := if bool_decide (i < j)%Z then "r1" else "r2" in
      match pare_var var_1 val_1, pare_var var_2 val_2 with
      | Some n1, Some n2 =>
          let '(b', r) := add_relation b {[n1; n2]} (Plain r) in
          _ ← r; s ← build b'; Ok (Some s)
      | None, None => Err AssertionError
      | _, _ => Err TypeError
      end
  | _ => Ok None
  end.

(** building_net_from_coin_toss.py:84-93 [build_relation_net]; [i] identifies the new components provider.  An outcome
    [None] has no method is_compatible (relnet/relation_graph.py:82). *)
Definition coin_variables : gmap Var (gset Val) :=
  {["V1" := {["h1"; "t1"]}; "V2" := {["h2"; "t2"]}; "V3" := {["h3"; "t3"]}]}.
Definition add_report (b : rgbuilder) (t : txt) : rgbuilder * res unit :=
  match build_outcome t (new_builder (rb_cp b)) with
  | Ok (Some s) => add_outcome b s 1
  | Ok None => (b, Err AttributeError)
  | Err e => (b, Err e)
  end.
Definition build_relation_net (i : nat) (T : list txt) : res space :=
  b ← rgb_init i (Some coin_variables) (Some {["r1"; "r2"]}) None None;
  match for_mut (fun _ b t => add_report b t) (fun _ => []) b T with
  | (b, Ok _) => rgb_build b
  | (_, Err e) => Err e
  end.

(** building_net_from_coin_toss.py:96-99 [describe_relation_net]: what is printed for every outcome. *)
Definition describe_relation_net (o : oracle) (sp : space) : res (list (graph * Z * Qc)) :=
  map_res (fun _ '(g, c) =>
    k ← count_of (sp_out sp) g;
    p ← py_div k (ss_length (sp_out sp));
    Ok (g, c, p)) (sub o 0) (ss_items (sub o 1) (sp_out sp)).

(** building_net_from_coin_toss.py:36-47 [experiment_results] *)
Definition experiment_results : list txt :=
  let H5 := cents "5" ++ lit " H" in
  [H5; cents "1" ++ lit " H"; H5; cents "25" ++ lit " T"; cents "1" ++ lit " H"; H5;
   H5 ++ lit " then " ++ cents "25" ++ lit " H"; cents "1" ++ lit " H then " ++ cents "5" ++ lit " H";
   cents "25" ++ lit " T then " ++ cents "5" ++ lit " T"; cents "1" ++ lit " T then " ++ cents "5" ++ lit " T"].

(** examples/building_net_with_conditional_probability.py:27: the evidence; [sample_builder] is relnet/sample_space.py:86-91
    and gives a new builder for the components of the graph. *)
Definition heads_evidence (sp : space) : res sample :=
  match add_relation (new_builder (sp_cp sp)) {[("V1", "h1"); ("V2", "h2")]} (Plain "r1") with
  | (b, Ok _) => build b
  | (_, Err e) => Err e
  end.

End coins.
