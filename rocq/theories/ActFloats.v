(** * ActFloats: activation graphs in IEEE binary64

    Activation.v computes the weights of an activation graph as exact rationals.  Here the same code is modelled with
    Python's floats (Floats.v), and so are the colours that ActivationGraph.visualize derives from the weights. *)

From Coq Require Import ZArith String Ascii.
From Flocq Require Import IEEE754.BinarySingleNaN.
From Verif Require Export Activation Floats NetFloats.

(** Python converts the [int] operand of [float * int] and [float / int] to the nearest double; OverflowError if there
    is none. *)
Definition z2f (z : Z) : res b64 :=
  let f := binary_normalize 53 1024 prec_gt_0_53 prec_lt_emax_53 mode_NE z 0 false in
  if is_finite f then Ok f else Err OverflowError.

Definition fmul_int (x : b64) (n : Z) : res b64 := y ← z2f n; Ok (fmul x y).
Definition fdiv_int (x : b64) (n : Z) : res b64 :=
  y ← z2f n; if Beqb y f_zero then Err ZeroDivisionError else Ok (Bdiv mode_NE x y).

Section activation.
Context {U : Universe}.

(** Values of a variable with float weights, and the flag of the variable. *)
Record fanode := FANode { fa_values : gmap Val b64; fa_in_query : bool }.
Record fagraph := FAGraph { fa_total : Z; fa_nodes : gmap Var fanode; fa_edges : gmap (gset Var) aedge }.

(** sample_graph.py:426-434 [similarity]: a quotient of two [int]s. *)
Definition similarity_f (a b : graph) : res b64 :=
  let i := content a ∩ content b in
  let d := (content a ∖ content b) ∪ (content b ∖ content a) in
  if bool_decide (Z.of_nat (size i) + Z.of_nat (size d) = 0)%Z then Err ZeroDivisionError
  else Ok (int_div (Z.of_nat (size i)) (Z.of_nat (size i) + Z.of_nat (size d))).

(** conditional_graph.py:88-93 *)
Definition act_node_f (acc : gmap Var fanode) (n : node) (w : b64) (in_q : bool) : res (gmap Var fanode) :=
  match acc !! n.1 with
  | None => Err KeyError
  | Some a =>
      _ ← passert (eqb in_q (fa_in_query a));
      match fa_values a !! n.2 with
      | None => Err KeyError
      | Some w0 => Ok (<[n.1 := FANode (<[n.2 := fadd w0 w]> (fa_values a)) (fa_in_query a)]> acc)
      end
  end.

(** conditional_graph.py:78-79: the weight of a node is computed once for each node, so not at all if there is none. *)
Definition weight_if (X : gset node) (w : res b64) : res b64 := if bool_decide (X = ∅) then Ok f_zero else w.

(** conditional_graph.py:75-104: one outcome. *)
Definition act_outcome_f (o : oracle) (ev : graph) (f : option (gset relation))
    (acc : gmap Var fanode * gmap (gset Var) aedge) (g : graph) (c : Z)
  : res (gmap Var fanode * gmap (gset Var) aedge) :=
  sim ← similarity_f g ev;
  ext ← external_nodes (sub o 0) g (g_nodes ev) f;
  w_out ← weight_if (dom ext) (fmul_int sim c);
  w_in ← weight_if (g_nodes ev ∩ g_nodes g) (fmul_int f_one c);
  let out_nodes : gmap node (b64 * bool) := (fun _ => (w_out, false)) <$> ext in
  let in_nodes : gmap node (b64 * bool) := gset_to_gmap (w_in, true) (g_nodes ev ∩ g_nodes g) in
  let out_edges : gset (edge * bool) :=
    set_map (fun e => (e, false)) (⋃ (map_to_list ext).*2) in
  let in_edges : gset (edge * bool) := set_map (fun e => (e, true)) (g_edges ev) in
  _ ← passert (bool_decide (dom out_nodes ∩ dom in_nodes = ∅));
  _ ← passert (bool_decide (out_edges ∩ in_edges = ∅));
  na ← for_res (fun _ na '(n, (w, q)) => act_node_f na n w q) (sub o 1) acc.1
         (iter_map (sub o 2) (in_nodes ∪ out_nodes));
  ea ← for_res (fun _ ea '(e, q) => act_edge ea e c q) (sub o 3) acc.2
         (iter_set (sub o 4) (out_edges ∪ in_edges));
  Ok (na, ea).

(** [{v: w / self.outcomes.length for v, w in values.items()}] (conditional_graph.py:109).  The divisor is the same for
    all values, so the exception does not depend on the order. *)
Definition div_all_w (m : gmap Val b64) (len : Z) : res (gmap Val b64) :=
  if bool_decide (m = ∅) then Ok ∅
  else y ← z2f len; if Beqb y f_zero then Err ZeroDivisionError else Ok ((fun w => Bdiv mode_NE w y) <$> m).

(** conditional_graph.py:59-113 [activation_graph] *)
Definition activation_graph_f (o : oracle) (cg : cgraph) (f : option (gset relation)) : res fagraph :=
  let ev := s_g (cg_evidence cg) in
  let sp := cg_space cg in
  let init := map_imap (fun v X => Some (FANode (gset_to_gmap f_zero X) (bool_decide (v ∈ included_variables ev))))
                (cp_vars (sp_cp sp)) in
  '(na, ea) ← for_res (fun o' acc '(g, c) => act_outcome_f o' ev f acc g c) (sub o 0) (init, ∅)
                (ss_items (sub o 1) (sp_out sp));
  let len := ss_length (sp_out sp) in
  nodes ← for_res (fun _ acc '(v, a) => d ← div_all_w (fa_values a) len; Ok (<[v := FANode d (fa_in_query a)]> acc))
            (sub o 2) ∅ (iter_map (sub o 3) na);
  edges ← for_res (fun _ acc '(ep, a) =>
            _ ← passert (bool_decide (size (ep : gset Var) = 2)); Ok (<[ep := a]> acc))
            (sub o 4) ∅ (iter_map (sub o 5) (ea : gmap (gset Var) aedge));
  Ok (FAGraph len nodes edges).

(** ** Colours *)

(** Python's [max] of floats: the first of the largest; ValueError for no element. *)
Definition f_max (l : list b64) : res b64 :=
  match l with
  | [] => Err ValueError
  | x :: l => Ok (fold_left (fun m y => if Bltb m y then y else m) l x)
  end.

(** Python's ["%0.2X" % n]: hexadecimal, at least two digits, a sign if negative. *)
Definition hex_digit (d : Z) : ascii :=
  ascii_of_nat (Z.to_nat (if (d <? 10)%Z then 48 + d else 55 + d)).
Fixpoint hex_digits (fuel : nat) (n : Z) (acc : string) : string :=
  match fuel with
  | O => acc
  | S k => if (n <? 16)%Z then String (hex_digit n) acc else hex_digits k (n / 16) (String (hex_digit (n mod 16)) acc)
  end.
Definition hex2 (n : Z) : string :=
  let a := Z.abs n in
  let s := hex_digits (S (Z.to_nat (Z.log2 a))) a "" in
  let s := if (String.length s <? 2)%nat then String "0" s else s in
  if (n <? 0)%Z then String "-" s else s.

(** activation_graph.py:115-117: the colour of a node whose variable is in the graph. *)
Definition node_color (o : oracle) (a : fanode) : res string :=
  if fa_in_query a then Ok "green"%string
  else
    m ← f_max (iter_map o (fa_values a)).*2;
    x ← fmul_int m 255;
    n ← f_int x;
    Ok ("#" ++ hex2 n ++ "0000")%string.

End activation.
