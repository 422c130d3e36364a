(** * SpecDraw: specification vocabulary for drawings (C60) *)

From Coq Require Import ZArith Reals String Ascii.
From Verif Require Export SpecText SpecSpace SpecActFloat Draw.

Local Notation txt := (list N).

(** The same two ends, in any order. *)
Definition same_ends {I} (a b c d : I) : Prop := (a = c /\ b = d) \/ (a = d /\ b = c).

(** The drawing has the ids of [P], each once and with a label and colour of [P], and the lines of [R], at most one
    between two ids and with a label and colour of [R]. *)
Record pictures {I} (net : network I) (P : I -> txt -> option txt -> Prop) (R : I -> I -> txt -> option txt -> Prop) : Prop := {
  pc_ids : NoDup (nw_nodes net).*1;
  pc_node : forall i l k, (i, (l, k)) ∈ nw_nodes net -> P i l k;
  pc_all : forall i l k, P i l k -> i ∈ (nw_nodes net).*1;
  pc_line : forall a b l k, (a, b, (l, k)) ∈ nw_edges net -> R a b l k;
  pc_lines : forall a b l k, R a b l k -> exists c d l' k', (c, d, (l', k')) ∈ nw_edges net /\ same_ends c d a b;
  pc_once : forall j j' a b c d x y, nw_edges net !! j = Some (a, b, x) -> nw_edges net !! j' = Some (c, d, y) ->
    same_ends a b c d -> j = j'
}.

Section spec.
Context {U : Universe}.
Context (sv : Var -> txt) (sx : Val -> txt) (sr : Rel -> txt).

(** Names of nodes. *)
Definition called (v : Var) (x : Val) : txt := sv v ++ lit "_" ++ sx x.

(** How a relation reads. *)
Definition reads (r : relation) (t : txt) : Prop :=
  match r with
  | Plain r => t = sr r
  | Directed s d r => t = sr r ++ lit "[" ++ sv s ++ lit "->" ++ sv d ++ lit "]"
  end.

(** [e] joins the nodes [n] and [m]. *)
Definition joins (e : edge) (n m : node) : Prop := n <> m /\ e.1 = {[n; m]}.

(** The picture of one graph: its nodes by name, its edges by relation. *)
Definition sample_node (g : graph) (i l : txt) (k : option txt) : Prop :=
  k = None /\ l = i /\ exists v x, (v, x) ∈ g_nodes g /\ i = called v x.
Definition sample_line (g : graph) (a b l : txt) (k : option txt) : Prop :=
  k = None /\ exists e v x w y, e ∈ g_edges g /\ joins e (v, x) (w, y) /\ a = called v x /\ b = called w y /\ reads e.2 l.

(** The names of declared nodes are different. *)
Definition distinct_names (cp : provider) : Prop :=
  forall v x w y, declared cp (v, x) -> declared cp (w, y) -> called v x = called w y -> (v, x) = (w, y).

(** No name of a node ends in a digit. *)
Definition ends_in_digit (t : txt) : Prop := exists t' d, t = t' ++ [d] /\ (48 <= d <= 57)%N.
Definition digit_free_ends (cp : provider) : Prop := forall v x, declared cp (v, x) -> ~ ends_in_digit (called v x).

(** The picture of the outcomes in the order [l], with the evidence in red: each outcome has its own copies of the nodes,
    numbered by the outcome. *)
Definition copy_of (j : nat) (v : Var) (x : Val) : txt := called v x ++ int_text (Z.of_nat j).
Definition asked (v : Var) (x : Val) : txt := called v x ++ lit "_query".
Definition heading (name : graph -> txt) (g : graph) (c : Z) (v : Var) (x : Val) : txt :=
  called v x ++ lit "@" ++ name g ++ lit "(" ++ int_text c ++ lit ")".
Definition space_node (name : graph -> txt) (l : list (graph * Z)) (ev : option graph) (i t : txt) (k : option txt) : Prop :=
  (k = None /\ exists j g c v x, l !! j = Some (g, c) /\ (v, x) ∈ g_nodes g /\ i = copy_of j v x /\
     (t = called v x \/ t = heading name g c v x)) \/
  (k = Some (lit "red") /\ exists g v x, ev = Some g /\ (v, x) ∈ g_nodes g /\ i = asked v x /\ t = called v x).
Definition space_line (l : list (graph * Z)) (ev : option graph) (a b t : txt) (k : option txt) : Prop :=
  (k = None /\ exists j g c e v x w y, l !! j = Some (g, c) /\ e ∈ g_edges g /\ joins e (v, x) (w, y) /\
     a = copy_of j v x /\ b = copy_of j w y /\ reads e.2 t) \/
  (k = Some (lit "red") /\ exists g e v x w y, ev = Some g /\ e ∈ g_edges g /\ joins e (v, x) (w, y) /\
     a = asked v x /\ b = asked w y /\ reads e.2 t).

(** [t] lists the texts of [P], each once. *)
Definition lists_texts (sep : txt) (P : txt -> Prop) (t : txt) : Prop :=
  exists l, NoDup l /\ (forall s, s ∈ l <-> P s) /\ t = Text.join sep l.

(** The picture of a folded graph. *)
Definition folded_node_reads (v : Var) (fn : fnode) (u : Z) (t : txt) : Prop :=
  exists s, lists_texts (lit ",") (fun s => exists x c, fn_counts fn !! (v, x) = Some c /\ s = sx x ++ lit "(" ++ int_text c ++ lit ")") s /\
            t = sv v ++ lit ":{" ++ s ++ lit ", u(" ++ int_text u ++ lit ")}".
Definition absent_reads (v : Var) (X : gset Val) (total : Z) (t : txt) : Prop :=
  exists l, l ≡ₚ elements X /\
            t = sv v ++ lit ":{" ++ Text.join (lit ",") ((fun x => sx x ++ lit "(0)") <$> l) ++ lit ", u(" ++ int_text total ++ lit ")}".
Definition folded_edge_reads (m : gmap edge Z) (t : txt) : Prop :=
  exists s, lists_texts (lit ",") (fun s => exists e c r, m !! e = Some c /\ reads e.2 r /\ s = r ++ lit "(" ++ int_text c ++ lit ")") s /\
            t = lit "{" ++ s ++ lit "}".
Definition folded_point (cp : provider) (ss : samples) (fg : fgraph) (v : Var) (t : txt) (k : option txt) : Prop :=
  match fg_nodes fg !! v with
  | Some fn => k = None /\ exists u, weight ss (lacking v) u /\ folded_node_reads v fn u t
  | None => k = Some (lit "gray") /\ exists X, cp_vars cp !! v = Some X /\ absent_reads v X (fg_total fg) t
  end.
Definition folded_line (fg : fgraph) (a b : Var) (t : txt) (k : option txt) : Prop :=
  k = None /\ a <> b /\ exists m, fg_edges fg !! ({[a; b]} : gset Var) = Some m /\ folded_edge_reads m t.

(** The picture of an activation graph; [sw] prints weights. *)
Context (sw : b64 -> txt).
Definition shade (a : fanode) (k : txt) : Prop :=
  if fa_in_query a then k = lit "green"
  else exists w n s, largest a w /\ (0 <= n <= 255)%Z /\
       (IZR n - / 2 ^ 40 <= 255 * Flocq.IEEE754.BinarySingleNaN.B2R w < IZR n + 1)%R /\ red_shade n s /\ k = lit s.
Definition active_point (fg : fagraph) (v : Var) (t : txt) (k : option txt) : Prop :=
  exists a l c, fa_nodes fg !! v = Some a /\ l ≡ₚ map_to_list (fa_values a) /\
    t = sv v ++ lit ":{" ++ Text.join (lit ", ") ((fun p => sx p.1 ++ lit "=" ++ sw p.2) <$> l) ++ lit "}" /\
    k = Some c /\ shade a c.
Definition active_line (fg : fagraph) (a b : Var) (t : txt) (k : option txt) : Prop :=
  exists m s, a <> b /\ fa_edges fg !! ({[a; b]} : gset Var) = Some m /\
    lists_texts (lit ", ") (fun s => exists r c q, ae_relations m !! r = Some c /\ reads r q /\ s = q ++ lit "(" ++ int_text c ++ lit ")") s /\
    t = lit "{" ++ s ++ lit "}" /\ k = Some (lit (if ae_in_query m then "green" else "red")).
End spec.
