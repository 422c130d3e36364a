(** * Text: the text forms of samples and sample sets

    Text is a list of code points.  How a variable, value or relation prints itself ([str]) is a
    parameter.  Sample names given by the user are not modelled: [default_name] is the name a sample has
    when none is given. *)

From stdpp Require Import sorting pretty.
From Coq Require Import Ascii String.
From Verif Require Export SampleSet.

Section text.
Context {U : Universe}.

Notation txt := (list N).

(** Literals in the source. *)
Definition lit (s : string) : txt := N_of_ascii <$> list_ascii_of_string s.
Definition chr (c : ascii) : N := N_of_ascii c.

(** Python compares strings by code points. *)
Fixpoint txt_leb (a b : txt) : bool :=
  match a, b with
  | [], _ => true
  | _ :: _, [] => false
  | x :: a', y :: b' => if N.ltb x y then true else if N.eqb x y then txt_leb a' b' else false
  end.

Definition txt_le (a b : txt) : Prop := txt_leb a b = true.
Global Instance txt_le_dec : RelDecision txt_le.
Proof. intros a b. unfold txt_le. apply _. Defined.

(** Python's [sorted] on strings; the result does not depend on the algorithm (the order is total). *)
Definition py_sorted (l : list txt) : list txt := merge_sort txt_le l.

(** Python's [sep.join(l)] *)
Fixpoint join (sep : txt) (l : list txt) : txt :=
  match l with
  | [] => []
  | [x] => x
  | x :: l' => x ++ sep ++ join sep l'
  end.

(** [str] of an [int] *)
Definition int_text (z : Z) : txt := lit (pretty z).

Context (sv : Var -> txt) (sx : Val -> txt) (sr : Rel -> txt).

(** graph_components.py:33 [string_id], :38-39 [ValueNode.__repr__] *)
Definition node_text (n : node) : txt := lit "(" ++ sv n.1 ++ lit "_" ++ sx n.2 ++ lit ")".

(** graph_components.py:122-123 [DirectedRelation.__repr__]; a plain relation prints itself. *)
Definition rel_text (r : relation) : txt :=
  match r with
  | Plain r => sr r
  | Directed s t r => sr r ++ lit "[" ++ sv s ++ lit "->" ++ sv t ++ lit "]"
  end.

(** graph_components.py:74-76 [RelationEdge.__repr__].  The last case does not occur: an edge object has two
    endpoints at least (:68-69 fail otherwise). *)
Definition edge_text (o : oracle) (e : edge) : txt :=
  match py_sorted (node_text <$> iter_set o (endpoints e)) with
  | a :: b :: _ => a ++ lit "--{" ++ rel_text (rel_of e) ++ lit "}--" ++ b
  | _ => []
  end.

(** The texts of a set of edges as listed by a comprehension; each edge has its own set of endpoints. *)
Definition edge_texts (o : oracle) (es : gset edge) : list txt :=
  imap (fun i e => edge_text (sub o i) e) (iter_set o es).

(** sample_graph.py:276-278: the default of [SampleGraph.name] *)
Definition default_name (o : oracle) (g : graph) : txt :=
  lit "{" ++
  join (lit "; ") (py_sorted (if bool_decide (g_edges g ≠ ∅) then edge_texts o (g_edges g)
                              else node_text <$> iter_set o (g_nodes g))) ++
  lit "}".

(** sample_graph.py:308-318 [text_view] *)
Definition text_view (o : oracle) (g : graph) : txt :=
  if bool_decide (g_edges g ≠ ∅) then
    lit "{" ++ join (lit "; ") (py_sorted (edge_texts o (g_edges g))) ++ lit "}"
  else match iter_set o (g_nodes g) with
       | n :: _ => lit "{" ++ node_text n ++ lit "}"
       | [] => lit "{}"
       end.

(** sample_set.py:101-102 [SampleSet.__repr__], for samples with default names.  (The names were computed
    when the samples were built, each with its own iteration orders.) *)
Definition newline : txt := [10%N].
Definition set_repr (o : oracle) (ss : samples) : txt :=
  lit "{" ++ newline ++
  join newline (py_sorted (imap (fun i '(g, c) => lit "    " ++ default_name (sub o i) g ++ lit ": " ++ int_text c)
                                (ss_items o ss))) ++
  newline ++ lit "}".

(** sample_space.py:229-234 [print_samples]; [os.linesep] is a parameter of the platform. *)
Definition print_samples (linesep : txt) (o : oracle) (ss : samples) : txt :=
  join linesep (py_sorted (imap (fun i '(g, c) => default_name (sub o i) g ++ lit "(" ++ int_text c ++ lit ")")
                                (ss_items o ss))).

End text.
