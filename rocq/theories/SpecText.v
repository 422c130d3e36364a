(** * SpecText: when text can be read back *)

From Coq Require Import Ascii String.
From Verif Require Export Spec Text.

Section spec.
Context {U : Universe}.
Notation txt := (list N).
Context (sv : Var -> txt) (sx : Val -> txt) (sr : Rel -> txt).

Definition declared_var (cp : provider) (v : Var) : Prop := exists X, cp_vars cp !! v = Some X.
Definition declared_val (cp : provider) (x : Val) : Prop := exists v X, cp_vars cp !! v = Some X /\ x ∈ X.

Definition without (c : ascii) (t : txt) : Prop := N_of_ascii c ∉ t.

(** The declared variables, values and relations print differently, variables without [_], [-] and [\]], values
    without [)], relations without [\[] and [}]. *)
Record readable (cp : provider) : Prop := {
  rd_var : forall v w, declared_var cp v -> declared_var cp w -> sv v = sv w -> v = w;
  rd_val : forall x y, declared_val cp x -> declared_val cp y -> sx x = sx y -> x = y;
  rd_rel : forall r q, r ∈ cp_rels cp -> q ∈ cp_rels cp -> sr r = sr q -> r = q;
  rd_var_free : forall v, declared_var cp v ->
    without "_" (sv v) /\ without "-" (sv v) /\ without "]" (sv v);
  rd_val_free : forall x, declared_val cp x -> without ")" (sx x);
  rd_rel_free : forall r, r ∈ cp_rels cp -> without "[" (sr r) /\ without "}" (sr r)
}.

End spec.
