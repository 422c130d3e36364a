(** * SpecElim: what joining the factors of any factorized space means, variable by variable (C39, C40)

    A factor is a finite map from outcomes to counts.  For a variable the factors with an outcome over it are replaced
    by one factor: for each value, one outcome with that value is taken from each factor that has one.  A factor without
    an outcome for the value takes no part. *)

From Verif Require Export SpecJoin.

Section spec.
Context {U : Universe}.

Notation factor := (gmap graph Z).

(** The factor has an outcome over the variable; with the value for the variable. *)
Definition covers (D : factor) (v : Var) : Prop := exists g, is_Some (D !! g) /\ having v g.
Definition offers (D : factor) (v : Var) (x : Val) : Prop := exists g, is_Some (D !! g) /\ has v x g.

(** One outcome with the value from each factor that has one. *)
Definition selection_at (S : gset factor) (v : Var) (x : Val) (sel : list (graph * Z)) : Prop :=
  exists l : list factor, NoDup l /\ (forall D, D ∈ l <-> D ∈ S /\ offers D v x) /\
    Forall2 (fun (D : factor) gc => D !! gc.1 = Some gc.2 /\ has v x gc.1) l sel.

(** Some variable has two values in the outcomes, but none that is in all of them. *)
Definition hidden_clash (l : list graph) : Prop :=
  (exists w x y g h, g ∈ l /\ h ∈ l /\ has w x g /\ has w y h /\ x <> y) /\
  forall w x y g h, (forall k, k ∈ l -> having w k) -> g ∈ l -> h ∈ l -> has w x g -> has w y h -> x = y.

(** One variable: [S'] comes from [S]. *)
Definition eliminates (occ : Var -> Val -> Prop) (S : gset factor) (v : Var) (S' : gset factor) : Prop :=
  (forall x, occ v x -> (exists D, D ∈ S /\ offers D v x) /\ forall sel, selection_at S v x sel -> ~ hidden_clash sel.*1) /\
  exists D' : factor, (forall D, D ∈ S' <-> D ∈ S /\ ~ covers D v \/ D = D') /\
    forall G c, D' !! G = Some c <-> exists x sel, occ v x /\ selection_at S v x sel /\ merged sel.*1 G /\
      single_valued (g_nodes G) /\ c = product sel.*2.

(** All variables of a list. *)
Inductive elimination (occ : Var -> Val -> Prop) : gset factor -> list Var -> gset factor -> Prop :=
  | elim_nil S : elimination occ S [] S
  | elim_cons S v S1 vs S2 : eliminates occ S v S1 -> elimination occ S1 vs S2 -> elimination occ S (v :: vs) S2.

End spec.
