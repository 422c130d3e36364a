(** * PacmanExamples: boards for examples, and a test of the conditions on a board *)

From Coq Require Import ZArith Lia Ascii String.
From stdpp Require Import base list numbers option sets strings.
From Verif Require Import SpecPacman DemoGridFacts PacmanLayout.

Definition board (rows : list string) : list (list ascii) := list_ascii_of_string <$> rows.

(** demo/layouts/mediumClassic.lay *)
Definition medium_classic : list (list ascii) := board [
  "%%%%%%%%%%%%%%%%%%%%";
  "%o...%........%....%";
  "%.%%.%.%%%%%%.%.%%.%";
  "%.%..............%.%";
  "%.%.%%.%%  %%.%%.%.%";
  "%......%G  G%......%";
  "%.%.%%.%%%%%%.%%.%.%";
  "%.%..............%.%";
  "%.%%.%.%%%%%%.%.%%.%";
  "%....%...P....%...o%";
  "%%%%%%%%%%%%%%%%%%%%" ]%string.

Definition on_border (text : list (list ascii)) (w : nat) (c : Z * Z) : bool :=
  (c.1 =? 0)%Z || (c.2 =? 0)%Z || (c.1 =? Z.of_nat w - 1)%Z || (c.2 =? Z.of_nat (List.length text) - 1)%Z.
Definition all_cells (text : list (list ascii)) (w : nat) : list (Z * Z) := read_order w (List.length text).
Definition is_char (text : list (list ascii)) (ch : ascii) (c : Z * Z) : bool :=
  match char_at text c with Some a => Ascii.eqb a ch | None => false end.
Definition no_wall (text : list (list ascii)) (c : Z * Z) : bool :=
  match char_at text c with Some a => negb (Ascii.eqb a "%") | None => false end.
Definition ghost_here (text : list (list ascii)) (c : Z * Z) : bool :=
  existsb (fun ch => is_char text ch c) ["G"; "1"; "2"; "3"; "4"]%char.
Definition good_textb (text : list (list ascii)) (w : nat) : bool :=
  negb (Nat.eqb (List.length text) 0) && forallb (fun row => Nat.eqb (List.length row) w) text &&
  forallb (fun c => implb (on_border text w c) (is_char text "%" c)) (all_cells text w) &&
  (match List.filter (is_char text "P") (all_cells text w) with [_] => true | _ => false end) &&
  forallb (fun c => implb (ghost_here text c) (existsb (fun d => no_wall text (next_cell c d)) [North; South; East; West])) (all_cells text w).

Lemma is_char_eq text ch c : is_char text ch c = true <-> char_at text c = Some ch.
Proof.
  unfold is_char. destruct (char_at text c) as [a|]; [|done]. destruct (Ascii.eqb_spec a ch) as [->|]; split; congruence.
Qed.

Lemma good_textb_ok text w : good_textb text w = true -> good_text text w.
Proof.
  unfold good_textb. rewrite !andb_true_iff. intros [[[[Hne Hrows] Hborder] Hpac] Hghost].
  assert (Hbox : box text w).
  { split; [by destruct text|]. rewrite forallb_forall in Hrows. apply Forall_forall. intros row Hr. apply Nat.eqb_eq, Hrows. by apply elem_of_list_In. }
  assert (Hin : forall p c, char_at text p = Some c -> List.In p (all_cells text w)).
  { intros [x y] c Hc. apply elem_of_list_In, elem_read_order. destruct (char_at_box _ _ _ _ _ Hbox Hc). lia. }
  rewrite forallb_forall in Hborder. rewrite forallb_forall in Hghost. split.
  - done.
  - intros x y c Hc Hb. specialize (Hborder _ (Hin _ _ Hc)). 
    assert (on_border text w (x, y) = true) as Eb by (unfold on_border; cbn [fst snd]; rewrite !orb_true_iff, !Z.eqb_eq; tauto).
    rewrite Eb in Hborder. cbn [implb] in Hborder. apply is_char_eq in Hborder. congruence.
  - destruct (List.filter (is_char text "P") (all_cells text w)) as [|p [|]] eqn:E; try done.
    exists p. intros q. assert (Hq : List.In q (List.filter (is_char text "P") (all_cells text w)) <-> char_at text q = Some "P"%char).
    { rewrite filter_In, is_char_eq. split; [tauto|]. intros Hq. split; [by eapply Hin|done]. }
    rewrite <- Hq, E. simpl. split; [intros [->|[]]; done|by left].
  - intros p c Hc Hgc. specialize (Hghost _ (Hin _ _ Hc)).
    assert (Eg : ghost_here text p = true).
    { unfold ghost_here. apply existsb_exists. exists c. split; [by apply elem_of_list_In|by apply is_char_eq]. }
    rewrite Eg in Hghost. cbn [implb] in Hghost. apply existsb_exists in Hghost as (d & Hd & Hn).
    exists d. split; [intros ->; simpl in Hd; intuition done|]. unfold no_wall in Hn.
    destruct (char_at text (next_cell p d)) as [c'|]; [|done]. exists c'. split; [done|]. intros ->. done.
Qed.
