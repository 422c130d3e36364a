(** * SpecCoins: reports of coin tosses and what they mean (C62) *)

From Coq Require Import ZArith String Ascii.
From Verif Require Export SpecRel SpecSets SpecText Coins.

Section spec.
Local Existing Instance StrU.
Local Notation txt := (list N).

Inductive coin := Penny | Nickel | Quarter.
Inductive face := Heads | Tails.

(** One toss, or two in this order with a word between them. *)
Inductive report := Toss (c : coin) (f : face) | Tosses (c : coin) (f : face) (word : txt) (c' : coin) (f' : face).

(** Two tosses are of different coins; the word has no space. *)
Definition report_ok (r : report) : Prop :=
  match r with
  | Toss _ _ => True
  | Tosses c _ w c' _ => c <> c' /\ 32%N ∉ w
  end.

(** How a report is written. *)
Definition worth (c : coin) : Z := match c with Penny => 1 | Nickel => 5 | Quarter => 25 end.
Definition coin_text (c : coin) : txt := int_text (worth c) ++ [162%N].
Definition face_text (f : face) : txt := match f with Heads => lit "H" | Tails => lit "T" end.
Definition written (r : report) : txt :=
  match r with
  | Toss c f => coin_text c ++ lit " " ++ face_text f
  | Tosses c f w c' f' =>
      coin_text c ++ lit " " ++ face_text f ++ lit " " ++ w ++ lit " " ++ coin_text c' ++ lit " " ++ face_text f'
  end.

(** The outcome it stands for: a node for every toss, and the relation "r1" if the coin of smaller worth was first, else
    "r2". *)
Definition coin_node (c : coin) (f : face) : node :=
  (match c with Penny => "V1" | Nickel => "V2" | Quarter => "V3" end,
   match c, f with
   | Penny, Heads => "h1" | Penny, Tails => "t1" | Nickel, Heads => "h2" | Nickel, Tails => "t2"
   | Quarter, Heads => "h3" | Quarter, Tails => "t3"
   end).
Definition meaning (r : report) : graph :=
  match r with
  | Toss c f => Graph {[coin_node c f]} ∅
  | Tosses c f _ c' f' =>
      let ends : gset node := {[coin_node c f; coin_node c' f']} in
      Graph ends {[(ends, Plain (if decide (worth c < worth c')%Z then "r1" else "r2"))]}
  end.

(** The number of reports for an outcome. *)
Definition reports_of (g : graph) (l : list report) : list report := filter (fun r => meaning r = g) l.

(** Same tosses in the same order, whatever the word between them. *)
Definition same_tosses (r r' : report) : Prop :=
  match r, r' with
  | Toss c f, Toss d e => c = d /\ f = e
  | Tosses c f _ c' f', Tosses d e _ d' e' => c = d /\ f = e /\ c' = d' /\ f' = e'
  | _, _ => False
  end.

(** Python's [int] reads what [str] writes. *)
Definition reads_numbers (py_int : txt -> option Z) : Prop := forall z, (0 <= z)%Z -> py_int (int_text z) = Some z.

(** All of [T] are reports. *)
Definition all_reports (T : list txt) (l : list report) : Prop := Forall report_ok l /\ T = written <$> l.

End spec.
