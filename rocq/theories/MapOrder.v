(** * MapOrder: iteration over dictionaries with the same keys; two executions side by side *)

From stdpp Require Import pmap.
From Verif Require Import BaseFacts.

(** ** The order of iteration does not depend on what a dictionary stores *)
Lemma Pto_list_raw_fmap {A B} (f : A -> B) (t : Pmap_raw A) : forall j acc,
  Pto_list_raw j (Pfmap_raw f t) (prod_map id f <$> acc) = prod_map id f <$> Pto_list_raw j t acc.
Proof.
  induction t as [|o l IHl r IHr]; intros j acc; [done|]. cbn [Pfmap_raw Pto_list_raw]. rewrite IHr, IHl, fmap_app. f_equal. by destruct o.
Qed.
Lemma map_to_list_fmap_eq `{Countable K} {A B} (f : A -> B) (m : gmap K A) :
  map_to_list (f <$> m) = prod_map id f <$> map_to_list m.
Proof.
  destruct m as [[t Ht] Hm]. unfold map_to_list, gmap_to_list. cbn.
  pose proof (Pto_list_raw_fmap f t 1 []) as He. rewrite fmap_nil in He.
  unfold map_to_list, Pto_list. cbn [fmap]. unfold Pfmap. cbn. 
  etransitivity; [refine (f_equal _ He)|]. generalize (Pto_list_raw 1 t []). intros l. clear.
  induction l as [|[p x] l IH]; [done|]. cbn. destruct (decode p); cbn; by rewrite IH.
Qed.
Lemma perm_by_fmap {A B} (f : A -> B) code l : perm_by code (f <$> l) = f <$> perm_by code l.
Proof.
  revert code. induction l as [|x l IH]; intros code; [done|]. rewrite fmap_cons. cbn [perm_by]. rewrite IH, fmap_app, fmap_cons.
  by rewrite fmap_take, fmap_drop.
Qed.
Lemma iter_map_fmap `{Countable K} {A B} (f : A -> B) o (m : gmap K A) : iter_map o (f <$> m) = prod_map id f <$> iter_map o m.
Proof. unfold iter_map, iter_list. by rewrite map_to_list_fmap_eq, perm_by_fmap. Qed.

(** ** Two executions side by side *)
Definition both {A B} (R : A -> B -> Prop) (x : res A) (y : res B) : Prop :=
  match x, y with Ok a, Ok b => R a b | Err e, Err e' => e = e' | _, _ => False end.

Lemma both_bind {A B A' B'} (R : A -> B -> Prop) (R' : A' -> B' -> Prop) x y f g :
  both R x y -> (forall a b, R a b -> both R' (f a) (g b)) -> both R' (x ≫= f) (y ≫= g).
Proof. destruct x, y; cbn; intros H Hf; try done; by apply Hf. Qed.
Lemma both_same {A} (x : res A) : both eq x x.
Proof. by destruct x. Qed.
Lemma both_mono {A B} (R R' : A -> B -> Prop) x y : both R x y -> (forall a b, R a b -> R' a b) -> both R' x y.
Proof. destruct x, y; cbn; auto. Qed.
