(** * BaseFacts: iteration order and loop rules *)

From Verif Require Export Base.

(** ** perm_by: exactly the permutations *)

Lemma perm_by_perm {A} (code : list nat) (l : list A) : perm_by code l ≡ₚ l.
Proof.
  revert code. induction l as [|x l IH]; intros code; simpl; [done|].
  rewrite Permutation_app_comm. simpl. apply perm_skip.
  rewrite Permutation_app_comm, take_drop. apply IH.
Qed.

Lemma perm_by_complete {A} (l l' : list A) : l' ≡ₚ l -> exists code, perm_by code l = l'.
Proof.
  revert l'. induction l as [|x l IH]; intros l' Hp; simpl.
  { exists []. by apply Permutation_nil_r in Hp. }
  assert (x ∈ l') as Hx by (rewrite Hp; left).
  apply elem_of_list_split in Hx as (l1 & l2 & ->).
  rewrite <- Permutation_middle in Hp. apply Permutation_cons_inv in Hp.
  destruct (IH _ Hp) as [code Hc].
  exists (length l1 :: code). simpl. rewrite Hc.
  by rewrite take_app, drop_app.
Qed.

(** Any order is produced by some oracle. *)
Lemma iter_list_complete {A} (l l' : list A) : l' ≡ₚ l -> exists o, iter_list o l = l'.
Proof.
  intros Hp. destruct (perm_by_complete l l' Hp) as [c Hc]. exists (fun _ => c). exact Hc.
Qed.

Lemma iter_list_perm {A} o (l : list A) : iter_list o l ≡ₚ l.
Proof. apply perm_by_perm. Qed.

Section iter.
Context `{Countable K}.

Lemma iter_set_perm o (X : gset K) : iter_set o X ≡ₚ elements X.
Proof. apply iter_list_perm. Qed.

Lemma elem_of_iter_set o (X : gset K) x : x ∈ iter_set o X <-> x ∈ X.
Proof. rewrite iter_set_perm. apply elem_of_elements. Qed.

Lemma NoDup_iter_set o (X : gset K) : NoDup (iter_set o X).
Proof. rewrite iter_set_perm. apply NoDup_elements. Qed.

Lemma iter_set_empty o : iter_set o (∅ : gset K) = [].
Proof. apply Permutation_nil_r. by rewrite iter_set_perm, elements_empty. Qed.

Lemma iter_set_singleton o (x : K) : iter_set o ({[x]} : gset K) = [x].
Proof. apply Permutation_singleton_r. by rewrite iter_set_perm, elements_singleton. Qed.

Lemma iter_set_length o (X : gset K) : length (iter_set o X) = size X.
Proof. by rewrite iter_set_perm. Qed.

Lemma iter_set_nil o (X : gset K) : iter_set o X = [] <-> X = ∅.
Proof.
  split; [|intros ->; apply iter_set_empty].
  intros He. apply leibniz_equiv, elements_empty_inv, Permutation_nil_r.
  by rewrite <- He, iter_set_perm.
Qed.

Lemma list_to_set_iter_set o (X : gset K) : list_to_set (iter_set o X) = X.
Proof. apply set_eq. intros x. by rewrite elem_of_list_to_set, elem_of_iter_set. Qed.

Lemma iter_map_perm {A} o (m : gmap K A) : iter_map o m ≡ₚ map_to_list m.
Proof. apply iter_list_perm. Qed.

Lemma elem_of_iter_map {A} o (m : gmap K A) k a : (k, a) ∈ iter_map o m <-> m !! k = Some a.
Proof. rewrite iter_map_perm. apply elem_of_map_to_list. Qed.

Lemma NoDup_fst_iter_map {A} o (m : gmap K A) : NoDup (iter_map o m).*1.
Proof. rewrite iter_map_perm. apply NoDup_fst_map_to_list. Qed.

Lemma NoDup_iter_map {A} o (m : gmap K A) : NoDup (iter_map o m).
Proof. rewrite iter_map_perm. apply NoDup_map_to_list. Qed.

Lemma iter_map_nil {A} o (m : gmap K A) : iter_map o m = [] <-> m = ∅.
Proof.
  rewrite <- map_to_list_empty_iff. split; intros He.
  - apply Permutation_nil_r. by rewrite <- He, iter_map_perm.
  - apply Permutation_nil_r. by rewrite iter_map_perm, He.
Qed.

Lemma iter_map_empty {A} o : iter_map o (∅ : gmap K A) = [].
Proof. by apply iter_map_nil. Qed.

Lemma iter_map_singleton {A} o k (a : A) : iter_map o ({[k := a]} : gmap K A) = [(k, a)].
Proof. apply Permutation_singleton_r. by rewrite iter_map_perm, map_to_list_singleton. Qed.

Lemma iter_map_length {A} o (m : gmap K A) : length (iter_map o m) = size m.
Proof. by rewrite iter_map_perm. Qed.

Lemma list_to_map_iter_map {A} o (m : gmap K A) : list_to_map (iter_map o m) = m.
Proof.
  rewrite <- (list_to_map_to_list m) at 2.
  apply list_to_map_proper; [apply NoDup_fst_iter_map|apply iter_map_perm].
Qed.
End iter.

(** ** Loops over lists *)

Section loops.
Context {S A : Type}.
Implicit Types (P : list A -> S -> Prop).

(** [P done s]: [s] is a legal accumulator after the elements [done] (in this order). *)
Lemma for_each_ind P (f : oracle -> S -> A -> S) o s l :
  P [] s ->
  (forall done x rest s o, l = done ++ x :: rest -> P done s -> P (done ++ [x]) (f o s x)) ->
  P l (for_each f o s l).
Proof.
  intros H0 Hs.
  assert (forall l' done o s, l = done ++ l' -> P done s -> P l (for_each f o s l')) as Hgen.
  { induction l' as [|x l' IH]; intros done o' s' -> HP; simpl.
    - by rewrite app_nil_r in *.
    - apply (IH (done ++ [x])).
      + by rewrite <- app_assoc.
      + by eapply Hs. }
  by apply (Hgen l []).
Qed.

Lemma for_res_ind P (Q : exn -> Prop) (f : oracle -> S -> A -> res S) o s l :
  P [] s ->
  (forall done x rest s o, l = done ++ x :: rest -> P done s ->
     match f o s x with Ok s' => P (done ++ [x]) s' | Err e => Q e end) ->
  match for_res f o s l with Ok s' => P l s' | Err e => Q e end.
Proof.
  intros H0 Hs.
  assert (forall l' done o s, l = done ++ l' -> P done s ->
    match for_res f o s l' with Ok s' => P l s' | Err e => Q e end) as Hgen.
  { induction l' as [|x l' IH]; intros done o' s' -> HP; simpl.
    - by rewrite app_nil_r in *.
    - pose proof (Hs done x l' s' (sub o' 1) eq_refl HP) as Hx.
      destruct (f (sub o' 1) s' x) as [s''|e]; [|done].
      apply (IH (done ++ [x])); [by rewrite <- app_assoc|done]. }
  by apply (Hgen l []).
Qed.

Lemma for_mut_ind P (Q : S -> exn -> Prop) (f : oracle -> S -> A -> S * res unit) o s l :
  P [] s ->
  (forall done x rest s o, l = done ++ x :: rest -> P done s ->
     match f o s x with (s', Ok _) => P (done ++ [x]) s' | (s', Err e) => Q s' e end) ->
  match for_mut f o s l with (s', Ok _) => P l s' | (s', Err e) => Q s' e end.
Proof.
  intros H0 Hs.
  assert (forall l' done o s, l = done ++ l' -> P done s ->
    match for_mut f o s l' with (s', Ok _) => P l s' | (s', Err e) => Q s' e end) as Hgen.
  { induction l' as [|x l' IH]; intros done o' s' -> HP; simpl.
    - by rewrite app_nil_r in *.
    - pose proof (Hs done x l' s' (sub o' 1) eq_refl HP) as Hx.
      destruct (f (sub o' 1) s' x) as [s'' [[]|e]]; [|done].
      apply (IH (done ++ [x])); [by rewrite <- app_assoc|done]. }
  by apply (Hgen l []).
Qed.

(** Loops whose body ignores its oracle. *)
Lemma for_each_foldl (f : S -> A -> S) o s l :
  for_each (fun _ => f) o s l = foldl f s l.
Proof. revert o s. induction l as [|x l IH]; intros; simpl; [done|]. apply IH. Qed.
End loops.

Lemma map_res_Forall2 {A B} (f : oracle -> A -> res B) (R : A -> B -> Prop) o l :
  (forall o x y, x ∈ l -> f o x = Ok y -> R x y) ->
  match map_res f o l with Ok ys => Forall2 R l ys | Err _ => True end.
Proof.
  revert o. induction l as [|x l IH]; intros o HR; simpl; [done|].
  destruct (f (sub o 1) x) as [y|] eqn:Hy; [|done].
  specialize (IH (sub o 0)). destruct (map_res f (sub o 0) l) as [ys|]; [|done].
  constructor; [eapply HR; [left|done]|]. apply IH. intros ????. eapply HR. by right.
Qed.

(** Total form: if every element maps to [Ok], the comprehension does. *)
Lemma map_res_ok {A B} (f : oracle -> A -> res B) (R : A -> B -> Prop) o l :
  (forall o x, x ∈ l -> exists y, f o x = Ok y /\ R x y) ->
  exists ys, map_res f o l = Ok ys /\ Forall2 R l ys.
Proof.
  revert o. induction l as [|x l IH]; intros o HR; simpl; [by exists []|].
  destruct (HR (sub o 1) x) as (y & -> & Hy); [left|].
  destruct (IH (sub o 0)) as (ys & -> & Hys); [intros; apply HR; by right|].
  exists (y :: ys). by split; [|constructor].
Qed.

(** ** Loops over sets and maps *)

Section set_loops.
Context `{Countable K} {S : Type}.

Lemma list_to_set_done_step (X : gset K) o done x rest :
  iter_set o X = done ++ x :: rest ->
  x ∈ X /\ x ∉ (list_to_set done : gset K) /\ (list_to_set done : gset K) ⊆ X /\
  list_to_set (done ++ [x]) = {[x]} ∪ (list_to_set done : gset K).
Proof.
  intros Hl. pose proof (NoDup_iter_set o X) as Hnd. rewrite Hl in Hnd.
  apply NoDup_app in Hnd as (? & Hd & Hnd).
  split_and!.
  - rewrite <- (elem_of_iter_set o), Hl. set_solver.
  - rewrite elem_of_list_to_set. intros Hx. destruct (Hd _ Hx). left.
  - intros y. rewrite elem_of_list_to_set, <- (elem_of_iter_set o), Hl. set_solver.
  - rewrite list_to_set_app_L. simpl. set_solver.
Qed.

Lemma for_each_set_ind (P : gset K -> S -> Prop) (f : oracle -> S -> K -> S) o o' s (X : gset K) :
  P ∅ s ->
  (forall Y x s o, x ∈ X -> x ∉ Y -> Y ⊆ X -> P Y s -> P ({[x]} ∪ Y) (f o s x)) ->
  P X (for_each f o s (iter_set o' X)).
Proof.
  intros H0 Hs. rewrite <- (list_to_set_iter_set o' X) at 1.
  apply (for_each_ind (fun l s => P (list_to_set l) s)); [done|].
  intros done x rest s' o'' Hl HP.
  destruct (list_to_set_done_step _ _ _ _ _ Hl) as (?&?&?&->). by apply Hs.
Qed.

Lemma for_res_set_ind (P : gset K -> S -> Prop) (Q : exn -> Prop) (f : oracle -> S -> K -> res S)
    o o' s (X : gset K) :
  P ∅ s ->
  (forall Y x s o, x ∈ X -> x ∉ Y -> Y ⊆ X -> P Y s ->
     match f o s x with Ok s' => P ({[x]} ∪ Y) s' | Err e => Q e end) ->
  match for_res f o s (iter_set o' X) with Ok s' => P X s' | Err e => Q e end.
Proof.
  intros H0 Hs.
  pose proof (for_res_ind (fun l s => P (list_to_set l) s) Q f o s (iter_set o' X) H0) as Hi.
  cbv beta in Hi. rewrite list_to_set_iter_set in Hi. apply Hi.
  intros done x rest s' o'' Hl HP.
  destruct (list_to_set_done_step _ _ _ _ _ Hl) as (?&?&?&->). by apply Hs.
Qed.

Lemma for_mut_set_ind (P : gset K -> S -> Prop) (Q : S -> exn -> Prop)
    (f : oracle -> S -> K -> S * res unit) o o' s (X : gset K) :
  P ∅ s ->
  (forall Y x s o, x ∈ X -> x ∉ Y -> Y ⊆ X -> P Y s ->
     match f o s x with (s', Ok _) => P ({[x]} ∪ Y) s' | (s', Err e) => Q s' e end) ->
  match for_mut f o s (iter_set o' X) with (s', Ok _) => P X s' | (s', Err e) => Q s' e end.
Proof.
  intros H0 Hs.
  pose proof (for_mut_ind (fun l s => P (list_to_set l) s) Q f o s (iter_set o' X) H0) as Hi.
  cbv beta in Hi. rewrite list_to_set_iter_set in Hi. apply Hi.
  intros done x rest s' o'' Hl HP.
  destruct (list_to_set_done_step _ _ _ _ _ Hl) as (?&?&?&->). by apply Hs.
Qed.

Context {A : Type}.
Implicit Types (m : gmap K A).

Lemma list_to_map_done_step m o done k a rest :
  iter_map o m = done ++ (k, a) :: rest ->
  m !! k = Some a /\ (list_to_map done : gmap K A) !! k = None /\ (list_to_map done : gmap K A) ⊆ m /\
  list_to_map (done ++ [(k, a)]) = <[k := a]> (list_to_map done : gmap K A).
Proof.
  intros Hl. pose proof (NoDup_fst_iter_map o m) as Hnd. rewrite Hl, fmap_app in Hnd. simpl in Hnd.
  assert ((list_to_map done : gmap K A) !! k = None) as Hk.
  { apply not_elem_of_list_to_map. apply NoDup_app in Hnd as (? & Hd & ?).
    intros Hin. destruct (Hd _ Hin). left. }
  split_and!.
  - rewrite <- (elem_of_iter_map o), Hl. set_solver.
  - done.
  - apply map_subseteq_spec. intros k' a' Hk'.
    apply elem_of_list_to_map_2 in Hk'. rewrite <- (elem_of_iter_map o), Hl. set_solver.
  - change (<[k:=a]> (list_to_map done)) with (list_to_map ((k, a) :: done) : gmap K A).
    apply list_to_map_proper; [|by rewrite Permutation_app_comm].
    rewrite fmap_app. simpl. apply NoDup_app in Hnd as (? & Hd & ?).
    apply NoDup_app. split_and!; [done| |apply NoDup_singleton].
    intros x Hx Hxk. apply elem_of_list_singleton in Hxk as ->. apply (Hd _ Hx). left.
Qed.

Lemma for_each_map_ind (P : gmap K A -> S -> Prop) (f : oracle -> S -> K * A -> S) o o' s m :
  P ∅ s ->
  (forall m' k a s o, m !! k = Some a -> m' !! k = None -> m' ⊆ m -> P m' s ->
     P (<[k := a]> m') (f o s (k, a))) ->
  P m (for_each f o s (iter_map o' m)).
Proof.
  intros H0 Hs. rewrite <- (list_to_map_iter_map o' m) at 1.
  apply (for_each_ind (fun l s => P (list_to_map l) s)); [done|].
  intros done [k a] rest s' o'' Hl HP.
  destruct (list_to_map_done_step _ _ _ _ _ _ Hl) as (?&?&?&->). by apply Hs.
Qed.

Lemma for_res_map_ind (P : gmap K A -> S -> Prop) (Q : exn -> Prop) (f : oracle -> S -> K * A -> res S)
    o o' s m :
  P ∅ s ->
  (forall m' k a s o, m !! k = Some a -> m' !! k = None -> m' ⊆ m -> P m' s ->
     match f o s (k, a) with Ok s' => P (<[k := a]> m') s' | Err e => Q e end) ->
  match for_res f o s (iter_map o' m) with Ok s' => P m s' | Err e => Q e end.
Proof.
  intros H0 Hs.
  pose proof (for_res_ind (fun l s => P (list_to_map l) s) Q f o s (iter_map o' m) H0) as Hi.
  cbv beta in Hi. rewrite list_to_map_iter_map in Hi. apply Hi.
  intros done [k a] rest s' o'' Hl HP.
  destruct (list_to_map_done_step _ _ _ _ _ _ Hl) as (?&?&?&->). by apply Hs.
Qed.

Lemma for_mut_map_ind (P : gmap K A -> S -> Prop) (Q : S -> exn -> Prop)
    (f : oracle -> S -> K * A -> S * res unit) o o' s m :
  P ∅ s ->
  (forall m' k a s o, m !! k = Some a -> m' !! k = None -> m' ⊆ m -> P m' s ->
     match f o s (k, a) with (s', Ok _) => P (<[k := a]> m') s' | (s', Err e) => Q s' e end) ->
  match for_mut f o s (iter_map o' m) with (s', Ok _) => P m s' | (s', Err e) => Q s' e end.
Proof.
  intros H0 Hs.
  pose proof (for_mut_ind (fun l s => P (list_to_map l) s) Q f o s (iter_map o' m) H0) as Hi.
  cbv beta in Hi. rewrite list_to_map_iter_map in Hi. apply Hi.
  intros done [k a] rest s' o'' Hl HP.
  destruct (list_to_map_done_step _ _ _ _ _ _ Hl) as (?&?&?&->). by apply Hs.
Qed.
End set_loops.

(** ** Sums *)

Global Instance zsum_proper : Proper ((≡ₚ) ==> (=)) zsum.
Proof. intros l l' Hp. unfold zsum. induction Hp; simpl; lia. Qed.
Global Instance zprod_proper : Proper ((≡ₚ) ==> (=)) zprod.
Proof. intros l l' Hp. unfold zprod. induction Hp; simpl; lia. Qed.
Global Instance qsum_proper : Proper ((≡ₚ) ==> (=)) qsum.
Proof. intros l l' Hp. unfold qsum. induction Hp; simpl; [done|congruence|ring|congruence]. Qed.

Lemma zsum_app l l' : zsum (l ++ l') = (zsum l + zsum l')%Z.
Proof. unfold zsum. induction l; simpl; lia. Qed.
Lemma zprod_app l l' : zprod (l ++ l') = (zprod l * zprod l')%Z.
Proof. unfold zprod. induction l as [|x l IH]; simpl; [lia|]. rewrite IH. lia. Qed.
Lemma qsum_app l l' : qsum (l ++ l') = (qsum l + qsum l')%Qc.
Proof. unfold qsum. induction l as [|x l IH]; simpl; [ring|]. rewrite IH. ring. Qed.

(** Sum of a function over the entries of a map. *)
Definition msum {K A} `{Countable K} (f : K -> A -> Z) (m : gmap K A) : Z :=
  zsum ((fun kv => f kv.1 kv.2) <$> map_to_list m).

Section msum.
Context `{Countable K} {A : Type}.
Implicit Types (m : gmap K A) (f : K -> A -> Z).

Lemma msum_empty f : msum f (∅ : gmap K A) = 0%Z.
Proof. unfold msum. by rewrite map_to_list_empty. Qed.

Lemma msum_insert f m k a : m !! k = None -> msum f (<[k := a]> m) = (f k a + msum f m)%Z.
Proof. intros Hk. unfold msum. by rewrite map_to_list_insert. Qed.

Lemma msum_delete f m k a : m !! k = Some a -> msum f m = (f k a + msum f (delete k m))%Z.
Proof.
  intros Hk. rewrite <- msum_insert by apply lookup_delete. by rewrite insert_delete.
Qed.

Lemma msum_ext f f' m : (forall k a, m !! k = Some a -> f k a = f' k a) -> msum f m = msum f' m.
Proof.
  induction m as [|k a m Hk IH] using map_ind; intros Hf; [by rewrite !msum_empty|].
  rewrite !msum_insert by done. rewrite Hf by apply lookup_insert. f_equal.
  apply IH. intros k' a' Hk'. apply Hf. rewrite lookup_insert_ne; [done|]. by intros ->; simplify_eq.
Qed.

Lemma msum_add f f' m : msum (fun k a => f k a + f' k a)%Z m = (msum f m + msum f' m)%Z.
Proof.
  induction m as [|k a m Hk IH] using map_ind; [by rewrite !msum_empty|].
  rewrite !msum_insert by done. lia.
Qed.

Lemma msum_zero m : msum (fun _ _ => 0%Z) m = 0%Z.
Proof.
  induction m as [|k a m Hk IH] using map_ind; [by rewrite !msum_empty|].
  rewrite !msum_insert by done. lia.
Qed.

Lemma msum_nonneg f m : (forall k a, m !! k = Some a -> 0 <= f k a)%Z -> (0 <= msum f m)%Z.
Proof.
  induction m as [|k a m Hk IH] using map_ind; intros Hf; [by rewrite !msum_empty|].
  rewrite !msum_insert by done.
  assert (0 <= f k a)%Z by (apply Hf, lookup_insert).
  assert (0 <= msum f m)%Z; [|lia]. apply IH. intros k' a' Hk'. apply Hf.
  rewrite lookup_insert_ne; [done|]. by intros ->; simplify_eq.
Qed.

Lemma msum_le f f' m : (forall k a, m !! k = Some a -> f k a <= f' k a)%Z -> (msum f m <= msum f' m)%Z.
Proof.
  induction m as [|k a m Hk IH] using map_ind; intros Hf; [by rewrite !msum_empty|].
  rewrite !msum_insert by done.
  assert (f k a <= f' k a)%Z by (apply Hf, lookup_insert).
  assert (msum f m <= msum f' m)%Z; [|lia]. apply IH. intros k' a' Hk'. apply Hf.
  rewrite lookup_insert_ne; [done|]. by intros ->; simplify_eq.
Qed.

Lemma msum_filter f m (P : K * A -> Prop) `{!forall x, Decision (P x)} :
  msum f (filter P m) = msum (fun k a => if bool_decide (P (k, a)) then f k a else 0%Z) m.
Proof.
  induction m as [|k a m Hk IH] using map_ind; [by rewrite map_filter_empty, !msum_empty|].
  rewrite msum_insert by done. destruct (decide (P (k, a))) as [HP|HP].
  - rewrite map_filter_insert_True by done. rewrite msum_insert.
    + by rewrite bool_decide_true, IH.
    + apply map_filter_lookup_None. by left.
  - rewrite map_filter_insert_False by done. rewrite delete_notin by done.
    rewrite bool_decide_false by done. by rewrite IH.
Qed.

Lemma zsum_snd_msum (m : gmap K Z) : zsum (map_to_list m).*2 = msum (fun _ c => c) m.
Proof. unfold msum. f_equal. Qed.
End msum.

(** Case analysis on a [passert]. *)
Lemma passert_cases (P : Prop) `{Decision P} :
  (P /\ passert (bool_decide P) = Ok tt) \/ (~ P /\ passert (bool_decide P) = Err AssertionError).
Proof. unfold passert. case_bool_decide; auto. Qed.
