(** * OdoFacts: the index counter of generate_all_possible_outcomes visits every combination once *)

From Verif Require Export BuildFacts.

Section odo_facts.
Context {U : Universe}.

(** Digit lists: [n] digits between -1 and [top]. *)
Definition digits (top : Z) (n : nat) (l : list Z) : Prop :=
  length l = n /\ forall d, d ∈ l -> (-1 <= d <= top)%Z.

(** Number written by the digits, least significant first. *)
Fixpoint odo_val (top : Z) (l : list Z) : Z :=
  match l with
  | [] => 0
  | d :: l' => (d + 1 + (top + 2) * odo_val top l')%Z
  end.

Lemma digits_cons top n d l : digits top (S n) (d :: l) <-> (-1 <= d <= top)%Z /\ digits top n l.
Proof.
  unfold digits. cbn [length]. setoid_rewrite elem_of_cons. split.
  - intros [Hl H]. split; [apply H; by left|]. split; [lia|]. intros; apply H; by right.
  - intros (H1 & H2 & H3). split; [lia|]. intros x [->|Hx]; auto.
Qed.

Lemma odo_val_range top n l : (-1 <= top)%Z -> digits top n l -> (0 <= odo_val top l < (top + 2) ^ Z.of_nat n)%Z.
Proof.
  intros Ht. revert l. induction n as [|n IH]; intros l Hl.
  - destruct Hl as [Hl _]. apply nil_length_inv in Hl as ->. simpl. lia.
  - destruct l as [|d l]; [by destruct Hl|]. apply digits_cons in Hl as [Hd Hl]. cbn [odo_val].
    rewrite Nat2Z.inj_succ, Z.pow_succ_r by lia. specialize (IH l Hl). nia.
Qed.

Lemma odo_val_inj top n l l' : (-1 <= top)%Z -> digits top n l -> digits top n l' -> odo_val top l = odo_val top l' -> l = l'.
Proof.
  intros Ht. revert l l'. induction n as [|n IH]; intros l l' Hl Hl' Heq.
  - destruct Hl as [Hl _], Hl' as [Hl' _]. apply nil_length_inv in Hl as ->. by apply nil_length_inv in Hl' as ->.
  - destruct l as [|d l]; [by destruct Hl|]. destruct l' as [|d' l']; [by destruct Hl'|].
    apply digits_cons in Hl as [Hd Hl], Hl' as [Hd' Hl']. cbn [odo_val] in Heq.
    assert (d + 1 = d' + 1 /\ odo_val top l = odo_val top l')%Z as [H1 H2].
    { pose proof (Z.div_mod_unique (top + 2) (odo_val top l) (odo_val top l') (d + 1) (d' + 1)) as Hdm.
      destruct Hdm as [H1 H2]; [lia|lia|lia|]. by split. }
    f_equal; [lia|by apply IH].
Qed.

Lemma odo_next_spec top n l : (-1 <= top)%Z -> digits top n l -> (exists d, d ∈ l /\ d < top)%Z ->
  exists l', odo_next top l = Ok l' /\ digits top n l' /\ odo_val top l' = (odo_val top l + 1)%Z.
Proof.
  intros Ht. revert l. induction n as [|n IH]; intros l Hl (x & Hx & Hlt).
  - destruct Hl as [Hl _]. apply nil_length_inv in Hl as ->. by apply elem_of_nil in Hx.
  - destruct l as [|d l]; [by apply elem_of_nil in Hx|]. apply digits_cons in Hl as [Hd Hl]. cbn [odo_next].
    case_bool_decide as Htop.
    + destruct (IH l Hl) as (l' & Hn & Hd' & Hv).
      { apply elem_of_cons in Hx as [->|Hx]; [lia|]. by exists x. }
      rewrite Hn. cbn [mbind res_bind]. eexists. split; [done|]. split; [apply digits_cons; split; [lia|done]|].
      cbn [odo_val]. rewrite Hv. assert (d = top) as -> by lia. lia.
    + eexists. split; [done|]. split; [apply digits_cons; split; [lia|done]|]. cbn [odo_val]. lia.
Qed.

Lemma odo_full top n l : (-1 <= top)%Z -> digits top n l -> (forall d, d ∈ l -> top <= d)%Z ->
  odo_val top l = ((top + 2) ^ Z.of_nat n - 1)%Z.
Proof.
  intros Ht. revert l. induction n as [|n IH]; intros l Hl Hf.
  - destruct Hl as [Hl _]. by apply nil_length_inv in Hl as ->.
  - destruct l as [|d l]; [by destruct Hl|]. apply digits_cons in Hl as [Hd Hl]. cbn [odo_val].
    rewrite IH; [|done|intros; apply Hf; by right]. assert (top <= d)%Z by (apply Hf; left).
    rewrite Nat2Z.inj_succ, Z.pow_succ_r by lia. nia.
Qed.

Lemma odo_loop_spec fuel top n l : (-1 <= top)%Z -> digits top n l ->
  ((top + 2) ^ Z.of_nat n - 1 - odo_val top l < Z.of_nat fuel)%Z ->
  exists r, odo_loop fuel top l = Ok r /\ NoDup r /\
    forall x, x ∈ r <-> digits top n x /\ (odo_val top l < odo_val top x)%Z.
Proof.
  intros Ht. revert l. induction fuel as [|k IH]; intros l Hl Hf.
  { pose proof (odo_val_range top n l Ht Hl). lia. }
  cbn [odo_loop]. destruct (existsb _ l) eqn:He.
  - apply existsb_exists in He as (d & Hd & Hlt). apply elem_of_list_In in Hd. apply bool_decide_eq_true in Hlt.
    destruct (odo_next_spec top n l Ht Hl) as (l' & -> & Hl' & Hv); [by exists d|]. cbn [mbind res_bind].
    destruct (IH l' Hl') as (r & -> & Hnd & Hr); [lia|]. cbn [mbind res_bind].
    exists (l' :: r). split; [done|]. split.
    + apply NoDup_cons. split; [|done]. intros [_ Hin]%Hr. lia.
    + intros x. rewrite elem_of_cons, Hr, Hv. split.
      * intros [->|[? ?]]; (split; [done|lia]).
      * intros [Hx Hlx]. destruct (decide (odo_val top x = odo_val top l'))%Z as [Heq|Hne].
        -- left. by apply (odo_val_inj top n).
        -- right. split; [done|]. lia.
  - exists []. split; [done|]. split; [constructor|]. intros x. split; [by intros ?%elem_of_nil|].
    intros [Hx Hlx]. exfalso. pose proof (odo_val_range top n x Ht Hx).
    rewrite (odo_full top n l Ht Hl) in Hlx; [lia|]. intros d Hd.
    assert (¬ (d < top)%Z); [|lia]. intros Hlt. assert (existsb (fun i => bool_decide (i < top)%Z) l = true); [|congruence].
    apply existsb_exists. exists d. split; [by apply elem_of_list_In|]. by apply bool_decide_eq_true.
Qed.

Lemma odo_val_start top n : odo_val top (replicate n (-1)%Z) = 0%Z.
Proof. induction n as [|n IH]; [done|]. cbn [replicate odo_val]. rewrite IH. lia. Qed.

Lemma digits_start top n : (-1 <= top)%Z -> digits top n (replicate n (-1)%Z).
Proof. intros Ht. split; [apply replicate_length|]. intros d [-> _]%elem_of_replicate. lia. Qed.

(** Every combination except "no edge at all" is visited, each exactly once. *)
Lemma odo_all r n :
  exists L, odo_loop (S (S r ^ n)) (Z.of_nat r - 1) (replicate n (-1)%Z) = Ok L /\ NoDup L /\
    forall x, x ∈ L <-> digits (Z.of_nat r - 1) n x /\ x <> replicate n (-1)%Z.
Proof.
  assert (-1 <= Z.of_nat r - 1)%Z as Ht by lia.
  destruct (odo_loop_spec (S (S r ^ n)) (Z.of_nat r - 1) n (replicate n (-1)%Z) Ht (digits_start _ n Ht)) as (L & HL & Hnd & Hx).
  { rewrite odo_val_start. replace (Z.of_nat r - 1 + 2)%Z with (Z.of_nat (S r)) by lia.
    rewrite <- Nat2Z.inj_pow. lia. }
  exists L. split; [done|]. split; [done|]. intros x. rewrite Hx, odo_val_start. split.
  - intros [Hd Hlt]. split; [done|]. intros ->. rewrite odo_val_start in Hlt. lia.
  - intros [Hd Hne]. split; [done|]. pose proof (odo_val_range _ n x Ht Hd).
    destruct (decide (odo_val (Z.of_nat r - 1) x = 0%Z)) as [Hz|]; [|lia]. exfalso. apply Hne.
    apply (odo_val_inj (Z.of_nat r - 1) n); [done|done|by apply digits_start|]. by rewrite odo_val_start.
Qed.

End odo_facts.
