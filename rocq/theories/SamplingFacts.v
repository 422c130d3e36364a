(** * SamplingFacts: proofs about the sampling functions of the demo (C67) *)

From Coq Require Import ZArith Reals Lra Lia.
From Flocq Require Import Core IEEE754.BinarySingleNaN.
From stdpp Require Import base list numbers option sorting tactics.
From Verif Require Import SpecSampling Sampling FloatFacts AgentFacts.

Lemma normalized_shares py_sum d : shares_of py_sum d (normalized py_sum d).
Proof.
  unfold shares_of, normalized, vec_normalize. change f_one with (@Bone 53 1024 _ _). destruct (Beqb (py_sum d) Bone); [done|].
  change f_zero with (@B754_zero 53 1024 false). destruct (Beqb (py_sum d) _); [done|]. simpl.
  apply Forall2_fmap_r. apply Forall_Forall2_diag. apply Forall_forall. done.
Qed.
Lemma shares_unique py_sum d d1 d2 : shares_of py_sum d d1 -> shares_of py_sum d d2 -> d1 = d2.
Proof.
  unfold shares_of. destruct (_ || _); [congruence|]. generalize (py_sum d). intros s H1. revert d2.
  induction H1 as [|x y l l1 H1 HF IH]; intros d2 H2; inversion H2; subst; [done|]. f_equal. by apply IH.
Qed.

(** ** The loop of nSample *)
Lemma first_zero (P : b64 -> Prop) b bs : P b -> first_at P (b :: bs) 0.
Proof. intros H. split; [by exists b|]. intros j c Hj. lia. Qed.
Lemma first_succ (P : b64 -> Prop) b bs i : ~ P b -> first_at P (b :: bs) (S i) <-> first_at P bs i.
Proof.
  intros H. split.
  - intros [Hb Hj]. split; [done|]. intros j c Hlt Hc. apply (Hj (S j) c); [lia|done].
  - intros [Hb Hj]. split; [done|]. intros [|j] c Hlt Hc; [by injection Hc as <-|]. apply (Hj j c); [lia|done].
Qed.
Lemma first_zero_inv (P : b64 -> Prop) b bs i : P b -> first_at P (b :: bs) i -> i = 0.
Proof. intros H [_ Hj]. destruct i as [|i]; [done|]. exfalso. apply (Hj 0 b); [lia|done|done]. Qed.

Section loops.
Context {A : Type}.

(** The bounds and the values from the current position on. *)
Definition drawn (cdf : b64) (dist : list b64) (vs : list A) (r : b64) (x : A) : Prop :=
  exists i, vs !! i = Some x /\ first_at (fun b => Bltb r b = true) (cdf :: sums_from cdf dist) i.

Lemma drawn_here cdf dist vs r x : Bltb r cdf = true -> drawn cdf dist vs r x <-> head vs = Some x.
Proof.
  intros H. split.
  - intros (i & Hv & Hf). apply first_zero_inv in Hf; [|done]. subst i. by destruct vs.
  - intros Hv. exists 0. split; [by destruct vs|]. by apply first_zero.
Qed.
Lemma drawn_later cdf p dist vs r x : Bltb r cdf = false -> drawn cdf (p :: dist) vs r x <-> drawn (fadd cdf p) dist (tail vs) r x.
Proof.
  intros H. unfold drawn. simpl. fold (fadd cdf p). split.
  - intros (i & Hv & Hf). destruct i as [|i]; [destruct Hf as [(b & Hb & Hr) _]; injection Hb as <-; congruence|].
    exists i. split; [by destruct vs|]. apply first_succ in Hf; [done|congruence].
  - intros (i & Hv & Hf). exists (S i). split; [by destruct vs|]. apply first_succ; [congruence|done].
Qed.
Lemma drawn_end cdf vs r x : Bltb r cdf = false -> ~ drawn cdf [] vs r x.
Proof.
  intros H (i & Hv & [(b & Hb & Hr) _]). simpl in Hb. destruct i as [|i]; [injection Hb as <-; congruence|]. by destruct i.
Qed.

Lemma lt_mono (r r' c : b64) : is_finite r = true -> is_finite r' = true -> (B2R r <= B2R r')%R -> Bltb r' c = true -> Bltb r c = true.
Proof.
  intros Hr Hr' Hle Hlt. destruct (is_finite c) eqn:Hc.
  - rewrite Bltb_correct in Hlt |- * by done. destruct (Rlt_bool_spec (B2R r') (B2R c)); [|done]. apply Rlt_bool_true. lra.
  - destruct c as [s|s| |s m e He]; try done.
    + destruct s.
      * destruct r' as [s|s| |s m e He]; try discriminate; destruct s; discriminate.
      * destruct r as [s|s| |s m e He]; try discriminate; destruct s; reflexivity.
    + destruct r' as [s|s| |s m e He]; try discriminate; destruct s; discriminate.
Qed.

Definition outcome (P : b64 -> A -> Prop) (rand : list b64) (samples : list A) (res : dres (list A)) : Prop :=
  match res with
  | DOk l => exists l', l = samples ++ l' /\ Forall2 P rand l'
  | DErr e => e = DIndexError /\ exists r, r ∈ rand /\ forall x, ~ P r x
  end.

Lemma n_loop_step cdf dist (vs : list A) r rand samples :
  n_loop cdf dist vs (r :: rand) samples =
  if Bltb r cdf then match vs with v :: _ => n_loop cdf dist vs rand (samples ++ [v]) | [] => DErr DIndexError end
  else match dist with p :: dist' => n_loop (fadd cdf p) dist' (tail vs) (r :: rand) samples | [] => DErr DIndexError end.
Proof. destruct dist, vs; simpl; destruct (Bltb r cdf); reflexivity. Qed.
Lemma n_loop_nil cdf dist (vs : list A) samples : n_loop cdf dist vs [] samples = DOk samples.
Proof. by destruct dist. Qed.

Lemma Forall2_impl_mem {X Y} (P Q : X -> Y -> Prop) l k :
  Forall2 P l k -> (forall x y, x ∈ l -> P x y -> Q x y) -> Forall2 Q l k.
Proof.
  intros H. induction H as [|x y l k Hxy H IH]; intros Himp; constructor; [apply Himp; [by left|done]|].
  apply IH. intros a b Ha. apply Himp. by right.
Qed.

Lemma n_loop_spec dist : forall cdf (vs : list A) rand samples,
  Forall (fun r => is_finite r = true) rand -> StronglySorted (fun x y => (B2R x <= B2R y)%R) rand ->
  outcome (drawn cdf dist vs) rand samples (n_loop cdf dist vs rand samples).
Proof.
  induction dist as [|p dist IHd]; intros cdf vs rand; induction rand as [|r rand IHr]; intros samples HF HS;
    try (rewrite n_loop_nil; exists []; rewrite app_nil_r; split; [done|constructor]).
  all: inversion HF as [|? ? Hr HF']; subst; inversion HS as [|? ? HS' Hle]; subst; rewrite n_loop_step;
    destruct (Bltb r cdf) eqn:Hlt.
  1, 3: destruct vs as [|v vs];
    [split; [done|]; exists r; split; [by left|]; intros x Hx; by apply drawn_here in Hx|];
    specialize (IHr (samples ++ [v]) HF' HS'); destruct (n_loop _ _ _ rand _) as [l|e];
    [destruct IHr as (l' & -> & Hl); exists (v :: l'); split; [by rewrite <- app_assoc|]; constructor; [by apply drawn_here|done]
    |destruct IHr as (-> & q & Hq & Hn); split; [done|]; exists q; split; [by right|done]].
  - split; [done|]. exists r. split; [by left|]. intros x. by apply drawn_end.
  - clear IHr. pose proof (IHd (fadd cdf p) (tail vs) (r :: rand) samples HF HS) as H.
    assert (forall q x, q ∈ r :: rand -> drawn (fadd cdf p) dist (tail vs) q x <-> drawn cdf (p :: dist) vs q x) as Heq.
    { intros q x Hq. symmetry. apply drawn_later. apply not_true_iff_false. intros Hc. apply not_true_iff_false in Hlt. apply Hlt.
      apply elem_of_cons in Hq as [->|Hq]; [done|]. apply (lt_mono r q cdf); [done| | |done].
      - rewrite Forall_forall in HF'. apply HF'. by apply elem_of_list_In.
      - rewrite Forall_forall in Hle. apply Hle. by apply elem_of_list_In. }
    destruct (n_loop (fadd cdf p) dist (tail vs) (r :: rand) samples) as [l|e].
    + destruct H as (l' & -> & Hl). exists l'. split; [done|]. apply (Forall2_impl_mem _ _ _ _ Hl). intros q x Hq. by apply Heq.
    + destruct H as (-> & q & Hq & Hn). split; [done|]. exists q. split; [done|]. intros x Hx. apply (Hn x). by apply Heq.
Qed.

(** ** The loop of sample *)
Definition reached (total : b64) (dist : list b64) (vs : list A) (r : b64) (x : A) : Prop :=
  exists i, vs !! i = Some x /\ first_at (fun b => Bltb b r = false) (total :: sums_from total dist) i.

Lemma list_loop_spec r dist : forall total (vs : list A),
  match list_loop r total dist (Some vs) with
  | DOk x => reached total dist vs r x
  | DErr e => e = DIndexError /\ forall x, ~ reached total dist vs r x
  end.
Proof.
  induction dist as [|p dist IH]; intros total vs; simpl; destruct (Bltb total r) eqn:Hlt.
  - split; [done|]. intros x (i & Hv & [(b & Hb & Hr) _]). simpl in Hb.
    destruct i as [|i]; [injection Hb as <-; congruence|]. by destruct i.
  - destruct vs as [|v vs].
    + split; [done|]. by intros x (i & Hv & _).
    + exists 0. split; [done|]. by apply first_zero.
  - assert (forall x, reached total (p :: dist) vs r x <-> reached (fadd total p) dist (tail vs) r x) as Heq.
    { intros x. unfold reached. simpl. fold (fadd total p). split.
      - intros (i & Hv & Hf). destruct i as [|i]; [destruct Hf as [(b & Hb & Hr) _]; injection Hb as <-; congruence|].
        exists i. split; [by destruct vs|]. apply first_succ in Hf; [done|congruence].
      - intros (i & Hv & Hf). exists (S i). split; [by destruct vs|]. apply first_succ; [congruence|done]. }
    specialize (IH (fadd total p) (tail vs)). destruct (list_loop r (fadd total p) dist (Some (tail vs))) as [x|e].
    + by apply Heq.
    + destruct IH as [-> IH]. split; [done|]. intros x Hx. apply (IH x). by apply Heq.
  - destruct vs as [|v vs].
    + split; [done|]. by intros x (i & Hv & _).
    + exists 0. split; [done|]. by apply first_zero.
Qed.
End loops.
