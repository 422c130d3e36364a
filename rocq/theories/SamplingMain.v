(** * SamplingMain: the sampling functions of the demo (C67) *)

From Coq Require Import ZArith Reals Lra Lia Sorted Floats.SpecFloat.
From Flocq Require Import Core IEEE754.BinarySingleNaN.
From stdpp Require Import base list numbers option sorting tactics.
From Verif Require Import Base SpecSampling Sampling FloatFacts FloatSumFacts AgentFacts SamplingFacts SamplingShares.

Local Open Scope R_scope.

Definition by_value (x y : b64) : Prop := B2R x <= B2R y.

Global Instance f_le_total : Total f_le.
Proof.
  intros x y. unfold f_le. destruct (Bltb y x) eqn:H1; [|by left]. right. unfold Bltb, SFltb in *.
  destruct (SFcompare (B2SF y) (B2SF x)) as [[]|] eqn:Hc; try done.
  destruct (SFcompare (B2SF x) (B2SF y)) as [[]|] eqn:Hc'; try done. exfalso.
  pose proof (Bcompare_swap 53 1024 x y) as Hs. unfold Bcompare in Hs. rewrite Hc, Hc' in Hs. done.
Qed.

Lemma sort_spec rand : Forall (fun r => is_finite r = true) rand ->
  merge_sort f_le rand ≡ₚ rand /\ Forall (fun r => is_finite r = true) (merge_sort f_le rand) /\ StronglySorted by_value (merge_sort f_le rand).
Proof.
  intros HF. pose proof (merge_sort_Permutation f_le rand) as Hp. pose proof (Sorted_merge_sort f_le rand) as Hs.
  assert (Forall (fun r => is_finite r = true) (merge_sort f_le rand)) as HF' by (by rewrite Hp).
  split; [done|]. split; [done|]. apply Sorted_StronglySorted; [intros x y z; unfold by_value; lra|].
  clear Hp HF. revert HF' Hs. generalize (merge_sort f_le rand). intros l. induction l as [|x l IH]; intros HF Hs; [constructor|].
  apply Sorted_inv in Hs as [Hs Hr]. inversion HF as [|? ? Hx HF']; subst. constructor; [by apply IH|].
  destruct Hr as [|y l Hxy]; constructor. inversion HF' as [|? ? Hy _]; subst. unfold f_le in Hxy. unfold by_value.
  rewrite Bltb_correct in Hxy by done. destruct (Rlt_bool_spec (B2R y) (B2R x)) as [|Hle]; [done|exact Hle].
Qed.

Lemma random_finite rand : Forall random_number rand -> Forall (fun r => is_finite r = true) rand.
Proof. intros HF. induction HF as [|r l [H _] HF IH]; constructor; done. Qed.

Lemma first_unique (P : b64 -> Prop) bs i j : first_at P bs i -> first_at P bs j -> i = j.
Proof.
  intros [(b & Hb & Pb) Hi] [(c & Hc & Pc) Hj]. destruct (Nat.lt_trichotomy i j) as [H|[H|H]]; [|done|].
  - by destruct (Hj i b H Hb).
  - by destruct (Hi j c H Hc).
Qed.

Section functions.
Context (py_sum : list b64 -> b64) {A : Type}.

Lemma draws_above_unique d (vs : list A) r x y : draws_above d vs r x -> draws_above d vs r y -> x = y.
Proof. intros (i & Hx & Hi) (j & Hy & Hj). rewrite (first_unique _ _ _ _ Hi Hj) in Hx. congruence. Qed.
Lemma draws_reached_unique d (vs : list A) r x y : draws_reached d vs r x -> draws_reached d vs r y -> x = y.
Proof. intros (i & Hx & Hi) (j & Hy & Hj). rewrite (first_unique _ _ _ _ Hi Hj) in Hx. congruence. Qed.

Lemma n_sample_lemma d d' (vs : list A) rand : Forall random_number rand -> d <> [] -> shares_of py_sum d d' ->
  match n_sample py_sum d vs rand with
  | DOk l => exists sorted, sorted ≡ₚ rand /\ StronglySorted (fun x y => (B2R x <= B2R y)%R) sorted /\ Forall2 (draws_above d' vs) sorted l
  | DErr e => e = DIndexError /\ exists r, r ∈ rand /\ forall x, ~ draws_above d' vs r x
  end.
Proof.
  intros HF Hd Hs. destruct (sort_spec rand (random_finite _ HF)) as (Hp & Hf & Hsort).
  assert (normalized py_sum d = d') as Hn by (eapply shares_unique; [apply normalized_shares|done]).
  unfold n_sample. rewrite Hn. destruct d' as [|p dist].
  - exfalso. apply Hd. unfold shares_of in Hs. destruct (_ || _); [done|]. by inversion Hs.
  - pose proof (n_loop_spec dist p vs _ [] Hf Hsort) as H. destruct (n_loop p dist vs (merge_sort f_le rand) []) as [l|e]; simpl in H.
    + destruct H as (l' & -> & HF2). exists (merge_sort f_le rand). done.
    + destruct H as (-> & r & Hr & Hx). split; [done|]. exists r. split; [by rewrite <- Hp|done].
Qed.

Lemma sample_list_lemma d d' (vs : list A) r : shares_of py_sum d d' ->
  match sample_list py_sum d (Some vs) r with
  | DOk x => draws_reached d' vs r x
  | DErr e => e = DIndexError /\ forall x, ~ draws_reached d' vs r x
  end.
Proof.
  intros Hs. assert (normalized py_sum d = d') as Hn by (eapply shares_unique; [apply normalized_shares|done]).
  unfold sample_list. rewrite Hn. destruct d' as [|p dist].
  - split; [done|]. by intros x (i & _ & (b & Hb & _) & _).
  - exact (list_loop_spec r dist p vs).
Qed.

(** ** Counters *)
Lemma zip_loop r dist : forall total (v : A) vs, length vs = length dist ->
  list_loop r total dist (Some (v :: vs)) = sample_loop r total v (zip vs dist).
Proof.
  induction dist as [|p dist IH]; intros total v vs Hl; destruct vs as [|w vs]; try done; simpl; destruct (Bltb total r); try done.
  apply IH. by injection Hl.
Qed.
Lemma normalized_length d : length (normalized py_sum d) = length d.
Proof. unfold normalized, vec_normalize. destruct (Beqb _ _); [done|]. destruct (Beqb _ _); [done|]. apply fmap_length. Qed.

Lemma from_counter_lemma (items : list (A * b64)) r : sample_list py_sum items.*2 (Some items.*1) r = sample_items py_sum items r.
Proof.
  unfold sample_list, sample_items. fold (normalized py_sum items.*2). pose proof (normalized_length items.*2) as Hl.
  destruct (normalized py_sum items.*2) as [|p dist]; rewrite fmap_length in Hl; destruct items as [|[v q] items]; try done.
  cbn [fmap list_fmap fst zip zip_with]. apply zip_loop. rewrite fmap_length. by injection Hl.
Qed.

(** ** Pairs *)
Lemma choose_loop_spec r dist : forall base,
  match choose_loop r base dist with
  | Some x => exists i, (dist.*2 : list A) !! i = Some x /\ first_at (fun b => Bleb r b = true) (sums_from base dist.*1) i
  | None => forall b, b ∈ sums_from base dist.*1 -> Bleb r b = false
  end.
Proof.
  induction dist as [|[p x] dist IH]; intros base; [by intros b Hb; apply elem_of_nil in Hb|].
  cbn [choose_loop fmap list_fmap fst snd sums_from]. fold (fadd base p). destruct (Bleb r (fadd base p)) eqn:Hle.
  - exists 0%nat. split; [done|]. by apply first_zero.
  - specialize (IH (fadd base p)). destruct (choose_loop r (fadd base p) dist) as [y|].
    + destruct IH as (i & Hi & Hf). exists (S i). split; [done|]. apply first_succ; [congruence|done].
    + intros b Hb. apply elem_of_cons in Hb as [->|Hb]; [done|]. by apply IH.
Qed.

(** ** Zero weights *)
Lemma add_zero (c : b64) s : is_finite c = true -> B2R (fadd c (B754_zero s)) = B2R c /\ is_finite (fadd c (B754_zero s)) = true.
Proof.
  intros Hc. pose proof (Bplus_correct 53 1024 _ _ mode_NE c (B754_zero s) Hc eq_refl) as H. simpl (B2R (B754_zero s)) in H.
  rewrite Rplus_0_r in H. assert (round radix2 (SpecFloat.fexp 53 1024) (round_mode mode_NE) (B2R c) = B2R c) as Hr.
  { apply round_generic; [apply valid_rnd_N|]. apply generic_format_B2R. }
  rewrite Hr in H. rewrite Rlt_bool_true in H by (apply abs_B2R_lt_emax). destruct H as (H1 & H2 & _). done.
Qed.

Lemma lt_add_zero (r c : b64) s : is_finite r = true -> Bltb r (fadd c (B754_zero s)) = true -> Bltb r c = true.
Proof.
  intros Hr Hlt. destruct (is_finite c) eqn:Hc.
  - destruct (add_zero c s Hc) as [Hv Hf]. rewrite Bltb_correct in Hlt |- * by done. by rewrite Hv in Hlt.
  - destruct c as [s'|s'| |s' m e He]; try done.
Qed.

Lemma nan_add (c p : b64) : is_nan p = true -> is_nan (fadd c p) = true.
Proof. destruct p as [t|t| |t m e He]; try done. intros _. destruct c as [t|t| |t m e He]; done. Qed.
Lemma lt_nan (r b : b64) : is_nan b = true -> Bltb r b = false.
Proof. destruct b as [t|t| |t m e He]; try done. intros _. destruct r as [t|t| |t m e He]; try done; by destruct t. Qed.

Lemma above_nonzero d r i : random_number r -> first_at (fun b => Bltb r b = true) (running d) i ->
  exists p, d !! i = Some p /\ ~ is_zero_weight p /\ is_nan p = false.
Proof.
  intros [Hr H0] Hf. destruct d as [|p d]; [by destruct Hf as [(b & Hb & _) _]|].
  assert (forall d p i, first_at (fun b => Bltb r b = true) (p :: sums_from p d) (S i) ->
    exists q, d !! i = Some q /\ ~ is_zero_weight q /\ is_nan q = false) as Hgen.
  { clear -Hr. induction d as [|q d IH]; intros p i [(b & Hb & Hlt) Hj]; [done|]. simpl in Hb. fold (fadd p q) in *. destruct i as [|i].
    - injection Hb as <-. exists q. split; [done|]. split.
      + intros [s ->]. apply (Hj 0%nat p); [lia|done|]. by apply (lt_add_zero r p s).
      + apply not_true_iff_false. intros Hq. rewrite (lt_nan r _ (nan_add p q Hq)) in Hlt. done.
    - apply (IH (fadd p q) i). split; [by exists b|]. intros j c Hlt' Hc. apply (Hj (S j) c); [lia|done]. }
  destruct i as [|i].
  - destruct Hf as [(b & Hb & Hlt) _]. injection Hb as <-. exists p. split; [done|]. split.
    + intros [s ->]. rewrite Bltb_correct in Hlt by done.
      destruct (Rlt_bool_spec (B2R r) (B2R (@B754_zero 53 1024 s))) as [H|H]; [|done]. simpl in H. lra.
    + apply not_true_iff_false. intros Hq. by rewrite (lt_nan r _ Hq) in Hlt.
  - apply (Hgen d p i). exact Hf.
Qed.

(** A weight of zero stays zero, or the shares are not numbers. *)
Lemma div_zero s (y : b64) : is_zero_weight (Bdiv mode_NE (B754_zero s) y) \/ is_nan (Bdiv mode_NE (B754_zero s) y) = true.
Proof. unfold is_zero_weight. destruct y as [t|t| |t m e He]; simpl; [by right|left; by eexists|by right|left; by eexists]. Qed.

Lemma shares_nonzero d d' i p' : shares_of py_sum d d' -> d' !! i = Some p' -> ~ is_zero_weight p' -> is_nan p' = false ->
  exists p, d !! i = Some p /\ ~ is_zero_weight p.
Proof.
  unfold shares_of. intros Hs Hi Hz Hn. destruct (_ || _); [subst d'; by exists p'|].
  destruct (Forall2_lookup_r _ _ _ _ _ Hs Hi) as (p & Hp & ->). exists p. split; [done|]. intros [s ->].
  destruct (div_zero s (py_sum d)) as [H|H]; [done|congruence].
Qed.

Lemma n_sample_nonzero d (vs : list A) rand l x : Forall random_number rand -> n_sample py_sum d vs rand = DOk l -> x ∈ l ->
  exists i p, d !! i = Some p /\ vs !! i = Some x /\ ~ is_zero_weight p.
Proof.
  intros HF Hl Hx. assert (d <> []) as Hd.
  { intros ->. unfold n_sample in Hl. pose proof (normalized_length []) as H. by destruct (normalized py_sum []). }
  pose proof (n_sample_lemma d _ vs rand HF Hd (normalized_shares py_sum d)) as H. rewrite Hl in H.
  destruct H as (srt & Hp & _ & HF2). apply elem_of_list_lookup in Hx as [k Hk].
  destruct (Forall2_lookup_r _ _ _ _ _ HF2 Hk) as (r & Hr & i & Hi & Hf). apply elem_of_list_lookup_2 in Hr.
  assert (random_number r) as Hrr.
  { rewrite Hp in Hr. by apply (proj1 (list.Forall_forall _ _) HF). }
  destruct (above_nonzero _ r i Hrr Hf) as (p' & Hp' & Hz & Hn).
  destruct (shares_nonzero d _ i p' (normalized_shares py_sum d) Hp' Hz Hn) as (p & Hpd & Hzp). by exists i, p.
Qed.
End functions.

(** ** Shares of the unit interval *)
Section parts.
Context {A : Type} (cs : list Z) (vs : list A).
Context (HF : Forall (fun c => 0 <= c)%Z cs) (Hpos : (0 < total_of cs)%Z) (Hn : (Z.of_nat (length cs) <= 2 ^ 22 - 2)%Z).
Context (Hl : length vs = length cs).

Definition close_bounds (bs : list b64) : Prop :=
  length bs = length cs /\ forall i b, bs !! i = Some b -> is_finite b = true /\ Rabs (B2R b - portion cs (i + 1)) <= slack cs.

Lemma portion_all : portion cs (length cs) = 1.
Proof. unfold portion. rewrite firstn_all. apply Rinv_r. apply IZR_neq. lia. Qed.
Lemma portion_zero : portion cs 0 = 0.
Proof. unfold portion. simpl. unfold Rdiv. by rewrite Rmult_0_l. Qed.
Lemma slack_pos : 0 <= slack cs.
Proof. unfold slack. pose proof (pos_INR (length cs)). lra. Qed.
Lemma cs_nonempty : (0 < length cs)%nat.
Proof. destruct cs; simpl; [done|lia]. Qed.

Lemma in_part_of (bs : list b64) (P : b64 -> Prop) r x i : close_bounds bs -> random_number r ->
  (forall b, is_finite b = true -> P b -> B2R r <= B2R b) -> (forall b, is_finite b = true -> ~ P b -> B2R b <= B2R r) ->
  vs !! i = Some x -> first_at P bs i -> in_part cs vs r x.
Proof.
  intros [Hlen Hb] [Hr H0] Hyes Hno Hx [(b & Hbi & Pb) Hj]. exists i. split; [done|]. split.
  - destruct i as [|i].
    + rewrite portion_zero. pose proof slack_pos. lra.
    + assert (i < length bs)%nat as Hi by (apply lookup_lt_Some in Hbi; lia).
      apply lookup_lt_is_Some_2 in Hi as [c Hc]. destruct (Hb i c Hc) as [Hf He]. pose proof (Hno c Hf (Hj i c ltac:(lia) Hc)) as H.
      replace (S i) with (i + 1)%nat by lia. apply Rabs_le_inv in He. lra.
  - destruct (Hb i b Hbi) as [Hf He]. pose proof (Hyes b Hf Pb) as H. apply Rabs_le_inv in He. lra.
Qed.

Lemma near_end_of (bs : list b64) (P : b64 -> Prop) `{forall b, Decision (P b)} r : close_bounds bs -> 
  (forall b, is_finite b = true -> ~ P b -> B2R b <= B2R r) -> (forall x, ~ exists i, vs !! i = Some x /\ first_at P bs i) -> near_end cs r.
Proof.
  intros [Hlen Hb] Hno Hnone.
  assert (forall i b, bs !! i = Some b -> ~ P b) as Hall.
  { intros i. induction (lt_wf i) as [i _ IH]. intros b Hbi Pb.
    assert (i < length vs)%nat as Hi by (apply lookup_lt_Some in Hbi; lia).
    apply lookup_lt_is_Some_2 in Hi as [x Hx]. apply (Hnone x). exists i. split; [done|]. split; [by exists b|].
    intros j c Hlt Hc. by apply (IH j Hlt). }
  pose proof cs_nonempty as Hc0.
  assert (length cs - 1 < length bs)%nat as Hi by lia. apply lookup_lt_is_Some_2 in Hi as [b Hbl].
  destruct (Hb _ b Hbl) as [Hf He]. pose proof (Hno b Hf (Hall _ b Hbl)) as H1.
  replace (length cs - 1 + 1)%nat with (length cs) in He by lia. rewrite portion_all in He. apply Rabs_le_inv in He. unfold near_end. lra.
Qed.

Lemma lt_R (x y : b64) : is_finite x = true -> is_finite y = true -> Bltb x y = true <-> B2R x < B2R y.
Proof. intros Hx Hy. rewrite Bltb_correct by done. destruct (Rlt_bool_spec (B2R x) (B2R y)); split; intros; try done; lra. Qed.

Section sums.
Context (py_sum : list b64 -> b64) (Hp : python_sum py_sum).

Lemma running_close d' : shares_of py_sum (fractions cs) d' -> close_bounds (running d').
Proof.
  intros Hs. destruct (shares_near py_sum cs d' Hp HF Hpos Hn Hs) as [H1 H2]. split; [|exact H2]. by rewrite running_length.
Qed.

Lemma sample_parts r : random_number r ->
  match sample_list py_sum (fractions cs) (Some vs) r with
  | DOk x => in_part cs vs r x
  | DErr e => e = DIndexError /\ near_end cs r
  end.
Proof.
  intros Hr. pose proof (normalized_shares py_sum (fractions cs)) as Hs. pose proof (running_close _ Hs) as Hc.
  pose proof (sample_list_lemma py_sum (fractions cs) _ vs r Hs) as H. destruct (sample_list _ _ _ _) as [x|e].
  - destruct H as (i & Hi & Hf). apply (in_part_of _ _ r x i Hc Hr) in Hf; [done| | |done].
    + intros b Hfb Hb. apply not_true_iff_false in Hb. rewrite lt_R in Hb; [lra|done|apply Hr].
    + intros b Hfb Hb. apply not_false_iff_true in Hb. rewrite lt_R in Hb; [lra|done|apply Hr].
  - destruct H as [-> H]. split; [done|]. apply (near_end_of _ (fun b => Bltb b r = false) r Hc); [|exact H].
    intros b Hfb Hb. apply not_false_iff_true in Hb. rewrite lt_R in Hb; [lra|done|apply Hr].
Qed.

Lemma n_sample_parts rand : Forall random_number rand ->
  match n_sample py_sum (fractions cs) vs rand with
  | DOk l => exists sorted, sorted ≡ₚ rand /\ StronglySorted (fun x y => (B2R x <= B2R y)%R) sorted /\ Forall2 (in_part cs vs) sorted l
  | DErr e => e = DIndexError /\ exists r, r ∈ rand /\ near_end cs r
  end.
Proof.
  intros Hr. pose proof (normalized_shares py_sum (fractions cs)) as Hs. pose proof (running_close _ Hs) as Hc.
  assert (fractions cs <> []) as Hne.
  { pose proof cs_nonempty. unfold fractions. intros He. apply (f_equal length) in He. rewrite fmap_length in He. simpl in He. lia. }
  pose proof (n_sample_lemma py_sum (fractions cs) _ vs rand Hr Hne Hs) as H. destruct (n_sample _ _ _ _) as [l|e].
  - destruct H as (srt & Hp' & Hso & HF2). exists srt. split; [done|]. split; [done|]. apply (Forall2_impl_mem _ _ _ _ HF2).
    intros r x Hin (i & Hi & Hf). assert (random_number r) as Hrr by (rewrite Hp' in Hin; by apply (proj1 (list.Forall_forall _ _) Hr)).
    apply (in_part_of _ _ r x i Hc Hrr) in Hf; [done| | |done].
    + intros b Hfb Hb. rewrite lt_R in Hb; [lra|apply Hrr|done].
    + intros b Hfb Hb. rewrite lt_R in Hb; [lra|apply Hrr|done].
  - destruct H as (-> & r & Hin & H). split; [done|]. exists r. split; [done|].
    assert (random_number r) as Hrr by (by apply (proj1 (list.Forall_forall _ _) Hr)).
    apply (near_end_of _ (fun b => Bltb r b = true) r Hc); [|exact H].
    intros b Hfb Hb. rewrite lt_R in Hb; [lra|apply Hrr|done].
Qed.
End sums.

Lemma choose_parts r : random_number r ->
  match choose_pairs (zip (fractions cs) vs) r with
  | Some x => in_part cs vs r x
  | None => near_end cs r
  end.
Proof.
  intros Hr. unfold choose_pairs. pose proof (choose_loop_spec r (zip (fractions cs) vs) f_zero) as H.
  assert (length (fractions cs) = length vs) as Hlf by (unfold fractions; rewrite fmap_length; lia).
  rewrite (fst_zip (fractions cs) vs) in H by lia. rewrite (snd_zip (fractions cs) vs) in H by lia.
  assert (close_bounds (sums_from f_zero (fractions cs))) as Hc.
  { split; [|apply (sums_zero_near cs HF Hpos Hn)]. rewrite sums_length. lia. }
  assert (forall b, is_finite b = true -> Bleb r b <> true -> B2R b <= B2R r) as Hno.
  { intros b Hfb Hb. destruct (Rle_or_lt (B2R r) (B2R b)) as [H1|H1]; [|lra]. exfalso. apply Hb. by apply fle_spec; [apply Hr|done|]. }
  destruct (choose_loop _ _ _) as [x|].
  - destruct H as (i & Hi & Hf). apply (in_part_of _ _ r x i Hc Hr) in Hf; [done| |exact Hno|done].
    intros b Hfb Hb. by apply fle_spec in Hb; [|apply Hr|done].
  - apply (near_end_of _ (fun b => Bleb r b = true) r Hc Hno). intros x (i & _ & (b & Hb & Hle) & _).
    apply elem_of_list_lookup_2 in Hb. rewrite (H b Hb) in Hle. done.
Qed.

(** ** getProbability *)
Lemma get_probability_fold `{EqDecision A} v (f : Z -> b64) (l : list (Z * A)) : forall t,
  fold_left (fun total '(p, x) => if decide (x = v) then fadd total p else total) ((fun q => (f q.1, q.2)) <$> l) t
  = fold_left fadd (f <$> (filter (fun p => p.2 = v) l).*1) t.
Proof.
  induction l as [|[c x] l IH]; intros t; [done|]. cbn [fmap list_fmap fold_left fst snd]. rewrite filter_cons. cbn [snd].
  destruct (decide (x = v)); cbn [fmap list_fmap fold_left fst]; apply IH.
Qed.

Lemma filter_total (l : list (Z * A)) (P : Z * A -> Prop) `{forall x, Decision (P x)} : Forall (fun c => 0 <= c)%Z l.*1 ->
  (0 <= zsum (filter P l).*1 <= zsum l.*1)%Z /\ (length (filter P l) <= length l)%nat /\ forall c, c ∈ (filter P l).*1 -> c ∈ l.*1.
Proof.
  intros Hf. induction l as [|x l IH]; [repeat split; simpl; try lia; done|]. cbn [fmap list_fmap] in Hf. inversion Hf as [|? ? Hx Hl']; subst.
  destruct (IH Hl') as ([H1 H2] & H3 & H4). rewrite filter_cons. change (zsum (x :: l).*1) with (x.1 + zsum l.*1)%Z.
  destruct (decide (P x)); cbn [fmap list_fmap length].
  - change (zsum (x.1 :: (filter P l).*1)) with (x.1 + zsum (filter P l).*1)%Z. split; [lia|]. split; [lia|].
    intros c Hc. apply elem_of_cons in Hc as [->|Hc]; [by left|right; by apply H4].
  - split; [lia|]. split; [lia|]. intros c Hc. right. by apply H4.
Qed.

Lemma get_probability_lemma `{EqDecision A} v :
  is_finite (get_probability v (fractions cs) vs) = true /\
  Rabs (B2R (get_probability v (fractions cs) vs) - IZR (count_for cs vs v) / IZR (total_of cs)) <= slack cs.
Proof.
  unfold get_probability.
  assert (zip (fractions cs) vs = (fun q => (int_div q.1 (total_of cs), q.2)) <$> zip cs vs) as ->.
  { unfold fractions. generalize (total_of cs). intros N. clear. revert vs.
    induction cs as [|c l IH]; intros [|x k]; try done. cbn. f_equal. apply IH. }
  pose proof (get_probability_fold v (fun c => int_div c (total_of cs)) (zip cs vs) f_zero) as Hfold. cbn beta in Hfold. rewrite Hfold. clear Hfold.
  fold (f_sum ((fun c => int_div c (total_of cs)) <$> (filter (fun p => p.2 = v) (zip cs vs)).*1)).
  assert ((zip cs vs).*1 = cs) as Hz by (apply fst_zip; lia).
  destruct (filter_total (zip cs vs) (fun p => p.2 = v)) as ([Hs1 Hs2] & Hle & Hin); [by rewrite Hz|]. rewrite Hz in Hs2, Hin.
  set (sel := (filter (fun p => p.2 = v) (zip cs vs)).*1) in *.
  assert (length sel <= length cs)%nat as Hlen.
  { unfold sel. rewrite fmap_length. rewrite zip_with_length in Hle. lia. }
  unfold count_for. fold sel. change (total_of sel) with (zsum sel). change (total_of cs) with (zsum cs) in *. clearbody sel.
  assert (0 < IZR (zsum cs)) as HN by (apply IZR_lt; lia).
  pose proof (INR_le_Z _ _ Hn) as Hn'. change (2 ^ 22 - 2)%Z with 4194302%Z in Hn'.
  apply le_INR in Hlen. pose proof (quot_bounds (zsum sel) (zsum cs) ltac:(lia) Hpos) as Hq.
  destruct (f_sum_error ((fun c => int_div c (zsum cs)) <$> sel) ((fun c => IZR c / IZR (zsum cs)) <$> sel)) as [Hf He].
  - apply Forall2_fmap_2. apply Forall_Forall2_diag. apply list.Forall_forall. intros c Hc.
    apply int_div_approx; [|done]. apply zsum_ge; [done|by apply Hin].
  - rewrite rsum_quot. lra.
  - rewrite fmap_length. lra.
  - rewrite rsum_quot, fmap_length in He. split; [exact Hf|]. apply (Rle_trans _ _ _ He). unfold slack. rewrite uu_val.
    pose proof (pos_INR (length cs)) as Hc0. pose proof (pos_INR (length sel)) as Hs0. clear He. set (q := IZR (zsum sel) / IZR (zsum cs)) in *. clearbody q. lra.
Qed.
End parts.

Lemma none_loop {A} (r : b64) (dist : list b64) : forall (vs : list nat) (total : b64), length vs = S (length dist) ->
  @list_loop A r total dist None = match list_loop r total dist (Some vs) with DOk _ => DErr DTypeError | DErr e => DErr e end.
Proof.
  induction dist as [|p dist IH]; intros vs total Hl; (destruct vs as [|v vs]; [done|]); simpl; destruct (Bltb total r); try done.
  apply IH. simpl in Hl. lia.
Qed.
Lemma sample_none {A} py_sum (d d' : list b64) (r : b64) : shares_of py_sum d d' ->
  match @sample_list py_sum A d None r with
  | DOk _ => False
  | DErr e => e = DTypeError /\ (exists i, draws_reached d' (seq 0 (length d)) r i) \/
      e = DIndexError /\ forall i, ~ draws_reached d' (seq 0 (length d)) r i
  end.
Proof.
  intros Hs. pose proof (sample_list_lemma py_sum d d' (seq 0 (length d)) r Hs) as H.
  assert (length (normalized py_sum d) = length d) as Hlen.
  { unfold normalized, vec_normalize. destruct (Beqb (py_sum d) f_one); [done|].
    destruct (Beqb (py_sum d) f_zero); [done|]. by rewrite fmap_length. }
  unfold sample_list in *. destruct (normalized py_sum d) as [|p dist].
  { right. split; [done|]. apply H. }
  rewrite (none_loop r dist (seq 0 (length d))); [|rewrite seq_length, <- Hlen; done].
  destruct (list_loop r p dist (Some (seq 0 (length d)))) as [x|e].
  - left. split; [done|]. by exists x.
  - right. exact H.
Qed.
