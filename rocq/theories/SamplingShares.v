(** * SamplingShares: how far the running sums of probabilities are from the exact ones (C67) *)

From Coq Require Import ZArith Reals Lra Lia Psatz.
From Flocq Require Import Core IEEE754.BinarySingleNaN.
From stdpp Require Import base list numbers option sorting tactics.
From Verif Require Import Base SpecSampling Sampling FloatFacts FloatSumFacts AgentFacts SamplingFacts.

Local Open Scope R_scope.

Definition near (dl : R) (f : b64) (x : R) : Prop := fin f /\ 0 <= x /\ Rabs (FloatFacts.val f - x) <= dl * x + 3 * eta.

Lemma approx_near f x dl : uu <= dl -> approx f x -> near dl f x.
Proof.
  intros Hd (Hf & Hx & He). split; [done|]. split; [done|]. pose proof eta_pos. apply (Rle_trans _ _ _ He).
  apply Rplus_le_compat; [by apply Rmult_le_compat_r|lra].
Qed.

Lemma fdiv_spec x y : fin x -> fin y -> FloatFacts.val y <> 0 -> Rabs (FloatFacts.val x / FloatFacts.val y) <= 4 ->
  fin (fdiv x y) /\ FloatFacts.val (fdiv x y) = rnd (FloatFacts.val x / FloatFacts.val y).
Proof.
  intros Hx Hy Hn Hs. pose proof (Bdiv_correct 53 1024 _ _ mode_NE x y Hn) as H.
  unfold FloatFacts.val in *. rewrite Rlt_bool_true in H by (apply (rnd_small _ Hs)).
  destruct H as (H1 & H2 & _). split; [|exact H1]. unfold fin, fdiv. rewrite H2. exact Hx.
Qed.

Lemma near_div f x s e : approx f x -> x <= 1 -> fin s -> Rabs (FloatFacts.val s - 1) <= e -> e <= / 1000000 ->
  near (101 / 100 * e + 21 / 10 * uu) (fdiv f s) x.
Proof.
  intros (Hf & Hx & Hfx) Hx1 Hs He Hle. pose proof eta_small as Heta. pose proof eta_pos as Heta0.
  pose proof uu_pos as Hu0. pose proof uu_val as Huv. pose proof (Rabs_pos (FloatFacts.val s - 1)) as He0.
  assert (0 <= e) as Hep by lra.
  set (d := FloatFacts.val f) in *. set (t := FloatFacts.val s) in *.
  assert (/ 2 <= t) as Ht by (apply Rabs_le_inv in He; lra).
  assert (999999 / 1000000 <= t <= 1000001 / 1000000) as Ht2 by (apply Rabs_le_inv in He; lra).
  set (q := d / t). assert (q * t = d) as Hq by (unfold q; field; lra).
  assert (Rabs (d - x * t) <= uu * x + eta + e * x) as Hw.
  { replace (d - x * t) with ((d - x) + x * (1 - t)) by ring. eapply Rle_trans; [apply tri|]. apply Rplus_le_compat; [done|].
    rewrite Rabs_mult, (Rabs_pos_eq x) by done. rewrite Rabs_minus_sym, Rmult_comm. by apply Rmult_le_compat_r. }
  set (w := uu * x + eta + e * x) in *.
  assert (Rabs (q - x) <= 1001 / 1000 * w) as Hqx.
  { assert (Rabs (q - x) * t = Rabs (d - x * t)) as Hm.
    { rewrite <- (Rabs_pos_eq t) at 1 by lra. rewrite <- Rabs_mult. f_equal. rewrite <- Hq. ring. }
    pose proof (Rabs_pos (q - x)) as Hp. set (z := Rabs (q - x)) in *. clearbody z. nra. }
  assert (0 <= uu * x <= uu) as Hux by nra.
  assert (0 <= e * x <= / 1000000) as Hex by nra.
  assert (0 <= w <= 2 / 1000000) as Hw2 by (unfold w; rewrite Huv in *; lra).
  destruct (fdiv_spec f s Hf Hs) as [Hfin Hval].
  { fold t. lra. }
  { fold d t q. apply Rabs_le. apply Rabs_le_inv in Hqx. lra. }
  split; [done|]. split; [done|]. rewrite Hval. fold d t q. pose proof (rnd_err q) as Hr.
  assert (Rabs q <= x + 1001 / 1000 * w) as Hqa.
  { apply Rabs_le. apply Rabs_le_inv in Hqx. lra. }
  assert (uu * Rabs q <= uu * x + uu * (1001 / 1000 * w)) as Huq.
  { rewrite <- Rmult_plus_distr_l. apply Rmult_le_compat_l; lra. }
  assert (uu * (1001 / 1000 * w) <= / 1000000 * w) as Huw by (rewrite Huv; nra).
  apply Rabs_le. apply Rabs_le_inv in Hr. apply Rabs_le_inv in Hqx. unfold w in *.
  replace ((101 / 100 * e + 21 / 10 * uu) * x) with (101 / 100 * (e * x) + 21 / 10 * (uu * x)) by ring. lra.
Qed.

Lemma add_near dl s f S x (k : nat) :
  fin s -> near dl f x -> 0 <= S -> S + x <= 1 -> 0 <= dl <= / 1000000 -> INR k <= 4194304 ->
  Rabs (FloatFacts.val s - S) <= dl * S + 11 / 10 * uu * INR k ->
  fin (fadd s f) /\ Rabs (FloatFacts.val (fadd s f) - (S + x)) <= dl * (S + x) + 11 / 10 * uu * INR (k + 1).
Proof.
  intros Hs (Hf & Hx & Hfx) HS HSx Hd Hk He.
  pose proof eta_small as Heta. pose proof eta_pos as Heta0. pose proof (pos_INR k) as Hk0.
  rewrite plus_INR. change (INR 1) with 1.
  set (K := INR k) in *. clearbody K.
  set (a := FloatFacts.val s) in *. set (b := FloatFacts.val f) in *.
  assert (0 <= dl * S <= / 1000000) as HdS by nra.
  assert (0 <= dl * x <= / 1000000) as Hdx by nra.
  pose proof uu_pos as Hu0. pose proof uu_val as Huv.
  assert (0 <= uu * K <= / 1000000) as HuK by (rewrite Huv; lra).
  assert (Rabs (a + b) <= 1 + / 100000) as Hab.
  { apply Rabs_le. apply Rabs_le_inv in Hfx. apply Rabs_le_inv in He. lra. }
  destruct (fadd_spec s f Hs Hf) as [Hfin Hval]; [fold a b; lra|]. split; [exact Hfin|].
  fold a b in Hval. rewrite Hval. pose proof (rnd_err (a + b)) as Hr.
  assert (uu * Rabs (a + b) <= uu * (1 + / 100000)) as Hr2 by (apply Rmult_le_compat_l; lra).
  apply Rabs_le. apply Rabs_le_inv in Hr. apply Rabs_le_inv in Hfx. apply Rabs_le_inv in He.
  replace (dl * (S + x)) with (dl * S + dl * x) by ring. lra.
Qed.

Lemma sums_near dl ds xs : Forall2 (near dl) ds xs -> 0 <= dl <= / 1000000 -> forall s S (k : nat),
  fin s -> 0 <= S -> S + rsum xs <= 1 -> INR (k + length xs) <= 4194304 ->
  Rabs (FloatFacts.val s - S) <= dl * S + 11 / 10 * uu * INR k ->
  forall i b, sums_from s ds !! i = Some b ->
    fin b /\ Rabs (FloatFacts.val b - (S + rsum (take (i + 1) xs))) <= dl * (S + rsum (take (i + 1) xs)) + 11 / 10 * uu * INR (k + (i + 1)).
Proof.
  intros HF Hd. induction HF as [|f x ds xs Hfx Hrest IH]; intros s S k Hs HS Hle Hk He i b Hb; [done|].
  assert (0 <= rsum xs) as Hxs.
  { clear -Hrest. induction Hrest as [|f x ds xs [_ [H _]] _ IH]; simpl; [lra|]. fold (rsum xs). lra. }
  cbn [rsum fold_right length] in Hle, Hk. fold (rsum xs) in Hle.
  pose proof Hfx as (_ & Hx & _).
  assert (INR k <= 4194304) as Hk'.
  { rewrite plus_INR in Hk. pose proof (pos_INR (Datatypes.S (length xs))). lra. }
  destruct (add_near dl s f S x k Hs Hfx HS ltac:(lra) Hd Hk' He) as [Hfin Herr].
  destruct i as [|i]; cbn [sums_from lookup list_lookup] in Hb.
  - injection Hb as <-. fold (fadd s f). split; [done|]. replace (take (0 + 1) (x :: xs)) with [x] by done.
    cbn [rsum fold_right]. rewrite Rplus_0_r. exact Herr.
  - fold (fadd s f) in Hb. specialize (IH (fadd s f) (S + x) (k + 1)%nat Hfin ltac:(lra) ltac:(lra)).
    replace (k + Datatypes.S (length xs))%nat with (k + 1 + length xs)%nat in Hk by lia.
    specialize (IH Hk Herr i b Hb). replace (k + (Datatypes.S i + 1))%nat with (k + 1 + (i + 1))%nat by lia.
    replace (take (Datatypes.S i + 1) (x :: xs)) with (x :: take (i + 1) xs) by done.
    cbn [rsum fold_right]. fold (rsum (take (i + 1) xs)). replace (S + (x + rsum (take (i + 1) xs))) with (S + x + rsum (take (i + 1) xs)) by ring.
    exact IH.
Qed.

Lemma running_near dl ds xs : Forall2 (near dl) ds xs -> 0 <= dl <= / 1000000 -> rsum xs <= 1 -> INR (length xs) <= 4194304 ->
  forall i b, running ds !! i = Some b ->
    fin b /\ Rabs (FloatFacts.val b - rsum (take (i + 1) xs)) <= dl * rsum (take (i + 1) xs) + 11 / 10 * uu * INR (i + 1).
Proof.
  intros HF Hd Hle Hn i b Hb. inversion HF as [|f x ds' xs' Hfx Hrest]; subst; [done|]. pose proof Hfx as (Hf & Hx & He).
  pose proof eta_small as Heta. pose proof eta_pos as Heta0. pose proof uu_pos as Hu0.
  assert (Rabs (FloatFacts.val f - x) <= dl * x + 11 / 10 * uu * INR 1) as He1 by (change (INR 1) with 1; lra).
  destruct i as [|i]; cbn [running lookup list_lookup] in Hb.
  - injection Hb as <-. split; [done|]. replace (take (0 + 1) (x :: xs')) with [x] by done. cbn [rsum fold_right]. rewrite Rplus_0_r. exact He1.
  - cbn [rsum fold_right length] in Hle, Hn. fold (rsum xs') in Hle.
    pose proof (sums_near dl ds' xs' Hrest Hd f x 1%nat Hf Hx Hle Hn He1 i b Hb) as [Hfb H]. split; [done|].
    replace (take (Datatypes.S i + 1) (x :: xs')) with (x :: take (i + 1) xs') by done. cbn [rsum fold_right]. fold (rsum (take (i + 1) xs')).
    replace (Datatypes.S i + 1)%nat with (1 + (i + 1))%nat by lia. exact H.
Qed.

Lemma total_zsum cs : total_of cs = zsum cs.
Proof. reflexivity. Qed.

Definition xs_of (cs : list Z) : list R := (fun c => IZR c / IZR (zsum cs)) <$> cs.

Lemma take_portion cs i : rsum (take i (xs_of cs)) = portion cs i.
Proof. unfold xs_of. rewrite <- fmap_take. apply rsum_quot. Qed.

Lemma portion_bounds cs i : Forall (fun c => 0 <= c)%Z cs -> (0 < zsum cs)%Z -> 0 <= portion cs i <= 1.
Proof.
  intros HF Hpos. apply quot_bounds; [|done]. rewrite !total_zsum.
  assert (zsum cs = zsum (take i cs) + zsum (drop i cs))%Z as Hsum.
  { rewrite <- (take_drop i cs) at 1. generalize (take i cs) (drop i cs). intros a c.
    induction a as [|x a IH]; [done|]. change (zsum ((x :: a) ++ c)) with (x + zsum (a ++ c))%Z.
    change (zsum (x :: a)) with (x + zsum a)%Z. lia. }
  assert (forall l, Forall (fun c => 0 <= c)%Z l -> (0 <= zsum l)%Z) as Hn.
  { clear. intros l H. induction H as [|x l Hx H IH]; [done|]. change (zsum (x :: l)) with (x + zsum l)%Z. lia. }
  pose proof (Hn (take i cs) (Forall_take _ _ _ HF)). pose proof (Hn (drop i cs) (Forall_drop _ _ _ HF)). change (total_of cs) with (zsum cs). lia.
Qed.

(** Both versions of [sum] are close to 1. *)
Lemma sum_near_one py_sum cs : python_sum py_sum -> Forall (fun c => 0 <= c)%Z cs -> (0 < zsum cs)%Z ->
  (Z.of_nat (length cs) <= 2 ^ 22 - 2)%Z ->
  fin (py_sum (fractions cs)) /\ Rabs (FloatFacts.val (py_sum (fractions cs)) - 1) <= 211 / 100 * uu * (INR (length cs) + 2).
Proof.
  intros Hp HF Hpos Hn. pose proof (INR_le_Z _ _ Hn) as Hn'. change (2 ^ 22 - 2)%Z with 4194302%Z in Hn'.
  pose proof uu_pos as Hu. pose proof (pos_INR (length cs)) as Hl. destruct Hp as [->| ->].
  - destruct (f_sum_error _ _ (approx_list cs HF Hpos)) as [H1 H2].
    + rewrite rsum_one by done. lra.
    + rewrite fmap_length. lra.
    + rewrite rsum_one, fmap_length in H2 by done. split; [exact H1|]. apply (Rle_trans _ _ _ H2). nra.
  - destruct (f_sum_compensated_error _ _ (approx_list cs HF Hpos)) as [H1 H2].
    + rewrite rsum_one by done. lra.
    + rewrite fmap_length. lra.
    + rewrite rsum_one, fmap_length in H2 by done. split; [exact H1|exact H2].
Qed.

Lemma slack_val cs dl i : (i <= length cs)%nat -> 0 <= dl <= 22 / 10 * uu * (INR (length cs) + 3) ->
  forall p, 0 <= p <= 1 -> dl * p + 11 / 10 * uu * INR i <= slack cs.
Proof.
  intros Hi Hd p Hp. unfold slack. pose proof uu_pos as Hu. apply le_INR in Hi. pose proof (pos_INR i) as Hi0.
  assert (dl * p <= dl) as H1 by nra. rewrite uu_val in *. lra.
Qed.

Lemma sums_length l : forall z, length (sums_from z l) = length l.
Proof. induction l as [|y l IH]; intros z; [done|]. cbn [sums_from length]. by rewrite (IH (Bplus mode_NE z y)). Qed.
Lemma running_length d : length (running d) = length d.
Proof. destruct d as [|x l]; [done|]. cbn [running length]. by rewrite sums_length. Qed.

(** The running sums of the shares. *)
Lemma shares_near py_sum cs d' : python_sum py_sum -> Forall (fun c => 0 <= c)%Z cs -> (0 < zsum cs)%Z ->
  (Z.of_nat (length cs) <= 2 ^ 22 - 2)%Z -> shares_of py_sum (fractions cs) d' ->
  length d' = length cs /\ forall i b, running d' !! i = Some b -> is_finite b = true /\ Rabs (B2R b - portion cs (i + 1)) <= slack cs.
Proof.
  intros Hp HF Hpos Hn Hd'. destruct (sum_near_one py_sum cs Hp HF Hpos Hn) as [Hsf Hs].
  pose proof (INR_le_Z _ _ Hn) as Hn'. change (2 ^ 22 - 2)%Z with 4194302%Z in Hn'.
  set (dl := 22 / 10 * uu * (INR (length cs) + 3)). pose proof uu_pos as Hu. pose proof uu_val as Huv. pose proof (pos_INR (length cs)) as Hl.
  assert (0 <= dl <= / 1000000) as Hdl by (unfold dl; rewrite Huv; lra).
  pose proof (approx_list cs HF Hpos) as Ha. fold (xs_of cs) in Ha. change ((fun c : Z => int_div c (zsum cs)) <$> cs) with (fractions cs) in Ha.
  assert (Forall2 (near dl) d' (xs_of cs)) as Hnear.
  { unfold shares_of in Hd'. destruct (_ || _).
    - subst d'. apply (Forall2_impl _ _ _ _ Ha). intros f x Hfx. apply approx_near; [|done]. unfold dl. nra.
    - set (s := py_sum (fractions cs)) in *. clearbody s.
      assert (Forall (fun x => x <= 1) (xs_of cs)) as Hx1.
      { apply Forall_forall. intros x Hx. apply elem_of_list_fmap in Hx as (c & -> & Hc). apply quot_bounds; [by apply zsum_ge|done]. }
      assert (forall f x, approx f x -> x <= 1 -> near dl (fdiv f s) x) as Hdiv.
      { intros f x Hfx Hx. destruct (near_div f x s (211 / 100 * uu * (INR (length cs) + 2)) Hfx Hx Hsf Hs) as (H1 & H2 & H3).
        - rewrite Huv. lra.
        - split; [done|]. split; [done|]. apply (Rle_trans _ _ _ H3). apply Rplus_le_compat_r. apply Rmult_le_compat_r; [done|].
          unfold dl. rewrite Huv. lra. }
      clear -Ha Hd' Hx1 Hdiv. revert d' Hd'. induction Ha as [|f x fs xs Hfx Ha IH]; intros d' Hd'; inversion Hd' as [|? y ? d'' Hy Hr]; subst; constructor.
      + inversion Hx1. by apply Hdiv.
      + inversion Hx1. by apply IH. }
  assert (length d' = length cs) as Hlen.
  { rewrite (Forall2_length _ _ _ Hnear). apply fmap_length. }
  split; [done|]. intros i b Hb.
  assert (INR (length (xs_of cs)) <= 4194304) as Hlx by (unfold xs_of; rewrite fmap_length; lra).
  assert (rsum (xs_of cs) <= 1) as Hr1 by (unfold xs_of; rewrite rsum_one by done; lra).
  destruct (running_near dl d' (xs_of cs) Hnear Hdl Hr1 Hlx i b Hb) as [Hf He].
  rewrite take_portion in He. split; [exact Hf|]. apply (Rle_trans _ _ _ He). apply slack_val.
  - apply lookup_lt_Some in Hb. assert (length (running d') = length d') as Hr.
    { apply running_length. }
    rewrite Hr, Hlen in Hb. lia.
  - fold dl. lra.
  - by apply portion_bounds.
Qed.

(** The sums that start from zero. *)
Lemma sums_zero_near cs : Forall (fun c => 0 <= c)%Z cs -> (0 < zsum cs)%Z -> (Z.of_nat (length cs) <= 2 ^ 22 - 2)%Z ->
  forall i b, sums_from (B754_zero false) (fractions cs) !! i = Some b -> is_finite b = true /\ Rabs (B2R b - portion cs (i + 1)) <= slack cs.
Proof.
  intros HF Hpos Hn i b Hb.
  pose proof (INR_le_Z _ _ Hn) as Hn'. change (2 ^ 22 - 2)%Z with 4194302%Z in Hn'.
  pose proof uu_pos as Hu. pose proof uu_val as Huv. pose proof (pos_INR (length cs)) as Hl.
  pose proof (approx_list cs HF Hpos) as Ha. fold (xs_of cs) in Ha. change ((fun c : Z => int_div c (zsum cs)) <$> cs) with (fractions cs) in Ha.
  assert (Forall2 (near uu) (fractions cs) (xs_of cs)) as Hnear.
  { apply (Forall2_impl _ _ _ _ Ha). intros f x Hfx. apply approx_near; [apply Rle_refl|done]. }
  assert (0 <= uu <= / 1000000) as Hdl by (rewrite Huv; lra).
  assert (0 + rsum (xs_of cs) <= 1) as Hr1 by (unfold xs_of; rewrite rsum_one by done; lra).
  assert (INR (0 + length (xs_of cs)) <= 4194304) as Hlx by (unfold xs_of; rewrite fmap_length; simpl; lra).
  destruct (sums_near uu _ _ Hnear Hdl f_zero 0 0%nat fin_zero ltac:(lra) Hr1 Hlx) with (i := i) (b := b) as [Hf He].
  - rewrite val_zero. change (INR 0) with 0. rewrite Rminus_0_r, Rabs_R0. lra.
  - exact Hb.
  - rewrite Rplus_0_l, take_portion in He. split; [exact Hf|]. apply (Rle_trans _ _ _ He). apply slack_val.
    + apply lookup_lt_Some in Hb. assert (forall l z, length (sums_from z l) = length l) as Hr.
      { apply sums_length. }
      rewrite Hr in Hb. unfold fractions in Hb. rewrite fmap_length in Hb. lia.
    + nra.
    + by apply portion_bounds.
Qed.
