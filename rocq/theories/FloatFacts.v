(** * Facts about the float model: rounding errors of the probability sums *)

From Coq Require Import ZArith Reals Lra Psatz.
From Flocq Require Import Core.Core IEEE754.BinarySingleNaN.
Require Import Flocq.Prop.Relative.
From Verif Require Import Floats SpaceFacts.

Local Open Scope R_scope.

Definition rnd (x : R) : R := round radix2 (FLT_exp (-1074) 53) ZnearestE x.
Definition val (f : b64) : R := B2R f.
Definition fin (f : b64) : Prop := is_finite f = true.

Definition uu : R := bpow radix2 (-53).
Definition eta : R := bpow radix2 (-1075).

Lemma uu_val : uu = / 9007199254740992.
Proof. reflexivity. Qed.
Lemma uu_pos : 0 < uu.
Proof. apply bpow_gt_0. Qed.
Lemma eta_pos : 0 < eta.
Proof. apply bpow_gt_0. Qed.
Lemma eta_small : eta <= uu * / 1000000000.
Proof.
  apply Rle_trans with (bpow radix2 (-53 + -30)).
  - apply bpow_le. lia.
  - rewrite bpow_plus. fold uu. apply Rmult_le_compat_l; [apply Rlt_le, uu_pos|]. simpl. lra.
Qed.

Lemma rnd_err x : Rabs (rnd x - x) <= uu * Rabs x + eta.
Proof.
  destruct (error_N_FLT radix2 (-1074) 53 eq_refl (fun t => negb (Z.even t)) x)
    as (e & t & He & Ht & _ & Hr).
  unfold rnd. rewrite Hr.
  replace (x * (1 + e) + t - x) with (e * x + t) by ring.
  apply Rle_trans with (1 := Rabs_triang _ _). rewrite Rabs_mult. apply Rplus_le_compat.
  - apply Rmult_le_compat_r; [apply Rabs_pos|]. apply Rle_trans with (1 := He).
    unfold uu. right. rewrite bpow_plus. change (bpow radix2 1) with 2. change (- (53))%Z with (-53)%Z. field.
  - apply Rle_trans with (1 := Ht). right.
    unfold eta. change (-1074)%Z with (-1075 + 1)%Z. rewrite bpow_plus. change (bpow radix2 1) with 2. change (- (53))%Z with (-53)%Z. field.
Qed.

Lemma rnd_le x y : x <= y -> rnd x <= rnd y.
Proof. apply round_le; [apply FLT_exp_valid; reflexivity|apply valid_rnd_N]. Qed.

Lemma rnd_abs x : rnd (Rabs x) = Rabs (rnd x).
Proof. unfold rnd. apply round_NE_abs. apply FLT_exp_valid. reflexivity. Qed.

Lemma rnd_val (f : b64) : rnd (val f) = val f.
Proof. unfold rnd, val. apply round_generic; [apply valid_rnd_N|]. apply (generic_format_B2R 53 1024 f). Qed.

Lemma val_one : val f_one = 1.
Proof. apply Bone_correct. Qed.
Lemma fin_one : fin f_one.
Proof. reflexivity. Qed.
Lemma val_zero : val f_zero = 0.
Proof. reflexivity. Qed.
Lemma fin_zero : fin f_zero.
Proof. reflexivity. Qed.
Lemma rnd_1 : rnd 1 = 1.
Proof. rewrite <- val_one. apply rnd_val. Qed.
Lemma rnd_0 : rnd 0 = 0.
Proof. exact (rnd_val f_zero). Qed.

Lemma rnd_small x : Rabs x <= 4 -> Rabs (rnd x) < bpow radix2 1024.
Proof.
  intros Hx. pose proof (rnd_err x) as He. pose proof eta_small. pose proof uu_val as Hu.
  assert (Rabs (rnd x) <= Rabs x + Rabs (rnd x - x)) as Ht.
  { replace (rnd x) with (x + (rnd x - x)) at 1 by ring. apply Rabs_triang. }
  apply Rle_lt_trans with 8.
  - rewrite Hu in *. lra.
  - replace 8 with (bpow radix2 3) by (simpl; lra). apply bpow_lt. lia.
Qed.

Lemma fadd_spec x y : fin x -> fin y -> Rabs (val x + val y) <= 4 ->
  fin (fadd x y) /\ val (fadd x y) = rnd (val x + val y).
Proof.
  intros Hx Hy Hs. pose proof (Bplus_correct 53 1024 _ _ mode_NE x y Hx Hy) as H.
  rewrite Rlt_bool_true in H by (apply rnd_small; exact Hs). destruct H as (H1 & H2 & _). done.
Qed.

Lemma fsub_spec x y : fin x -> fin y -> Rabs (val x - val y) <= 4 ->
  fin (fsub x y) /\ val (fsub x y) = rnd (val x - val y).
Proof.
  intros Hx Hy Hs. pose proof (Bminus_correct 53 1024 _ _ mode_NE x y Hx Hy) as H.
  rewrite Rlt_bool_true in H by (apply rnd_small; exact Hs). destruct H as (H1 & H2 & _). done.
Qed.

Lemma fmul_spec x y : fin x -> fin y -> Rabs (val x * val y) <= 4 ->
  fin (fmul x y) /\ val (fmul x y) = rnd (val x * val y).
Proof.
  intros Hx Hy Hs. pose proof (Bmult_correct 53 1024 _ _ mode_NE x y) as H.
  rewrite Rlt_bool_true in H by (apply rnd_small; exact Hs). destruct H as (H1 & H2 & _).
  unfold fin, fmul. rewrite H2. rewrite Hx, Hy. done.
Qed.

Lemma int_div_spec a b : (0 <= a <= b)%Z -> (0 < b)%Z ->
  fin (int_div a b) /\ val (int_div a b) = rnd (IZR a / IZR b).
Proof.
  intros Ha Hb. assert (0 < IZR b) as Hb' by (apply IZR_lt; lia).
  destruct a as [|m|m]; [|destruct b as [|n|n]; [lia| |lia]|lia].
  - destruct b as [|n|n]; [lia| |lia]. split; [reflexivity|].
    change (0 = rnd (0 / IZR (Z.pos n))). unfold Rdiv. rewrite Rmult_0_l. symmetry. apply rnd_0.
  - unfold int_div, fin, val.
    pose proof (proj2 (Bdiv_correct_aux 53 1024 _ _ mode_NE false m 0 false n 0)) as H.
    cbv zeta in H. rewrite is_finite_SF2B, B2R_SF2B.
    change (cond_Zopp false (Z.pos m)) with (Z.pos m) in H. change (cond_Zopp false (Z.pos n)) with (Z.pos n) in H.
    unfold F2R in H. cbn [Fnum Fexp bpow] in H. rewrite !Rmult_1_r in H.
    rewrite Rlt_bool_true in H.
    + destruct H as (H1 & H2 & _). done.
    + apply rnd_small. rewrite Rabs_pos_eq.
      * apply Rle_trans with 1; [|lra]. apply (Rmult_le_reg_r (IZR (Z.pos n))); [lra|].
        unfold Rdiv. rewrite Rmult_assoc, Rinv_l, Rmult_1_r, Rmult_1_l by lra. apply IZR_le. lia.
      * apply Rle_mult_inv_pos; [apply IZR_le; lia|lra].
Qed.

Lemma fle_spec x y : fin x -> fin y -> Bleb x y = true <-> val x <= val y.
Proof.
  intros Hx Hy. rewrite (Bleb_correct 53 1024 x y Hx Hy). unfold val.
  destruct (Rle_bool_spec (B2R x) (B2R y)); split; intros; try done; lra.
Qed.

Lemma val_abs x : val (Babs x) = Rabs (val x).
Proof. apply B2R_Babs. Qed.
Lemma fin_abs x : fin x -> fin (Babs x).
Proof. unfold fin. by rewrite is_finite_Babs. Qed.

(** [rel_tol] *)
Lemma tol_spec : fin f_1e_9 /\ 999999999 / 1000000000000000000 <= val f_1e_9 <= 1.
Proof.
  destruct (int_div_spec 1 (10 ^ 9) ltac:(lia) ltac:(lia)) as [Hf Hv]. split; [exact Hf|].
  unfold f_1e_9. rewrite Hv. change (10 ^ 9)%Z with 1000000000%Z. split.
  - pose proof (rnd_err (1 / 1000000000)) as He. pose proof eta_small. rewrite uu_val in *.
    rewrite (Rabs_pos_eq (1 / 1000000000)) in He by lra.
    apply Rabs_le_inv in He. lra.
  - apply Rle_trans with (rnd 1); [apply rnd_le; lra|rewrite rnd_1; lra].
Qed.

Lemma close_spec s : fin s -> Rabs (1 - val s) <= 999999999 / 1000000000000000000 -> close_to_one s = true.
Proof.
  intros Hs Hd. unfold close_to_one, isclose. destruct (Beqb s f_one); [done|].
  unfold fin in Hs. rewrite Hs. cbn [andb is_finite]. change (is_finite f_one) with true. cbn [andb].
  destruct tol_spec as [Hft Hvt].
  destruct (fsub_spec f_one s fin_one Hs) as [Hf1 Hv1]; [rewrite val_one; lra|].
  destruct (fmul_spec f_1e_9 f_one Hft fin_one) as [Hf2 Hv2].
  { rewrite val_one, Rmult_1_r, Rabs_pos_eq; lra. }
  assert (Bleb (Babs (fsub f_one s)) (Babs (fmul f_1e_9 f_one)) = true) as ->; [|done].
  apply fle_spec; [by apply fin_abs|by apply fin_abs|].
  rewrite !val_abs, Hv1, Hv2, val_one, Rmult_1_r, rnd_val, (Rabs_pos_eq (val f_1e_9)) by lra.
  rewrite <- rnd_abs, <- (rnd_val f_1e_9). apply rnd_le. lra.
Qed.

(** ** Sums *)

Definition rsum (l : list R) : R := fold_right Rplus 0 l.

Definition approx (f : b64) (x : R) : Prop := fin f /\ 0 <= x /\ Rabs (val f - x) <= uu * x + eta.

Lemma rsum_nonneg fs xs : Forall2 approx fs xs -> 0 <= rsum xs.
Proof. induction 1 as [|f x fs xs [_ [H _]] _ IH]; simpl; [lra|]. fold (rsum xs). lra. Qed.

Lemma tri x y : Rabs (x + y) <= Rabs x + Rabs y.
Proof. apply Rabs_triang. Qed.

(** One step of the plain sum: [k] elements summed so far. *)
Lemma add_step s f S x (k : nat) :
  fin s -> approx f x -> 0 <= S -> S + x <= 1 -> INR k <= 8388608 ->
  Rabs (val s - S) <= 21 / 20 * uu * (INR k + S) ->
  fin (fadd s f) /\ Rabs (val (fadd s f) - (S + x)) <= 21 / 20 * uu * (INR (k + 1) + (S + x)).
Proof.
  intros Hs (Hf & Hx & Hfx) HS HSx Hk He.
  pose proof eta_small as Heta. pose proof eta_pos as Heta0. pose proof (pos_INR k) as Hk0.
  rewrite plus_INR. change (INR 1) with 1.
  set (K := INR k) in *. clearbody K.
  set (a := val s) in *. set (b := val f) in *.
  assert (uu * (K + S) <= / 1000000000) as Hsmall.
  { rewrite uu_val. lra. }
  assert (0 <= uu * S <= uu) as HuS by (pose proof uu_pos; nra).
  assert (0 <= uu * x <= uu) as Hux by (pose proof uu_pos; nra).
  assert (0 <= uu * K) as HuK by (pose proof uu_pos; nra).
  pose proof uu_pos as Hu0. pose proof uu_val as Huv.
  assert (Rabs (a + b) <= 1 + 2 * / 1000000000) as Hab.
  { apply Rabs_le. apply Rabs_le_inv in Hfx. apply Rabs_le_inv in He. lra. }
  destruct (fadd_spec s f Hs Hf) as [Hfin Hval]; [fold a b; lra|]. split; [exact Hfin|].
  fold a b in Hval. rewrite Hval. pose proof (rnd_err (a + b)) as Hr.
  assert (uu * Rabs (a + b) <= uu * (1 + 2 * / 1000000000)) as Hr2 by (apply Rmult_le_compat_l; lra).
  apply Rabs_le. apply Rabs_le_inv in Hr. apply Rabs_le_inv in Hfx. apply Rabs_le_inv in He.
  lra.
Qed.

Lemma sum_loop fs xs : Forall2 approx fs xs -> forall s S (k : nat),
  fin s -> 0 <= S -> S + rsum xs <= 1 -> INR (k + length xs) <= 8388608 ->
  Rabs (val s - S) <= 21 / 20 * uu * (INR k + S) ->
  fin (fold_left fadd fs s) /\
  Rabs (val (fold_left fadd fs s) - (S + rsum xs)) <= 21 / 20 * uu * (INR (k + length xs) + (S + rsum xs)).
Proof.
  induction 1 as [|f x fs xs Hfx Hrest IH]; intros s S k Hs HS Hle Hk He.
  - simpl. rewrite Nat.add_0_r, Rplus_0_r. done.
  - cbn [fold_left rsum fold_right length] in *. fold (rsum xs) in *.
    pose proof (rsum_nonneg _ _ Hrest) as Hxs. destruct Hfx as (Hf & Hx & Hfx).
    replace (k + Datatypes.S (length xs))%nat with ((k + 1) + length xs)%nat in * by lia.
    assert (INR k <= 8388608) as Hk'.
    { rewrite !plus_INR in Hk. pose proof (pos_INR (length xs)). change (INR 1) with 1 in Hk. lra. }
    destruct (add_step s f S x k Hs (conj Hf (conj Hx Hfx)) HS ltac:(lra) Hk' He) as [Hfin Herr].
    replace (S + (x + rsum xs)) with ((S + x) + rsum xs) by ring.
    apply IH; [done|lra|lra|done|done].
Qed.

Lemma f_sum_error fs xs : Forall2 approx fs xs -> rsum xs <= 1 -> INR (length xs) <= 8388608 ->
  fin (f_sum fs) /\ Rabs (val (f_sum fs) - rsum xs) <= 21 / 20 * uu * (INR (length xs) + rsum xs).
Proof.
  intros H Hle Hn. pose proof (sum_loop fs xs H f_zero 0 0 fin_zero) as Hl.
  rewrite !Rplus_0_l in Hl. cbn [Nat.add] in Hl. apply Hl; [lra|done|done|].
  rewrite val_zero. change (INR 0) with 0. rewrite Rminus_0_r, Rabs_R0. lra.
Qed.

(** The compensated sum: the correction stays small. *)
Lemma cs_step hi lo f S x (k : nat) :
  fin hi -> fin lo -> approx f x -> 0 <= S -> S + x <= 1 -> INR k <= 8388608 ->
  Rabs (val hi - S) <= 21 / 20 * uu * (INR k + S) ->
  Rabs (val lo) <= 21 / 20 * uu * (INR k + S) ->
  fin (cs_add (hi, lo) f).1 /\ fin (cs_add (hi, lo) f).2 /\
  Rabs (val (cs_add (hi, lo) f).1 - (S + x)) <= 21 / 20 * uu * (INR (k + 1) + (S + x)) /\
  Rabs (val (cs_add (hi, lo) f).2) <= 21 / 20 * uu * (INR (k + 1) + (S + x)).
Proof.
  intros Hhi Hlo Ha HS HSx Hk He Hl.
  destruct (add_step hi f S x k Hhi Ha HS HSx Hk He) as [Hfin Herr].
  destruct Ha as (Hf & Hx & Hfx).
  pose proof eta_small as Heta. pose proof eta_pos as Heta0. pose proof (pos_INR k) as Hk0.
  rewrite plus_INR in *. change (INR 1) with 1 in *.
  set (K := INR k) in *. clearbody K.
  unfold cs_add. cbn [fst snd]. set (t := fadd hi f) in *.
  assert (uu * (K + S) <= / 1000000000) as Hsmall by (rewrite uu_val; lra).
  assert (0 <= uu * S <= uu) as HuS by (pose proof uu_pos; nra).
  assert (0 <= uu * x <= uu) as Hux by (pose proof uu_pos; nra).
  assert (0 <= uu * K) as HuK by (pose proof uu_pos; nra).
  pose proof uu_pos as Hu0. pose proof uu_val as Huv.
  set (a := val hi) in *. set (b := val f) in *.
  assert (Rabs (a + b) <= 1 + 2 * / 1000000000) as Hab.
  { apply Rabs_le. apply Rabs_le_inv in Hfx. apply Rabs_le_inv in He. lra. }
  assert (val t = rnd (a + b)) as Ht.
  { destruct (fadd_spec hi f Hhi Hf) as [_ Hval]; [fold a b; lra|]. exact Hval. }
  assert (Rabs (val t - (a + b)) <= 101 / 100 * uu) as Hd.
  { rewrite Ht. apply Rle_trans with (1 := rnd_err _).
    assert (uu * Rabs (a + b) <= uu * (1 + 2 * / 1000000000)) by (apply Rmult_le_compat_l; lra). lra. }
  assert (Rabs b <= x + / 100000000) as Hb.
  { apply Rabs_le. apply Rabs_le_inv in Hfx. lra. }
  (* the correction, for the bigger summand [p] and the smaller one [q] *)
  assert (forall p q : b64, fin p -> fin q -> val p + val q = a + b -> Rabs (val q) <= x + / 100000000 ->
    fin (fadd (fsub p t) q) /\ Rabs (val (fadd (fsub p t) q)) <= 102 / 100 * uu + 102 / 100 * uu * x) as Hc.
  { intros p q Hp Hq Hpq Hqx.
    assert (Rabs (val p - val t) <= x + 2 * / 100000000) as Hpt.
    { replace (val p - val t) with (- val q + - (val t - (a + b))) by lra.
      apply Rle_trans with (1 := tri _ _). rewrite !Rabs_Ropp. rewrite Huv in Hd. lra. }
    destruct (fsub_spec p t Hp Hfin) as [Hf1 Hv1]; [lra|].
    pose proof (rnd_err (val p - val t)) as Hr1. rewrite <- Hv1 in Hr1.
    set (d1 := val (fsub p t)) in *.
    assert (uu * Rabs (val p - val t) <= uu * x + uu * (2 * / 100000000)) as Hm1.
    { rewrite <- Rmult_plus_distr_l. apply Rmult_le_compat_l; lra. }
    assert (Rabs (d1 + val q) <= uu * x + 1011 / 1000 * uu) as Hs1.
    { replace (d1 + val q) with ((d1 - (val p - val t)) + - (val t - (a + b))) by lra.
      apply Rle_trans with (1 := tri _ _). rewrite Rabs_Ropp. lra. }
    destruct (fadd_spec (fsub p t) q Hf1 Hq) as [Hf2 Hv2].
    { fold d1. rewrite Huv in Hs1. lra. }
    split; [exact Hf2|]. rewrite Hv2. fold d1.
    pose proof (rnd_err (d1 + val q)) as Hr2.
    assert (uu * Rabs (d1 + val q) <= uu * / 1000000000) as Hm2.
    { apply Rmult_le_compat_l; [lra|]. rewrite Huv in Hs1. lra. }
    apply Rabs_le. apply Rabs_le_inv in Hr2. apply Rabs_le_inv in Hs1. lra. }
  assert (fin (if Bleb (Babs f) (Babs hi) then fadd (fsub hi t) f else fadd (fsub f t) hi) /\
    Rabs (val (if Bleb (Babs f) (Babs hi) then fadd (fsub hi t) f else fadd (fsub f t) hi))
      <= 102 / 100 * uu + 102 / 100 * uu * x) as [Hcf Hcv].
  { destruct (Bleb (Babs f) (Babs hi)) eqn:Hle.
    - apply Hc; [done|done|done|exact Hb].
    - apply Hc; [done|done|fold a b; lra|].
      assert (~ Rabs b <= Rabs a) as Hn.
      { intros H. apply not_true_iff_false in Hle. apply Hle. apply fle_spec; [by apply fin_abs|by apply fin_abs|].
        rewrite !val_abs. exact H. }
      fold a. lra. }
  set (c := if Bleb (Babs f) (Babs hi) then fadd (fsub hi t) f else fadd (fsub f t) hi) in *.
  assert (Rabs (val lo + val c) <= 21 / 20 * uu * (K + S) + (102 / 100 * uu + 102 / 100 * uu * x)) as Hlc.
  { apply Rle_trans with (1 := tri _ _). lra. }
  destruct (fadd_spec lo c Hlo Hcf) as [Hf3 Hv3]; [rewrite Huv in *; lra|].
  split; [done|]. split; [done|]. split; [exact Herr|]. rewrite Hv3.
  pose proof (rnd_err (val lo + val c)) as Hr3.
  assert (uu * Rabs (val lo + val c) <= uu * (2 * / 1000000000)) as Hm3.
  { apply Rmult_le_compat_l; [lra|]. rewrite Huv in *. lra. }
  apply Rabs_le. apply Rabs_le_inv in Hr3. apply Rabs_le_inv in Hlc. lra.
Qed.

Lemma cs_loop fs xs : Forall2 approx fs xs -> forall t S (k : nat),
  fin t.1 -> fin t.2 -> 0 <= S -> S + rsum xs <= 1 -> INR (k + length xs) <= 8388608 ->
  Rabs (val t.1 - S) <= 21 / 20 * uu * (INR k + S) ->
  Rabs (val t.2) <= 21 / 20 * uu * (INR k + S) ->
  fin (fold_left cs_add fs t).1 /\ fin (fold_left cs_add fs t).2 /\
  Rabs (val (fold_left cs_add fs t).1 - (S + rsum xs)) <= 21 / 20 * uu * (INR (k + length xs) + (S + rsum xs)) /\
  Rabs (val (fold_left cs_add fs t).2) <= 21 / 20 * uu * (INR (k + length xs) + (S + rsum xs)).
Proof.
  induction 1 as [|f x fs xs Hfx Hrest IH]; intros t S k H1 H2 HS Hle Hk He Hl.
  - simpl. rewrite Nat.add_0_r, Rplus_0_r. done.
  - cbn [fold_left rsum fold_right length] in *. fold (rsum xs) in *.
    pose proof (rsum_nonneg _ _ Hrest) as Hxs. destruct Hfx as (Hf & Hx & Hfx).
    replace (k + Datatypes.S (length xs))%nat with ((k + 1) + length xs)%nat in * by lia.
    assert (INR k <= 8388608) as Hk'.
    { rewrite !plus_INR in Hk. pose proof (pos_INR (length xs)). change (INR 1) with 1 in Hk. lra. }
    destruct t as [hi lo]. cbn [fst snd] in *.
    destruct (cs_step hi lo f S x k H1 H2 (conj Hf (conj Hx Hfx)) HS ltac:(lra) Hk' He Hl) as (Hf1 & Hf2 & He1 & He2).
    replace (S + (x + rsum xs)) with ((S + x) + rsum xs) by ring.
    apply IH; [done|done|lra|lra|done|done|done].
Qed.

Lemma f_sum_compensated_error fs xs : Forall2 approx fs xs -> rsum xs <= 1 -> INR (length xs) <= 8388608 ->
  fin (f_sum_compensated fs) /\
  Rabs (val (f_sum_compensated fs) - rsum xs) <= 211 / 100 * uu * (INR (length xs) + 2).
Proof.
  intros H Hle Hn. pose proof (cs_loop fs xs H (f_zero, f_zero) 0 0 fin_zero fin_zero) as Hl.
  rewrite !Rplus_0_l in Hl. cbn [Nat.add] in Hl.
  destruct Hl as (H1 & H2 & H3 & H4); [lra|done|done| | |].
  { cbn [fst]. rewrite val_zero. change (INR 0) with 0. rewrite Rminus_0_r, Rabs_R0. lra. }
  { cbn [snd]. rewrite val_zero. change (INR 0) with 0. rewrite Rabs_R0. lra. }
  unfold f_sum_compensated. set (t := fold_left cs_add fs (f_zero, f_zero)) in *.
  pose proof (rsum_nonneg _ _ H) as Hpos. pose proof (pos_INR (length xs)) as Hn0.
  pose proof uu_pos as Hu0. pose proof eta_small as Heta. pose proof eta_pos as Heta0.
  set (n := INR (length xs)) in *. set (X := rsum xs) in *. clearbody n X t.
  assert (0 <= uu * n) as Hun by nra. assert (0 <= uu * X <= uu) as HuX by nra.
  unfold cs_to_double. destruct (negb (Beqb t.2 f_zero) && is_finite t.2).
  - assert (Rabs (val t.1 + val t.2) <= 1 + / 100000000) as Hs.
    { pose proof uu_val as Huv. apply Rabs_le. apply Rabs_le_inv in H3. apply Rabs_le_inv in H4. rewrite Huv in *. lra. }
    destruct (fadd_spec t.1 t.2 H1 H2) as [Hf Hv]; [lra|]. split; [done|]. rewrite Hv.
    pose proof (rnd_err (val t.1 + val t.2)) as Hr.
    assert (uu * Rabs (val t.1 + val t.2) <= uu * (1 + / 100000000)) as Hm by (apply Rmult_le_compat_l; lra).
    apply Rabs_le. apply Rabs_le_inv in Hr. apply Rabs_le_inv in H3. apply Rabs_le_inv in H4. 
    lra.
  - split; [done|]. apply Rle_trans with (1 := H3). lra.
Qed.
