(** * NetFloats: from a float probability to a number of outcomes (experiments/comparing_with_bayes_network.py) *)

From Coq Require Import ZArith Reals Lra Lia.
From Flocq Require Import Core.Core IEEE754.BinarySingleNaN.
From Verif Require Import Base Floats FloatFacts.

(** ** Model *)

(** Python's [int(x)]: towards zero. *)
Definition f_int (x : b64) : res Z :=
  match x with
  | B754_nan => Err ValueError
  | B754_infinity _ => Err OverflowError
  | _ => Ok (Btrunc x)
  end.

(** Python's [n == x] of an integer and a float compares the exact values. *)
Definition int_eq_float (n : Z) (x : b64) : bool :=
  match x with
  | B754_zero _ => (n =? 0)%Z
  | B754_finite s m e _ =>
      let z := SpecFloat.cond_Zopp s (Zpos m) in
      if (0 <=? e)%Z then (n =? z * 2 ^ e)%Z else (n * 2 ^ (- e) =? z)%Z
  | _ => false
  end.

(** bayes.py:49 [prop_factor] *)
Definition prop_factor : b64 := int_div 100 1.

(** bayes.py:111-112: [count = int(prop * prop_factor)] and [assert count == (prop * prop_factor)] *)
Definition scale_f (prop : b64) : res Z :=
  count ← f_int (fmul prop prop_factor);
  _ ← passert (int_eq_float count (fmul prop prop_factor));
  Ok count.

(** The literal [.k] with two digits. *)
Definition hundredths (k : Z) : b64 := int_div k 100.

(** ** Facts *)

Lemma int_eq_float_spec n x : int_eq_float n x = true -> is_finite x = true /\ B2R x = IZR n.
Proof.
  destruct x as [s|s| |s m e He]; simpl; try done.
  - intros ->%Z.eqb_eq. done.
  - unfold F2R. simpl. destruct (Z.leb_spec 0 e) as [H|H]; intros Heq%Z.eqb_eq; (split; [done|]).
    + rewrite Heq, mult_IZR. f_equal. rewrite <- IZR_Zpower by done. done.
    + rewrite <- Heq, mult_IZR.
      assert (IZR (2 ^ (- e)) * bpow radix2 e = 1)%R as Hp; [|rewrite Rmult_assoc, Hp; lra].
      rewrite (IZR_Zpower radix2) by lia. rewrite <- bpow_plus. replace (- e + e)%Z with 0%Z by lia. done.
Qed.

Lemma int_eq_float_complete n x : is_finite x = true -> B2R x = IZR n -> int_eq_float n x = true.
Proof.
  destruct x as [s|s| |s m e He]; simpl; try done.
  - intros _ H. apply Z.eqb_eq. apply eq_IZR. by rewrite <- H.
  - unfold F2R. simpl. intros _ H. destruct (Z.leb_spec 0 e) as [H'|H']; apply Z.eqb_eq, eq_IZR.
    + rewrite <- H, mult_IZR. f_equal. rewrite <- IZR_Zpower by done. done.
    + rewrite mult_IZR, <- H, (IZR_Zpower radix2) by lia. rewrite Rmult_assoc, <- bpow_plus.
      replace (e + - e)%Z with 0%Z by lia. simpl. lra.
Qed.

Lemma Btrunc_int (x : b64) n : B2R x = IZR n -> Btrunc x = n.
Proof.
  intros H. apply eq_IZR. rewrite Btrunc_correct by apply _. rewrite H. apply round_generic; [apply _|].
  apply generic_format_FIX. exists (Float radix2 n 0); [|done]. unfold F2R. simpl. lra.
Qed.

(** The conversion succeeds exactly when the float product is an integer, and then returns it. *)
Lemma scale_f_ok p c : scale_f p = Ok c <-> is_finite (fmul p prop_factor) = true /\ B2R (fmul p prop_factor) = IZR c.
Proof.
  unfold scale_f. split.
  - destruct (f_int (fmul p prop_factor)) as [n|] eqn:Hn; [|done]. cbn [mbind res_bind]. 
    destruct (int_eq_float n (fmul p prop_factor)) eqn:He; [|done]. intros [= <-]. by apply int_eq_float_spec.
  - intros [Hf Hr]. assert (f_int (fmul p prop_factor) = Ok c) as ->.
    { pose proof (Btrunc_int _ _ Hr). unfold f_int. destruct (fmul p prop_factor); try done; by f_equal. }
    cbn. by rewrite int_eq_float_complete.
Qed.

Lemma prop_factor_val : fin prop_factor /\ val prop_factor = 100%R.
Proof.
  split; [reflexivity|]. change (val prop_factor) with (F2R (Float radix2 7036874417766400 (-46))). unfold F2R. simpl. lra.
Qed.

(** A float in [0, 1] times 100. *)
Lemma scaled p : fin p -> (0 <= val p <= 1)%R -> fin (fmul p prop_factor) /\ val (fmul p prop_factor) = rnd (val p * 100).
Proof.
  intros Hp H. destruct prop_factor_val as [Hf Hv]. pose proof (Bmult_correct 53 1024 _ _ mode_NE p prop_factor) as Hm.
  unfold val in *. rewrite Hv in Hm. rewrite Rlt_bool_true in Hm.
  - destruct Hm as (H1 & H2 & _). unfold fin, fmul. rewrite H2, Hp, Hf. done.
  - change (Rabs (rnd (B2R p * 100)) < bpow radix2 1024)%R. pose proof (rnd_err (B2R p * 100)) as He. pose proof eta_small. pose proof uu_val as Hu.
    assert (Rabs (B2R p * 100) <= 100)%R as Ha by (rewrite Rabs_pos_eq; lra).
    assert (Rabs (rnd (B2R p * 100)) <= Rabs (B2R p * 100) + Rabs (rnd (B2R p * 100) - B2R p * 100))%R as Ht.
    { replace (rnd (B2R p * 100)) with (B2R p * 100 + (rnd (B2R p * 100) - B2R p * 100))%R at 1 by ring. apply Rabs_triang. }
    apply Rle_lt_trans with 256%R; [rewrite Hu in *; lra|]. replace 256%R with (bpow radix2 8) by (simpl; lra). apply bpow_lt. lia.
Qed.

(** When the conversion of the float for [a / b] succeeds, the number is exactly [100 * a / b]. *)
Lemma scale_f_exact a b c : (0 <= a <= b)%Z -> (0 < b <= 2 ^ 40)%Z -> scale_f (int_div a b) = Ok c -> (100 * a = c * b)%Z.
Proof.
  intros Ha Hb [_ Hc]%scale_f_ok. destruct (int_div_spec a b Ha ltac:(lia)) as [Hf Hv].
  assert (1 <= IZR b)%R as Hb1 by (apply IZR_le; lia).
  assert (IZR b <= 1099511627776)%R as Hb2 by (apply IZR_le; lia).
  assert (0 <= IZR a / IZR b <= 1)%R as Hq.
  { split; [apply Rle_mult_inv_pos; [apply IZR_le; lia|lra]|]. apply (Rmult_le_reg_r (IZR b)); [lra|].
    unfold Rdiv. rewrite Rmult_assoc, Rinv_l by lra. rewrite Rmult_1_r, Rmult_1_l. apply IZR_le. lia. }
  assert (0 <= val (int_div a b) <= 1)%R as Hp.
  { rewrite Hv. split; [rewrite <- rnd_0; apply rnd_le; lra|rewrite <- rnd_1; apply rnd_le; lra]. }
  destruct (scaled _ Hf Hp) as [_ Hs]. fold (val (fmul (int_div a b) prop_factor)) in Hc. rewrite Hs in Hc.
  pose proof (rnd_err (IZR a / IZR b)) as He1. pose proof (rnd_err (val (int_div a b) * 100)) as He2. rewrite Hc in He2. rewrite <- Hv in He1.
  rewrite (Rabs_pos_eq (IZR a / IZR b)) in He1 by lra. rewrite (Rabs_pos_eq (_ * 100)) in He2 by lra.
  pose proof eta_small. pose proof uu_val as Hu.
  assert (Rabs (IZR c - IZR a / IZR b * 100) <= 1 / 1125899906842624 * 64)%R as He.
  { replace (IZR c - IZR a / IZR b * 100)%R with ((IZR c - val (int_div a b) * 100) + 100 * (val (int_div a b) - IZR a / IZR b))%R by ring.
    eapply Rle_trans; [apply Rabs_triang|]. rewrite Rabs_mult, (Rabs_pos_eq 100) by lra. rewrite Hu in *. lra. }
  assert (Rabs (IZR (c * b - 100 * a)) < 1)%R as Hlt.
  { rewrite minus_IZR, !mult_IZR. replace (IZR c * IZR b - 100 * IZR a)%R with ((IZR c - IZR a / IZR b * 100) * IZR b)%R by (field; lra).
    rewrite Rabs_mult, (Rabs_pos_eq (IZR b)) by lra. 
    apply Rle_lt_trans with (1 / 1125899906842624 * 64 * IZR b)%R; [apply Rmult_le_compat_r; lra|]. lra. }
  rewrite <- abs_IZR in Hlt. apply lt_IZR in Hlt. lia.
Qed.

(** Of the hundredths in [0, 1] exactly these are refused. *)
Definition refused : list Z := [7; 14; 28; 29; 55; 56; 57; 58]%Z.
Definition scale_check (k : Z) : bool :=
  match scale_f (hundredths k) with
  | Ok c => negb (bool_decide (k ∈ refused)) && bool_decide (c = k)
  | Err e => bool_decide (k ∈ refused) && bool_decide (e = AssertionError)
  end.
Lemma scale_f_hundredths k : (0 <= k <= 100)%Z ->
  scale_f (hundredths k) = if decide (k ∈ refused) then Err AssertionError else Ok k.
Proof.
  intros Hk. assert (forallb scale_check (Z.of_nat <$> seq 0 101) = true) as H by (vm_compute; reflexivity).
  rewrite forallb_forall in H. specialize (H k). unfold scale_check in H. destruct (scale_f (hundredths k)) as [c|e].
  - apply andb_prop in H as [H1 H2]; [|apply elem_of_list_In, elem_of_list_fmap; exists (Z.to_nat k); split; [lia|apply elem_of_seq; lia]].
    apply negb_true_iff, bool_decide_eq_false in H1. apply bool_decide_eq_true in H2. subst. by rewrite decide_False.
  - apply andb_prop in H as [H1 H2]; [|apply elem_of_list_In, elem_of_list_fmap; exists (Z.to_nat k); split; [lia|apply elem_of_seq; lia]].
    apply bool_decide_eq_true in H1, H2. subst. by rewrite decide_True.
Qed.
