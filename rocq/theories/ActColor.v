(** * ActColor: the colours of the nodes of an activation graph (C54) *)

From Coq Require Import ZArith Reals Lra Lia Qreals String Ascii.
From Flocq Require Import Core.Core IEEE754.BinarySingleNaN.
From Verif Require Import SpecActFloat BaseFacts FloatFacts FloatSumFacts NetFloats ActFloatFacts.

(** ** Hexadecimal digits *)
Lemma digit_ok d : (0 <= d <= 15)%Z -> hex_of d (hex_digit d).
Proof.
  intros Hd. split; [done|].
  assert (d = 0 \/ d = 1 \/ d = 2 \/ d = 3 \/ d = 4 \/ d = 5 \/ d = 6 \/ d = 7 \/ d = 8 \/ d = 9 \/ d = 10 \/ d = 11 \/ d = 12 \/ d = 13 \/ d = 14 \/ d = 15)%Z as H by lia.
  repeat (destruct H as [->|H]; [reflexivity|]). by subst.
Qed.

Lemma hex2_byte n : (0 <= n <= 255)%Z -> hex2 n = String (hex_digit (n / 16)) (String (hex_digit (n mod 16)) "").
Proof.
  intros Hn. unfold hex2. rewrite (Z.abs_eq n) by lia.
  assert ((n <? 0)%Z = false) as -> by lia.
  destruct (decide (n < 16)%Z) as [H|H].
  - cbn [hex_digits]. assert ((n <? 16)%Z = true) as -> by lia. cbn. rewrite (Z.div_small n 16), (Z.mod_small n 16) by lia. done.
  - assert (exists k, S (Z.to_nat (Z.log2 n)) = S (S k)) as [k ->].
    { pose proof (Z.log2_le_mono 16 n ltac:(lia)) as Hl. change (Z.log2 16) with 4%Z in Hl. exists (pred (Z.to_nat (Z.log2 n))). lia. }
    cbn [hex_digits]. assert ((n <? 16)%Z = false) as -> by lia.
    assert (n / 16 < 16)%Z by (apply Z.div_lt_upper_bound; lia). assert ((n / 16 <? 16)%Z = true) as -> by lia. done.
Qed.

Lemma shade_ok n : (0 <= n <= 255)%Z -> red_shade n ("#" ++ hex2 n ++ "0000").
Proof.
  intros Hn. exists (hex_digit (n / 16)), (hex_digit (n mod 16)). split_and!.
  - apply digit_ok. split; [apply Z.div_pos; lia|]. apply Z.lt_succ_r. apply Z.div_lt_upper_bound; lia.
  - apply digit_ok. pose proof (Z.mod_pos_bound n 16). lia.
  - rewrite hex2_byte by done. done.
Qed.

Local Open Scope R_scope.

Section color.
Context {U : Universe}.

Lemma fold_max (l : list b64) : forall m, fin m -> (forall y, y ∈ l -> fin y) ->
  let r := fold_left (fun m y => if Bltb m y then y else m) l m in
  (r = m \/ r ∈ l) /\ val m <= val r /\ forall y, y ∈ l -> val y <= val r.
Proof.
  induction l as [|y l IH]; intros m Hm Hl r; cbn in r.
  - subst r. split_and!; [by left|lra|]. intros y Hy. by apply elem_of_nil in Hy.
  - assert (fin y) as Hy by (apply Hl; left). pose proof (Bltb_correct 53 1024 m y Hm Hy) as Hlt.
    assert (fin (if Bltb m y then y else m)) as Hm' by (by destruct (Bltb m y)).
    destruct (IH _ Hm') as (H1 & H2 & H3). { intros y' H'. apply Hl. by right. }
    fold r in H1, H2, H3. fold (val m) in Hlt. fold (val y) in Hlt.
    assert (val m <= val (if Bltb m y then y else m) /\ val y <= val (if Bltb m y then y else m)) as [H4 H5].
    { destruct (Bltb m y); symmetry in Hlt.
      - destruct (Rlt_bool_spec (val m) (val y)); [lra|done].
      - destruct (Rlt_bool_spec (val m) (val y)); [done|lra]. }
    split_and!.
    + destruct H1 as [H1|H1]; [|right; by right]. rewrite H1. destruct (Bltb m y); [right; left|by left].
    + lra.
    + intros y' [->|H']%elem_of_cons; [lra|by apply H3].
Qed.

Lemma int_trunc x : fin x -> f_int x = Ok (Ztrunc (val x)).
Proof.
  intros Hx. pose proof (Btrunc_correct 53 1024 ltac:(reflexivity) x) as H. unfold f_int. unfold fin in Hx.
  assert (Btrunc x = Ztrunc (val x)) as E. { unfold val. rewrite round_FIX_IZR in H. by apply eq_IZR. }
  destruct x; try done; by rewrite E.
Qed.

Definition shade (w : b64) : Z := Ztrunc (rnd (val w * 255)).

Lemma shade_bounds w : unit_double w -> (0 <= shade w <= 255)%Z /\ IZR (shade w) - / 2 ^ 40 <= 255 * B2R w < IZR (shade w) + 1.
Proof.
  intros [Hf Hu]. fold (val w) in *. unfold shade. set (x := val w * 255).
  assert (0 <= x <= 255) as Hx by (unfold x; lra).
  assert (0 <= rnd x <= 255) as Hr.
  { split; [apply rnd_ge0; lra|]. apply (rnd_le_Z x 255); [unfold two53; lia|lra]. }
  rewrite Ztrunc_floor by lra. pose proof (Zfloor_lb (rnd x)) as Hlb. pose proof (Zfloor_ub (rnd x)) as Hub.
  assert (0 <= Zfloor (rnd x) <= 255)%Z as Hz.
  { split; [apply Zfloor_lub; lra|]. apply le_IZR. lra. }
  split; [done|]. pose proof (rnd_err x) as He. rewrite (Rabs_pos_eq x) in He by lra. pose proof eta_small as Heta. pose proof uu_pos as Hup.
  assert (uu * x <= uu * 255) as Hux by (apply Rmult_le_compat_l; lra).
  assert (uu * 256 <= / 2 ^ 40) as Hsmall. { rewrite uu_val. lra. }
  apply Rabs_le_inv in He. split; [unfold x in *; lra|].
  apply Rnot_le_lt. intros Hn. assert (IZR (Zfloor (rnd x) + 1) <= rnd x) as Hc; [|rewrite plus_IZR in Hc; lra].
  rewrite <- (rnd_Z (Zfloor (rnd x) + 1)) by (unfold two53; lia). apply rnd_le. rewrite plus_IZR. unfold x in *. lra.
Qed.

Lemma color_value o (a : fanode) : fa_in_query a = false -> fa_values a <> ∅ -> (forall x w, fa_values a !! x = Some w -> unit_double w) ->
  exists w, largest a w /\ node_color o a = Ok ("#" ++ hex2 (shade w) ++ "0000")%string.
Proof.
  intros Hq Hne Hu. unfold node_color. rewrite Hq.
  assert (forall w, w ∈ (iter_map o (fa_values a)).*2 <-> exists x, fa_values a !! x = Some w) as Hin.
  { intros w. rewrite elem_of_list_fmap. setoid_rewrite iter_map_perm. split.
    - intros ([x w'] & -> & Hx%elem_of_map_to_list). by exists x.
    - intros [x Hx]. exists (x, w). by rewrite elem_of_map_to_list. }
  destruct ((iter_map o (fa_values a)).*2) as [|m l] eqn:El.
  { exfalso. apply Hne, map_eq. intros x. rewrite lookup_empty. destruct (fa_values a !! x) as [w|] eqn:Ex; [|done].
    assert (w ∈ @nil b64) as Hw by (apply Hin; by exists x). by apply elem_of_nil in Hw. }
  cbn [f_max mbind res_bind].
  assert (forall y, y ∈ m :: l -> unit_double y) as Hl. { intros y [x Hy]%Hin. by apply (Hu x). }
  destruct (fold_max l m) as (H1 & H2 & H3). { apply Hl. left. } { intros y Hy. apply Hl. by right. }
  set (r := fold_left _ l m) in *. assert (r ∈ m :: l) as Hr by (destruct H1 as [->|]; [left|by right]).
  exists r. split.
  - split; [by apply Hin|]. intros x w' Hx. assert (w' ∈ m :: l) as [->|Hw]%elem_of_cons by (apply Hin; by exists x); [done|by apply H3].
  - destruct (Hl r Hr) as [Hf Hb]. fold (val r) in Hb. unfold fmul_int. destruct (z2f_exact 255 ltac:(unfold two53; lia)) as (y & -> & Hfy & Hvy).
    cbn [mbind res_bind]. assert (255 <= bpow radix2 60) as H255. { apply (two53_big 255). unfold two53; lia. }
    destruct (fmul_big r y Hf Hfy) as [Hmf Hmv]. { rewrite Hvy, Rabs_pos_eq; lra. }
    rewrite int_trunc by done. cbn [mbind res_bind]. rewrite Hmv, Hvy. done.
Qed.

Lemma color_lemma o (a : fanode) : fa_in_query a = false -> fa_values a <> ∅ -> (forall x w, fa_values a !! x = Some w -> unit_double w) ->
  exists w n s, largest a w /\ (0 <= n <= 255)%Z /\ IZR n - / 2 ^ 40 <= 255 * B2R w < IZR n + 1 /\ red_shade n s /\ node_color o a = Ok s.
Proof.
  intros Hq Hne Hu. destruct (color_value o a Hq Hne Hu) as (w & Hw & Hc).
  assert (unit_double w) as Hd. { destruct Hw as [[x Hx] _]. by apply (Hu x). }
  destruct (shade_bounds w Hd) as [H1 H2]. exists w, (shade w). eexists. split_and!; [done|lia|lia|lra|lra|by apply shade_ok|done].
Qed.

Lemma color_order o o' (a : fanode) : (forall x w, fa_values a !! x = Some w -> unit_double w) -> node_color o a = node_color o' a.
Proof.
  intros Hu. destruct (fa_in_query a) eqn:Hq. { unfold node_color. by rewrite Hq. }
  destruct (decide (fa_values a = ∅)) as [He|Hne].
  { unfold node_color. rewrite Hq, He. unfold iter_map. rewrite map_to_list_empty. done. }
  destruct (color_value o a Hq Hne Hu) as (w & [[x Hx] Hw] & ->), (color_value o' a Hq Hne Hu) as (w' & [[x' Hx'] Hw'] & ->).
  assert (val w = val w') as E. { apply Rle_antisym; [by apply (Hw' x)|by apply (Hw x')]. }
  unfold shade. by rewrite E.
Qed.

Lemma color_empty o (a : fanode) : fa_values a = ∅ -> fa_in_query a = false -> node_color o a = Err ValueError.
Proof. intros He Hq. unfold node_color. rewrite Hq, He. unfold iter_map. by rewrite map_to_list_empty. Qed.
Lemma color_query o (a : fanode) : fa_in_query a = true -> node_color o a = Ok "green"%string.
Proof. intros Hq. unfold node_color. by rewrite Hq. Qed.
End color.
