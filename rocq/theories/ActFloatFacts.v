(** * ActFloatFacts: the float weights of activation graphs follow the exact ones (C54) *)

From Coq Require Import ZArith Reals Lra Lia Qreals.
From Flocq Require Import Core.Core IEEE754.BinarySingleNaN.
From Verif Require Import SpecSets SpecFloats ActFloats BaseFacts MapOrder FloatFacts FloatSumFacts.

Local Open Scope R_scope.

(** ** Numbers up to [2^53] *)
Definition two53 : Z := (2 ^ 53)%Z.

Lemma rnd_Z z : (0 <= z <= two53)%Z -> rnd (IZR z) = IZR z.
Proof.
  intros Hz. unfold rnd. apply round_generic; [apply valid_rnd_N|].
  destruct (decide (z = two53)) as [->|Hne].
  - change (IZR two53) with (IZR (radix2 ^ 53)). rewrite IZR_Zpower by lia. apply generic_format_bpow. unfold FLT_exp. lia.
  - apply generic_format_FLT. exists (Float radix2 z 0).
    + unfold F2R. simpl. lra.
    + simpl. unfold two53 in *. lia.
    + simpl. lia.
Qed.

Lemma rnd_big x : Rabs x <= bpow radix2 60 -> Rabs (rnd x) < bpow radix2 1024.
Proof.
  intros Hx. rewrite <- rnd_abs. apply Rle_lt_trans with (rnd (bpow radix2 60)); [by apply rnd_le|].
  unfold rnd. rewrite round_generic; [apply bpow_lt; lia|apply valid_rnd_N|]. apply generic_format_bpow. unfold FLT_exp. lia.
Qed.

Lemma two53_big z : (0 <= z <= two53)%Z -> 0 <= IZR z <= bpow radix2 60.
Proof.
  intros [H1 H2]. split; [by apply IZR_le|]. apply Rle_trans with (IZR two53); [by apply IZR_le|].
  change (IZR two53) with (IZR (radix2 ^ 53)). rewrite IZR_Zpower by lia. apply bpow_le. lia.
Qed.

Lemma z2f_exact z : (0 <= z <= two53)%Z -> exists f, z2f z = Ok f /\ fin f /\ val f = IZR z.
Proof.
  intros Hz. pose proof (binary_normalize_correct 53 1024 prec_gt_0_53 prec_lt_emax_53 mode_NE z 0 false) as H.
  cbv zeta in H. replace (F2R (Float radix2 z 0)) with (IZR z) in H by (unfold F2R; simpl; lra).
  rewrite Rlt_bool_true in H.
  - destruct H as (Hr & Hf & _). exists (binary_normalize 53 1024 prec_gt_0_53 prec_lt_emax_53 mode_NE z 0 false).
    unfold z2f. rewrite Hf. split; [done|]. split; [exact Hf|]. unfold val. etransitivity; [exact Hr|]. exact (rnd_Z z Hz).
  - apply (rnd_big (IZR z)). destruct (two53_big z Hz). by rewrite Rabs_pos_eq.
Qed.

Lemma fadd_big x y : fin x -> fin y -> Rabs (val x + val y) <= bpow radix2 60 ->
  fin (fadd x y) /\ val (fadd x y) = rnd (val x + val y).
Proof.
  intros Hx Hy Hs. pose proof (Bplus_correct 53 1024 _ _ mode_NE x y Hx Hy) as H.
  rewrite Rlt_bool_true in H by exact (rnd_big _ Hs). destruct H as (H1 & H2 & _). done.
Qed.
Lemma fmul_big x y : fin x -> fin y -> Rabs (val x * val y) <= bpow radix2 60 ->
  fin (fmul x y) /\ val (fmul x y) = rnd (val x * val y).
Proof.
  intros Hx Hy Hs. pose proof (Bmult_correct 53 1024 _ _ mode_NE x y) as H.
  rewrite Rlt_bool_true in H by exact (rnd_big _ Hs). destruct H as (H1 & H2 & _). split; [|done].
  unfold fin, fmul in *. rewrite H2, Hx, Hy. done.
Qed.
Lemma fdiv_big x y : fin x -> fin y -> val y <> 0 -> Rabs (val x / val y) <= bpow radix2 60 ->
  fin (Bdiv mode_NE x y) /\ val (Bdiv mode_NE x y) = rnd (val x / val y).
Proof.
  intros Hx Hy Hy0 Hs. pose proof (Bdiv_correct 53 1024 _ _ mode_NE x y Hy0) as H.
  rewrite Rlt_bool_true in H by exact (rnd_big _ Hs). destruct H as (H1 & H2 & _). split; [|done].
  unfold fin in *. by rewrite H2.
Qed.

Lemma rnd_ge0 x : 0 <= x -> 0 <= rnd x.
Proof. intros. rewrite <- rnd_0. by apply rnd_le. Qed.
Lemma rnd_le_Z x z : (0 <= z <= two53)%Z -> x <= IZR z -> rnd x <= IZR z.
Proof. intros Hz Hx. rewrite <- (rnd_Z z Hz). by apply rnd_le. Qed.

Lemma rnd_nearest f x : fin f -> val f = rnd x -> nearest_double f x.
Proof.
  intros Hf Hv. split; [exact Hf|]. intros d Hd. fold (val f). rewrite Hv.
  apply (round_N_pt radix2 (FLT_exp (-1074) 53) (fun t => negb (Z.even t)) x). apply (generic_format_B2R 53 1024 d).
Qed.

(** ** Exact numbers as reals *)
Lemma real_plus a b : real_of (a + b)%Qc = real_of a + real_of b.
Proof. unfold real_of. cbn [this Qcplus Q2Qc]. rewrite (Qeq_eqR _ _ (Qred_correct _)). apply Q2R_plus. Qed.
Lemma real_mult a b : real_of (a * b)%Qc = real_of a * real_of b.
Proof. unfold real_of. cbn [this Qcmult Q2Qc]. rewrite (Qeq_eqR _ _ (Qred_correct _)). apply Q2R_mult. Qed.
Lemma real_zq z : real_of (zq z) = IZR z.
Proof. unfold real_of, zq. cbn [this Q2Qc]. rewrite (Qeq_eqR _ _ (Qred_correct _)). unfold Q2R, inject_Z. simpl. lra. Qed.
Lemma real_0 : real_of (Q2Qc 0) = 0.
Proof. exact (real_zq 0). Qed.
Lemma real_div a z : z <> 0%Z -> real_of (a / zq z)%Qc = real_of a / IZR z.
Proof.
  intros Hz. assert (zq z <> Q2Qc 0) as Hq.
  { intros H. apply (f_equal real_of) in H. rewrite real_zq, real_0 in H. by apply eq_IZR in H. }
  assert (real_of (a / zq z)%Qc * IZR z = real_of a) as H.
  { rewrite <- real_zq, <- real_mult. f_equal. rewrite Qcmult_comm. by apply Qcmult_div_r. }
  rewrite <- H. field. by apply IZR_neq.
Qed.
Lemma real_qdiv a b : (0 < b)%Z -> real_of (qdiv a b) = IZR a / IZR b.
Proof. intros Hb. change (qdiv a b) with (zq a / zq b)%Qc. rewrite real_div by lia. by rewrite real_zq. Qed.

(** ** Weights *)
Section lockstep.
Context {U : Universe}.
Variable L : Z.
Hypothesis HL : (0 <= L <= two53)%Z.

(** After [k] outcomes with [N] in total. *)
Definition wrel (k : nat) (N : Z) (q : bool) (wf : b64) (w : Qc) : Prop :=
  fin wf /\ 0 <= val wf <= IZR N /\ 0 <= real_of w <= IZR N /\
  Rabs (val wf - real_of w) <= 21 / 20 * uu * (INR k * IZR L + 2 * IZR N) /\
  (q = true -> val wf = real_of w /\ exists z, real_of w = IZR z).

(** The contribution of an outcome with count [c]. *)
Definition prel (c : Z) (q : bool) (pf : b64) (p : Qc) : Prop :=
  fin pf /\ 0 <= val pf <= IZR c /\ 0 <= real_of p <= IZR c /\
  Rabs (val pf - real_of p) <= 21 / 10 * uu * IZR c /\ (q = true -> val pf = IZR c /\ real_of p = IZR c).

Lemma wrel_mono k N k' N' q wf w : wrel k N q wf w -> (k <= k')%nat -> (N <= N')%Z -> wrel k' N' q wf w.
Proof.
  intros (H1 & H2 & H3 & H4 & H5) Hk HN. apply IZR_le in HN. apply le_INR in Hk. destruct HL as [H0 _]. apply IZR_le in H0. pose proof uu_pos as Hu.
  split; [done|]. split; [lra|]. split; [lra|]. split; [|done]. eapply Rle_trans; [exact H4|].
  apply Rmult_le_compat_l; [lra|]. apply Rplus_le_compat; [|lra]. by apply Rmult_le_compat_r.
Qed.

Lemma wrel_step k N c q wf w pf p : wrel k N q wf w -> prel c q pf p -> (0 < c)%Z -> (N + c <= L)%Z -> (0 <= N)%Z ->
  wrel (S k) (N + c) q (fadd wf pf) (w + p)%Qc.
Proof.
  intros (H1 & H2 & H3 & H4 & H5) (P1 & P2 & P3 & P4 & P5) Hc HN HN0.
  assert (0 <= N + c <= two53)%Z as Hn by lia. pose proof (two53_big _ Hn) as Hb. rewrite plus_IZR in Hb.
  destruct (fadd_big wf pf H1 P1) as [Hf Hv]. { rewrite Rabs_pos_eq by lra. lra. }
  pose proof uu_pos as Hu. pose proof (rnd_err (val wf + val pf)) as He. rewrite (Rabs_pos_eq (val wf + val pf)) in He by lra.
  pose proof (IZR_le _ _ HN) as HN'. rewrite plus_IZR in HN'. assert (1 <= IZR c) as Hc1 by (apply IZR_le; lia).
  pose proof eta_small as Heta.
  split; [exact Hf|]. rewrite Hv, real_plus, plus_IZR. split.
  { split; [apply rnd_ge0; lra|]. rewrite <- plus_IZR. apply rnd_le_Z; [done|]. rewrite plus_IZR. lra. }
  split; [lra|]. split.
  - replace (rnd (val wf + val pf) - (real_of w + real_of p)) with
      ((rnd (val wf + val pf) - (val wf + val pf)) + ((val wf - real_of w) + (val pf - real_of p))) by ring.
    eapply Rle_trans; [apply Rabs_triang|]. pose proof (Rabs_triang (val wf - real_of w) (val pf - real_of p)) as Ht.
    rewrite S_INR.
    assert (uu * (val wf + val pf) <= uu * IZR L) as Hm by (apply Rmult_le_compat_l; lra).
    assert (eta <= uu * IZR L * / 1000000000) as Hm'. { eapply Rle_trans; [exact Heta|]. apply Rmult_le_compat_r; [lra|]. rewrite <- (Rmult_1_r uu) at 1. apply Rmult_le_compat_l; lra. }
    nra.
  - intros Hq. destruct (H5 Hq) as [E1 [z E2]], (P5 Hq) as [E3 E4]. rewrite E1, E3, E4, E2, <- plus_IZR.
    assert (0 <= z + c <= two53)%Z as Hzc.
    { rewrite E2 in H3. destruct H3 as [Ha Hb']. apply le_IZR in Ha, Hb'. lia. }
    split; [by apply rnd_Z|by eexists].
Qed.

Lemma wrel_zero q : wrel 0 0 q f_zero (Q2Qc 0).
Proof.
  unfold wrel. rewrite val_zero, real_0. simpl INR. split; [apply fin_zero|]. split; [lra|]. split; [lra|]. split.
  - rewrite Rminus_0_r, Rabs_R0. lra.
  - intros _. split; [done|]. by exists 0%Z.
Qed.

(** ** Contributions *)
Lemma count_prel c : (0 < c <= two53)%Z -> exists w, fmul_int f_one c = Ok w /\ prel c true w (zq c).
Proof.
  intros Hc. destruct (z2f_exact c ltac:(lia)) as (y & Hy & Hf & Hv). unfold fmul_int. rewrite Hy. cbn [mbind res_bind].
  assert (0 <= IZR c <= bpow radix2 60) as Hb by (apply two53_big; lia).
  destruct (fmul_big f_one y fin_one Hf) as [H1 H2]. { rewrite val_one, Hv, Rmult_1_l, Rabs_pos_eq; lra. }
  rewrite val_one, Hv, Rmult_1_l, rnd_Z in H2 by lia. eexists. split; [done|]. unfold prel. rewrite H2, real_zq. pose proof uu_pos.
  split; [done|]. split; [lra|]. split; [lra|]. split; [|done]. rewrite Rminus_diag_eq, Rabs_R0 by done. nra.
Qed.

Lemma sim_prel i t c : (0 <= i <= t)%Z -> (0 < t)%Z -> (0 < c <= two53)%Z ->
  exists w, fmul_int (int_div i t) c = Ok w /\ prel c false w (qdiv i t * zq c)%Qc.
Proof.
  intros Hi Ht Hc. destruct (z2f_exact c ltac:(lia)) as (y & Hy & Hf & Hv). unfold fmul_int. rewrite Hy. cbn [mbind res_bind].
  assert (0 <= IZR c <= bpow radix2 60) as Hb by (apply two53_big; lia). assert (1 <= IZR c) as Hc1 by (apply IZR_le; lia).
  destruct (int_div_spec i t Hi Ht) as [Sf Sv]. pose proof (quot_bounds i t Hi Ht) as Hq. set (s := IZR i / IZR t) in *.
  assert (0 <= val (int_div i t) <= 1) as Hs. { rewrite Sv. split; [apply rnd_ge0; lra|]. rewrite <- rnd_1. apply rnd_le. lra. }
  assert (0 <= val (int_div i t) * IZR c <= IZR c) as Hp by nra.
  destruct (fmul_big (int_div i t) y Sf Hf) as [H1 H2]. { rewrite Hv, Rabs_pos_eq; lra. }
  rewrite Hv in H2. eexists. split; [done|]. unfold prel. rewrite H2, real_mult, real_zq, real_qdiv by done. fold s.
  pose proof uu_pos as Hu. pose proof eta_small as Heta. pose proof (rnd_err s) as E1. rewrite (Rabs_pos_eq s) in E1 by lra. rewrite <- Sv in E1.
  pose proof (rnd_err (val (int_div i t) * IZR c)) as E2. rewrite (Rabs_pos_eq (_ * IZR c)) in E2 by lra.
  split; [done|]. split. { split; [apply rnd_ge0; lra|]. apply rnd_le_Z; [lia|lra]. } split; [nra|]. split; [|done].
  set (v := val (int_div i t)) in *.
  replace (rnd (v * IZR c) - s * IZR c) with ((rnd (v * IZR c) - v * IZR c) + (v - s) * IZR c) by ring.
  eapply Rle_trans; [apply Rabs_triang|]. rewrite Rabs_mult, (Rabs_pos_eq (IZR c)) by lra.
  assert (Rabs (v - s) * IZR c <= (uu + eta) * IZR c) as E3 by (apply Rmult_le_compat_r; [lra|]; nra).
  assert (uu * (v * IZR c) <= uu * IZR c) as E4 by (apply Rmult_le_compat_l; lra).
  nra.
Qed.

(** ** States *)
Definition orel {A B} (R : A -> B -> Prop) (x : option A) (y : option B) : Prop :=
  match x, y with Some a, Some b => R a b | None, None => True | _, _ => False end.

Definition srel (P : node -> nat * Z) (naf : gmap Var fanode) (na : gmap Var anode) : Prop :=
  forall v, orel (fun af a => fa_in_query af = an_in_query a /\
    forall x, orel (fun wf w => wrel (P (v, x)).1 (P (v, x)).2 (an_in_query a) wf w) (fa_values af !! x) (an_values a !! x)) (naf !! v) (na !! v).

Lemma orel_mono {A B} (R R' : A -> B -> Prop) x y : orel R x y -> (forall a b, R a b -> R' a b) -> orel R' x y.
Proof. destruct x, y; cbn; auto. Qed.

Lemma srel_mono (P P' : node -> nat * Z) naf na : srel P naf na -> (forall n, ((P n).1 <= (P' n).1)%nat /\ ((P n).2 <= (P' n).2)%Z) -> srel P' naf na.
Proof.
  intros H HP v. eapply orel_mono; [apply H|]. intros af a [Hq Hx]. split; [done|]. intros x. eapply orel_mono; [apply Hx|].
  intros wf w Hw. destruct (HP (v, x)). by eapply wrel_mono.
Qed.

Lemma act_node_rel k N c (P P' : node -> nat * Z) naf na (n : node) pf p q :
  srel P naf na -> P n = (k, N) -> P' n = (S k, N + c)%Z -> (forall m, m <> n -> P' m = P m) -> prel c q pf p -> (0 < c)%Z -> (0 <= N)%Z -> (N + c <= L)%Z ->
  both (srel P') (act_node_f naf n pf q) (act_node na n p q).
Proof.
  intros Hs HP HP' Hne Hp Hc HN HNc. unfold act_node_f, act_node. pose proof (Hs n.1) as Hn.
  destruct (naf !! n.1) as [af|] eqn:Ef, (na !! n.1) as [a|] eqn:Ea; cbn [orel] in Hn; try done. destruct Hn as [Hq Hx]. rewrite Hq.
  destruct (eqb q (an_in_query a)) eqn:Eq; [|done]. apply eqb_prop in Eq as ->. cbn [passert mbind res_bind].
  pose proof (Hx n.2) as Hw. destruct (fa_values af !! n.2) as [wf|] eqn:Ew, (an_values a !! n.2) as [w|] eqn:Ew'; cbn [orel] in Hw; try done.
  replace (n.1, n.2) with (n : Var * Val) in Hw by (by destruct n). rewrite HP in Hw. cbn [fst snd] in Hw.
  cbn [both]. intros v. destruct (decide (v = n.1)) as [->|Hv].
  - rewrite !lookup_insert. cbn [orel fa_in_query an_in_query fa_values an_values]. split; [done|]. intros x. destruct (decide (x = n.2)) as [->|Hx'].
    + rewrite !lookup_insert. cbn [orel]. replace (n.1, n.2) with (n : Var * Val) by (by destruct n). rewrite HP'. by apply wrel_step.
    + rewrite !lookup_insert_ne by done. rewrite Hne; [apply Hx|]. destruct n as [n1 n2]. cbn in *. congruence.
  - rewrite !lookup_insert_ne by done. eapply orel_mono; [apply Hs|]. intros af' a' [Hq' Hx']. split; [done|]. intros x.
    rewrite Hne; [apply Hx'|]. destruct n as [n1 n2]. cbn in *. congruence.
Qed.

Lemma nodes_rel k N c lf lq :
  Forall2 (fun (a : node * (b64 * bool)) (b : node * (Qc * bool)) => a.1 = b.1 /\ a.2.2 = b.2.2 /\ prel c b.2.2 a.2.1 b.2.1) lf lq ->
  NoDup lq.*1 -> (0 < c)%Z -> (0 <= N)%Z -> (N + c <= L)%Z -> forall o o' naf na,
  srel (fun n => if bool_decide (n ∈ lq.*1) then (k, N) else (S k, N + c)%Z) naf na ->
  both (srel (fun _ => (S k, N + c)%Z))
    (for_res (fun _ na '(n, (w, q)) => act_node_f na n w q) o naf lf) (for_res (fun _ na '(n, (w, q)) => act_node na n w q) o' na lq).
Proof.
  intros HF. induction HF as [|[n [pf q]] [n' [p q']] lf lq (Hn & Hq & Hp) HF IH]; intros Hnd Hc HN HNc o o' naf na Hs.
  - cbn [for_res both]. exact Hs.
  - cbn [fst snd] in *. subst n' q'. rewrite fmap_cons in Hnd. apply NoDup_cons in Hnd as [Hni Hnd]. cbn [for_res].
    pose proof (act_node_rel k N c _ (fun m => if bool_decide (m ∈ lq.*1) then (k, N) else (S k, N + c)%Z) naf na n pf p q Hs) as Hst.
    feed pose proof Hst as Hb; clear Hst; try done.
    + rewrite bool_decide_eq_true_2; [done|]. rewrite fmap_cons. by left.
    + by rewrite bool_decide_eq_false_2.
    + intros m Hm. rewrite fmap_cons. apply (f_equal (fun b : bool => if b then (k, N) else (S k, N + c)%Z)).
      apply bool_decide_ext. rewrite elem_of_cons. cbn [fst]. split; [by right|]. intros [?|?]; [by subst|done].
    + destruct (act_node_f naf n pf q) as [naf'|e], (act_node na n p q) as [na'|e']; cbn [both] in Hb; try done.
      by apply IH.
Qed.

Lemma similarity_rel g ev : both (fun sf s => exists i t, (0 <= i <= t)%Z /\ (0 < t)%Z /\ sf = int_div i t /\ s = qdiv i t) (similarity_f g ev) (similarity g ev).
Proof.
  unfold similarity_f, similarity, py_div.
  set (i := Z.of_nat (size (content g ∩ content ev))). set (d := Z.of_nat (size ((content g ∖ content ev) ∪ (content ev ∖ content g)))).
  destruct (bool_decide (i + d = 0)%Z) eqn:E; [done|]. apply bool_decide_eq_false in E. cbn [both]. exists i, (i + d)%Z.
  split_and!; [lia|lia|lia|done|done].
Qed.

Lemma act_outcome_rel k N c o ev f naf na ea g :
  srel (fun _ => (k, N)) naf na -> (0 < c)%Z -> (0 <= N)%Z -> (N + c <= L)%Z ->
  both (fun xf x => srel (fun _ => (S k, N + c)%Z) xf.1 x.1 /\ xf.2 = x.2) (act_outcome_f o ev f (naf, ea) g c) (act_outcome o ev f (na, ea) g c).
Proof.
  intros Hs Hc HN HNc. unfold act_outcome_f, act_outcome.
  eapply both_bind; [apply similarity_rel|]. intros sf s (i & t & Hi & Ht & -> & ->).
  eapply both_bind; [apply both_same|]. intros ext ? <-.
  destruct (count_prel c ltac:(lia)) as (w_in & Hin & Pin). destruct (sim_prel i t c Hi Ht ltac:(lia)) as (w_out & Hout & Pout).
  rewrite Hin, Hout. unfold weight_if.
  assert (forall (X : gset node) w, exists w', (if bool_decide (X = ∅) then Ok f_zero else Ok w : res b64) = Ok w' /\ (X <> ∅ -> w' = w)) as Hif.
  { intros X w. destruct (bool_decide (X = ∅)) eqn:E; [apply bool_decide_eq_true in E|]; by eexists. }
  destruct (Hif (dom ext) w_out) as (wo & -> & Hwo). destruct (Hif (g_nodes ev ∩ g_nodes g) w_in) as (wi & -> & Hwi). cbn [mbind res_bind].
  rewrite !dom_fmap_L, !dom_gset_to_gmap.
  destruct (passert (bool_decide (dom ext ∩ (g_nodes ev ∩ g_nodes g) = ∅))); [|done].
  match goal with |- context [passert ?b] => destruct (passert b); [|done] end.
  cbn [mbind res_bind].
  set (z := (gset_to_gmap true (g_nodes ev ∩ g_nodes g) ∪ ((fun _ => false) <$> ext) : gmap node bool)).
  assert (gset_to_gmap (wi, true) (g_nodes ev ∩ g_nodes g) ∪ ((fun _ => (wo, false)) <$> ext) = (fun q : bool => (if q then wi else wo, q)) <$> z) as ->.
  { unfold z. rewrite map_fmap_union, fmap_gset_to_gmap, <- map_fmap_compose. done. }
  assert (gset_to_gmap (zq c, true) (g_nodes ev ∩ g_nodes g) ∪ ((fun _ => ((qdiv i t * zq c)%Qc, false)) <$> ext) =
    (fun q : bool => (if q then zq c else (qdiv i t * zq c)%Qc, q)) <$> z) as ->.
  { unfold z. rewrite map_fmap_union, fmap_gset_to_gmap, <- map_fmap_compose. done. }
  rewrite !iter_map_fmap. eapply both_bind.
  - apply (nodes_rel k N c).
    + apply Forall2_fmap. apply Forall_Forall2_diag, Forall_forall. intros [n q] Hn. rewrite iter_map_perm, elem_of_map_to_list in Hn. cbn.
      split; [done|]. split; [done|]. destruct q.
      * rewrite Hwi; [done|]. intros He. unfold z in Hn. apply lookup_union_Some_raw in Hn as [Hn|[_ Hn]].
        -- apply lookup_gset_to_gmap_Some in Hn as [Hn _]. rewrite He in Hn. by apply elem_of_empty in Hn.
        -- rewrite lookup_fmap in Hn. by destruct (ext !! n).
      * rewrite Hwo; [done|]. intros He. unfold z in Hn. apply lookup_union_Some_raw in Hn as [Hn|[_ Hn]].
        -- by apply lookup_gset_to_gmap_Some in Hn as [_ Hn].
        -- rewrite lookup_fmap in Hn. destruct (ext !! n) eqn:E; [|done]. apply elem_of_dom_2 in E. rewrite He in E. by apply elem_of_empty in E.
    + rewrite <- list_fmap_compose. rewrite (list_fmap_ext _ fst) by (by intros ? []).
      rewrite iter_map_perm. apply NoDup_fst_map_to_list.
    + done.
    + done.
    + done.
    + eapply srel_mono; [exact Hs|]. intros n. case_bool_decide; cbn; lia.
  - intros naf' na' Hs'. cbn [snd]. eapply both_bind; [apply both_same|]. intros ea' ? <-. by split.
Qed.

Lemma zsum_nonneg' (cs : list Z) : (forall c, c ∈ cs -> 0 <= c)%Z -> (0 <= zsum cs)%Z.
Proof.
  induction cs as [|c cs IH]; intros H; [done|]. change (0 <= c + zsum cs)%Z.
  assert (0 <= c)%Z by (apply H; left). assert (0 <= zsum cs)%Z; [|lia]. apply IH. intros c' Hc. apply H. by right.
Qed.

Lemma outcomes_rel ev f : forall (l : list (graph * Z)) k N o naf na ea,
  srel (fun _ => (k, N)) naf na -> (forall g c, (g, c) ∈ l -> 0 < c)%Z -> (0 <= N)%Z -> (N + zsum l.*2 <= L)%Z ->
  both (fun xf x => srel (fun _ => ((k + length l)%nat, (N + zsum l.*2)%Z)) xf.1 x.1 /\ xf.2 = x.2)
    (for_res (fun o' acc '(g, c) => act_outcome_f o' ev f acc g c) o (naf, ea) l) (for_res (fun o' acc '(g, c) => act_outcome o' ev f acc g c) o (na, ea) l).
Proof.
  induction l as [|[g c] l IH]; intros k N o naf na ea Hs Hc HN HL'.
  - cbn. rewrite Nat.add_0_r, Z.add_0_r. done.
  - assert (0 < c)%Z as Hc0 by (apply (Hc g); left). assert (0 <= zsum l.*2)%Z as Hz.
    { apply zsum_nonneg'. intros c' ([g' c''] & -> & Hg)%elem_of_list_fmap. apply Z.lt_le_incl, (Hc g'). by right. }
    rewrite fmap_cons in HL'. change (N + (c + zsum l.*2) <= L)%Z in HL'. cbn [for_res].
    pose proof (act_outcome_rel k N c (sub o 1) ev f naf na ea g Hs Hc0 HN ltac:(lia)) as Hb.
    destruct (act_outcome_f _ _ _ _ _ _) as [[naf' eaf']|e], (act_outcome _ _ _ _ _ _) as [[na' ea']|e']; cbn [both] in Hb; try done.
    destruct Hb as [Hb He]. cbn [fst snd] in *. subst eaf'.
    assert (forall g' c', (g', c') ∈ l -> 0 < c')%Z as Hc' by (intros g' c' Hg; apply (Hc g'); by right).
    pose proof (IH (S k) (N + c)%Z (sub o 0) naf' na' ea' Hb Hc' ltac:(lia) ltac:(lia)) as Hr.
    assert (((k + length ((g, c) :: l))%nat, (N + zsum ((g, c) :: l).*2)%Z) = ((S k + length l)%nat, (N + c + zsum l.*2)%Z)) as ->.
    { f_equal; [cbn [length]; lia|]. rewrite fmap_cons. change (N + (c + zsum l.*2) = N + c + zsum l.*2)%Z. lia. }
    exact Hr.
Qed.
End lockstep.
