(** * ActFloatMain: activation graphs in floats and their colours (C54) *)

From Coq Require Import ZArith Reals Lra Lia Qreals String Ascii.
From Flocq Require Import Core.Core IEEE754.BinarySingleNaN.
From Verif Require Import SpecActFloat BaseFacts SetFacts MapOrder FloatFacts FloatSumFacts ActFloatFacts.

Local Open Scope R_scope.

Section main.
Context {U : Universe}.

(** ** Division by the number of samples *)
Lemma div_ok L k q wf w y : (0 < L <= two53)%Z -> wrel L k L q wf w -> fin y -> val y = IZR L ->
  weight_ok k q (Bdiv mode_NE wf y) (w / zq L)%Qc.
Proof.
  intros HL (H1 & H2 & H3 & H4 & H5) Hy Hv.
  assert (1 <= IZR L) as HL1 by (apply IZR_le; lia). pose proof (two53_big L ltac:(lia)) as Hb.
  assert (0 <= val wf / IZR L <= 1) as Hq.
  { split; [apply Rle_mult_inv_pos; lra|]. apply Rmult_le_reg_r with (IZR L); [lra|]. unfold Rdiv. rewrite Rmult_assoc, Rinv_l by lra. lra. }
  assert (1 <= bpow radix2 60) as Hbig by (change 1 with (bpow radix2 0); apply bpow_le; lia).
  destruct (fdiv_big wf y H1 Hy) as [Df Dv]. { lra. } { rewrite Hv, Rabs_pos_eq; lra. }
  rewrite Hv in Dv. split; [|split].
  - split; [exact Df|]. fold (val (Bdiv mode_NE wf y)). rewrite Dv. split; [apply rnd_ge0; lra|]. rewrite <- rnd_1. apply rnd_le. lra.
  - fold (val (Bdiv mode_NE wf y)). rewrite Dv, real_div by lia.
    replace (rnd (val wf / IZR L) - real_of w / IZR L) with ((rnd (val wf / IZR L) - val wf / IZR L) + (val wf - real_of w) / IZR L) by (field; lra).
    eapply Rle_trans; [apply Rabs_triang|]. pose proof (rnd_err (val wf / IZR L)) as E1. rewrite (Rabs_pos_eq (val wf / IZR L)) in E1 by lra.
    assert (Rabs ((val wf - real_of w) / IZR L) <= 21 / 20 * uu * (INR k + 2)) as E2.
    { unfold Rdiv. rewrite Rabs_mult, (Rabs_pos_eq (/ IZR L)) by (apply Rlt_le, Rinv_0_lt_compat; lra).
      apply Rmult_le_reg_r with (IZR L); [lra|]. rewrite Rmult_assoc, Rinv_l, Rmult_1_r by lra. lra. }
    pose proof uu_pos as Hu. pose proof eta_small as He.
    replace (/ 2 ^ 53) with uu by (rewrite uu_val; f_equal; lra).
    assert (uu * (val wf / IZR L) <= uu * 1) as E3 by (apply Rmult_le_compat_l; lra). lra.
  - intros Hq'. destruct (H5 Hq') as [E1 _]. apply rnd_nearest; [done|]. rewrite Dv, real_div, E1 by lia. done.
Qed.

(** ** The loop over the variables *)
Definition step_f (L : Z) : oracle -> gmap Var fanode -> Var * fanode -> res (gmap Var fanode) :=
  (fun _ acc '(v, a) => d ← div_all_w (fa_values a) L; Ok (<[v := FANode d (fa_in_query a)]> acc)).
Definition step_q (L : Z) : oracle -> gmap Var anode -> Var * anode -> res (gmap Var anode) :=
  (fun _ acc '(v, a) => if bool_decide (an_values a ≠ ∅) && bool_decide (L = 0%Z) then Err ZeroDivisionError
            else Ok (<[v := ANode ((fun w => (w / zq L)%Qc) <$> an_values a) (an_in_query a)]> acc)).
Lemma nodes_div L k :  (0 <= L <= two53)%Z -> forall (l : list (Var * (fanode * anode))) o accf acc,
  (forall v af a, (v, (af, a)) ∈ l -> fa_in_query af = an_in_query a /\
     forall x, orel (fun wf w => wrel L k L (an_in_query a) wf w) (fa_values af !! x) (an_values a !! x)) ->
  same_keys (node_ok k) accf acc ->
  both (same_keys (node_ok k))
    (for_res (step_f L) o accf (prod_map Datatypes.id fst <$> l))
    (for_res (step_q L) o acc (prod_map Datatypes.id snd <$> l)).
Proof.
  intros HL. induction l as [|[v [af a]] l IH]; intros o accf acc Hl Hs; [exact Hs|].
  rewrite !fmap_cons. cbn [for_res prod_map Datatypes.id fst snd].
  destruct (Hl v af a ltac:(left)) as [Hq Hx].
  assert (fa_values af = ∅ <-> an_values a = ∅) as Hem.
  { split; intros He; apply map_eq; intros x; specialize (Hx x); rewrite He, lookup_empty in *;
      [destruct (an_values a !! x)|destruct (fa_values af !! x)]; done. }
  assert (forall d, same_keys (weight_ok k (an_in_query a)) d ((fun w => (w / zq L)%Qc) <$> an_values a) ->
    both (same_keys (node_ok k))
      (for_res (step_f L) (sub o 0) (<[v := FANode d (fa_in_query af)]> accf) (prod_map Datatypes.id fst <$> l))
      (for_res (step_q L) (sub o 0)
         (<[v := ANode ((fun w => (w / zq L)%Qc) <$> an_values a) (an_in_query a)]> acc) (prod_map Datatypes.id snd <$> l))) as Hgo.
  { intros d Hd. apply IH. { intros v' af' a' H'. apply (Hl v'). by right. }
    intros v'. destruct (decide (v' = v)) as [->|Hv].
    - rewrite !lookup_insert. by split.
    - rewrite !lookup_insert_ne by done. apply Hs. }
  unfold step_f at 1, step_q at 1, div_all_w. destruct (decide (an_values a = ∅)) as [He|He].
  - rewrite (bool_decide_eq_true_2 (fa_values af = ∅)) by (by apply Hem). rewrite (bool_decide_eq_false_2 (an_values a ≠ ∅)) by (by intros []).
    cbn [mbind res_bind andb]. apply Hgo. intros x. rewrite lookup_fmap, He, !lookup_empty. done.
  - rewrite (bool_decide_eq_false_2 (fa_values af = ∅)) by (by rewrite Hem). rewrite (bool_decide_eq_true_2 (an_values a ≠ ∅)) by done.
    destruct (z2f_exact L HL) as (y & -> & Hf & Hv). cbn [mbind res_bind andb].
    assert (Beqb y f_zero = bool_decide (L = 0%Z)) as ->.
    { rewrite Beqb_correct; [|exact Hf|apply fin_zero]. fold (val y). fold (val f_zero). rewrite Hv, val_zero.
      case_bool_decide as E; [subst L; by apply Req_bool_true|]. apply Req_bool_false. intros H. by apply eq_IZR in H. }
    case_bool_decide as E; [done|]. apply Hgo. intros x. rewrite !lookup_fmap. specialize (Hx x).
    destruct (fa_values af !! x), (an_values a !! x); cbn in *; try done. apply div_ok; [lia|done|done|done].
Qed.

Lemma zip_eq {A B} (R : Var -> A -> B -> Prop) (m : gmap Var A) (m' : gmap Var B) :
  (forall v, orel (R v) (m !! v) (m' !! v)) -> exists z : gmap Var (A * B), m = fst <$> z /\ m' = snd <$> z /\ forall v p, z !! v = Some p -> R v p.1 p.2.
Proof.
  intros H. exists (map_zip m m'). split_and!.
  - apply map_eq. intros v. rewrite lookup_fmap, map_lookup_zip_with. specialize (H v). by destruct (m !! v), (m' !! v).
  - apply map_eq. intros v. rewrite lookup_fmap, map_lookup_zip_with. specialize (H v). by destruct (m !! v), (m' !! v).
  - intros v p. rewrite map_lookup_zip_with. specialize (H v). destruct (m !! v), (m' !! v); cbn in *; try done. by intros [= <-].
Qed.

Lemma activation_float o (cg : cgraph) f :
  pos_counts (sp_out (cg_space cg)) -> (ss_length (sp_out (cg_space cg)) <= 2 ^ 53)%Z ->
  same_outcome (float_graph_ok (size (ss_map (sp_out (cg_space cg))))) (activation_graph_f o cg f) (activation_graph o cg f).
Proof.
  intros Hp HL. set (L := ss_length (sp_out (cg_space cg))) in *.
  change (both (float_graph_ok (size (ss_map (sp_out (cg_space cg))))) (activation_graph_f o cg f) (activation_graph o cg f)).
  pose proof (items_lemma (sub o 1) (sp_out (cg_space cg))) as (_ & Hit & _ & _ & Hz). fold L in Hz.
  assert (forall g c, (g, c) ∈ ss_items (sub o 1) (sp_out (cg_space cg)) -> 0 < c)%Z as Hc. { intros g c Hg. apply (Hp g). by apply Hit. }
  assert (0 <= L)%Z as HL0.
  { rewrite <- Hz. apply zsum_nonneg'. intros c ([g c'] & -> & Hg)%elem_of_list_fmap. apply Z.lt_le_incl, (Hc g). done. }
  assert (0 <= L <= two53)%Z as HLL by (unfold two53; lia).
  assert (length (ss_items (sub o 1) (sp_out (cg_space cg))) = size (ss_map (sp_out (cg_space cg)))) as Hlen.
  { unfold ss_items. rewrite iter_map_perm. done. }
  unfold activation_graph_f, activation_graph. fold L. eapply both_bind.
  - apply (outcomes_rel L HLL _ _ _ 0 0); [|done|done|lia].
    intros v. rewrite !map_lookup_imap. destruct (cp_vars _ !! v) as [X|]; [|done]. cbn. split; [done|]. intros x. rewrite !lookup_gset_to_gmap.
    destruct (decide (x ∈ X)); [rewrite !option_guard_True by done|rewrite !option_guard_False by done; done]. cbn. apply wrel_zero.
  - intros [naf eaf] [na ea] [Hs He]. cbn [fst snd] in *. subst eaf. rewrite Hz, Hlen in Hs. rewrite !Z.add_0_l, !Nat.add_0_l in Hs.
    destruct (zip_eq _ _ _ Hs) as (z & -> & -> & Hzz). rewrite !iter_map_fmap. eapply both_bind.
    + apply (nodes_div L (size (ss_map (sp_out (cg_space cg)))) HLL).
      * intros v af a Hv. rewrite iter_map_perm, elem_of_map_to_list in Hv. exact (Hzz v _ Hv).
      * intros v. by rewrite !lookup_empty.
    + intros nf n Hn. eapply both_bind; [apply both_same|]. intros edges ? <-. cbn. by split.
Qed.
End main.
