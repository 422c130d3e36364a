(** * Facts about the float model: the two methods *)

From Coq Require Import ZArith Reals Qreals Lra Psatz.
From Flocq Require Import Core.Core IEEE754.BinarySingleNaN.
From Verif Require Import FloatFacts SpecFloats Floats SpaceFacts.

Local Open Scope R_scope.

Lemma quot_bounds a b : (0 <= a <= b)%Z -> (0 < b)%Z -> 0 <= IZR a / IZR b <= 1.
Proof.
  intros Ha Hb. assert (0 < IZR b) as Hb' by (apply IZR_lt; lia). split.
  - apply Rle_mult_inv_pos; [apply IZR_le; lia|lra].
  - apply (Rmult_le_reg_r (IZR b)); [lra|].
    unfold Rdiv. rewrite Rmult_assoc, Rinv_l, Rmult_1_r, Rmult_1_l by lra. apply IZR_le. lia.
Qed.

Lemma int_div_approx a b : (0 <= a <= b)%Z -> (0 < b)%Z -> approx (int_div a b) (IZR a / IZR b).
Proof.
  intros Ha Hb. destruct (int_div_spec a b Ha Hb) as [Hf Hv]. pose proof (quot_bounds a b Ha Hb) as Hq.
  split; [done|]. split; [lra|]. rewrite Hv. pose proof (rnd_err (IZR a / IZR b)) as He.
  rewrite (Rabs_pos_eq (IZR a / IZR b)) in He by lra. exact He.
Qed.

Lemma int_div_nearest a b : (0 <= a <= b)%Z -> (0 < b)%Z -> nearest_double (int_div a b) (real_of (qdiv a b)).
Proof.
  intros Ha Hb. destruct (int_div_spec a b Ha Hb) as [Hf Hv]. split; [exact Hf|]. intros d Hd.
  assert (real_of (qdiv a b) = IZR a / IZR b) as ->.
  { unfold real_of. rewrite (Qeq_eqR _ (inject_Z a / inject_Z b)%Q) by (apply qdiv_Q; lia).
    rewrite Q2R_div; [|unfold Qeq; simpl; lia]. unfold Q2R, inject_Z. cbn [Qnum Qden]. field.
    apply IZR_neq. lia. }
  unfold val in Hv. rewrite Hv.
  pose proof (round_N_pt radix2 (FLT_exp (-1074) 53) (fun t => negb (Z.even t)) (IZR a / IZR b)) as [_ Hn].
  apply Hn. apply (generic_format_B2R 53 1024 d).
Qed.

Lemma rsum_quot cs b : rsum ((fun c => IZR c / IZR b) <$> cs) = IZR (zsum cs) / IZR b.
Proof.
  induction cs as [|c cs IH]; cbn [fmap list_fmap rsum fold_right zsum foldr].
  - unfold Rdiv. by rewrite Rmult_0_l.
  - fold (rsum ((fun c => IZR c / IZR b) <$> cs)) (zsum cs). rewrite IH, plus_IZR. unfold Rdiv. ring.
Qed.

Lemma zsum_ge cs c : Forall (fun c => 0 <= c)%Z cs -> c ∈ cs -> (0 <= c <= zsum cs)%Z.
Proof.
  intros HF. assert (0 <= zsum cs)%Z as Hn.
  { clear c. induction HF as [|d cs Hd HF IH]; simpl; [done|]. fold (zsum cs). lia. }
  revert Hn. induction HF as [|d cs Hd HF IH]; intros Hn Hc; [by apply elem_of_nil in Hc|].
  assert (0 <= zsum cs)%Z as Hn'.
  { clear -HF. induction HF as [|e cs He HF IH]; simpl; [done|]. fold (zsum cs). lia. }
  cbn [zsum foldr] in *. fold (zsum cs) in *.
  apply elem_of_cons in Hc as [->|Hc]; [lia|]. specialize (IH Hn' Hc). lia.
Qed.

Lemma approx_list cs : Forall (fun c => 0 <= c)%Z cs -> (0 < zsum cs)%Z ->
  Forall2 approx ((fun c => int_div c (zsum cs)) <$> cs) ((fun c => IZR c / IZR (zsum cs)) <$> cs).
Proof.
  intros HF Hpos. apply Forall2_fmap_2. apply Forall_Forall2_diag. apply Forall_forall. intros c Hc.
  apply int_div_approx; [|done]. by apply zsum_ge.
Qed.

Lemma rsum_one cs : (0 < zsum cs)%Z -> rsum ((fun c => IZR c / IZR (zsum cs)) <$> cs) = 1.
Proof.
  intros Hpos. rewrite rsum_quot. apply Rinv_r. apply IZR_neq. lia.
Qed.

Lemma INR_le_Z n (k : Z) : (Z.of_nat n <= k)%Z -> INR n <= IZR k.
Proof. intros H. rewrite INR_IZR_INZ. by apply IZR_le. Qed.

Lemma sum_error cs : Forall (fun c => 0 <= c)%Z cs -> (0 < zsum cs)%Z -> (Z.of_nat (length cs) <= 2 ^ 23)%Z ->
  is_finite (f_sum ((fun c => int_div c (zsum cs)) <$> cs)) = true /\
  Rabs (B2R (f_sum ((fun c => int_div c (zsum cs)) <$> cs)) - 1)
    <= 21 / 20 * / 9007199254740992 * (INR (length cs) + 1).
Proof.
  intros HF Hpos Hn. destruct (f_sum_error _ _ (approx_list cs HF Hpos)) as [H1 H2].
  - rewrite rsum_one by done. lra.
  - rewrite fmap_length. apply (INR_le_Z _ _ Hn).
  - rewrite rsum_one, fmap_length, uu_val in H2 by done. done.
Qed.

Lemma sum_close cs : Forall (fun c => 0 <= c)%Z cs -> (0 < zsum cs)%Z -> (Z.of_nat (length cs) <= 2 ^ 23)%Z ->
  close_to_one (f_sum ((fun c => int_div c (zsum cs)) <$> cs)) = true.
Proof.
  intros HF Hpos Hn. destruct (sum_error cs HF Hpos Hn) as [H1 H2]. apply close_spec; [done|].
  pose proof (INR_le_Z _ _ Hn) as Hn'. change (2 ^ 23)%Z with 8388608%Z in Hn'.
  rewrite Rabs_minus_sym in H2. unfold val. lra.
Qed.

Lemma compensated_close cs : Forall (fun c => 0 <= c)%Z cs -> (0 < zsum cs)%Z -> (Z.of_nat (length cs) <= 2 ^ 22 - 2)%Z ->
  close_to_one (f_sum_compensated ((fun c => int_div c (zsum cs)) <$> cs)) = true.
Proof.
  intros HF Hpos Hn. pose proof (INR_le_Z _ _ Hn) as Hn'. change (2 ^ 22 - 2)%Z with 4194302%Z in Hn'.
  destruct (f_sum_compensated_error _ _ (approx_list cs HF Hpos)) as [H1 H2].
  - rewrite rsum_one by done. lra.
  - rewrite fmap_length. lra.
  - rewrite rsum_one, fmap_length, uu_val in H2 by done.
    apply close_spec; [done|]. rewrite Rabs_minus_sym in H2. unfold val in *. lra.
Qed.

(** ** The methods, for a version of [sum] that keeps the sums of [n] quotients close to 1 *)

Definition sums_close (py_sum : list b64 -> b64) (n : Z) : Prop := forall cs,
  Forall (fun c => 0 <= c)%Z cs -> (0 < zsum cs)%Z -> (Z.of_nat (length cs) <= n)%Z ->
  close_to_one (py_sum ((fun c => int_div c (zsum cs)) <$> cs)) = true.

Lemma map_close py_sum n `{Countable K} (m : gmap K Z) o :
  sums_close py_sum n -> (forall k c, m !! k = Some c -> (0 <= c)%Z) -> (0 < zsum (map_to_list m).*2)%Z ->
  (Z.of_nat (size m) <= n)%Z ->
  close_to_one (py_sum (iter_map o ((fun c => int_div c (zsum (map_to_list m).*2)) <$> m)).*2) = true.
Proof.
  intros Hs Hnn Hpos Hn.
  assert ((iter_map o ((fun c => int_div c (zsum (map_to_list m).*2)) <$> m)).*2
    ≡ₚ (fun c => int_div c (zsum (map_to_list m).*2)) <$> (map_to_list m).*2) as Hp.
  { rewrite iter_map_perm, map_to_list_fmap, <- !list_fmap_compose.
    match goal with |- ?a ≡ₚ ?b => assert (a = b) as Hab; [|by rewrite Hab] end.
    apply list_fmap_ext. by intros _ [k c] _. }
  apply Permutation_map_inv in Hp as (cs & -> & Hcs).
  assert (zsum (map_to_list m).*2 = zsum cs) as Hz by (by rewrite Hcs). rewrite Hz in *. apply Hs; [|done|].
  - apply Forall_forall. intros c Hc. rewrite <- Hcs in Hc. apply elem_of_list_fmap in Hc as ([k d] & -> & Hd).
    apply elem_of_map_to_list in Hd. by apply (Hnn k).
  - rewrite <- Hcs, fmap_length. exact Hn.
Qed.

Lemma set_size_le `{Countable A} (l : list A) : (size (list_to_set l : gset A) <= length l)%nat.
Proof.
  induction l as [|x l IH]; cbn [list_to_set length]; [by rewrite size_empty|].
  destruct (decide (x ∈ (list_to_set l : gset A))) as [Hx|Hx].
  - assert ({[x]} ∪ list_to_set l = (list_to_set l : gset A)) as -> by set_solver. lia.
  - rewrite size_union, size_singleton by set_solver. lia.
Qed.

Lemma omap_size_le {A B} (f : A -> option B) (l : list A) : (length (omap f l) <= length l)%nat.
Proof. induction l as [|x l IH]; simpl; [done|]. destruct (f x); [by apply le_n_S|by apply le_S]. Qed.

Section methods.
Context {U : Universe}.
Context (py_sum : list b64 -> b64) (N : Z) (Hsum : sums_close py_sum N).

Lemma probabilities_f_lemma o ss : pos_counts ss -> ss_map ss <> ∅ -> (Z.of_nat (size (ss_map ss)) <= N)%Z ->
  exists mf m, probabilities_f py_sum o ss = Ok mf /\ probabilities ss = Ok m /\ rounds_to mf m.
Proof.
  intros Hp Hne Hn. destruct (probabilities_ok ss Hp Hne) as [m Hm].
  pose proof (probabilities_spec ss) as Hs. rewrite Hm in Hs. destruct Hs as (_ & Hl & Hlook & _ & _).
  assert (0 < ss_length ss)%Z as Hpos.
  { apply map_choose in Hne as (g & c & Hg). pose proof (positive_le ss g c Hp Hg). specialize (Hp _ _ Hg). lia. }
  exists ((fun c => int_div c (ss_length ss)) <$> ss_map ss), m. split; [|split; [done|]].
  - unfold probabilities_f. rewrite (bool_decide_false (ss_length ss = 0%Z)) by lia. rewrite andb_false_r.
    pose proof (map_close py_sum N (ss_map ss) o Hsum) as Hc. cbv zeta.
    assert (close_to_one (py_sum (iter_map o ((fun c => int_div c (ss_length ss)) <$> ss_map ss)).*2) = true) as ->; [|done].
    apply Hc; [|exact Hpos|done]. intros g c Hg. specialize (Hp _ _ Hg). lia.
  - intros g. rewrite Hlook, lookup_fmap. destruct (ss_map ss !! g) as [c|] eqn:Hg; simpl; [|done].
    apply int_div_nearest; [|done]. pose proof (positive_le ss g c Hp Hg). specialize (Hp _ _ Hg). lia.
Qed.

Lemma probability_of_f_lemma ss g : pos_counts ss ->
  match probability_of_f ss g, probability_of ss g with
  | Ok f, Ok q => nearest_double f (real_of q)
  | Err x, Err y => x = y
  | _, _ => False
  end.
Proof.
  intros Hp. unfold probability_of_f, probability_of, py_div. destruct (ss_map ss !! g) as [c|] eqn:Hg; [|done].
  pose proof (positive_le ss g c Hp Hg). specialize (Hp _ _ Hg).
  rewrite !bool_decide_false by lia. apply int_div_nearest; lia.
Qed.

Definition dist_of_f (sp : space) (u : bool) (m : gmap Val Z) : gmap Val b64 :=
  let s := zsum (map_to_list m).*2 in
  let len := ss_length (sp_out sp) in
  if u then (fun c => int_div c len) <$> <[val_u := (len - s)%Z]> m else (fun c => int_div c s) <$> m.

(** A variable has no more values than there are outcomes. *)
Lemma group_size o sp variables v m :
  one_valued (sp_out sp) -> marginal_groups o sp (vars_to_check sp variables) !! v = Some m ->
  (size m <= size (ss_map (sp_out sp)))%nat.
Proof.
  intros Hone Hv. pose proof (marginal_group_at o sp variables v Hone) as Hg. rewrite Hv in Hg.
  destruct Hg as (_ & _ & _ & Hm & _).
  pose (pick := fun g : graph => snd <$> head (filter (fun n : node => n.1 = v) (elements (g_nodes g)))).
  pose (X := list_to_set (omap pick (map_to_list (ss_map (sp_out sp))).*1) : gset Val).
  assert (dom m ⊆ X) as Hsub.
  { intros x Hx. apply elem_of_dom in Hx as [n Hn]. specialize (Hm x). rewrite Hn in Hm.
    destruct Hm as [(g & [c Hc] & Hin) _]. unfold X. apply elem_of_list_to_set. apply elem_of_list_omap.
    exists g. split.
    - apply elem_of_list_fmap. exists (g, c). split; [done|]. by apply elem_of_map_to_list.
    - unfold pick. destruct (filter _ _) as [|[w y] l] eqn:Hf.
      + exfalso. assert ((v, x) ∈ filter (fun n : node => n.1 = v) (elements (g_nodes g))) as Hl.
        { apply elem_of_list_filter. split; [done|]. by apply elem_of_elements. }
        rewrite Hf in Hl. by apply elem_of_nil in Hl.
      + assert ((w, y) ∈ filter (fun n : node => n.1 = v) (elements (g_nodes g))) as Hl by (rewrite Hf; left).
        apply elem_of_list_filter in Hl as [Hw Hl]. apply elem_of_elements in Hl. simpl in Hw. subst w.
        simpl. f_equal. assert (contains (sp_out sp) g) as Hcg by (by exists c).
        apply (Hone g Hcg v); done. }
  rewrite <- size_dom. apply subseteq_size in Hsub. etransitivity; [exact Hsub|]. unfold X.
  etransitivity; [apply set_size_le|].
  etransitivity; [apply omap_size_le|]. by rewrite fmap_length.
Qed.

Lemma marginal_f_lemma o sp variables (u : bool) :
  one_valued (sp_out sp) -> pos_counts (sp_out sp) ->
  (u = true -> forall v, requested sp variables v -> ~ occurs (sp_out sp) (v, val_u)) ->
  (Z.of_nat (size (ss_map (sp_out sp))) < N)%Z ->
  exists mf m, marginal_variables_probability_f py_sum o sp variables u = Ok mf /\
    marginal_variables_probability o sp variables u = Ok m /\
    forall v, match mf !! v, m !! v with
              | Some df, Some d => rounds_to df d
              | None, None => True
              | _, _ => False
              end.
Proof.
  intros Hone Hpos Hu HN. destruct (C26_lemma o sp variables u Hone Hpos Hu) as (m & Hm & _).
  pose proof (marginal_eq o sp variables u Hone Hpos) as Heq. rewrite Hm in Heq. cbv zeta in Heq.
  case_bool_decide; [|done]. injection Heq as ->.
  unfold marginal_variables_probability_f.
  change (match variables with Some X => if bool_decide (X = ∅) then dom (cp_vars (sp_cp sp)) else X
          | None => dom (cp_vars (sp_cp sp)) end) with (vars_to_check sp variables).
  cbv zeta.
  set (groups := marginal_groups (sub o 0) sp (vars_to_check sp variables)) in *.
  assert (forall v c, groups !! v = Some c ->
    (0 < zsum (map_to_list c).*2)%Z /\ (zsum (map_to_list c).*2 <= ss_length (sp_out sp))%Z /\
    (forall x n, c !! x = Some n -> (0 <= n <= zsum (map_to_list c).*2)%Z) /\
    (u = true -> c !! val_u = None) /\ (size c <= size (ss_map (sp_out sp)))%nat) as Hgr.
  { intros v c Hv. pose proof (marginal_group_at (sub o 0) sp variables v Hone) as Hg. fold groups in Hg.
    rewrite Hv in Hg. destruct Hg as (Hr & [x [g [Hc Hx]]] & Hne & Hcm & Hw).
    assert (forall x n, c !! x = Some n -> (0 <= n)%Z) as Hnn.
    { intros y n Hn. specialize (Hcm y). rewrite Hn in Hcm. destruct Hcm as [(g' & Hg' & Hin) Hwn].
      apply Z.lt_le_incl. by apply (weight_pos (sp_out sp) (has v y) n g'). }
    split_and!.
    - apply (weight_pos (sp_out sp) (having v) _ g); [done|done|done|by exists x].
    - by apply (weight_le_length _ (having v)).
    - intros y n Hn. apply zsum_ge.
      + apply Forall_forall. intros d Hd. apply elem_of_list_fmap in Hd as ([z d'] & -> & Hd).
        apply elem_of_map_to_list in Hd. by apply (Hnn z).
      + apply elem_of_list_fmap. exists (y, n). split; [done|]. by apply elem_of_map_to_list.
    - intros Hut. specialize (Hcm val_u). destruct (c !! val_u); [|done]. exfalso. by apply (Hu Hut v Hr), Hcm.
    - by apply (group_size (sub o 0) sp variables v). }
  clearbody groups.
  match goal with |- context [for_res ?f (sub o 1) ∅ _] => set (F := f) end.
  assert (for_res F (sub o 1) ∅ (iter_map (sub o 2) groups) = Ok (dist_of_f sp u <$> groups)) as HF.
  { assert (match for_res F (sub o 1) ∅ (iter_map (sub o 2) groups) with
            | Ok norm => norm = dist_of_f sp u <$> groups | Err _ => False end) as Hi.
    { apply (for_res_map_ind (fun D acc => acc = dist_of_f sp u <$> D) (fun _ => False)).
      - by rewrite fmap_empty.
      - intros D v c s o' Hv HD _ ->. unfold F. destruct (Hgr v c Hv) as (Hs1 & Hs2 & _).
        rewrite !bool_decide_true by lia. cbn [andb passert mbind res_bind].
        unfold div_all_f. destruct u.
        + rewrite (bool_decide_false (ss_length _ = 0%Z)) by lia. rewrite andb_false_r.
          cbn [mbind res_bind]. by rewrite (fmap_insert (dist_of_f sp _)).
        + rewrite (bool_decide_false (zsum _ = 0%Z)) by lia. rewrite andb_false_r.
          cbn [mbind res_bind]. by rewrite (fmap_insert (dist_of_f sp _)). }
    destruct (for_res _ _ _ _); [by f_equal|done]. }
  rewrite HF. cbn [mbind res_bind].
  assert (forall v c, groups !! v = Some c -> forall o',
    close_to_one (py_sum (iter_map o' (dist_of_f sp u c)).*2) = true) as Hclose.
  { intros v c Hv o'. destruct (Hgr v c Hv) as (H1 & H2 & H3 & H4 & H5). unfold dist_of_f. destruct u.
    - pose (c' := <[val_u := (ss_length (sp_out sp) - zsum (map_to_list c).*2)%Z]> c).
      assert (zsum (map_to_list c').*2 = ss_length (sp_out sp)) as Hc'.
      { unfold c'. rewrite !zsum_snd_msum, msum_insert by (by apply H4). lia. }
      fold c'. rewrite <- Hc'. apply (map_close py_sum N); [done| |lia|].
      + intros x n Hx. unfold c' in Hx. apply lookup_insert_Some in Hx as [[_ <-]|[_ Hx]]; [lia|]. by apply (H3 x).
      + unfold c'. rewrite map_size_insert_None by (by apply H4). lia.
    - apply (map_close py_sum N); [done| |done|lia]. intros x n Hx. by apply (H3 x). }
  match goal with |- context [for_res ?f (sub o 3) tt _] =>
    assert (for_res f (sub o 3) tt (iter_map (sub o 4) (dist_of_f sp u <$> groups)) = Ok tt) as -> end.
  { assert (Forall (fun vd : Var * gmap Val b64 => forall o', close_to_one (py_sum (iter_map o' vd.2).*2) = true)
      (iter_map (sub o 4) (dist_of_f sp u <$> groups))) as Hall.
    { apply Forall_forall. intros [v d] Hin. apply elem_of_iter_map in Hin.
      apply lookup_fmap_Some in Hin as (c & <- & Hc). simpl. by apply (Hclose v). }
    generalize (sub o 3). induction Hall as [|[v d] l Hd _ IH]; intros o'; [done|].
    cbn [for_res]. simpl in Hd. rewrite Hd. cbn [passert]. apply IH. }
  cbn [mbind res_bind]. eexists _, _. split; [done|]. split; [done|]. intros v. rewrite !lookup_fmap.
  destruct (groups !! v) as [c|] eqn:Hv; [|done]. simpl. destruct (Hgr v c Hv) as (H1 & H2 & H3 & H4 & _).
  intros x. unfold dist_of_f, dist_of. destruct u; rewrite !lookup_fmap.
  - destruct (decide (x = val_u)) as [->|Hx].
    + rewrite lookup_insert. simpl. apply int_div_nearest; lia.
    + rewrite lookup_insert_ne by done. destruct (c !! x) as [n|] eqn:Hn; [|done]. simpl.
      specialize (H3 x n Hn). apply int_div_nearest; lia.
  - destruct (c !! x) as [n|] eqn:Hn; [|done]. simpl. specialize (H3 x n Hn). apply int_div_nearest; lia.
Qed.

End methods.
