(** * AgentFacts: what the agents of the demo choose *)

From Coq Require Import ZArith QArith Reals Qreals Lra Lia String.
From Flocq Require Import Core.Core IEEE754.BinarySingleNaN.
From stdpp Require Import base list numbers option sorting strings.
From Verif Require Import SpecAgents.

(** ** Sublists *)
Fixpoint subs {A} (l : list A) : list (list A) :=
  match l with
  | [] => [[]]
  | a :: l => subs l ++ (cons a <$> subs l)
  end.

Lemma subs_skip {A} (a : A) l k : k ∈ subs l -> k ∈ subs (a :: l).
Proof. intros H. cbn [subs]. apply elem_of_app. by left. Qed.
Lemma subs_take {A} (a : A) l k : k ∈ subs l -> a :: k ∈ subs (a :: l).
Proof. intros H. cbn [subs]. apply elem_of_app. right. apply elem_of_list_fmap. eauto. Qed.

Lemma open_dirs_subs W x y dirs l : open_dirs W x y dirs = DOk l -> l ∈ subs dirs.
Proof.
  revert l. induction dirs as [|d dirs IH]; intros l H.
  - injection H as <-. by left.
  - cbn [open_dirs] in H. destruct (grid_get _ _ _) as [w|]; [|done]. cbn [mbind dres_bind] in H.
    destruct (open_dirs W x y dirs) as [r|] eqn:E; [|done]. cbn [mbind dres_bind] in H. injection H as <-.
    destruct w; [apply subs_skip|apply subs_take]; by apply IH.
Qed.

Lemma possible_subs c W l : possible_actions c W = DOk l -> l ∈ subs directions.
Proof.
  unfold possible_actions. case_bool_decide.
  - intros [= <-]. assert (E : bool_decide ([c_dir c] ∈ subs directions) = true) by (destruct (c_dir c); vm_compute; reflexivity).
    by apply bool_decide_eq_true in E.
  - apply open_dirs_subs.
Qed.

Definition four : list dir := [North; South; East; West].
Definition ghost_cut (r : dir) (l : list dir) : list dir :=
  let l := if bool_decide (Stop ∈ l) then py_remove Stop l else l in
  if bool_decide (r ∈ l) && (1 <? length l)%nat then py_remove r l else l.
Lemma cut_check : forallb (fun l => forallb (fun r => bool_decide (ghost_cut r l ∈ subs four)) directions) (subs directions) = true.
Proof. vm_compute. reflexivity. Qed.
Lemma cut_subs l r : l ∈ subs directions -> ghost_cut r l ∈ subs four.
Proof.
  intros Hl. pose proof cut_check as H. rewrite forallb_forall in H. specialize (H l). rewrite <- elem_of_list_In in H.
  specialize (H Hl). cbv beta in H. rewrite forallb_forall in H. specialize (H r).
  assert (Hr : List.In r directions) by (destruct r; simpl; tauto).
  specialize (H Hr). cbv beta in H. by apply bool_decide_eq_true in H.
Qed.

Lemma ghost_legal_subs s i l : i <> 0%Z -> legal_actions s i = DOk l -> l ∈ subs four.
Proof.
  intros Hi H. unfold legal_actions in H. destruct (g_win s || g_lose s).
  { injection H as <-. assert (E : bool_decide ([] ∈ subs four) = true) by (vm_compute; reflexivity). by apply bool_decide_eq_true in E. }
  destruct (Z.eqb_spec i 0) as [->|_]; [done|]. unfold ghost_actions in H.
  destruct (ghost_state s i) as [a|]; [|done]. cbn [mbind dres_bind] in H.
  destruct (possible_actions _ _) as [l0|] eqn:E; [|done]. cbn [mbind dres_bind] in H. injection H as <-.
  apply (cut_subs l0 (reverse_direction (c_dir (a_conf a)))). by eapply possible_subs.
Qed.

Lemma filter_zip_subs {B} (P : dir * B -> Prop) `{forall x, Decision (P x)} (l : list dir) (ds : list B) :
  (filter P (zip l ds)).*1 ∈ subs l.
Proof.
  revert ds. induction l as [|d l IH]; intros ds.
  - cbn. by left.
  - destruct ds as [|x ds]; cbn [zip zip_with].
    + rewrite filter_nil. cbn [fmap list_fmap]. assert (G : forall k : list dir, [] ∈ subs k).
      { induction k as [|a k IHk]; [by left|]. by apply subs_skip. } apply G.
    + rewrite filter_cons. destruct (decide _); [apply (subs_take d)|apply subs_skip]; apply IH.
Qed.

(** ** Sampling *)
Definition fq (f : b64) : Q :=
  match f with
  | B754_finite s m e _ =>
      match e with
      | Z0 => inject_Z (cond_Zopp s (Zpos m))
      | Zpos k => inject_Z (cond_Zopp s (Zpos m) * Z.pow_pos 2 k)
      | Zneg k => Qmake (cond_Zopp s (Zpos m)) (Pos.shiftl 1 (Npos k))
      end
  | _ => 0%Q
  end.

Lemma shiftl_pow k : Zpos (Pos.shiftl 1 (Npos k)) = Z.pow_pos 2 k.
Proof.
  cbn [Pos.shiftl]. unfold Z.pow_pos. induction k as [|k IH] using Pos.peano_ind; [done|].
  rewrite !Pos.iter_succ, <- IH. done.
Qed.

Lemma fq_val f : Q2R (fq f) = B2R f.
Proof.
  destruct f as [s|s| |s m e H]; try (unfold Q2R; simpl; lra).
  cbn [fq B2R]. unfold F2R. cbn [Fnum Fexp]. destruct e as [|k|k].
  - unfold Q2R, inject_Z. cbn [Qnum Qden bpow]. lra.
  - unfold Q2R, inject_Z. cbn [Qnum Qden bpow]. rewrite mult_IZR. unfold Z.pow_pos, Zpower_pos. simpl radix_val. lra.
  - unfold Q2R. cbn [Qnum Qden bpow]. rewrite shiftl_pow. unfold Z.pow_pos, Zpower_pos. simpl radix_val. reflexivity.
Qed.

Definition eps : Q := 1 # 4503599627370496.
Definition close_q (f : b64) (w : Q) : bool := Qle_bool (w - eps) (fq f) && Qle_bool (fq f) (w + eps).
Definition below_one : b64 := Bpred f_one.

Fixpoint check_loop (total : b64) (W : Q) (rest : list (dir * b64)) (ws : list (dir * Q)) : bool :=
  is_finite total && close_q total W &&
  match rest, ws with
  | [], [] => Bleb below_one total
  | (v, p) :: rest, (v', w) :: ws => bool_decide (v = v') && check_loop (fadd total p) (Qred (W + w)) rest ws
  | _, _ => false
  end.
Definition check_items (py_sum : list b64 -> b64) (items : list (dir * b64)) (ws : list (dir * Q)) : bool :=
  let d := items.*2 in
  let d := if Beqb (py_sum d) f_one then d else vec_normalize py_sum d in
  match zip items.*1 d, ws with
  | (v, p) :: rest, (v', w) :: ws => bool_decide (v = v') && check_loop p w rest ws
  | _, _ => false
  end.

Lemma below_one_spec (r : b64) : is_finite r = true -> (B2R r < 1)%R -> (B2R r <= B2R below_one)%R.
Proof.
  intros Hf Hr. unfold below_one.
  pose proof (Bpred_correct 53 1024 prec_gt_0_53 prec_lt_emax_53 f_one eq_refl) as H.
  assert (E1 : B2R f_one = 1%R) by apply Bone_correct.
  rewrite Rlt_bool_true in H.
  - destruct H as [-> _]. rewrite E1. apply pred_ge_gt; [apply fexp_correct, prec_gt_0_53|apply generic_format_B2R| |done].
    rewrite <- E1. apply generic_format_B2R.
  - rewrite E1. apply Rlt_le_trans with 0%R; [apply Ropp_lt_gt_0_contravar, bpow_gt_0|].
    apply pred_ge_0; [apply fexp_correct, prec_gt_0_53|lra|]. rewrite <- E1. apply generic_format_B2R.
Qed.

Lemma Bleb_R (x y : b64) : is_finite x = true -> is_finite y = true -> Bleb x y = true -> (B2R x <= B2R y)%R.
Proof. intros Hx Hy. rewrite Bleb_correct by done. intros H. by apply Rle_bool_true_iff in H || (destruct (Rle_bool_spec (B2R x) (B2R y)); [done|done]). Qed.

Lemma close_q_R f w : close_q f w = true -> (Q2R w - / 4503599627370496 <= B2R f <= Q2R w + / 4503599627370496)%R.
Proof.
  unfold close_q. rewrite andb_true_iff, !Qle_bool_iff. intros [H1 H2].
  apply Qle_Rle in H1. apply Qle_Rle in H2. rewrite Q2R_minus, fq_val in H1. rewrite Q2R_plus, fq_val in H2.
  assert (E : Q2R eps = (/ 4503599627370496)%R) by (unfold Q2R, eps; cbn [Qnum Qden]; lra).
  rewrite E in *. lra.
Qed.

Lemma sum_q_app l k : (sum_q (l ++ k) == sum_q l + sum_q k)%Q.
Proof.
  induction l as [|x l IH].
  - change (sum_q []) with 0%Q. cbn [app]. ring.
  - change (sum_q ((x :: l) ++ k)) with (x + sum_q (l ++ k))%Q. change (sum_q (x :: l)) with (x + sum_q l)%Q. rewrite IH. ring.
Qed.

Lemma loop_spec r : random_number r -> forall rest total W v ws l1 w0,
  check_loop total W rest ws = true ->
  (W == sum_q l1.*2 + w0)%Q ->
  (Q2R (sum_q l1.*2) - / 4503599627370496 <= B2R r)%R ->
  exists d, sample_loop r total v rest = DOk d /\ in_share (l1 ++ (v, w0) :: ws) (B2R r) d.
Proof.
  intros [Hf [Hr0 Hr1]]. induction rest as [|[v1 p] rest IH]; intros total W v ws l1 w0 Hc HW Hlow.
  - cbn [check_loop] in Hc. rewrite !andb_true_iff in Hc. destruct Hc as [[Hft Hcl] Hlast].
    destruct ws as [|[v' w] ws]; [|done]. apply close_q_R in Hcl. apply Bleb_R in Hlast; [|reflexivity|done].
    pose proof (below_one_spec r Hf Hr1) as Hb. cbn [sample_loop].
    assert (Bltb total r = false) as ->.
    { rewrite Bltb_correct by done. apply Rlt_bool_false. lra. }
    exists v. split; [done|]. exists l1, w0, []. split; [done|]. split; [lra|].
    apply Qeq_eqR in HW. rewrite Q2R_plus in HW. lra.
  - cbn [check_loop] in Hc. rewrite !andb_true_iff in Hc. destruct Hc as [[Hft Hcl] Hrest].
    destruct ws as [|[v' w] ws]; [done|]. rewrite andb_true_iff in Hrest. destruct Hrest as [Hv Hrest].
    apply bool_decide_eq_true in Hv as <-. apply close_q_R in Hcl. cbn [sample_loop].
    rewrite Bltb_correct by done. destruct (Rlt_bool_spec (B2R total) (B2R r)) as [Hlt|Hge].
    + destruct (IH (fadd total p) (Qred (W + w)) v1 ws (l1 ++ [(v, w0)]) w Hrest) as (d & Hd & Hs).
      * rewrite Qred_correct, fmap_app, sum_q_app, HW. change (sum_q [(v, w0)].*2) with (w0 + 0)%Q. ring.
      * rewrite fmap_app. pose proof (Qeq_eqR _ _ (sum_q_app l1.*2 [(v, w0)].*2)) as ->.
        apply Qeq_eqR in HW. assert (E : (sum_q [(v, w0)].*2 == w0)%Q) by (change (sum_q [(v, w0)].*2) with (w0 + 0)%Q; ring).
        apply Qeq_eqR in E. rewrite Q2R_plus in *. lra.
      * exists d. split; [done|]. by rewrite <- app_assoc in Hs.
    + exists v. split; [done|]. exists l1, w0, ((v1, w) :: ws). split; [done|]. split; [lra|].
      apply Qeq_eqR in HW. rewrite Q2R_plus in HW. lra.
Qed.

Lemma check_spec py_sum items ws r :
  random_number r -> check_items py_sum items ws = true ->
  exists d, sample_items py_sum items r = DOk d /\ in_share ws (B2R r) d.
Proof.
  intros Hr H. unfold check_items in H. unfold sample_items. cbv zeta in *.
  destruct (zip _ _) as [|[v p] rest]; [done|]. destruct ws as [|[v' w] ws]; [done|].
  rewrite andb_true_iff in H. destruct H as [Hv H]. apply bool_decide_eq_true in Hv as <-.
  apply (loop_spec r Hr rest p w v ws [] w H).
  - change (sum_q (@nil (dir * Q)).*2) with 0%Q. ring.
  - destruct Hr as [_ [Hr _]]. change (sum_q (@nil (dir * Q)).*2) with 0%Q. rewrite RMicromega.Q2R_0. lra.
Qed.

(** ** Ghosts *)
Definition rdist (py_sum : list b64 -> b64) (l : list dir) : list (dir * b64) :=
  ct_normalize py_sum (fold_left (fun c a => ct_set a f_one c) l []).
Definition ddist (py_sum : list b64 -> b64) (p : b64) (l b : list dir) : list (dir * b64) :=
  let c := fold_left (fun c a => ct_set a (fdiv p (nat_float (length b))) c) b [] in
  let c := fold_left (fun c a => ct_incr f_zero fadd a (fdiv (fsub f_one p) (nat_float (length l))) c) l c in
  ct_normalize py_sum c.

Definition nonempty {A} (l : list A) : bool := match l with [] => false | _ => true end.
Definition rcheck (py_sum : list b64 -> b64) : bool :=
  forallb (fun l => implb (nonempty l) (nonempty (rdist py_sum l) && check_items py_sum (merge_sort item_le (rdist py_sum l)) (shares l (uniform l)))) (subs four).
Definition dcheck (py_sum : list b64 -> b64) : bool :=
  forallb (fun l => forallb (fun b => implb (nonempty b)
    (nonempty (ddist py_sum f_0_8 l b) && check_items py_sum (merge_sort item_le (ddist py_sum f_0_8 l b)) (shares l (directed l b)))) (subs l)) (subs four).

Lemma rcheck_ok py_sum : python_sum py_sum -> rcheck py_sum = true.
Proof. intros [-> | ->]; vm_compute; reflexivity. Qed.
Lemma dcheck_ok py_sum : python_sum py_sum -> dcheck py_sum = true.
Proof. intros [-> | ->]; vm_compute; reflexivity. Qed.
