(** * FoldEq: what equal folded graphs have in common (C52) *)

From Verif Require Import FoldFacts.

Section foldeq.
Context {U : Universe}.

Definition look_n (fg : fgraph) (n : Var * Val) : option Z := fn ← fg_nodes fg !! n.1; fn_counts fn !! n.
Definition look_e (fg : fgraph) (e : edge) : option Z := m ← fg_edges fg !! vars_of e.1; m !! e.

Lemma edge_vars_vars_of (e : edge) : edge_vars e (vars_of e.1).
Proof. by apply vars_of_edge. Qed.
Lemma edge_vars_eq (e : edge) X : edge_vars e X <-> X = vars_of e.1.
Proof.
  split; [|intros ->; apply edge_vars_vars_of]. intros HX. apply set_eq. intros v. rewrite (HX v). symmetry. apply edge_vars_vars_of.
Qed.

Lemma look_n_spec sp fg n a : folded_ok sp fg -> pos_counts (sp_out sp) -> weight (sp_out sp) (fun g => n ∈ g_nodes g) a ->
  look_n fg n = if decide (a = 0)%Z then None else Some a.
Proof.
  intros Hf Hp Hw. unfold look_n. pose proof (fo_nodes _ _ Hf n.1) as Hn.
  assert (~ occurs (sp_out sp) n -> a = 0%Z) as Hz.
  { intros Ho. eapply (weight_zero _ (fun g => n ∈ g_nodes g)); [|exact Hw]. intros g Hg Hin. apply Ho. by exists g. }
  destruct (fg_nodes fg !! n.1) as [fn|].
  - destruct Hn as (_ & _ & _ & Hn). specialize (Hn n). 
    match type of Hn with match ?x with _ => _ end => change (x = if decide (a = 0)%Z then None else Some a); destruct x as [c|] end.
    + destruct Hn as (_ & (g & Hg & Hin) & Hc). rewrite (weight_unique _ (fun g => n ∈ g_nodes g) a c Hw Hc).
      pose proof (weight_pos _ (fun g => n ∈ g_nodes g) c g Hp Hc Hg Hin). by rewrite decide_False by lia.
    + by rewrite decide_True by auto.
  - rewrite decide_True; [done|]. apply Hz. intros Ho. apply Hn. exists n.2. by destruct n.
Qed.

Lemma look_e_spec sp fg e a : folded_ok sp fg -> pos_counts (sp_out sp) -> weight (sp_out sp) (fun g => e ∈ g_edges g) a ->
  look_e fg e = if decide (a = 0)%Z then None else Some a.
Proof.
  intros Hf Hp Hw. unfold look_e. pose proof (fo_edges _ _ Hf (vars_of e.1)) as Hn. pose proof (edge_vars_vars_of e) as Hev.
  assert (~ occurs_edge (sp_out sp) e -> a = 0%Z) as Hz.
  { intros Ho. eapply (weight_zero _ (fun g => e ∈ g_edges g)); [|exact Hw]. intros g Hg Hin. apply Ho. by exists g. }
  destruct (fg_edges fg !! vars_of e.1) as [m|].
  - destruct Hn as (_ & Hn). specialize (Hn e). 
    match type of Hn with match ?x with _ => _ end => change (x = if decide (a = 0)%Z then None else Some a); destruct x as [c|] end.
    + destruct Hn as (_ & (g & Hg & Hin) & Hc). rewrite (weight_unique _ (fun g => e ∈ g_edges g) a c Hw Hc).
      pose proof (weight_pos _ (fun g => e ∈ g_edges g) c g Hp Hc Hg Hin). by rewrite decide_False by lia.
    + by rewrite decide_True by auto.
  - rewrite decide_True; [done|]. apply Hz. by apply Hn.
Qed.

Lemma fold_nodes_eq sp sp' fg fg' : folded_ok sp fg -> folded_ok sp' fg' ->
  fn_counts <$> fg_nodes fg = fn_counts <$> fg_nodes fg' <-> forall n, look_n fg n = look_n fg' n.
Proof.
  intros Hf Hf'. split.
  - intros He n. unfold look_n. pose proof (f_equal (.!! n.1) He) as Hv. cbn in Hv. rewrite !lookup_fmap in Hv.
    destruct (fg_nodes fg !! n.1), (fg_nodes fg' !! n.1); cbn in *; try done. injection Hv as ->. done.
  - intros Hl. apply map_eq. intros v. rewrite !lookup_fmap.
    assert (forall sp sp' fg fg' fn, folded_ok sp fg -> folded_ok sp' fg' -> (forall n, look_n fg n = look_n fg' n) ->
              fg_nodes fg !! v = Some fn -> exists fn', fg_nodes fg' !! v = Some fn') as Hdom.
    { clear. intros sp sp' fg fg' fn Hf Hf' Hl Hv. pose proof (fo_nodes _ _ Hf v) as Hn. rewrite Hv in Hn.
      destruct Hn as ((x & Ho) & _ & _ & Hn). specialize (Hn (v, x)). specialize (Hl (v, x)). unfold look_n in Hl. cbn in Hl.
      rewrite Hv in Hl. cbn in Hl. destruct (fn_counts fn !! (v, x)) as [c|]; [|by destruct Hn].
      destruct (fg_nodes fg' !! v) as [fn'|]; [by exists fn'|done]. }
    destruct (fg_nodes fg !! v) as [fn|] eqn:Hv.
    + destruct (Hdom sp sp' fg fg' fn) as [fn' Hv']; [done..|]. rewrite Hv'. cbn. f_equal. apply map_eq. intros n.
      pose proof (fo_nodes _ _ Hf v) as Hn. rewrite Hv in Hn. destruct Hn as (_ & _ & _ & Hn). specialize (Hn n).
      pose proof (fo_nodes _ _ Hf' v) as Hn'. rewrite Hv' in Hn'. destruct Hn' as (_ & _ & _ & Hn'). specialize (Hn' n).
      destruct (decide (n.1 = v)) as [<-|Hne].
      * specialize (Hl n). unfold look_n in Hl. by rewrite Hv, Hv' in Hl.
      * match type of Hn with match ?x with _ => _ end => match type of Hn' with match ?y with _ => _ end => change (x = y); destruct x, y end end.
        -- by destruct Hn as [? _].
        -- by destruct Hn as [? _].
        -- by destruct Hn' as [? _].
        -- done.
    + destruct (fg_nodes fg' !! v) as [fn'|] eqn:Hv'; [|done].
      destruct (Hdom sp' sp fg' fg fn') as [fn Hv'']; [done..|]. congruence.
Qed.

Lemma fold_edges_eq sp sp' fg fg' : folded_ok sp fg -> folded_ok sp' fg' ->
  fg_edges fg = fg_edges fg' <-> forall e, look_e fg e = look_e fg' e.
Proof.
  intros Hf Hf'. split; [intros He e; unfold look_e; by rewrite He|].
  intros Hl. apply map_eq. intros X.
  assert (forall sp sp' fg fg' m, folded_ok sp fg -> folded_ok sp' fg' -> (forall e, look_e fg e = look_e fg' e) ->
            fg_edges fg !! X = Some m -> exists m', fg_edges fg' !! X = Some m') as Hdom.
  { clear. intros sp sp' fg fg' m Hf Hf' Hl HX. pose proof (fo_edges _ _ Hf X) as Hn. rewrite HX in Hn.
    destruct Hn as ((e & Ho & Hev) & Hn). specialize (Hn e). specialize (Hl e). unfold look_e in Hl. 
    pose proof Hev as Hev'. apply edge_vars_eq in Hev'. subst X. rewrite HX in Hl. cbn in Hl.
    destruct (m !! e) as [c|]; [|by destruct Hn].
    destruct (fg_edges fg' !! vars_of e.1) as [m'|]; [by exists m'|done]. }
  destruct (fg_edges fg !! X) as [m|] eqn:HX.
  - destruct (Hdom sp sp' fg fg' m) as [m' HX']; [done..|]. rewrite HX'. f_equal. apply map_eq. intros e.
    pose proof (fo_edges _ _ Hf X) as Hn. rewrite HX in Hn. destruct Hn as (_ & Hn). specialize (Hn e).
    pose proof (fo_edges _ _ Hf' X) as Hn'. rewrite HX' in Hn'. destruct Hn' as (_ & Hn'). specialize (Hn' e).
    destruct (decide (X = vars_of e.1)) as [->|Hne].
    + specialize (Hl e). unfold look_e in Hl. by rewrite HX, HX' in Hl.
    + match type of Hn with match ?x with _ => _ end => match type of Hn' with match ?y with _ => _ end => change (x = y); destruct x, y end end.
      * destruct Hn as [Hn _]. by apply edge_vars_eq in Hn.
      * destruct Hn as [Hn _]. by apply edge_vars_eq in Hn.
      * destruct Hn' as [Hn' _]. by apply edge_vars_eq in Hn'.
      * done.
  - destruct (fg_edges fg' !! X) as [m'|] eqn:HX'; [|done].
    destruct (Hdom sp' sp fg' fg m') as [m HX'']; [done..|]. congruence.
Qed.

Lemma weight_total (ss : samples) (P : graph -> Prop) `{!forall g, Decision (P g)} : exists a, weight ss P a.
Proof. eexists. by apply (weight_msum ss P). Qed.

Lemma if_zero (a b : Z) : (if decide (a = 0)%Z then None else Some a) = (if decide (b = 0)%Z then None else Some b) -> a = b.
Proof. repeat case_decide; congruence. Qed.

Lemma fold_equal_meaning o o' sp sp' fg fg' :
  all_wf (sp_cp sp) (sp_out sp) -> all_wf (sp_cp sp') (sp_out sp') -> pos_counts (sp_out sp) -> pos_counts (sp_out sp') ->
  folded_graph o sp = Ok fg -> folded_graph o' sp' = Ok fg' ->
  (fn_counts <$> fg_nodes fg = fn_counts <$> fg_nodes fg' /\ fg_edges fg = fg_edges fg') <->
  (forall n a, weight (sp_out sp) (fun g => n ∈ g_nodes g) a <-> weight (sp_out sp') (fun g => n ∈ g_nodes g) a) /\
  (forall e a, weight (sp_out sp) (fun g => e ∈ g_edges g) a <-> weight (sp_out sp') (fun g => e ∈ g_edges g) a).
Proof.
  intros Hw Hw' Hp Hp' He He'.
  destruct (C28_lemma o sp Hw) as (? & He1 & Hf). rewrite He in He1. injection He1 as <-.
  destruct (C28_lemma o' sp' Hw') as (? & He2 & Hf'). rewrite He' in He2. injection He2 as <-.
  rewrite (fold_nodes_eq sp sp'), (fold_edges_eq sp sp') by done.
  assert (forall n a b, weight (sp_out sp) (fun g => n ∈ g_nodes g) a -> weight (sp_out sp') (fun g => n ∈ g_nodes g) b ->
            look_n fg n = look_n fg' n <-> a = b) as Hn.
  { intros n a b Ha Hb. rewrite (look_n_spec sp fg n a), (look_n_spec sp' fg' n b) by done. split; [apply if_zero|by intros ->]. }
  assert (forall e a b, weight (sp_out sp) (fun g => e ∈ g_edges g) a -> weight (sp_out sp') (fun g => e ∈ g_edges g) b ->
            look_e fg e = look_e fg' e <-> a = b) as Hee.
  { intros n a b Ha Hb. rewrite (look_e_spec sp fg n a), (look_e_spec sp' fg' n b) by done. split; [apply if_zero|by intros ->]. }
  split.
  - intros [H1 H2]. split; intros n a.
    + destruct (weight_total (sp_out sp) (fun g => n ∈ g_nodes g)) as [b Hb]. destruct (weight_total (sp_out sp') (fun g => n ∈ g_nodes g)) as [b' Hb'].
      pose proof (proj1 (Hn n b b' Hb Hb') (H1 n)) as ->.
      split; intros Ha; [by rewrite (weight_unique _ (fun g => n ∈ g_nodes g) a b' Ha Hb)|by rewrite (weight_unique _ (fun g => n ∈ g_nodes g) a b' Ha Hb')].
    + destruct (weight_total (sp_out sp) (fun g => n ∈ g_edges g)) as [b Hb]. destruct (weight_total (sp_out sp') (fun g => n ∈ g_edges g)) as [b' Hb'].
      pose proof (proj1 (Hee n b b' Hb Hb') (H2 n)) as ->.
      split; intros Ha; [by rewrite (weight_unique _ (fun g => n ∈ g_edges g) a b' Ha Hb)|by rewrite (weight_unique _ (fun g => n ∈ g_edges g) a b' Ha Hb')].
  - intros [H1 H2]. split; intros n.
    + destruct (weight_total (sp_out sp) (fun g => n ∈ g_nodes g)) as [b Hb]. apply (Hn n b b Hb); [|done]. by apply H1.
    + destruct (weight_total (sp_out sp) (fun g => n ∈ g_edges g)) as [b Hb]. apply (Hee n b b Hb); [|done]. by apply H2.
Qed.
End foldeq.
