(** * FoldFacts: included variables and relations, folded graphs, search, factorisation *)

From Verif Require Export SpaceFacts.

Section cmap_ext.
Context `{Countable K1, Countable K2}.

Lemma cmap_ext (a b : gmap K1 (gmap K2 Z)) :
  full a -> full b -> (forall k x, look a k x = look b k x) -> a = b.
Proof.
  intros Hf Hf' Heq. apply map_eq. intros v. destruct (a !! v) as [m|] eqn:Hm.
  - destruct (b !! v) as [m'|] eqn:Hm'.
    + f_equal. apply map_eq. intros x. specialize (Heq v x). unfold look in Heq. rewrite Hm, Hm' in Heq. done.
    + rewrite <- Hm. apply (full_look _ v Hf). intros x. rewrite Heq. unfold look. by rewrite Hm'.
  - symmetry. apply (full_look _ v Hf'). intros x. rewrite <- Heq. unfold look. by rewrite Hm.
Qed.

(** Totals of one pass over a set whose elements count for different keys. *)
Lemma count_set_tot {A} `{Countable A} (f1 : A -> K1) (f2 : A -> K2) (c : Z) o o' (acc : gmap K1 (gmap K2 Z))
    (X : gset A) k :
  (forall a b, a ∈ X -> b ∈ X -> f1 a = f1 b -> a = b) ->
  tot (for_each (fun _ acc a => count2 acc (f1 a) (f2 a) c) o acc (iter_set o' X)) k =
  (tot acc k + if decide (k ∈ (set_map f1 X : gset K1)) then c else 0)%Z.
Proof.
  intros Hinj.
  pose (Q := fun (D : gset A) (acc' : gmap K1 (gmap K2 Z)) => D ⊆ X ->
     tot acc' k = (tot acc k + if decide (k ∈ (set_map f1 D : gset K1)) then c else 0)%Z).
  apply (for_each_set_ind Q); unfold Q; clear Q.
  - intros _. rewrite decide_False; [lia|]. intros (a & _ & Ha)%elem_of_map. by apply elem_of_empty in Ha.
  - intros D a s o'' HaX HaD _ HP HsubX. rewrite tot_count2, HP by set_solver +HsubX.
    destruct (decide (k = f1 a)) as [->|Hne].
    + rewrite decide_False.
      * rewrite decide_True; [lia|]. apply elem_of_map. exists a. set_solver.
      * intros (b & Hb & HbD)%elem_of_map. apply HaD. rewrite (Hinj a b); [done|done|set_solver +HbD HsubX|done].
    + rewrite Z.add_0_r. f_equal. apply decide_ext. rewrite !elem_of_map. split.
      * intros (b & -> & Hb). exists b. set_solver +Hb.
      * intros (b & -> & [->%elem_of_singleton|Hb]%elem_of_union); [done|by exists b].
  - done.
Qed.
End cmap_ext.

Section fold_facts.
Context {U : Universe}.
Implicit Types (g : graph) (ss : samples) (sp : space).

(** ** C27 *)

Lemma included_lemma o sp v :
  match sp_included_variables o sp !! v with
  | Some X => X <> ∅ /\ forall x, x ∈ X <-> occurs (sp_out sp) (v, x)
  | None => ~ occurs_var (sp_out sp) v
  end.
Proof.
  unfold sp_included_variables.
  match goal with |- context [for_each ?f (sub o 0) ∅ _] => set (F := f) end.
  pose (Q := fun (S : node -> Prop) (acc : gmap Var (gset Val)) => forall v,
    match acc !! v with
    | Some X => X <> ∅ /\ forall x, x ∈ X <-> S (v, x)
    | None => forall x, ~ S (v, x)
    end).
  assert (forall (S S' : node -> Prop) acc, (forall n, S n <-> S' n) -> Q S acc -> Q S' acc) as Qext.
  { intros S S' acc HS HQ w. specialize (HQ w). destruct (acc !! w) as [X|].
    - destruct HQ as [H1 H2]. split; [done|]. intros x. by rewrite H2.
    - intros x. by rewrite <- HS. }
  assert (forall o' acc g S, Q S acc -> Q (fun n => S n \/ n ∈ g_nodes g) (F o' acc g)) as Hstep.
  { intros o' acc g S HQ. unfold F.
    apply (for_each_set_ind (fun D acc' => Q (fun n => S n \/ n ∈ D) acc')).
    - apply (Qext S); [|done]. intros n. set_solver.
    - intros D n s o'' Hn HD _ HP w. destruct (decide (w = n.1)) as [->|Hne].
      + rewrite lookup_insert. split; [set_solver|]. intros x. specialize (HP n.1).
        destruct (s !! n.1) as [X|]; simpl.
        * destruct HP as [_ HP]. rewrite elem_of_union, HP. destruct n as [w y]. set_solver.
        * rewrite elem_of_union, elem_of_singleton. destruct n as [w y]. simpl in *. split.
          -- intros [He| ->]; [by apply elem_of_empty in He|]. right. set_solver.
          -- intros [HS|[Hx%elem_of_singleton|Hx]%elem_of_union].
             ++ exfalso. apply (HP x). by left.
             ++ right. congruence.
             ++ exfalso. apply (HP x). by right.
      + rewrite lookup_insert_ne by done. specialize (HP w). destruct (s !! w) as [X|].
        * destruct HP as [H1 H2]. split; [done|]. intros x. rewrite H2. destruct n. set_solver.
        * intros x [HS|[Hx%elem_of_singleton|Hx]%elem_of_union].
          -- apply (HP x). by left.
          -- subst n. by apply Hne.
          -- apply (HP x). by right. }
  assert (Q (fun n => exists g, g ∈ ss_samples (sp_out sp) /\ n ∈ g_nodes g)
    (for_each F (sub o 0) ∅ (iter_set o (ss_samples (sp_out sp))))) as HQ.
  { apply (for_each_set_ind (fun D acc => Q (fun n => exists g, g ∈ D /\ n ∈ g_nodes g) acc)).
    - intros w. rewrite lookup_empty. intros x (g & Hg & _). by apply elem_of_empty in Hg.
    - intros D g s o'' Hg HD _ HP. eapply Qext; [|apply (Hstep o'' s g _ HP)]. intros n. cbv beta. split.
      + intros [(h & Hh & Hn)|Hn]; [exists h; set_solver|exists g; set_solver].
      + intros (h & [->%elem_of_singleton|Hh]%elem_of_union & Hn); [by right|left; by exists h]. }
  assert (forall n, (exists g, g ∈ ss_samples (sp_out sp) /\ n ∈ g_nodes g) <-> occurs (sp_out sp) n) as Hocc.
  { intros n. unfold occurs, contains, ss_samples. by setoid_rewrite elem_of_dom. }
  specialize (HQ v). cbv beta in HQ. destruct (_ !! v) as [X|].
  - destruct HQ as [H1 H2]. split; [done|]. intros x. by rewrite H2, Hocc.
  - intros [x Hx]. apply (HQ x). by apply Hocc.
Qed.

Lemma included_order o o' sp : sp_included_variables o sp = sp_included_variables o' sp.
Proof.
  apply map_eq. intros v. pose proof (included_lemma o sp v) as H1. pose proof (included_lemma o' sp v) as H2.
  destruct (sp_included_variables o sp !! v) as [X|], (sp_included_variables o' sp !! v) as [Y|].
  - f_equal. apply set_eq. intros x. destruct H1 as [_ H1], H2 as [_ H2]. by rewrite H1, H2.
  - exfalso. destruct H1 as [H H1]. apply set_choose_L in H as [x Hx]. apply H2. exists x. by apply H1.
  - exfalso. destruct H2 as [H H2]. apply set_choose_L in H as [x Hx]. apply H1. exists x. by apply H2.
  - done.
Qed.

Lemma included_relations_lemma sp r :
  r ∈ sp_included_relations sp <-> exists e, occurs_edge (sp_out sp) e /\ e.2 = r.
Proof.
  unfold sp_included_relations. rewrite elem_of_list_to_set, elem_of_list_bind. split.
  - intros (g & Hr & Hg%elem_of_elements). apply elem_of_list_bind in Hr as (e & He & Hin%elem_of_elements).
    apply elem_of_list_singleton in He as ->. exists e. split; [|done]. exists g. split; [|done].
    by apply elem_of_dom.
  - intros (e & (g & Hg & He) & <-). exists g. split; [|by apply elem_of_elements, elem_of_dom].
    apply elem_of_list_bind. exists e. split; [by apply elem_of_list_singleton|by apply elem_of_elements].
Qed.

(** ** C28 *)

Definition node_counts (o : oracle) sp : gmap Var (gmap node Z) :=
  for_each (fun o' na '(g, c) =>
     for_each (fun _ na (n : node) => count2 na n.1 n c) (sub o' 0) na (iter_set (sub o' 1) (g_nodes g)))
    (sub o 0) ∅ (ss_items o (sp_out sp)).
Definition edge_counts (o : oracle) sp : gmap (gset Var) (gmap edge Z) :=
  for_each (fun o' ea '(g, c) =>
     for_each (fun _ ea (e : edge) => count2 ea (vars_of (endpoints e)) e c) (sub o' 2) ea
       (iter_set (sub o' 3) (g_edges g)))
    (sub o 0) ∅ (ss_items o (sp_out sp)).

Lemma node_counts_spec o sp :
  full (node_counts o sp) /\
  forall v n, match look (node_counts o sp) v n with
              | Some c => n.1 = v /\ occurs (sp_out sp) n /\ weight (sp_out sp) (fun g => n ∈ g_nodes g) c
              | None => n.1 = v -> ~ occurs (sp_out sp) n
              end.
Proof.
  unfold node_counts, ss_items.
  destruct (count_samples_look (fun o' na '(g, c) =>
     for_each (fun _ na (n : node) => count2 na n.1 n c) (sub o' 0) na (iter_set (sub o' 1) (g_nodes g)))
     (fun g v n => n ∈ g_nodes g /\ n.1 = v) (sub o 0) o (ss_map (sp_out sp))) as [Hf Hl].
  { intros o' acc g c Hg Hfull.
    destruct (count_set_look (fun n : node => n.1) (fun n => n) c (sub o' 0) (sub o' 1) acc (g_nodes g))
      as [H1 H2]; [by intros|done|].
    split; [done|]. intros v n. specialize (H2 v n) as [H2 H3]. case_decide as Hd.
    - destruct Hd. by apply (H2 n).
    - apply H3. intros a Ha [Hv ->]. by apply Hd. }
  split; [done|]. intros v n. specialize (Hl v n). destruct (look _ v n) as [c|].
  - destruct Hl as [(g & a & Hg & Hn & Hv) ->]. split_and!; [done|exists g; split; [by exists a|done]|].
    apply (proj2 (weight_msum _ _ _)). apply msum_ext. intros k b _. apply decide_ext. tauto.
  - intros Hv (g & [a Hg] & Hn). by apply (Hl g a).
Qed.

Lemma edge_counts_spec o sp :
  full (edge_counts o sp) /\
  forall X e, match look (edge_counts o sp) X e with
              | Some c => vars_of e.1 = X /\ occurs_edge (sp_out sp) e /\
                          weight (sp_out sp) (fun g => e ∈ g_edges g) c
              | None => vars_of e.1 = X -> ~ occurs_edge (sp_out sp) e
              end.
Proof.
  unfold edge_counts, ss_items.
  destruct (count_samples_look (fun o' ea '(g, c) =>
     for_each (fun _ ea (e : edge) => count2 ea (vars_of (endpoints e)) e c) (sub o' 2) ea
       (iter_set (sub o' 3) (g_edges g)))
     (fun g X e => e ∈ g_edges g /\ vars_of e.1 = X) (sub o 0) o (ss_map (sp_out sp))) as [Hf Hl].
  { intros o' acc g c Hg Hfull.
    destruct (count_set_look (fun e : edge => vars_of e.1) (fun e => e) c (sub o' 2) (sub o' 3) acc (g_edges g))
      as [H1 H2]; [by intros|done|].
    split; [done|]. intros v n. specialize (H2 v n) as [H2 H3]. case_decide as Hd.
    - destruct Hd. by apply (H2 n).
    - apply H3. intros a Ha [Hv ->]. by apply Hd. }
  split; [done|]. intros v n. specialize (Hl v n). destruct (look _ v n) as [c|].
  - destruct Hl as [(g & a & Hg & Hn & Hv) ->]. split_and!; [done|exists g; split; [by exists a|done]|].
    apply (proj2 (weight_msum _ _ _)). apply msum_ext. intros k b _. apply decide_ext. tauto.
  - intros Hv (g & [a Hg] & Hn). by apply (Hl g a).
Qed.

Lemma node_counts_tot o sp v :
  one_valued (sp_out sp) -> weight (sp_out sp) (having v) (tot (node_counts o sp) v).
Proof.
  intros Hone. apply (proj2 (weight_msum _ _ _)). unfold node_counts, ss_items.
  match goal with |- tot (for_each ?f _ _ _) _ = _ => set (F := f) end.
  pose proof (count_samples_tot F (fun g w => having w g) (sub o 0) o (ss_map (sp_out sp)) v) as Ht.
  apply Ht. clear Ht. unfold F. clear F.
  intros o' acc g c Hg. rewrite (count_set_tot (fun n : node => n.1) (fun n => n)).
  - f_equal. apply decide_ext. rewrite elem_of_map. unfold having, has_var. split.
    + intros ([w x] & -> & Hn). by exists x.
    + intros [x Hx]. by exists (v, x).
  - intros [w x] [w' y] Hx Hy He. simpl in He. subst w'. f_equal.
    apply (Hone g (ex_intro _ c Hg) w x y Hx Hy).
Qed.

Lemma folded_eq o sp :
  all_wf (sp_cp sp) (sp_out sp) ->
  folded_graph o sp = Ok (FGraph (ss_length (sp_out sp))
    (map_imap (fun v m => (fun X => FNode X m (ss_length (sp_out sp))) <$> cp_vars (sp_cp sp) !! v)
       (node_counts o sp))
    (edge_counts o sp)).
Proof.
  intros Hwf. unfold folded_graph.
  pose proof (for_each_pair (fun o' na '(g, c) =>
     for_each (fun _ na (n : node) => count2 na n.1 n c) (sub o' 0) na (iter_set (sub o' 1) (g_nodes g)))
    (fun o' ea '(g, c) =>
     for_each (fun _ ea (e : edge) => count2 ea (vars_of (endpoints e)) e c) (sub o' 2) ea
       (iter_set (sub o' 3) (g_edges g))) (sub o 0) ∅ ∅ (ss_items o (sp_out sp))) as Hpair.
  fold (node_counts o sp) (edge_counts o sp) in Hpair.
  match type of Hpair with ?a = _ => match goal with |- context [let '(_, _) := ?b in _] =>
    replace b with (node_counts o sp, edge_counts o sp) end end.
  2:{ rewrite <- Hpair. clear. generalize (sub o 0). generalize (∅ : gmap Var (gmap node Z)), (∅ : gmap (gset Var) (gmap edge Z)).
      induction (ss_items o (sp_out sp)) as [|[g c] l IH]; intros na ea o'; [done|]. cbn [for_each]. apply IH. }
  clear Hpair. cbv beta iota.
  destruct (node_counts_spec o sp) as [Hnf Hnl]. destruct (edge_counts_spec o sp) as [Hef Hel].
  match goal with |- context [for_res ?f (sub o 1) ∅ _] => set (F := f) end.
  assert (for_res F (sub o 1) ∅ (iter_map (sub o 2) (node_counts o sp)) =
    Ok (map_imap (fun v m => (fun X => FNode X m (ss_length (sp_out sp))) <$> cp_vars (sp_cp sp) !! v)
       (node_counts o sp))) as ->.
  { pose proof (for_res_map_ind (fun D acc => acc = map_imap (fun v m => (fun X => FNode X m (ss_length (sp_out sp)))
        <$> cp_vars (sp_cp sp) !! v) D) (fun _ => False) F (sub o 1) (sub o 2) ∅ (node_counts o sp)) as Hi.
    cbv beta in Hi. destruct (for_res F (sub o 1) ∅ _) as [acc|e]; [f_equal; apply Hi|exfalso; apply Hi].
    1,3: by rewrite map_imap_empty.
    all: intros D v m s o' Hv HD _ ->; unfold F; pose proof (Hnf _ _ Hv) as Hm;
      apply map_choose in Hm as (n & c & Hn); specialize (Hnl v n); unfold look in Hnl; rewrite Hv in Hnl;
      simpl in Hnl; rewrite Hn in Hnl; destruct Hnl as (<- & (g & Hg & Hin) & _);
      destruct (wf_nodes _ _ (Hwf g Hg) n Hin) as (X & HX & _); rewrite HX;
      rewrite (map_imap_insert_Some _ _ _ _ (FNode X m (ss_length (sp_out sp)))); [done|by rewrite HX]. }
  cbn [mbind res_bind]. clear F.
  match goal with |- context [for_res ?f (sub o 3) ∅ _] => set (F := f) end.
  assert (for_res F (sub o 3) ∅ (iter_map (sub o 4) (edge_counts o sp)) = Ok (edge_counts o sp)) as ->; [|done].
  pose proof (for_res_map_ind (fun D acc => acc = D) (fun _ => False) F (sub o 3) (sub o 4) ∅ (edge_counts o sp)) as Hi.
  cbv beta in Hi. destruct (for_res F (sub o 3) ∅ _) as [acc|e]; [f_equal; apply Hi|exfalso; apply Hi].
  1,3: done.
  all: intros D X m s o' Hv HD _ ->; unfold F; pose proof (Hef _ _ Hv) as Hm;
      apply map_choose in Hm as (e' & c & He); specialize (Hel X e'); unfold look in Hel; rewrite Hv in Hel;
      simpl in Hel; rewrite He in Hel; destruct Hel as (<- & (g & Hg & Hin) & _);
      destruct (wf_edges _ _ (Hwf g Hg) e' Hin) as ((x & y & Hxy & Hne) & _);
      (rewrite bool_decide_true; [done|]).
  all: rewrite Hxy; unfold vars_of; rewrite set_map_union_L, !set_map_singleton_L; by apply size_pair.
Qed.


Lemma vars_of_edge (e : edge) X : vars_of e.1 = X <-> edge_vars e X.
Proof.
  unfold edge_vars, vars_of. split.
  - intros <- v. rewrite elem_of_map. unfold has_var. split.
    + intros ([w x] & -> & Hn). by exists x.
    + intros [x Hx]. by exists (v, x).
  - intros HX. apply set_eq. intros v. rewrite HX, elem_of_map. unfold has_var. split.
    + intros ([w x] & -> & Hn). by exists x.
    + intros [x Hx]. by exists (v, x).
Qed.

Lemma C28_lemma o sp :
  all_wf (sp_cp sp) (sp_out sp) -> exists fg, folded_graph o sp = Ok fg /\ folded_ok sp fg.
Proof.
  intros Hwf. rewrite (folded_eq o sp Hwf). eexists. split; [done|].
  destruct (node_counts_spec o sp) as [Hnf Hnl]. destruct (edge_counts_spec o sp) as [Hef Hel].
  split; cbn [fg_total fg_nodes fg_edges].
  - by apply weight_length.
  - intros v. rewrite map_lookup_imap. destruct (node_counts o sp !! v) as [m|] eqn:Hv; simpl.
    + pose proof (Hnf _ _ Hv) as Hm. apply map_choose in Hm as (n & c & Hn).
      pose proof (Hnl v n) as Hl. unfold look in Hl; rewrite Hv in Hl; simpl in Hl; rewrite Hn in Hl.
      destruct Hl as (<- & Ho & _). pose proof Ho as (g & Hg & Hin).
      destruct (wf_nodes _ _ (Hwf g Hg) n Hin) as (X & HX & _). rewrite HX. simpl.
      split_and!; [exists n.2; by destruct n|done|by apply weight_length|].
      intros n'. specialize (Hnl n.1 n'). unfold look in Hnl; rewrite Hv in Hnl. done.
    + intros [x Hx]. specialize (Hnl v (v, x)). unfold look in Hnl; rewrite Hv in Hnl. by apply Hnl.
  - intros X. destruct (edge_counts o sp !! X) as [m|] eqn:Hv.
    + pose proof (Hef _ _ Hv) as Hm. apply map_choose in Hm as (e & c & He).
      pose proof (Hel X e) as Hl. unfold look in Hl; rewrite Hv in Hl; simpl in Hl; rewrite He in Hl.
      destruct Hl as (Hx & Ho & _). apply vars_of_edge in Hx. split; [by exists e|].
      intros e'. specialize (Hel X e'). unfold look in Hel; rewrite Hv in Hel. simpl in Hel.
      destruct (m !! e'); rewrite <- vars_of_edge; done.
    + intros e He%vars_of_edge. specialize (Hel X e). unfold look in Hel; rewrite Hv in Hel. by apply Hel.
Qed.

Lemma folded_order o o' sp :
  all_wf (sp_cp sp) (sp_out sp) -> folded_graph o sp = folded_graph o' sp.
Proof.
  intros Hwf. rewrite !folded_eq by done.
  assert (node_counts o sp = node_counts o' sp) as ->.
  { destruct (node_counts_spec o sp) as [Hnf Hnl], (node_counts_spec o' sp) as [Hnf' Hnl'].
    apply cmap_ext; [done|done|]. intros v n. specialize (Hnl v n). specialize (Hnl' v n).
    destruct (look (node_counts o sp) v n) as [a|], (look (node_counts o' sp) v n) as [b|]; [|naive_solver..|done].
    f_equal. destruct Hnl as (_ & _ & Ha), Hnl' as (_ & _ & Hb). eapply (weight_unique _ _ _ _ Ha Hb). }
  assert (edge_counts o sp = edge_counts o' sp) as ->; [|done].
  destruct (edge_counts_spec o sp) as [Hnf Hnl], (edge_counts_spec o' sp) as [Hnf' Hnl'].
  apply cmap_ext; [done|done|]. intros v n. specialize (Hnl v n). specialize (Hnl' v n).
  destruct (look (edge_counts o sp) v n) as [a|], (look (edge_counts o' sp) v n) as [b|]; [|naive_solver..|done].
  f_equal. destruct Hnl as (_ & _ & Ha), Hnl' as (_ & _ & Hb). eapply (weight_unique _ _ _ _ Ha Hb).
Qed.

(** The distribution of a folded node. *)
Lemma marginal_distribution_eq o (fn : fnode) v :
  (forall n c, fn_counts fn !! n = Some c -> n.1 = v /\ n.2 ∈ fn_values fn) ->
  let total := zsum (map_to_list (fn_counts fn)).*2 in
  marginal_distribution o fn =
  (_ ← passert (bool_decide (total <= fn_total fn)%Z);
   div_all (<[val_unobserved := (fn_total fn - total)%Z]>
              (set_to_map (fun x => (x, default 0%Z (fn_counts fn !! (v, x)))) (fn_values fn))) (fn_total fn)).
Proof.
  intros Hfn. cbv zeta. unfold marginal_distribution.
  match goal with |- context [for_res ?f _ _ _] => set (F := f) end.
  assert (match for_res F (sub o 0) (gset_to_gmap 0%Z (fn_values fn), 0%Z) (iter_map o (fn_counts fn)) with
    | Ok (acc, total) => (forall x, acc !! x = if decide (x ∈ fn_values fn)
                             then Some (default 0%Z (fn_counts fn !! (v, x))) else None) /\
                         total = msum (fun _ c => c) (fn_counts fn)
    | Err _ => False end) as Hi.
  { pose (P := fun (D : gmap node Z) '(acc, total) => (forall x, (acc : gmap Val Z) !! x = if decide (x ∈ fn_values fn)
                             then Some (default 0%Z (D !! (v, x))) else None) /\
                         total = msum (fun _ c => c) D).
    pose proof (for_res_map_ind P (fun _ => False) F (sub o 0) o (gset_to_gmap 0%Z (fn_values fn), 0%Z) (fn_counts fn)) as Hi.
    assert (match for_res F (sub o 0) (gset_to_gmap 0%Z (fn_values fn), 0%Z) (iter_map o (fn_counts fn)) with
      Ok s' => P (fn_counts fn) s' | Err _ => False end) as Hj.
    2:{ destruct (for_res _ _ _ _) as [[acc t]|]; [|done]. exact Hj. }
    apply Hi; clear Hi.
    - split; [|by rewrite msum_empty]. intros x. rewrite lookup_empty. simpl.
      rewrite lookup_gset_to_gmap. case_decide as Hx.
      + by rewrite option_guard_True.
      + by rewrite option_guard_False.
    - intros D n c [acc t] o' Hn HD _ [HP ->]. unfold F. destruct (Hfn n c Hn) as [Hv Hx].
      rewrite HP, decide_True by done. destruct n as [w y]. simpl in Hv, Hx. subst w. cbn [snd]. split.
      + intros x. destruct (decide (x = y)) as [->|Hne].
        * rewrite !lookup_insert, decide_True by done. exact (f_equal (fun z => Some (default 0%Z z + c)%Z) HD).
        * simpl. rewrite lookup_insert_ne by done. rewrite HP.
          rewrite (lookup_insert_ne D) by congruence. done.
      + rewrite msum_insert by done. lia. }
  destruct (for_res F _ _ _) as [[acc t]|]; [|done]. destruct Hi as [Hacc ->]. cbn [mbind res_bind].
  rewrite zsum_snd_msum.
  assert (acc = set_to_map (fun x => (x, default 0%Z (fn_counts fn !! (v, x)))) (fn_values fn)) as ->; [|done].
  apply map_eq. intros x. rewrite Hacc. symmetry. case_decide as Hx.
  - apply lookup_set_to_map; [done|]. by exists x.
  - apply eq_None_not_Some. intros [z Hz]. apply lookup_set_to_map in Hz as (y & Hy & [= -> _]); [done|].
    intros ? ? _ _. done.
Qed.


Lemma sum_values (v : Var) (X : gset Val) (m : gmap node Z) :
  (forall n c, m !! n = Some c -> n.1 = v /\ n.2 ∈ X) ->
  zsum ((fun x => default 0%Z (m !! ((v, x) : node))) <$> elements X) = msum (fun _ c => c) m.
Proof.
  induction m as [|n c m Hn IH] using map_ind; intros Hm.
  - rewrite msum_empty. induction (elements X) as [|x l IHl]; [done|].
    rewrite fmap_cons. change (zsum (?a :: ?l)) with (a + zsum l)%Z. rewrite lookup_empty. simpl. done.
  - rewrite msum_insert by done. destruct (Hm n c) as [Hv Hx]; [apply lookup_insert|].
    destruct n as [w y]. simpl in Hv, Hx. subst w. rewrite <- IH.
    + assert (elements X ≡ₚ y :: elements (X ∖ {[y]})) as Hp.
      { rewrite (union_difference_singleton_L y X) at 1 by done. apply elements_union_singleton. set_solver. }
      rewrite !Hp, !fmap_cons. change (zsum (?a :: ?l)) with (a + zsum l)%Z.
      rewrite lookup_insert.
      match goal with |- (_ + zsum (?f <$> ?l))%Z = _ =>
        rewrite (list_fmap_ext f (fun x => default 0%Z (m !! ((v, x) : node))) l) end.
      * rewrite Hn. simpl. lia.
      * intros i x Hi. apply elem_of_list_lookup_2, elem_of_elements in Hi.
        f_equal. apply lookup_insert_ne. set_solver +Hi.
    + intros n' c' Hn'. apply (Hm n' c'). rewrite lookup_insert_ne; [done|]. intros <-.
      pose proof (eq_trans (eq_sym Hn) Hn') as [=].
Qed.

Lemma sum_set_to_map (f : Val -> Z) (X : gset Val) :
  msum (fun _ c => c) (set_to_map (fun x => (x, f x)) X : gmap Val Z) = zsum (f <$> elements X).
Proof.
  unfold msum, set_to_map. rewrite map_to_list_to_map.
  - rewrite <- list_fmap_compose. done.
  - rewrite <- list_fmap_compose. rewrite (list_fmap_ext _ id (elements X)) by done.
    rewrite list_fmap_id. apply NoDup_elements.
Qed.

Lemma folded_node_lemma o o' sp fg v fn :
  all_wf (sp_cp sp) (sp_out sp) -> one_valued (sp_out sp) -> pos_counts (sp_out sp) ->
  folded_graph o sp = Ok fg -> folded_node fg v = Some fn ->
  weight (sp_out sp) (lacking v) (unobserved_count fn) /\
  exists d, marginal_distribution o' fn = Ok d /\
    (forall x, if decide (x = val_unobserved)
               then exists p, d !! x = Some p /\ ratio (sp_out sp) (lacking v) anything p
               else match d !! x with
                    | Some p => x ∈ fn_values fn /\ ratio (sp_out sp) (has v x) anything p
                    | None => x ∉ fn_values fn
                    end) /\
    exists a, weight (sp_out sp) (has v val_unobserved) a /\ (0 < ss_length (sp_out sp))%Z /\
      qsum (map_to_list d).*2 = qdiv (ss_length (sp_out sp) - a) (ss_length (sp_out sp)).
Proof.
  intros Hwf Hone Hpos Hfg Hfn. unfold folded_node in Hfn.
  destruct (C28_lemma o sp Hwf) as (fg' & Hfg' & Hok). rewrite Hfg in Hfg'. injection Hfg' as <-.
  pose proof (fo_nodes _ _ Hok v) as Hnode. rewrite Hfn in Hnode.
  destruct Hnode as ([x0 Hx0] & HX & Htot & Hcnt). apply weight_length in Htot.
  assert (forall n c, fn_counts fn !! n = Some c -> n.1 = v /\ n.2 ∈ fn_values fn) as Hvals.
  { intros n c Hn. specialize (Hcnt n). rewrite Hn in Hcnt. destruct Hcnt as (<- & (g & Hg & Hin) & _).
    split; [done|]. destruct (wf_nodes _ _ (Hwf g Hg) n Hin) as (X & HX' & Hin'). congruence. }
  assert (forall x, weight (sp_out sp) (has v x) (default 0%Z (fn_counts fn !! (v, x)))) as Hw.
  { intros x. specialize (Hcnt (v, x)). destruct (fn_counts fn !! (v, x)) as [c|]; simpl.
    - apply Hcnt.
    - apply (proj2 (weight_msum _ _ _)).
      rewrite (msum_ext _ (fun _ _ => 0%Z)), msum_zero; [done|]. intros g c Hg. rewrite decide_False; [done|].
      intros Hh. apply Hcnt; [done|]. exists g. split; [by exists c|done]. }
  assert (weight (sp_out sp) (having v) (zsum (map_to_list (fn_counts fn)).*2)) as Hhv.
  { rewrite (folded_eq o sp Hwf) in Hfg. injection Hfg as <-. cbn [fg_nodes] in Hfn.
    rewrite map_lookup_imap in Hfn. destruct (node_counts o sp !! v) as [m|] eqn:Hm; [|done].
    simpl in Hfn. rewrite HX in Hfn. simpl in Hfn. injection Hfn as <-. cbn [fn_counts].
    rewrite (tot_lookup _ _ _ Hm). by apply node_counts_tot. }
  pose proof Hx0 as (g0 & Hg0 & Hn0).
  assert (0 < zsum (map_to_list (fn_counts fn)).*2)%Z as H1
    by (apply (weight_pos (sp_out sp) (having v) _ g0); [done|done|done|by exists x0]).
  assert (zsum (map_to_list (fn_counts fn)).*2 <= ss_length (sp_out sp))%Z as H2
    by (by apply (weight_le_length _ (having v))).
  split.
  { unfold unobserved_count. rewrite Htot. by apply weight_lacking. }
  rewrite (marginal_distribution_eq o' fn v Hvals). cbv zeta. rewrite Htot.
  rewrite bool_decide_true by done. cbn [passert mbind res_bind]. unfold div_all.
  rewrite (bool_decide_false (_ = 0%Z)) by lia. rewrite andb_false_r. eexists. split; [done|]. split.
  - intros x. rewrite lookup_fmap. case_decide as Hx.
    + subst x. rewrite lookup_insert. simpl. eexists. split; [done|].
      exists (ss_length (sp_out sp) - zsum (map_to_list (fn_counts fn)).*2)%Z, (ss_length (sp_out sp)).
      split_and!; [by apply weight_lacking|by apply weight_length|done].
    + rewrite lookup_insert_ne by done.
      destruct (set_to_map _ _ !! x) as [z|] eqn:Hz; simpl.
      * apply lookup_set_to_map in Hz as (y & Hy & [= -> <-]); [|by intros ????].
        split; [done|]. exists (default 0%Z (fn_counts fn !! (v, x))), (ss_length (sp_out sp)).
        split_and!; [done|by apply weight_length|done].
      * intros Hin. match type of Hz with ?t = None => assert (is_Some t) as [? Hs] end.
        { exists (default 0%Z (fn_counts fn !! (v, x))). apply lookup_set_to_map; [by intros ????|]. by exists x. }
        rewrite Hs in Hz. done.
  - exists (default 0%Z (fn_counts fn !! (v, val_unobserved))). split_and!; [done|lia|].
    rewrite qsum_map_qdiv. f_equal. rewrite zsum_snd_msum.
    set (M := set_to_map (fun x => (x, default 0%Z (fn_counts fn !! (v, x)))) (fn_values fn) : gmap Val Z).
    assert (msum (fun _ c => c) M = zsum (map_to_list (fn_counts fn)).*2) as HM.
    { unfold M. rewrite sum_set_to_map, zsum_snd_msum. by apply sum_values. }
    destruct (M !! val_unobserved) as [z|] eqn:Hz.
    + rewrite <- insert_delete_insert, msum_insert by apply lookup_delete.
      rewrite (msum_delete _ _ _ _ Hz) in HM.
      unfold M in Hz. apply lookup_set_to_map in Hz as (y & Hy & [= -> <-]); [|by intros ????]. lia.
    + rewrite msum_insert by done. rewrite HM.
      destruct (fn_counts fn !! (v, val_unobserved)) as [c|] eqn:Hc; simpl; [|lia]. exfalso.
      destruct (Hvals _ _ Hc) as [_ Hin]. simpl in Hin.
      assert (is_Some (M !! val_unobserved)) as [? Hs]; [|congruence].
      exists (default 0%Z (fn_counts fn !! (v, val_unobserved))). apply lookup_set_to_map; [by intros ????|].
      by exists val_unobserved.
Qed.


Lemma ratio_unique ss (P Q : graph -> Prop) `{!forall g, Decision (P g)} `{!forall g, Decision (Q g)} p q :
  ratio ss P Q p -> ratio ss P Q q -> p = q.
Proof.
  intros (a & b & Ha & Hb & ->) (a' & b' & Ha' & Hb' & ->).
  by rewrite (weight_unique ss P a a' Ha Ha'), (weight_unique ss Q b b' Hb Hb').
Qed.

Lemma weight_zero ss (P : graph -> Prop) `{!forall g, Decision (P g)} a :
  (forall g, contains ss g -> ~ P g) -> weight ss P a -> a = 0%Z.
Proof.
  rewrite (weight_msum ss P). intros HP ->. rewrite (msum_ext _ (fun _ _ => 0%Z)), msum_zero; [done|].
  intros g c Hg. rewrite decide_False; [done|]. apply HP. by exists c.
Qed.

Lemma folded_marginal_lemma o o' sp fg v fn :
  all_wf (sp_cp sp) (sp_out sp) -> one_valued (sp_out sp) -> pos_counts (sp_out sp) ->
  folded_graph o sp = Ok fg -> folded_node fg v = Some fn -> ~ occurs (sp_out sp) (v, val_unobserved) ->
  exists d, marginal_distribution o' fn = Ok d /\ folded_marginal (sp_out sp) v (fn_values fn) d.
Proof.
  intros Hwf Hone Hpos Hfg Hfn Hno.
  destruct (folded_node_lemma o o' sp fg v fn Hwf Hone Hpos Hfg Hfn) as (_ & d & Hd & Hx & a & Ha & Hl & Hs).
  exists d. split; [done|]. split; [|done]. rewrite Hs.
  assert (a = 0%Z) as ->.
  { apply (weight_zero (sp_out sp) (has v val_unobserved) a); [|done]. intros g Hg Hh. apply Hno. by exists g. }
  rewrite Z.sub_0_r. apply qdiv_self. lia.
Qed.

Lemma folded_overwritten_lemma o o' sp fg v fn :
  all_wf (sp_cp sp) (sp_out sp) -> one_valued (sp_out sp) -> pos_counts (sp_out sp) ->
  folded_graph o sp = Ok fg -> folded_node fg v = Some fn -> occurs (sp_out sp) (v, val_unobserved) ->
  exists d, marginal_distribution o' fn = Ok d /\ (qsum (map_to_list d).*2 < 1)%Qc.
Proof.
  intros Hwf Hone Hpos Hfg Hfn (g & Hg & Hx).
  destruct (folded_node_lemma o o' sp fg v fn Hwf Hone Hpos Hfg Hfn) as (_ & d & Hd & _ & a & Ha & Hl & Hs).
  exists d. split; [done|]. rewrite Hs. apply Qcnot_le_lt. rewrite qdiv_1, qdiv_le by lia.
  assert (0 < a)%Z by (by apply (weight_pos (sp_out sp) (has v val_unobserved) _ g)). lia.
Qed.

Lemma folded_agrees_lemma o o1 o2 sp fg v fn m d d' :
  all_wf (sp_cp sp) (sp_out sp) -> one_valued (sp_out sp) -> pos_counts (sp_out sp) ->
  (forall w, ~ occurs (sp_out sp) (w, val_u)) -> ~ occurs (sp_out sp) (v, val_unobserved) ->
  folded_graph o sp = Ok fg -> folded_node fg v = Some fn -> marginal_distribution o1 fn = Ok d ->
  marginal_variables_probability o2 sp None true = Ok m -> m !! v = Some d' ->
  d !! val_unobserved = d' !! val_u /\ forall x, occurs (sp_out sp) (v, x) -> d !! x = d' !! x.
Proof.
  intros Hwf Hone Hpos Hnu Hnun Hfg Hfn Hd Hm Hd'.
  assert (forall g, Decision (anything g)) as Hdec by (intros; left; done).
  destruct (folded_marginal_lemma o o1 sp fg v fn Hwf Hone Hpos Hfg Hfn Hnun) as (d0 & Hd0 & _ & Hf).
  rewrite Hd in Hd0. injection Hd0 as <-.
  destruct (C26_lemma o2 sp None true Hone Hpos) as (m0 & Hm0 & HM); [intros _ w _; apply Hnu|].
  rewrite Hm in Hm0. injection Hm0 as <-. specialize (HM v). rewrite Hd' in HM.
  destruct HM as (_ & _ & _ & HM). split.
  - specialize (Hf val_unobserved). specialize (HM val_u). rewrite decide_True in Hf by done. rewrite decide_True in HM by done.
    destruct Hf as (p & -> & Hp), HM as (q & -> & Hq). f_equal. eapply (ratio_unique (sp_out sp) (lacking v) anything); [apply Hp|apply Hq].
  - intros x Hx. specialize (Hf x). specialize (HM x).
    rewrite decide_False in Hf by (by intros ->). rewrite decide_False in HM by (intros ->; by apply (Hnu v)).
    destruct (d' !! x) as [q|]; [|done]. destruct (d !! x) as [p|].
    + f_equal. eapply (ratio_unique (sp_out sp) (has v x) anything); [apply Hf|apply HM].
    + exfalso. apply Hf. destruct (C28_lemma o sp Hwf) as (fg' & Hfg' & Hok). rewrite Hfg in Hfg'.
      injection Hfg' as <-. pose proof (fo_nodes _ _ Hok v) as Hn. unfold folded_node in Hfn. rewrite Hfn in Hn.
      destruct Hx as (g & Hg & Hin). destruct (wf_nodes _ _ (Hwf g Hg) _ Hin) as (X & HX & Hxin).
      destruct Hn as (_ & HX' & _). simpl in HX. rewrite HX in HX'. injection HX' as <-. done.
Qed.

End fold_facts.
