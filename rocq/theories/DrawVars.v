(** * DrawVars: the drawings of folded graphs and activation graphs *)

From Coq Require Import Ascii String.
From Flocq Require Import IEEE754.BinarySingleNaN.
From Verif Require Import FoldFacts FoldEq PropsAct PropsActFloat ActColor SpecDraw BaseFacts TextFacts DrawFacts DrawSample.

Local Notation txt := (list N).

Section draw.
Context {U : Universe}.
Context (sv : Var -> txt) (sx : Val -> txt) (sr : Rel -> txt) (sw : b64 -> txt).
Notation rel_text := (rel_text sv sr).
Notation reads := (reads sv sr).

Lemma join_set_lists o sep l (P : txt -> Prop) : (forall s, s ∈ l <-> P s) -> lists_texts sep P (join_set o sep l).
Proof.
  intros H. exists (iter_set o (list_to_set l : gset txt)). split; [apply NoDup_iter_set|]. split; [|done].
  intros s. by rewrite elem_of_iter_set, elem_of_list_to_set.
Qed.

Lemma var_ends_two o (X : gset Var) a b : a <> b -> X = {[a; b]} -> var_ends o X = Some (a, b) \/ var_ends o X = Some (b, a).
Proof. intros Hn HX. unfold var_ends. destruct (iter_two o X a b Hn HX) as [-> | ->]; eauto. Qed.

(** Calls for a dictionary of lines between pairs of variables. *)
Section lines.
Context {A : Type} (m : gmap (gset Var) A) (label : nat -> A -> txt) (color : A -> option txt) (o1 o2 : oracle).
Definition line_calls : list (dcall Var) :=
  imap (fun i e => (i, e)) (iter_map o1 m) ≫= fun '(i, (ep, x)) =>
    match var_ends (sub o2 i) ep with
    | Some (a, b) => [DEdge a b (label i x) (color x)]
    | None => []
    end.
Context (Hpair : forall X x, m !! X = Some x -> exists a b, a <> b /\ X = {[a; b]}).
Lemma line_calls_node i t k : DNode i t k ∉ line_calls.
Proof.
  intros Hin. unfold line_calls in Hin. apply elem_of_list_bind in Hin as ([j [X x]] & Hx & _).
  destruct (var_ends (sub o2 j) X) as [[a b]|]; [by apply elem_of_list_singleton in Hx|by apply elem_of_nil in Hx].
Qed.
Lemma line_calls_edge a b t k : DEdge a b t k ∈ line_calls ->
  exists i x, a <> b /\ m !! ({[a; b]} : gset Var) = Some x /\ t = label i x /\ k = color x.
Proof.
  intros Hin. unfold line_calls in Hin. apply elem_of_list_bind in Hin as ([j [X x]] & Hx & Hin).
  apply elem_of_lookup_imap in Hin as (j' & p & [= -> <-] & Hl). apply elem_of_list_lookup_2, elem_of_iter_map in Hl.
  destruct (Hpair X x Hl) as (c & d & Hn & HX).
  destruct (var_ends_two (sub o2 j') X c d Hn HX) as [Hv|Hv]; rewrite Hv in Hx; apply elem_of_list_singleton in Hx;
    injection Hx as -> -> -> ->; exists j', x.
  - by rewrite <- HX.
  - split; [done|]. by rewrite (comm_L (∪)), <- HX.
Qed.
Lemma line_calls_has a b x : a <> b -> m !! ({[a; b]} : gset Var) = Some x ->
  exists c d t k, DEdge c d t k ∈ line_calls /\ same_ends c d a b.
Proof.
  intros Hn Hm. pose proof Hm as Hl. rewrite <- (elem_of_iter_map o1) in Hl. apply elem_of_list_lookup in Hl as [j Hj].
  assert (forall c d, var_ends (sub o2 j) {[a; b]} = Some (c, d) -> DEdge c d (label j x) (color x) ∈ line_calls) as Hc.
  { intros c d Hv. unfold line_calls. apply elem_of_list_bind. exists (j, ({[a; b]}, x)). split.
    - rewrite Hv. by apply elem_of_list_singleton.
    - apply elem_of_lookup_imap. by exists j, ({[a; b]}, x). }
  destruct (var_ends_two (sub o2 j) {[a; b]} a b Hn eq_refl) as [Hv|Hv].
  - exists a, b, (label j x), (color x). split; [by apply Hc|by left].
  - exists b, a, (label j x), (color x). split; [by apply Hc|by right].
Qed.
End lines.

(** ** Folded graphs *)

Section folded.
Context (o0 : oracle) (sp : space) (fg : fgraph).
Context (W : all_wf (sp_cp sp) (sp_out sp)) (O : one_valued (sp_out sp)) (P : pos_counts (sp_out sp)) (F : folded_graph o0 sp = Ok fg).
Notation cp := (sp_cp sp).

Lemma fold_ok : folded_ok sp fg.
Proof. destruct (C28_lemma o0 sp W) as (fg' & F' & Hok). rewrite F in F'. by injection F' as <-. Qed.

Lemma fold_pair X m : fg_edges fg !! X = Some m ->
  exists a b, a <> b /\ X = {[a; b]} /\ is_Some (fg_nodes fg !! a) /\ is_Some (fg_nodes fg !! b).
Proof.
  intros HX. pose proof (fo_edges _ _ fold_ok X) as He. rewrite HX in He. destruct He as [(e & (g & Hg & Hin) & HeX) _].
  pose proof (W g Hg) as Wg. destruct (wf_edges _ _ Wg e Hin) as ((x & y & Hxy & Hne) & _ & _).
  exists x.1, y.1. split; [done|].
  assert (forall n, n ∈ e.1 -> is_Some (fg_nodes fg !! n.1)) as Hs.
  { intros n Hn. pose proof (fo_nodes _ _ fold_ok n.1) as Hv. destruct (fg_nodes fg !! n.1); [eauto|].
    destruct Hv. exists n.2, g. split; [done|]. rewrite <- surjective_pairing. by apply (wf_inside _ _ Wg e Hin). }
  split; [|split; apply Hs; rewrite Hxy; set_solver]. apply set_eq. intros v. rewrite (HeX v). unfold has_var. rewrite Hxy.
  split.
  - intros (z & [Hz%elem_of_singleton|Hz%elem_of_singleton]%elem_of_union); rewrite <- Hz; set_solver.
  - intros [->%elem_of_singleton| ->%elem_of_singleton]%elem_of_union;
      [exists x.2|exists y.2]; rewrite <- surjective_pairing; set_solver.
Qed.

Lemma fold_declared v fn : fg_nodes fg !! v = Some fn -> declared_var cp v.
Proof. intros Hv. pose proof (fo_nodes _ _ fold_ok v) as Hn. rewrite Hv in Hn. destruct Hn as (_ & H & _). by exists (fn_values fn). Qed.

Context (dr : Var -> bool) (o : oracle).
Definition fold_nodes : list (dcall Var) :=
  imap (fun i '(v, fn) => DNode v (folded_label sv sx (sub (sub o 0) i) v fn) None) (iter_map (sub o 1) (fg_nodes fg)).
Definition fold_lines : list (dcall Var) :=
  line_calls (fg_edges fg) (fun i m => folded_edge_label sv sr (sub (sub o 4) i) m) (fun _ => None) (sub o 2) (sub o 3).
Definition fold_gray : list (dcall Var) :=
  imap (fun i e => (i, e)) (iter_map (sub o 5) (cp_vars cp)) ≫= fun '(i, (v, X)) =>
     match fg_nodes fg !! v with
     | None => [DNode v (absent_label sv sx (sub (sub o 6) i) v X (fg_total fg)) (Some (lit "gray"))]
     | Some _ => []
     end.
Lemma fold_calls_eq : folded_calls sv sx sr o cp fg = fold_nodes ++ fold_lines ++ fold_gray.
Proof. done. Qed.

Lemma fold_nodes_in c : c ∈ fold_nodes <-> exists i v fn, iter_map (sub o 1) (fg_nodes fg) !! i = Some (v, fn) /\
  c = DNode v (folded_label sv sx (sub (sub o 0) i) v fn) None.
Proof.
  unfold fold_nodes. rewrite elem_of_lookup_imap. split.
  - intros (i & [v fn] & -> & Hl). by exists i, v, fn.
  - intros (i & v & fn & Hl & ->). by exists i, (v, fn).
Qed.
Lemma fold_gray_in c : c ∈ fold_gray <-> exists i v X, iter_map (sub o 5) (cp_vars cp) !! i = Some (v, X) /\
  fg_nodes fg !! v = None /\ c = DNode v (absent_label sv sx (sub (sub o 6) i) v X (fg_total fg)) (Some (lit "gray")).
Proof.
  unfold fold_gray. rewrite elem_of_list_bind. split.
  - intros ([i [v X]] & Hc & Hin). apply elem_of_lookup_imap in Hin as (j & p & [= -> <-] & Hl). exists j, v, X. split; [done|].
    destruct (fg_nodes fg !! v); [by apply elem_of_nil in Hc|]. by apply elem_of_list_singleton in Hc.
  - intros (i & v & X & Hl & Hn & ->). exists (i, (v, X)). rewrite Hn. split; [by apply elem_of_list_singleton|].
    apply elem_of_lookup_imap. by exists i, (v, X).
Qed.
Lemma fold_named v : named (folded_calls sv sx sr o cp fg) v <-> declared_var cp v.
Proof.
  rewrite fold_calls_eq, !named_app. split.
  - intros [(t & k & (i & v' & fn & Hl & [= -> _ _])%fold_nodes_in)|[(t & k & Hn)|(t & k & (i & v' & X & Hl & _ & [= -> _ _])%fold_gray_in)]].
    + apply elem_of_list_lookup_2, elem_of_iter_map in Hl. by eapply fold_declared.
    + by apply line_calls_node in Hn.
    + apply elem_of_list_lookup_2, elem_of_iter_map in Hl. by exists X.
  - intros [X HX]. destruct (fg_nodes fg !! v) as [fn|] eqn:Hv.
    + left. rewrite <- (elem_of_iter_map (sub o 1)) in Hv. apply elem_of_list_lookup in Hv as [i Hi].
      eexists _, _. apply fold_nodes_in. by exists i, v, fn.
    + right. right. rewrite <- (elem_of_iter_map (sub o 5)) in HX. apply elem_of_list_lookup in HX as [i Hi].
      eexists _, _. apply fold_gray_in. by exists i, v, X.
Qed.

Lemma folded_draws : (forall v, declared_var cp v -> dr v = true) ->
  exists net, folded_visualize sv sx sr dr o cp fg = Ok net /\ shows net (folded_calls sv sx sr o cp fg).
Proof.
  intros Hd. assert (forall v t k, DNode v t k ∈ folded_calls sv sx sr o cp fg -> dr v = true) as Hdr.
  { intros v t k Hin. apply Hd, fold_named. by exists t, k. }
  unfold folded_visualize. rewrite fold_calls_eq in Hdr |- *.
  destruct (calls_possible dr (sub o 7) blank [] fold_nodes) as [n1 H1]; [apply shows_blank| |].
  { intros c Hc. pose proof Hc as (i & v & fn & _ & ->)%fold_nodes_in. cbn. eapply Hdr. apply elem_of_app. left. exact Hc. }
  pose proof (calls_shows _ _ _ _ _ _ shows_blank H1) as S1.
  destruct (calls_possible dr (sub o 7) n1 fold_nodes fold_lines) as [n2 H2]; [exact S1| |].
  { intros c Hc. destruct c as [i t k|a b t k]; [by apply line_calls_node in Hc|].
    apply line_calls_edge in Hc as (i & m & Hne & Hm & _ & _).
    2: { intros X x HX. destruct (fold_pair X x HX) as (a' & b' & ? & ? & _). by exists a', b'. }
    assert (forall v, is_Some (fg_nodes fg !! v) -> named fold_nodes v) as Hn.
    { intros v [fn Hv]. rewrite <- (elem_of_iter_map (sub o 1)) in Hv. apply elem_of_list_lookup in Hv as [j Hj].
      eexists _, _. apply fold_nodes_in. by exists j, v, fn. }
    destruct (fold_pair _ _ Hm) as (a' & b' & _ & Hq & Ha & Hb). apply pair_same in Hq.
    destruct Hq as [[-> ->]|[-> ->]]; split; by apply Hn. }
  pose proof (calls_shows _ _ _ _ _ _ S1 H2) as S2.
  destruct (calls_possible dr (sub o 7) n2 (fold_nodes ++ fold_lines) fold_gray) as [n3 H3]; [exact S2| |].
  { intros c Hc. pose proof Hc as (i & v & X & _ & _ & ->)%fold_gray_in. cbn. eapply Hdr.
    apply elem_of_app. right. apply elem_of_app. right. exact Hc. }
  exists n3. rewrite do_calls_app, H1. cbn. rewrite do_calls_app, H2. cbn. split; [exact H3|].
  rewrite app_assoc. by eapply calls_shows.
Qed.

Lemma folded_pictures : (forall v, declared_var cp v -> dr v = true) ->
  exists net, folded_visualize sv sx sr dr o cp fg = Ok net /\
    pictures net (folded_point sv sx cp (sp_out sp) fg) (folded_line sv sr fg) /\
    (forall v, v ∈ (nw_nodes net).*1 <-> declared_var cp v).
Proof.
  intros Hd. destruct (folded_draws Hd) as (net & Hn & Hs). exists net. split; [done|].
  split; [|intros v; rewrite (sh_named _ _ Hs); apply fold_named].
  assert (forall X x, fg_edges fg !! X = Some x -> exists a b, a <> b /\ X = {[a; b]}) as Hp.
  { intros X x HX. destruct (fold_pair X x HX) as (a' & b' & ? & ? & _). by exists a', b'. }
  apply (shows_pictures _ _ _ _ Hs).
  - intros v t k Hin. rewrite fold_calls_eq in Hin. apply elem_of_app in Hin as [Hin|[Hin|Hin]%elem_of_app].
    + apply fold_nodes_in in Hin as (i & v' & fn & Hl & [= -> -> ->]). apply elem_of_list_lookup_2, elem_of_iter_map in Hl.
      unfold folded_point. rewrite Hl. split; [done|]. exists (unobserved_count fn).
      split; [exact (proj1 (folded_node_lemma o0 o0 sp fg v' fn W O P F Hl))|].
      unfold folded_label, folded_node_reads. eexists. split; [|reflexivity]. apply join_set_lists. intros s.
      rewrite elem_of_list_fmap. pose proof (fo_nodes _ _ fold_ok v') as Hv. rewrite Hl in Hv. destruct Hv as (_ & _ & _ & Hc).
      split.
      * intros ([[w x] c] & -> & Hm%elem_of_map_to_list). exists x, c. assert (w = v') as ->; [|done]. pose proof (Hc (w, x)) as Hw.
        destruct (fn_counts fn !! (w, x)) as [c'|] eqn:Hwx; [by destruct Hw as [Hw _]|]. exfalso. pose proof (eq_trans (eq_sym Hwx) Hm) as Hx. discriminate Hx.
      * intros (x & c & Hm & ->). exists ((v', x), c). split; [done|]. by apply elem_of_map_to_list.
    + by apply line_calls_node in Hin.
    + apply fold_gray_in in Hin as (i & v' & X & Hl & Hv & [= -> -> ->]). apply elem_of_list_lookup_2, elem_of_iter_map in Hl.
      unfold folded_point. rewrite Hv. split; [done|]. exists X. split; [done|]. unfold absent_reads, absent_label.
      eexists. split; [apply iter_set_perm|reflexivity].
  - intros v t k Hv. apply fold_named. unfold folded_point in Hv. destruct (fg_nodes fg !! v) as [fn|] eqn:Hf.
    + by eapply fold_declared.
    + destruct Hv as (_ & X & HX & _). by exists X.
  - intros a b t k Hin. rewrite fold_calls_eq in Hin. apply elem_of_app in Hin as [Hin|[Hin|Hin]%elem_of_app].
    + by apply fold_nodes_in in Hin as (? & ? & ? & _ & ?).
    + apply line_calls_edge in Hin as (i & m & Hne & Hm & -> & ->); [|done]. split; [done|]. split; [done|]. exists m.
      split; [done|]. unfold folded_edge_reads, folded_edge_label. eexists. split; [|reflexivity]. apply join_set_lists. intros s.
      rewrite elem_of_list_fmap. split.
      * intros ([e c] & -> & He%elem_of_map_to_list). exists e, c, (rel_text e.2). by rewrite reads_text.
      * intros (e & c & r & He & Hr & ->). apply reads_text in Hr as ->. exists (e, c). split; [done|]. by apply elem_of_map_to_list.
    + by apply fold_gray_in in Hin as (? & ? & ? & _ & _ & ?).
  - intros a b t k (_ & Hne & m & Hm & _).
    destruct (line_calls_has (fg_edges fg) (fun i m => folded_edge_label sv sr (sub (sub o 4) i) m) (fun _ => None) (sub o 2) (sub o 3) a b m Hne Hm)
      as (c & d & t' & k' & Hin & Hse).
    exists c, d, t', k'. split; [|done]. rewrite fold_calls_eq. apply elem_of_app. right. apply elem_of_app. by left.
Qed.

Lemma folded_undrawable v : declared_var cp v -> dr v = false -> folded_visualize sv sx sr dr o cp fg = Err AssertionError.
Proof. intros (t & k & Hin)%fold_named Hd. by eapply calls_undrawable. Qed.
End folded.

(** ** Activation graphs *)

Section active.
Context (dr : Var -> bool) (o : oracle) (cp : provider) (fg : fagraph).
(** What activation graphs are like (C37, C54). *)
Context (Hvars : forall v, is_Some (fa_nodes fg !! v) <-> declared_var cp v).
Context (Hunit : forall v a x w, fa_nodes fg !! v = Some a -> fa_values a !! x = Some w -> unit_double w).
Context (Hpair : forall X m, fa_edges fg !! X = Some m -> exists a b, a <> b /\ X = {[a; b]} /\ declared_var cp a /\ declared_var cp b).

Lemma node_call_ok o' v X a : fa_nodes fg !! v = Some a -> fa_in_query a = true \/ fa_values a <> ∅ ->
  exists t k, active_node_call sv sx sw o' fg v X = Ok (DNode v t k) /\ active_point sv sx sw fg v t k.
Proof.
  intros Ha Hne. unfold active_node_call. rewrite Ha.
  assert (exists s, node_color (sub o' 0) a = Ok s /\ shade a (lit s)) as (s & Hs & Hsh).
  { unfold shade. destruct (fa_in_query a) eqn:Hq.
    - exists "green"%string. by rewrite color_query.
    - destruct Hne as [?|Hne]; [done|].
      destruct (color_lemma (sub o' 0) a Hq Hne (fun x w => Hunit v a x w Ha)) as (w & n & s & H1 & H2 & H3 & H4 & H5).
      exists s. split; [done|]. by exists w, n, s. }
  rewrite Hs. cbn. eexists _, _. split; [reflexivity|]. exists a, (iter_map (sub o' 1) (fa_values a)), (lit s).
  split; [done|]. split; [apply iter_map_perm|]. split; [|done]. unfold active_label. do 4 f_equal.
  apply list_fmap_ext. intros i [x w] _. done.
Qed.

Lemma nodes_loop l : (forall v X, (v, X) ∈ l -> declared_var cp v) ->
  (forall v a, fa_nodes fg !! v = Some a -> fa_in_query a = true \/ fa_values a <> ∅) ->
  forall o' net cs, shows net cs -> (forall v, declared_var cp v -> dr v = true) ->
  exists net' cs', for_res (fun o' net '(v, X) => c ← active_node_call sv sx sw o' fg v X; do_call dr net c) o' net l = Ok net' /\
    shows net' (cs ++ cs') /\ (forall v, named cs' v <-> v ∈ l.*1) /\ (forall a b t k, DEdge a b t k ∉ cs') /\
    (forall v t k, DNode v t k ∈ cs' -> active_point sv sx sw fg v t k).
Proof.
  intros Hl Hne. induction l as [|[v X] l IH]; intros o' net cs Hs Hd.
  - exists net, []. cbn. rewrite app_nil_r. split; [done|]. split; [done|]. split.
    + intros v. split; [intros (? & ? & []%elem_of_nil)|by intros ?%elem_of_nil].
    + split; intros * []%elem_of_nil.
  - assert (declared_var cp v) as Hv by (apply (Hl v X); left). destruct (proj2 (Hvars v) Hv) as [a Ha].
    destruct (node_call_ok (sub o' 1) v X a Ha (Hne v a Ha)) as (t & k & Hc & Hp).
    destruct (call_possible dr net cs (DNode v t k) Hs (Hd v Hv)) as [net1 H1].
    destruct (IH (fun v X H => Hl v X (elem_of_list_further _ _ _ H)) (sub o' 0) net1 (cs ++ [DNode v t k])) as (net' & cs' & Hr & Hs' & Hnm & Hno & Hap).
    { by eapply call_shows. } { done. }
    exists net', (DNode v t k :: cs'). cbn. rewrite Hc. cbn. cbn in H1. rewrite H1. split; [done|].
    split; [by rewrite <- app_assoc in Hs'|]. split.
    + intros w. change (DNode v t k :: cs') with ([DNode v t k] ++ cs'). rewrite named_app, named_one, Hnm. cbn. by rewrite elem_of_cons.
    + split.
      * intros a' b' t' k' [?|Hin]%elem_of_cons; [done|]. by eapply Hno.
      * intros v' t' k' [[= -> -> ->]|Hin]%elem_of_cons; [done|]. by apply Hap.
Qed.

Lemma active_pictures : (forall v, declared_var cp v -> dr v = true) ->
  (forall v a, fa_nodes fg !! v = Some a -> fa_in_query a = true \/ fa_values a <> ∅) ->
  exists net, active_visualize sv sx sr sw dr o cp fg = Ok net /\
    pictures net (active_point sv sx sw fg) (active_line sv sr fg) /\ (forall v, v ∈ (nw_nodes net).*1 <-> declared_var cp v).
Proof.
  intros Hd Hne. unfold active_visualize.
  assert (forall o v, v ∈ (iter_map o (cp_vars cp)).*1 <-> declared_var cp v) as Hdv.
  { intros o' v. rewrite elem_of_list_fmap. split.
    - intros ([w X] & -> & Hin%elem_of_iter_map). by exists X.
    - intros [X HX]. exists (v, X). split; [done|]. by apply elem_of_iter_map. }
  destruct (nodes_loop (iter_map (sub o 1) (cp_vars cp))) with (o' := sub o 0) (net := @blank Var) (cs := @nil (dcall Var))
    as (n1 & cs & H1 & S1 & Hnm & Hno & Hap).
  { intros v X Hin. apply (Hdv (sub o 1)), elem_of_list_fmap. by exists (v, X). } { done. } { apply shows_blank. } { done. }
  rewrite H1. cbn [mbind res_bind]. cbn [app] in S1.
  assert (forall X x, fa_edges fg !! X = Some x -> exists a b, a <> b /\ X = {[a; b]}) as Hp.
  { intros X x HX. destruct (Hpair X x HX) as (a' & b' & ? & ? & _). by exists a', b'. }
  set (ls := active_edge_calls sv sr (sub o 3) fg).
  assert (ls = line_calls (fa_edges fg) (fun i e => active_edge_label sv sr (sub (sub (sub o 3) 1) i) e)
    (fun e => Some (lit (if ae_in_query e then "green" else "red"))) (sub o 3) (sub (sub o 3) 0)) as Hls by done.
  destruct (calls_possible dr (sub o 2) n1 cs ls) as [n2 H2]; [exact S1| |].
  { intros c Hc. destruct c as [i t k|a b t k]; rewrite Hls in Hc; [by apply line_calls_node in Hc|].
    apply line_calls_edge in Hc as (i & m & Hne' & Hm & _ & _); [|done].
    destruct (Hpair _ _ Hm) as (a' & b' & _ & Hq & Ha & Hb). apply pair_same in Hq. cbn. rewrite !Hnm, !Hdv.
    destruct Hq as [[-> ->]|[-> ->]]; done. }
  pose proof (calls_shows _ _ _ _ _ _ S1 H2) as S2. exists n2. split; [exact H2|].
  assert (forall v, named (cs ++ ls) v <-> declared_var cp v) as Hnv.
  { intros v. rewrite named_app, Hnm, Hdv. split; [|by left]. intros [?|(? & ? & Hin)]; [done|].
    rewrite Hls in Hin. by apply line_calls_node in Hin. }
  split; [|intros v; rewrite (sh_named _ _ S2); apply Hnv].
  apply (shows_pictures _ _ _ _ S2).
  - intros v t k [Hin|Hin]%elem_of_app; [by apply Hap|]. rewrite Hls in Hin. by apply line_calls_node in Hin.
  - intros v t k (a & l & c & Ha & _). apply Hnv, Hvars. by exists a.
  - intros a b t k [Hin|Hin]%elem_of_app; [by apply Hno in Hin|]. rewrite Hls in Hin.
    apply line_calls_edge in Hin as (i & m & Hne' & Hm & -> & ->); [|done]. unfold active_line, active_edge_label.
    eexists m, _. split; [done|]. split; [done|]. split; [|split; reflexivity]. apply join_set_lists. intros s.
    rewrite elem_of_list_fmap. split.
    + intros ([r c] & -> & Hr%elem_of_map_to_list). exists r, c, (rel_text r). by rewrite reads_text.
    + intros (r & c & q & Hr & Hq & ->). apply reads_text in Hq as ->. exists (r, c). split; [done|]. by apply elem_of_map_to_list.
  - intros a b t k (m & s & Hne' & Hm & _).
    destruct (line_calls_has (fa_edges fg) (fun i e => active_edge_label sv sr (sub (sub (sub o 3) 1) i) e)
      (fun e => Some (lit (if ae_in_query e then "green" else "red"))) (sub o 3) (sub (sub o 3) 0) a b m Hne' Hm)
      as (c & d & t' & k' & Hin & Hse).
    exists c, d, t', k'. split; [|done]. apply elem_of_app. right. by rewrite Hls.
Qed.
End active.

(** Activation graphs that do not cover the declared variables. *)
Section inactive.
Context (dr : Var -> bool) (cp : provider) (fg : fagraph).

Definition gray_point (v : Var) (t : txt) (k : option txt) : Prop :=
  forall X, cp_vars cp !! v = Some X -> fa_nodes fg !! v = None -> exists l, l ≡ₚ elements X /\
    t = lit "{" ++ Text.join (lit ", ") ((fun x => sx x ++ lit "=0") <$> l) ++ lit "}" /\ k = Some (lit "black").

Lemma inactive_loop l : (forall v X, (v, X) ∈ l -> cp_vars cp !! v = Some X) -> forall o' net cs net', shows net cs ->
  for_res (fun o' net '(v, X) => c ← active_node_call sv sx sw o' fg v X; do_call dr net c) o' net l = Ok net' ->
  exists cs', shows net' (cs ++ cs') /\ (forall v, named cs' v <-> v ∈ l.*1) /\ (forall v t k, DNode v t k ∈ cs' -> gray_point v t k).
Proof.
  intros Hl. induction l as [|[v X] l IH]; intros o' net cs net' Hs Hr.
  - cbn in Hr. injection Hr as <-. exists []. rewrite app_nil_r. split; [done|]. split.
    + intros v. split; [intros (? & ? & []%elem_of_nil)|by intros ?%elem_of_nil].
    + intros * []%elem_of_nil.
  - cbn in Hr. destruct (active_node_call sv sx sw (sub o' 1) fg v X) as [c|] eqn:Hc; [|done]. cbn in Hr.
    assert (exists t k, c = DNode v t k /\ gray_point v t k) as (t & k & -> & Hg).
    { unfold active_node_call in Hc. destruct (fa_nodes fg !! v) as [a|] eqn:Ha.
      - destruct (node_color (sub (sub o' 1) 0) a) as [s|] eqn:Hk; [|done]. cbn in Hc. injection Hc as <-. eexists _, _.
        split; [done|]. intros X' _ Hn. congruence.
      - injection Hc as <-. eexists _, _. split; [done|]. intros X' HX _. rewrite (Hl v X (elem_of_list_here _ _)) in HX.
        injection HX as <-. exists (iter_set (sub o' 1) X). split; [apply iter_set_perm|]. done. }
    destruct (do_call dr net (DNode v t k)) as [n1|] eqn:H1; [|done].
    destruct (IH (fun v X H => Hl v X (elem_of_list_further _ _ _ H)) (sub o' 0) n1 (cs ++ [DNode v t k]) net') as (cs' & Hs' & Hnm & Hg').
    { by eapply call_shows. } { exact Hr. }
    exists (DNode v t k :: cs'). split; [by rewrite <- app_assoc in Hs'|]. split.
    + intros w. change (DNode v t k :: cs') with ([DNode v t k] ++ cs'). rewrite named_app, named_one, Hnm. cbn. by rewrite elem_of_cons.
    + intros v' t' k' [[= -> -> ->]|Hin]%elem_of_cons; [done|]. by apply Hg'.
Qed.

Lemma inactive_lemma o net v X : active_visualize sv sx sr sw dr o cp fg = Ok net -> cp_vars cp !! v = Some X -> fa_nodes fg !! v = None ->
  exists l, l ≡ₚ elements X /\
    (v, (lit "{" ++ Text.join (lit ", ") ((fun x => sx x ++ lit "=0") <$> l) ++ lit "}", Some (lit "black"))) ∈ nw_nodes net.
Proof.
  intros Hv HX Hn. unfold active_visualize in Hv.
  destruct (for_res _ (sub o 0) blank (iter_map (sub o 1) (cp_vars cp))) as [n1|] eqn:H1; [|done]. cbn [mbind res_bind] in Hv.
  destruct (inactive_loop (iter_map (sub o 1) (cp_vars cp))) with (o' := sub o 0) (net := @blank Var) (cs := @nil (dcall Var)) (net' := n1)
    as (cs & S1 & Hnm & Hg); [|apply shows_blank|exact H1|].
  { intros w Y Hin. by apply elem_of_iter_map in Hin. }
  cbn [app] in S1. pose proof (calls_shows _ _ _ _ _ _ S1 Hv) as S2.
  assert (v ∈ (nw_nodes net).*1) as ([w [t k]] & Hw & Hin)%elem_of_list_fmap.
  { apply (sh_named _ _ S2), named_app. left. apply Hnm, elem_of_list_fmap. exists (v, X). split; [done|]. by apply elem_of_iter_map. }
  cbn in Hw. subst w. pose proof (sh_node _ _ S2 _ _ _ Hin) as [Hc|Hc]%elem_of_app.
  - destruct (Hg v t k Hc X HX Hn) as (l & Hl & -> & ->). by exists l.
  - unfold active_edge_calls in Hc. exfalso.
    exact (line_calls_node (fa_edges fg) (fun i e => active_edge_label sv sr (sub (sub (sub o 3) 1) i) e)
      (fun e => Some (lit (if ae_in_query e then "green" else "red"))) (sub o 3) (sub (sub o 3) 0) v t k Hc).
Qed.
End inactive.
End draw.
