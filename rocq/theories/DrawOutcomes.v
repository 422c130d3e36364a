(** * DrawOutcomes: the drawing of the outcomes of a space *)

From Coq Require Import Ascii String.
From stdpp Require Import pretty.
From Verif Require Import MatchFacts SpecDraw BaseFacts TextFacts DrawFacts DrawSample.

Local Notation txt := (list N).

(** ** Numbers at the end of a text *)

Definition digit (d : N) : Prop := (48 <= d <= 57)%N.

Lemma go_digits (x : N) : forall s, Forall digit (lit s) -> Forall digit (lit (pretty_N_go x s)).
Proof.
  induction (N.lt_wf_0 x) as [x _ IH]. intros s Hs.
  destruct (decide (0 < x)%N) as [Hx|Hx].
  - rewrite pretty_N_go_step by done. apply IH; [apply N.div_lt; lia|].
    unfold lit. simpl. constructor; [|exact Hs].
    destruct (digit_char (x `mod` 10)%N) as [He|?]; [apply N.mod_lt; lia| |done].
    exfalso. assert (forall k, k < 10 -> N_of_ascii (pretty_N_char k) <> 45)%N as Hne.
    { intros k Hk. assert (k = 0 \/ k = 1 \/ k = 2 \/ k = 3 \/ k = 4 \/ k = 5 \/ k = 6 \/ k = 7 \/ k = 8 \/ k = 9)%N as H by lia.
      destruct H as [->|[->|[->|[->|[->|[->|[->|[->|[->| ->]]]]]]]]]; vm_compute; discriminate. }
    eapply Hne, He. apply N.mod_lt. lia.
  - assert (x = 0%N) as -> by lia. by rewrite pretty_N_go_0.
Qed.

Lemma pretty_digits (x : N) : Forall digit (lit (pretty x)) /\ lit (pretty x) <> [].
Proof.
  unfold pretty, pretty_N. case_decide as Hx.
  - split; [|done]. constructor; [|constructor]. vm_compute. split; discriminate.
  - split; [apply go_digits; constructor|]. rewrite pretty_N_go_step by lia.
    assert (forall x s, lit s <> [] -> lit (pretty_N_go x s) <> []) as Hgo; [|by apply Hgo].
    clear. intros x. induction (N.lt_wf_0 x) as [x _ IH]. intros s Hs. destruct (decide (0 < x)%N) as [Hx|Hx].
    + rewrite pretty_N_go_step by done. apply IH; [apply N.div_lt; lia|done].
    + assert (x = 0%N) as -> by lia. by rewrite pretty_N_go_0.
Qed.

Lemma nat_digits (i : nat) : Forall digit (int_text (Z.of_nat i)).
Proof.
  unfold int_text, pretty, pretty_Z. destruct (Z.of_nat i) as [|p|p] eqn:Hz; [| |lia].
  - constructor; [|constructor]. vm_compute. split; discriminate.
  - apply (pretty_digits (N.pos p)).
Qed.

Lemma nat_text_ne (i : nat) : int_text (Z.of_nat i) <> [].
Proof.
  unfold int_text, pretty, pretty_Z. destruct (Z.of_nat i) as [|p|p] eqn:Hz; [done| |lia]. apply (pretty_digits (N.pos p)).
Qed.

Lemma split_number (t t' d d' : txt) :
  ~ ends_in_digit t -> ~ ends_in_digit t' -> Forall digit d -> Forall digit d' -> t ++ d = t' ++ d' -> t = t' /\ d = d'.
Proof.
  assert (forall (u u' l : txt), ~ ends_in_digit u -> Forall digit l -> u = u' ++ l -> l = []) as Hl.
  { intros u u' l Hu Hd ->. destruct l as [|x l] using rev_ind; [done|]. destruct Hu. exists (u' ++ l), x.
    rewrite <- app_assoc. split; [done|]. apply Forall_app in Hd as [_ Hd]. by apply Forall_inv in Hd. }
  intros Ht Ht' Hd Hd' He. apply app_eq_app in He as (l & [[H1 H2]|[H1 H2]]).
  - assert (l = []) as ->; [|by rewrite app_nil_r in H1]. apply (Hl t t'); [done| |done]. subst d'. by apply Forall_app in Hd' as [? _].
  - assert (l = []) as ->; [|by rewrite app_nil_r in H1]. apply (Hl t' t); [done| |done]. subst d. by apply Forall_app in Hd as [? _].
Qed.

Section draw.
Context {U : Universe}.
Context (sv : Var -> txt) (sx : Val -> txt) (sr : Rel -> txt) (name : graph -> txt).
Notation called := (called sv sx).
Notation string_id := (string_id sv sx).
Notation rel_text := (rel_text sv sr).
Notation reads := (reads sv sr).
Notation edge_calls := (edge_calls sv sr).
Notation copy_of := (copy_of sv sx).
Notation asked := (asked sv sx).
Notation heading := (heading sv sx name).

Lemma copies_differ cp (j j' : nat) v x w y :
  distinct_names sv sx cp -> digit_free_ends sv sx cp -> declared cp (v, x) -> declared cp (w, y) ->
  copy_of j v x = copy_of j' w y -> j = j' /\ (v, x) = (w, y).
Proof.
  intros D E H1 H2 Hq. unfold SpecDraw.copy_of in Hq.
  apply split_number in Hq as [Hc Hj]; [|by apply E|by apply E|apply nat_digits|apply nat_digits].
  apply D in Hc; [|done|done]. apply int_text_inj in Hj. split; [lia|done].
Qed.

Lemma copy_not_asked (j : nat) v x w y : copy_of j v x <> asked w y.
Proof.
  intros Hq. unfold SpecDraw.copy_of, SpecDraw.asked in Hq.
  destruct (int_text (Z.of_nat j)) as [|d l _] eqn:Hd using rev_ind; [by apply nat_text_ne in Hd|].
  pose proof (nat_digits j) as Hf. rewrite Hd in Hf. apply Forall_app in Hf as [_ Hf]. apply Forall_inv in Hf.
  change (lit "_query") with ((lit "_quer") ++ [121%N]) in Hq. rewrite !app_assoc in Hq.
  apply app_inj_tail in Hq as [_ ->]. unfold digit in Hf. lia.
Qed.

(** The calls of one outcome, with the head [h]. *)
Record outcome_cs (j : nat) (g : graph) (c : Z) (h : node) (cs : list (dcall txt)) : Prop := {
  oc_head : h ∈ g_nodes g;
  oc_node : forall i t k, DNode i t k ∈ cs <->
    k = None /\ exists v x, (v, x) ∈ g_nodes g /\ i = copy_of j v x /\ t = if decide ((v, x) = h) then heading g c v x else called v x;
  oc_line : forall a b t k, DEdge a b t k ∈ cs -> k = None /\ exists e v x w y, e ∈ g_edges g /\ joins e (v, x) (w, y) /\
     a = copy_of j v x /\ b = copy_of j w y /\ reads e.2 t;
  oc_lines : forall e v x w y, e ∈ g_edges g -> joins e (v, x) (w, y) ->
    exists c d t k, DEdge c d t k ∈ cs /\ same_ends c d (copy_of j v x) (copy_of j w y)
}.

Lemma outcome_calls_spec cp o j g c : wf_graph cp g ->
  match outcome_calls sv sx sr name o j g c with
  | Ok cs => exists h, outcome_cs j g c h cs
  | Err e => e = IndexError /\ g_nodes g = ∅
  end.
Proof.
  intros W. unfold outcome_calls. destruct (iter_set o (g_nodes g)) as [|h ns] eqn:Hi.
  { split; [done|]. by apply iter_set_nil in Hi. }
  assert (forall n, n ∈ g_nodes g <-> n = h \/ n ∈ ns) as Hin.
  { intros n. rewrite <- (elem_of_iter_set o), Hi. apply elem_of_cons. }
  assert (h ∉ ns) as Hnd. { pose proof (NoDup_iter_set o (g_nodes g)) as H. rewrite Hi in H. by apply NoDup_cons in H as [? _]. }
  exists h. split.
  - apply Hin. by left.
  - intros i t k. rewrite elem_of_cons, elem_of_app, elem_of_list_fmap. split.
    + intros [[= -> -> ->]|[([v x] & [= -> -> ->] & Hn)|Hn]].
      * split; [done|]. destruct h as [v x]. exists v, x. split; [apply Hin; by left|]. by rewrite decide_True.
      * split; [done|]. exists v, x. split; [apply Hin; by right|]. split; [done|]. rewrite decide_False; [done|]. by intros <-.
      * by apply edge_calls_node in Hn.
    + intros (-> & v & x & Hn & -> & ->). apply Hin in Hn as [<-|Hn].
      * left. by rewrite decide_True.
      * right. left. exists (v, x). split; [|done]. rewrite decide_False; [done|]. by intros <-.
  - intros a b t k. rewrite elem_of_cons, elem_of_app, elem_of_list_fmap. intros [?|[(? & ? & _)|Hn]]; [done|done|].
    apply edge_calls_edge in Hn as (e & [v x] & [w y] & He & Hj & -> & -> & Hr & ->).
    2: { intros e He%elem_of_iter_set. by eapply wf_two. }
    split; [done|]. apply elem_of_iter_set in He. by exists e, v, x, w, y.
  - intros e v x w y He Hj.
    destruct (edge_calls_has sv sr (outcome_id sv sx j) None (sub o 0) (iter_set (sub o 1) (g_edges g)) e (v, x) (w, y)) as (n & m & Hs & Hn).
    { by apply elem_of_iter_set. } { done. }
    eexists _, _, _, _. split; [apply elem_of_cons; right; apply elem_of_app; right; exact Hn|].
    apply (same_ends_map (outcome_id sv sx j)) in Hs. exact Hs.
Qed.

Lemma outcome_possible cp (j : nat) g c h (pre cs : list (dcall txt)) : wf_graph cp g -> outcome_cs j g c h cs ->
  forall c', c' ∈ cs -> possible (fun _ => true) (pre ++ cs) c'.
Proof.
  intros W [H1 H2 H3 H4] c' Hc. destruct c' as [i t k|a b t k]; [done|]. cbn.
  apply H3 in Hc as (_ & e & v & x & w & y & He & Hj & -> & -> & _). destruct (wf_join cp g e _ _ W He Hj) as [Hv Hw].
  rewrite !named_app. split; right; eexists _, _; apply H2; (split; [done|]); [exists v, x|exists w, y]; done.
Qed.

(** [outcome_calls] lists nodes first. *)
Lemma outcome_runs cp o o' (j : nat) g c cs (net : network txt) (pre : list (dcall txt)) : wf_graph cp g -> outcome_calls sv sx sr name o j g c = Ok cs -> shows net pre ->
  exists net', do_calls (fun _ => true) o' net cs = Ok net' /\ shows net' (pre ++ cs).
Proof.
  intros W Hc Hs. pose proof (outcome_calls_spec cp o j g c W) as Hsp. rewrite Hc in Hsp. destruct Hsp as [h0 Hsp].
  pose proof (outcome_possible cp j g c h0 pre cs W Hsp) as Hp. revert Hc. unfold outcome_calls.
  destruct (iter_set o (g_nodes g)) as [|h ns] eqn:Hi; [done|]. intros [= <-].
  match goal with |- context [do_calls _ _ _ (?x :: ?l1 ++ ?l2)] => 
    destruct (calls_two (fun _ => true) o' net pre (x :: l1) l2) as [net' Hn] end.
  - done.
  - intros c' [->|(n & -> & _)%elem_of_list_fmap]%elem_of_cons; done.
  - intros c' Hc'. destruct c' as [i t k|a b t k]; [done|].
    assert (forall i, named (edge_calls (outcome_id sv sx j) None (sub o 0) (iter_set (sub o 1) (g_edges g))) i -> False) as Hno.
    { intros i (? & ? & Hx). by apply edge_calls_node in Hx. }
    destruct (Hp (DEdge a b t k)) as [Ha Hb]; [apply elem_of_cons; right; apply elem_of_app; by right|].
    rewrite app_comm_cons, app_assoc, named_app in Ha, Hb. cbn. naive_solver.
  - exists net'. split; [exact Hn|]. by eapply calls_shows.
Qed.

(** The calls of all outcomes. *)
Definition all_cs (l : list (graph * Z)) (css : list (node * list (dcall txt))) : Prop :=
  Forall2 (fun _ _ => True) l css /\
  forall j g c h cs, l !! j = Some (g, c) -> css !! j = Some (h, cs) -> outcome_cs j g c h cs.

Lemma join_two {A} (ls : list (list A)) (l : list A) : mjoin (ls ++ [l]) = mjoin ls ++ l.
Proof. induction ls as [|k ls IH]; [exact (app_nil_r l)|]. change (k ++ mjoin (ls ++ [l]) = (k ++ mjoin ls) ++ l). by rewrite IH, app_assoc. Qed.

Lemma outcomes_loop cp o l : (forall g c, (g, c) ∈ l -> wf_graph cp g) ->
  match for_res (fun o' '(net, i) '(g, c) =>
      calls ← outcome_calls sv sx sr name o' i g c;
      net' ← do_calls (fun _ => true) (sub o' 2) net calls;
      Ok (net', S i)) o (blank, 0) l with
  | Ok (net, _) => exists css, all_cs l css /\ shows net (mjoin css.*2)
  | Err e => e = IndexError /\ exists g c, (g, c) ∈ l /\ g_nodes g = ∅
  end.
Proof.
  intros W.
  pose proof (for_res_ind (fun done s => s.2 = length done /\ exists css, all_cs done css /\ shows s.1 (mjoin css.*2))
    (fun e => e = IndexError /\ exists g c, (g, c) ∈ l /\ g_nodes g = ∅)
    (fun o' '(net, i) '(g, c) =>
      calls ← outcome_calls sv sx sr name o' i g c;
      net' ← do_calls (fun _ => true) (sub o' 2) net calls;
      Ok (net', S i)) o (blank, 0) l) as HI.
  destruct (for_res _ o (blank, 0) l) as [[net i]|e]; cbn in HI.
  all: assert (0 = length (@nil (graph * Z)) /\ exists css, all_cs [] css /\ shows (@blank txt) (mjoin css.*2)) as H0
    by (split; [done|]; exists []; split; [split; [constructor|intros j g c h cs Hl; by rewrite lookup_nil in Hl]|apply shows_blank]).
  all: match type of HI with _ -> ?H -> _ => assert H as Hstep end.
  1, 3: intros done [g c] rest [net0 i0] o0 Hl (Hi & css & [Hf Hall] & Hs); cbn in Hi, Hs; subst i0.
  1, 2: assert (wf_graph cp g) as Wg by (apply (W g c); rewrite Hl; apply elem_of_app; right; left).
  1, 2: pose proof (outcome_calls_spec cp o0 (length done) g c Wg) as Hsp.
  1, 2: destruct (outcome_calls sv sx sr name o0 (length done) g c) as [cs|e0] eqn:Hc; cbn.
  2, 4: destruct Hsp as [-> He]; split; [done|]; exists g, c; split; [rewrite Hl; apply elem_of_app; right; left|done].
  1, 2: destruct (outcome_runs cp o0 (sub o0 2) (length done) g c cs net0 (mjoin css.*2) Wg Hc Hs) as (net1 & Hn1 & Hs1); destruct Hsp as [h Hsp];
    rewrite Hn1; cbn; (split; [by rewrite app_length, Nat.add_1_r|]); exists (css ++ [(h, cs)]).
  1, 2: split; [split; [apply Forall2_app; [done|by constructor]|]|rewrite fmap_app; cbn [snd fmap list_fmap]; by rewrite join_two].
  1, 2: intros j g' c' h' cs' Hj Hcs; pose proof (Forall2_length _ _ _ Hf) as Hlen;
    apply lookup_app_Some in Hj as [Hj|[Hge Hj]].
  1, 3: assert (j < length css) as Hlt by (rewrite <- Hlen; by eapply lookup_lt_Some);
    rewrite lookup_app_l in Hcs by done; by eapply Hall.
  1, 2: apply list_lookup_singleton_Some in Hj as [Hj0 [= <- <-]]; assert (j = length done) as -> by lia;
    rewrite Hlen, lookup_app_r, Nat.sub_diag in Hcs by lia; injection Hcs as <- <-; exact Hsp.
  - specialize (HI H0 Hstep). by destruct HI as [_ ?].
  - exact (HI H0 Hstep).
Qed.

Lemma all_cs_elem l css x : all_cs l css -> x ∈ mjoin css.*2 <->
  exists j g c h cs, l !! j = Some (g, c) /\ css !! j = Some (h, cs) /\ outcome_cs j g c h cs /\ x ∈ cs.
Proof.
  intros [Hf Ha]. rewrite elem_of_list_join. split.
  - intros (cs & Hx & ([h cs'] & -> & [j Hj]%elem_of_list_lookup)%elem_of_list_fmap).
    destruct (Forall2_lookup_r _ _ _ _ _ Hf Hj) as ([g c] & Hl & _). exists j, g, c, h, cs'. naive_solver.
  - intros (j & g & c & h & cs & _ & Hj & _ & Hx). exists cs. split; [done|]. apply elem_of_list_fmap. exists (h, cs).
    split; [done|]. by eapply elem_of_list_lookup_2.
Qed.
Lemma all_cs_at l css j g c : all_cs l css -> l !! j = Some (g, c) ->
  exists h cs, css !! j = Some (h, cs) /\ outcome_cs j g c h cs.
Proof.
  intros [Hf Ha] Hl. destruct (Forall2_lookup_l _ _ _ _ _ Hf Hl) as ([h cs] & Hj & _). eauto.
Qed.

Section evidence.
Context (o : oracle) (ev : graph) (cp : provider) (W : wf_graph cp ev).
Lemma evidence_node i t k : DNode i t k ∈ evidence_calls sv sx sr o ev <->
  k = Some (lit "red") /\ exists v x, (v, x) ∈ g_nodes ev /\ i = asked v x /\ t = called v x.
Proof.
  unfold evidence_calls. rewrite elem_of_app, elem_of_list_fmap. split.
  - intros [([v x] & [= -> -> ->] & Hn%elem_of_iter_set)|Hn]; [|by apply edge_calls_node in Hn].
    split; [done|]. by exists v, x.
  - intros (-> & v & x & Hn & -> & ->). left. exists (v, x). split; [done|]. by apply elem_of_iter_set.
Qed.
Lemma evidence_edge a b t k : DEdge a b t k ∈ evidence_calls sv sx sr o ev ->
  k = Some (lit "red") /\ exists e v x w y, e ∈ g_edges ev /\ joins e (v, x) (w, y) /\ a = asked v x /\ b = asked w y /\ reads e.2 t.
Proof.
  unfold evidence_calls. rewrite elem_of_app, elem_of_list_fmap. intros [(? & ? & _)|Hn]; [done|].
  apply edge_calls_edge in Hn as (e & [v x] & [w y] & He & Hj & -> & -> & Hr & ->).
  2: { intros e He%elem_of_iter_set. by eapply wf_two. }
  split; [done|]. apply elem_of_iter_set in He. by exists e, v, x, w, y.
Qed.
Lemma evidence_has e v x w y : e ∈ g_edges ev -> joins e (v, x) (w, y) ->
  exists c d t k, DEdge c d t k ∈ evidence_calls sv sx sr o ev /\ same_ends c d (asked v x) (asked w y).
Proof.
  intros He Hj.
  destruct (edge_calls_has sv sr (query_id sv sx) (Some (lit "red")) (sub o 0) (iter_set (sub o 1) (g_edges ev)) e (v, x) (w, y)) as (n & m & Hs & Hn).
  { by apply elem_of_iter_set. } { done. }
  eexists _, _, _, _. split; [apply elem_of_app; right; exact Hn|]. exact (same_ends_map (query_id sv sx) _ _ _ _ Hs).
Qed.
Lemma evidence_runs o' (net : network txt) (pre : list (dcall txt)) : shows net pre ->
  exists net', do_calls (fun _ => true) o' net (evidence_calls sv sx sr o ev) = Ok net' /\ shows net' (pre ++ evidence_calls sv sx sr o ev).
Proof.
  intros Hs.
  destruct (calls_two (fun _ => true) o' net pre
     ((fun n => DNode (query_id sv sx n) (string_id n) (Some (lit "red"))) <$> iter_set o (g_nodes ev))
     (edge_calls (query_id sv sx) (Some (lit "red")) (sub o 0) (iter_set (sub o 1) (g_edges ev)))) as [net' Hn].
  - done.
  - intros c (n & -> & _)%elem_of_list_fmap. done.
  - intros c Hc. destruct c as [i t k|a b t k]; [done|].
    apply edge_calls_edge in Hc as (e & n & m & He & Hj & -> & -> & _).
    2: { intros e He%elem_of_iter_set. by eapply wf_two. }
    apply elem_of_iter_set in He. destruct (wf_join cp ev e n m W He Hj) as [Hn Hm]. cbn.
    rewrite !named_app. split; right; eexists _, _; apply elem_of_list_fmap;
      [exists n|exists m]; (split; [done|]); by apply elem_of_iter_set.
  - exists net'. split; [exact Hn|]. by eapply calls_shows.
Qed.
End evidence.

(** All calls. *)
Definition query_cs (o : oracle) (ev : option graph) : list (dcall txt) :=
  match ev with Some g => evidence_calls sv sx sr (sub o 3) g | None => [] end.

Lemma visualize_shows o ss ev : all_wf (ss_cp ss) ss -> (forall g, ev = Some g -> wf_graph (ss_cp ss) g) ->
  match visualize_outcomes sv sx sr name o ss ev with
  | Ok net => exists css, all_cs (ss_items (sub o 1) ss) css /\ shows net (mjoin css.*2 ++ query_cs o ev)
  | Err e => e = IndexError /\ exists g, contains ss g /\ g_nodes g = ∅
  end.
Proof.
  intros W We.
  assert (forall g c, (g, c) ∈ ss_items (sub o 1) ss -> contains ss g) as Hin.
  { intros g c Hg. apply (elem_of_items (sub o 1)). apply elem_of_list_fmap. by exists (g, c). }
  pose proof (outcomes_loop (ss_cp ss) (sub o 0) (ss_items (sub o 1) ss) (fun g c H => W g (Hin g c H))) as HL.
  unfold visualize_outcomes. destruct (for_res _ _ _ _) as [[net i]|e]; cbn -[ss_items].
  2: { destruct HL as [-> (g & c & Hg & He)]. split; [done|]. exists g. split; [by eapply Hin|done]. }
  destruct HL as (css & Hall & Hs). destruct ev as [g|]; cbn -[ss_items].
  - destruct (evidence_runs (sub o 3) g (ss_cp ss) (We g eq_refl) (sub o 2) net (mjoin css.*2) Hs) as (net' & Hn & Hs').
    rewrite Hn. by exists css.
  - exists css. by rewrite app_nil_r.
Qed.

Lemma outcomes_lemma o ss ev : all_wf (ss_cp ss) ss -> (forall g, ev = Some g -> wf_graph (ss_cp ss) g) ->
  (forall g, contains ss g -> g_nodes g <> ∅) ->
  exists net l, visualize_outcomes sv sx sr name o ss ev = Ok net /\ l ≡ₚ map_to_list (ss_map ss) /\
    pictures net (space_node sv sx name l ev) (space_line sv sx sr l ev) /\
    (distinct_names sv sx (ss_cp ss) -> digit_free_ends sv sx (ss_cp ss) ->
     forall j g c, l !! j = Some (g, c) -> exists h, h ∈ g_nodes g /\ forall v x, (v, x) ∈ g_nodes g ->
       (copy_of j v x, (if decide ((v, x) = h) then heading g c v x else called v x, None)) ∈ nw_nodes net).
Proof.
  intros W We Hne. pose proof (visualize_shows o ss ev W We) as Hv.
  destruct (visualize_outcomes sv sx sr name o ss ev) as [net|e].
  2: { destruct Hv as (_ & g & Hg & He). by destruct (Hne g Hg). }
  destruct Hv as (css & Hall & Hs). exists net, (ss_items (sub o 1) ss). split; [done|].
  split. { unfold ss_items. apply iter_map_perm. }
  split.
  - apply (shows_pictures _ _ _ _ Hs).
    + intros i t k [Hi|Hi]%elem_of_app.
      * apply (all_cs_elem _ _ _ Hall) in Hi as (j & g & c & h & cs & Hl & Hcs & Ho & Hi).
        apply (oc_node _ _ _ _ _ Ho) in Hi as (-> & v & x & Hg & -> & Ht). left. split; [done|]. exists j, g, c, v, x.
        split; [done|]. split; [done|]. split; [done|]. case_decide; [by right|by left].
      * destruct ev as [g|]; [|by apply elem_of_nil in Hi]. apply evidence_node in Hi as (-> & v & x & Hg & -> & ->).
        right. split; [done|]. by exists g, v, x.
    + intros i t k [(-> & j & g & c & v & x & Hl & Hg & -> & _)|(-> & g & v & x & -> & Hg & -> & ->)]; rewrite named_app.
      * left. destruct (all_cs_at _ _ _ _ _ Hall Hl) as (h & cs & Hcs & Ho).
        eexists _, None. apply (all_cs_elem _ _ _ Hall). exists j, g, c, h, cs. split; [done|]. split; [done|]. split; [done|].
        apply (oc_node _ _ _ _ _ Ho). split; [done|]. by exists v, x.
      * right. exists (called v x), (Some (lit "red")). cbn. apply evidence_node. split; [done|]. by exists v, x.
    + intros a b t k [Hi|Hi]%elem_of_app.
      * apply (all_cs_elem _ _ _ Hall) in Hi as (j & g & c & h & cs & Hl & Hcs & Ho & Hi).
        apply (oc_line _ _ _ _ _ Ho) in Hi as (-> & e & v & x & w & y & ?). left. split; [done|]. by exists j, g, c, e, v, x, w, y.
      * destruct ev as [g|]; [|by apply elem_of_nil in Hi].
        apply (evidence_edge _ _ _ (We g eq_refl)) in Hi as (-> & e & v & x & w & y & ?). right. split; [done|].
        by exists g, e, v, x, w, y.
    + intros a b t k [(-> & j & g & c & e & v & x & w & y & Hl & He & Hj & -> & -> & _)|(-> & g & e & v & x & w & y & -> & He & Hj & -> & -> & _)].
      * destruct (all_cs_at _ _ _ _ _ Hall Hl) as (h & cs & Hcs & Ho).
        destruct (oc_lines _ _ _ _ _ Ho e v x w y He Hj) as (c' & d' & t' & k' & Hi & Hse). exists c', d', t', k'. split; [|done].
        apply elem_of_app. left. apply (all_cs_elem _ _ _ Hall). by exists j, g, c, h, cs.
      * destruct (evidence_has (sub o 3) g e v x w y He Hj) as (c' & d' & t' & k' & Hi & Hse). exists c', d', t', k'.
        split; [|done]. apply elem_of_app. by right.
  - intros D E j g c Hl. destruct (all_cs_at _ _ _ _ _ Hall Hl) as (h & cs & Hcs & Ho). exists h.
    split; [apply (oc_head _ _ _ _ _ Ho)|]. intros v x Hg.
    assert (forall j g c, ss_items (sub o 1) ss !! j = Some (g, c) -> wf_graph (ss_cp ss) g) as Hw.
    { intros j' g' c' Hl'. apply W, (elem_of_items (sub o 1)), elem_of_list_fmap. exists (g', c'). split; [done|].
      by eapply elem_of_list_lookup_2. }
    assert (named (mjoin css.*2 ++ query_cs o ev) (copy_of j v x)) as Hnm.
    { rewrite named_app. left. eexists _, None. apply (all_cs_elem _ _ _ Hall). exists j, g, c, h, cs.
      split; [done|]. split; [done|]. split; [done|]. apply (oc_node _ _ _ _ _ Ho). split; [done|]. by exists v, x. }
    apply (sh_named _ _ Hs), elem_of_list_fmap in Hnm as ([i [t k]] & Hq & Hin). cbn in Hq. subst i.
    pose proof (sh_node _ _ Hs _ _ _ Hin) as Hcall. apply elem_of_app in Hcall as [Hcall|Hcall].
    + apply (all_cs_elem _ _ _ Hall) in Hcall as (j' & g' & c' & h' & cs' & Hl' & Hcs' & Ho' & Hi).
      apply (oc_node _ _ _ _ _ Ho') in Hi as (-> & w & y & Hg' & Hq & Ht).
      apply (copies_differ (ss_cp ss)) in Hq as [<- [= <- <-]]; [|done|done|by eapply wf_nodes, Hg; eapply Hw|by eapply wf_nodes, Hg'; eapply Hw].
      rewrite Hl in Hl'. injection Hl' as <- <-. 
      rewrite Hcs in Hcs'. injection Hcs' as <- <-. by rewrite <- Ht.
    + destruct ev as [q|]; [|by apply elem_of_nil in Hcall]. apply evidence_node in Hcall as (_ & w & y & _ & Hq & _).
      by apply copy_not_asked in Hq.
Qed.

Lemma outcomes_empty o ss ev g : all_wf (ss_cp ss) ss -> (forall g, ev = Some g -> wf_graph (ss_cp ss) g) ->
  contains ss g -> g_nodes g = ∅ -> visualize_outcomes sv sx sr name o ss ev = Err IndexError.
Proof.
  intros W We Hg He. pose proof (visualize_shows o ss ev W We) as Hv.
  destruct (visualize_outcomes sv sx sr name o ss ev) as [net|e]; [|by destruct Hv as [-> _]].
  destruct Hv as (css & Hall & _). apply (elem_of_items (sub o 1)), elem_of_list_fmap in Hg as ([g' c] & -> & Hin).
  apply elem_of_list_lookup in Hin as [j Hj]. destruct (all_cs_at _ _ _ _ _ Hall Hj) as (h & cs & _ & Ho).
  pose proof (oc_head _ _ _ _ _ Ho) as Hh. cbn in He. rewrite He in Hh. by apply elem_of_empty in Hh.
Qed.
End draw.
