(** * CoinFacts: the coin toss example counts reports (C62) *)

From Coq Require Import ZArith String Ascii.
From stdpp Require Import pretty strings.
From Verif Require Import SpecCoins BaseFacts TextFacts BuilderFacts BuildFacts SetFacts DrawSample.

Section facts.
Local Existing Instance StrU.
Local Notation txt := (list N).

(** ** Words *)
Definition words_of (ws : list txt) : txt := Text.join (lit " ") ws.

Lemma split_not_nil t : split_spaces t <> [].
Proof. destruct t as [|c t]; cbn; [done|]. case_bool_decide; [done|]. by destruct (split_spaces t). Qed.

Lemma words_split t : words_of (split_spaces t) = t.
Proof.
  induction t as [|c t IH]; [done|]. cbn. unfold words_of in *. pose proof (split_not_nil t) as Hne. case_bool_decide as Hc.
  - destruct (split_spaces t) as [|w ws]; [done|]. subst c. by rewrite <- IH.
  - destruct (split_spaces t) as [|w ws]; [done|]. destruct ws as [|w' ws].
    + cbn in *. by rewrite IH.
    + cbn in *. by rewrite <- IH.
Qed.

Lemma split_word w : 32%N ∉ w -> split_spaces w = [w].
Proof.
  induction w as [|c w IH]; intros Hw; [done|]. apply not_elem_of_cons in Hw as [H1 H2]. cbn.
  rewrite bool_decide_eq_false_2 by done. by rewrite IH.
Qed.
Lemma split_cons w t : 32%N ∉ w -> split_spaces (w ++ lit " " ++ t) = w :: split_spaces t.
Proof.
  induction w as [|c w IH]; intros Hw; [done|]. apply not_elem_of_cons in Hw as [H1 H2].
  change ((c :: w) ++ lit " " ++ t) with (c :: (w ++ lit " " ++ t)). cbn [split_spaces].
  rewrite bool_decide_eq_false_2 by done. by rewrite IH.
Qed.
Lemma split_free t w : w ∈ split_spaces t -> 32%N ∉ w.
Proof.
  revert w. induction t as [|c t IH]; intros w; cbn.
  - intros ->%elem_of_list_singleton. apply not_elem_of_nil.
  - case_bool_decide as Hc.
    + intros [->|Hw]%elem_of_cons; [apply not_elem_of_nil|by apply IH].
    + destruct (split_spaces t) as [|w' ws].
      * intros ->%elem_of_list_singleton. apply not_elem_of_cons. split; [done|apply not_elem_of_nil].
      * intros [->|Hw]%elem_of_cons; [|apply IH; by right]. apply not_elem_of_cons. split; [done|]. apply IH. left.
Qed.

(** ** Coins *)
Global Instance coin_eq_dec : EqDecision coin.
Proof. solve_decision. Defined.
Lemma coin_cents c : coin_text c = cents (match c with Penny => "1" | Nickel => "5" | Quarter => "25" end).
Proof. by destruct c. Qed.
Lemma coin_free c : 32%N ∉ coin_text c.
Proof. apply (bool_decide_unpack _). by destruct c. Qed.
Lemma face_free f : 32%N ∉ face_text f.
Proof. apply (bool_decide_unpack _). by destruct f. Qed.
Lemma coin_last c : removelast (coin_text c) = int_text (worth c).
Proof. by destruct c. Qed.

Lemma pare_coin c f : pare_var (coin_text c) (face_text f) = Some (coin_node c f).
Proof. by destruct c, f. Qed.
Lemma pare_some v x n : pare_var v x = Some n -> exists c f, v = coin_text c /\ x = face_text f /\ n = coin_node c f.
Proof.
  unfold pare_var. repeat case_bool_decide; try done; intros <-%(inj Some); subst.
  - by exists Penny, Heads. - by exists Penny, Tails. - by exists Nickel, Heads. - by exists Nickel, Tails.
  - by exists Quarter, Heads. - by exists Quarter, Tails.
Qed.

Lemma coin_var_neq c f c' f' : c <> c' -> (coin_node c f).1 <> (coin_node c' f').1.
Proof. intros H. destruct c, c'; first [done|cbn [coin_node fst]; discriminate]. Qed.
Lemma coin_node_inj c f c' f' : coin_node c f = coin_node c' f' -> c = c' /\ f = f'.
Proof. destruct c, f, c', f'; done. Qed.

Lemma split_written r : report_ok r -> split_spaces (written r) =
  match r with
  | Toss c f => [coin_text c; face_text f]
  | Tosses c f w c' f' => [coin_text c; face_text f; w; coin_text c'; face_text f']
  end.
Proof.
  destruct r as [c f|c f w c' f']; cbn [report_ok written].
  - intros _. rewrite split_cons by apply coin_free. by rewrite split_word by apply face_free.
  - intros [_ Hw]. rewrite split_cons by apply coin_free. rewrite split_cons by apply face_free. rewrite split_cons by done.
    rewrite split_cons by apply coin_free. by rewrite split_word by apply face_free.
Qed.

(** ** Outcomes *)
Definition coin_provider (i : nat) : provider := Provider i coin_variables {["r1"; "r2"]}.

Lemma coin_get i c f : get_node (coin_provider i) (coin_node c f).1 (coin_node c f).2 = Ok (coin_node c f).
Proof. destruct c, f; vm_compute; reflexivity. Qed.

Lemma coin_declared i c f : declared (coin_provider i) (coin_node c f).
Proof.
  destruct c; [exists {["h1"; "t1"]}|exists {["h2"; "t2"]}|exists {["h3"; "t3"]}]; (split; [reflexivity|]); destruct f; set_solver +.
Qed.

Context (py_int : txt -> option Z) (Hint : reads_numbers py_int).

Lemma read_worth c : read_int py_int (removelast (coin_text c)) = Ok (worth c).
Proof. unfold read_int. rewrite coin_last, Hint by (destruct c; done). done. Qed.

Lemma outcome_pair i c f c' f' (r : Rel) : r = "r1" \/ r = "r2" ->
  (let '(b', r) := add_relation (new_builder (coin_provider i)) {[coin_node c f; coin_node c' f']} (Plain r) in
    _ ← r; s ← build b'; Ok (Some s)) =
  if decide (c = c') then Err AssertionError
  else Ok (Some (Sample i (Graph {[coin_node c f; coin_node c' f']} {[({[coin_node c f; coin_node c' f']}, Plain r)]}))).
Proof.
  intros Hr. set (eps := {[coin_node c f; coin_node c' f']} : gset node). rewrite add_relation_unfold.
  pose proof (make_edge_spec (coin_provider i) eps (Plain r)) as Hm. change (b_cp (new_builder (coin_provider i))) with (coin_provider i).
  assert (edge_legal (coin_provider i) (eps, Plain r) <-> c <> c') as Hl.
  { unfold edge_legal. cbn [fst snd]. split.
    - intros ((x & y & He & Hxy) & _) <-. apply Hxy.
      assert (x ∈ eps /\ y ∈ eps) as [Hx Hy] by (rewrite He; set_solver +). unfold eps in Hx, Hy.
      rewrite elem_of_union, !elem_of_singleton in Hx, Hy. destruct Hx as [-> | ->], Hy as [-> | ->]; done.
    - intros Hc. split; [|split].
      + exists (coin_node c f), (coin_node c' f'). split; [done|]. by apply coin_var_neq.
      + intros n Hn. unfold eps in Hn. rewrite elem_of_union, !elem_of_singleton in Hn. destruct Hn as [-> | ->]; apply coin_declared.
      + cbn. destruct Hr as [-> | ->]; set_solver +. }
  destruct (make_edge (coin_provider i) eps (Plain r)) as [[ns e]|x].
  - destruct Hm as (-> & -> & Hm). apply Hl in Hm. rewrite decide_False by done.
    cbn [new_builder b_nodes b_endpoints]. rewrite (bool_decide_eq_true_2 (∅ = ∅)) by done. rewrite orb_true_r. cbn [andb].
    rewrite lookup_empty, bool_decide_eq_true_2 by done. cbn [mbind res_bind]. unfold build, put_edge, new_builder.
    cbn [b_nodes b_edges b_cp].
    assert (coin_node c f ∈ eps) as Hin by set_solver +.
    rewrite bool_decide_eq_true_2 by set_solver +Hin. cbn [passert mbind res_bind]. rewrite !(right_id_L ∅ (∪)). done.
  - destruct Hm as (-> & Hm). rewrite decide_True; [done|]. destruct (decide (c = c')); [done|]. tauto.
Qed.

Lemma outcome_ok i r : report_ok r ->
  build_outcome py_int (written r) (new_builder (coin_provider i)) = Ok (Some (Sample i (meaning r))).
Proof.
  intros Hr. unfold build_outcome. rewrite split_written by done. destruct r as [c f|c f w c' f'].
  - rewrite pare_coin. pose proof (coin_get i c f) as Hg. destruct (coin_node c f) as [v x] eqn:Hn. unfold build_single_node.
    cbn [fst snd] in Hg. cbn [new_builder b_cp]. rewrite Hg. cbn [mbind res_bind meaning]. by rewrite Hn.
  - rewrite !pare_coin, !read_worth. cbn [mbind res_bind].
    rewrite outcome_pair by (case_bool_decide; auto). rewrite decide_False by apply Hr. cbn [meaning].
    case_bool_decide; case_decide; done.
Qed.

Lemma outcome_only i t s : build_outcome py_int t (new_builder (coin_provider i)) = Ok (Some s) ->
  exists r, report_ok r /\ t = written r.
Proof.
  unfold build_outcome. pose proof (words_split t) as Ht. pose proof (split_free t) as Hf.
  destruct (split_spaces t) as [|v1 [|x1 [|w [|v2 [|x2 [|? ?]]]]]]; try done.
  - destruct (pare_var v1 x1) as [[v x]|] eqn:Hp; [|done]. intros _.
    apply pare_some in Hp as (c & f & -> & -> & _). exists (Toss c f). split; [done|]. by rewrite <- Ht.
  - destruct (read_int py_int (removelast v1)) as [a|]; [|done]. destruct (read_int py_int (removelast v2)) as [b|]; [|done].
    cbn [mbind res_bind]. destruct (pare_var v1 x1) as [n1|] eqn:Hp1, (pare_var v2 x2) as [n2|] eqn:Hp2; try done.
    apply pare_some in Hp1 as (c & f & -> & -> & ->), Hp2 as (c' & f' & -> & -> & ->).
    rewrite outcome_pair by (case_bool_decide; auto). case_decide as Hc; [done|]. intros _.
    exists (Tosses c f w c' f'). split; [split; [done|]|by rewrite <- Ht]. apply Hf. set_solver +.
Qed.

(** ** The loop *)
Definition counted (r : report) : graph * Z := (meaning r, 1%Z).

Lemma add_report_ok i b r : rb_cp b = coin_provider i -> ss_cp (rb_out b) = rb_cp b -> report_ok r ->
  (add_report py_int b (written r)).2 = Ok tt /\ grown b [counted r] (add_report py_int b (written r)).1.
Proof.
  intros Hcp Hss Hr. unfold add_report. rewrite Hcp, outcome_ok by done.
  destruct (add_outcome_spec b (Sample i (meaning r)) 1 Hss) as (x & h & Hx & Hs & Hg & _).
  apply rg_add_inv in Hs as [(_ & -> & ->)|(Hn & _)]; [done|]. destruct Hn. split; cbn; [by rewrite Hcp|done].
Qed.
Lemma add_report_bad i b t : rb_cp b = coin_provider i -> (forall r, report_ok r -> t <> written r) ->
  exists e, add_report py_int b t = (b, Err e).
Proof.
  intros Hcp Hn. unfold add_report. rewrite Hcp.
  destruct (build_outcome py_int t (new_builder (coin_provider i))) as [[s|]|e] eqn:Hb; [|eauto..].
  apply outcome_only in Hb as (r & Hr & ->). by destruct (Hn r Hr).
Qed.

Lemma report_or t : (exists r, report_ok r /\ t = written r) \/ (forall r, report_ok r -> t <> written r).
Proof.
  destruct (build_outcome py_int t (new_builder (coin_provider 0))) as [[s|]|e] eqn:Hb.
  - left. by eapply outcome_only.
  - right. intros r Hr ->. by rewrite outcome_ok in Hb.
  - right. intros r Hr ->. by rewrite outcome_ok in Hb.
Qed.

Lemma loop_lemma i T : forall o b, rb_cp b = coin_provider i -> ss_cp (rb_out b) = rb_cp b ->
  match for_mut (fun _ b t => add_report py_int b t) o b T with
  | (b', Ok _) => exists l, all_reports T l /\ grown b (counted <$> l) b'
  | (_, Err _) => ~ exists l, all_reports T l
  end.
Proof.
  induction T as [|t T IH]; intros o b Hcp Hss; cbn [for_mut].
  - exists []. split; [by split|apply grown_refl].
  - destruct (report_or t) as [(r & Hr & ->)|Hn].
    + destruct (add_report_ok i b r Hcp Hss Hr) as [Hok Hg].
      destruct (add_report py_int b (written r)) as [b1 x]. cbn [fst snd] in *. subst x.
      pose proof Hg as (G1 & G2 & _). specialize (IH (sub o 0) b1 ltac:(by rewrite G1) ltac:(by rewrite G1, G2)).
      destruct (for_mut _ (sub o 0) b1 T) as [b2 [[]|e]].
      * destruct IH as (l & [H1 H2] & Hg'). exists (r :: l). split; [split; [by constructor|by rewrite H2]|].
        by apply (grown_trans b [counted r] b1).
      * intros (l & H1 & H2). destruct l as [|r' l]; [done|]. apply IH. exists l. split; [by inversion H1|]. by injection H2 as _ ?.
    + destruct (add_report_bad i b t Hcp Hn) as [e ->]. intros (l & H1 & H2). destruct l as [|r l]; [done|].
      injection H2 as H2 _. inversion H1; subst. by apply (Hn r).
Qed.

Lemma counted_length l g : accepted_count (counted <$> l) g = Z.of_nat (length (reports_of g l)).
Proof.
  unfold accepted_count, reports_of. induction l as [|r l IH]; [done|]. rewrite fmap_cons. cbn [omap list_omap].
  rewrite filter_cons. cbn [counted fst snd]. destruct (decide (meaning r = g)); [|exact IH].
  cbn [length]. change (zsum (1%Z :: ?x)) with (1 + zsum x)%Z. rewrite IH. lia.
Qed.

Lemma coin_init i : rgb_init i (Some coin_variables) (Some {["r1"; "r2"]}) None None =
  Ok (RGBuilder (coin_provider i) (ssb_new (coin_provider i))).
Proof.
  rewrite rgb_init_lemma. rewrite decide_True; [done|]. split_and!.
  - intros He. assert (coin_variables !! "V1" = None) as H by (by rewrite He, lookup_empty). by vm_compute in H.
  - set_solver +.
  - intros v X HX. unfold coin_variables in HX. intros ->. rewrite !lookup_insert_Some, lookup_singleton_Some in HX.
    destruct HX as [[_ HX]|[_ [[_ HX]|[_ [_ HX]]]]]; set_solver +HX.
Qed.

Lemma C62_lemma i T :
  match build_relation_net py_int i T with
  | Ok sp => exists l, l <> [] /\ all_reports T l /\ sp_cp sp = coin_provider i /\ ss_cp (sp_out sp) = coin_provider i /\
      (forall g c, count_of (sp_out sp) g = Ok c <-> reports_of g l <> [] /\ c = Z.of_nat (length (reports_of g l))) /\
      ss_length (sp_out sp) = Z.of_nat (length T)
  | Err _ => ~ exists l, l <> [] /\ all_reports T l
  end.
Proof.
  unfold build_relation_net. rewrite coin_init. cbn [mbind res_bind].
  set (b0 := RGBuilder (coin_provider i) (ssb_new (coin_provider i))).
  pose proof (loop_lemma i T (fun _ => []) b0 eq_refl eq_refl) as H.
  destruct (for_mut _ _ b0 T) as [b [[]|e]]; [|intros (l & _ & Hl); apply H; by exists l].
  destruct H as (l & [Hl1 Hl2] & Hg). pose proof (grown_length _ _ _ Hg) as Hlen. destruct Hg as (H1 & H2 & H3 & H4).
  assert (forall g, contains (rb_out b) g <-> reports_of g l <> []) as Hc.
  { intros g. rewrite H4. rewrite <- list_fmap_compose. split.
    - intros [Hn|Hin]; [by apply contains_new in Hn|]. apply elem_of_list_fmap in Hin as (r & -> & Hin).
      unfold reports_of. intros He. assert (r ∈ filter (fun r' => meaning r' = meaning r) l) as Hx by (by apply elem_of_list_filter).
      cbn in He. rewrite He in Hx. by apply elem_of_nil in Hx.
    - intros Hne. right. destruct (reports_of g l) as [|r k] eqn:He; [done|].
      assert (r ∈ reports_of g l) as Hin by (rewrite He; left). apply elem_of_list_filter in Hin as [<- Hin].
      apply elem_of_list_fmap. by exists r. }
  unfold rgb_build, ss_bool. destruct (decide (l = [])) as [->|Hne].
  - assert (ss_map (rb_out b) = ∅) as Hm.
    { apply map_empty. intros g. destruct (ss_map (rb_out b) !! g) as [c|] eqn:Hgc; [|done].
      exfalso. apply (proj1 (Hc g)); [by exists c|done]. }
    rewrite bool_decide_eq_false_2 by (intros Hx; by apply Hx). cbn [passert mbind res_bind].
    intros (l & Hl & _ & HT). destruct l; [done|]. by rewrite HT in Hl2.
  - rewrite bool_decide_eq_true_2.
    2:{ intros Hm. destruct l as [|r l]; [done|]. assert (contains (rb_out b) (meaning r)) as [c Hx].
        { apply Hc. unfold reports_of. rewrite filter_cons_True by done. done. }
        by rewrite Hm, lookup_empty in Hx. }
    cbn [passert mbind res_bind]. exists l. cbn [sp_cp sp_out]. split_and!; [done|by split|by rewrite H1|by rewrite H2| |].
    + intros g c. rewrite count_of_lookup, <- Hc. specialize (H3 g). rewrite counted_length in H3.
      unfold b0 in H3. cbn [rb_out] in H3. rewrite times_new in H3. unfold times_in in H3. split.
      * intros Hgc. split; [by exists c|]. rewrite Hgc in H3. simpl in H3. lia.
      * intros [[c' Hc'] ->]. rewrite Hc' in H3 |- *. simpl in H3. f_equal. lia.
    + rewrite Hlen, Hl2, fmap_length. cbn [b0 rb_out]. change (ss_length (ssb_new (coin_provider i))) with 0%Z.
      clear. induction l as [|r l IH]; [done|]. rewrite !fmap_cons. cbn [counted snd length].
      change (zsum (1%Z :: ?x)) with (1 + zsum x)%Z. lia.
Qed.

(** ** Different reports, different outcomes *)
Lemma worth_inj c c' : worth c = worth c' -> c = c'.
Proof. by destruct c, c'. Qed.

Lemma meaning_lemma r r' : report_ok r -> report_ok r' -> (meaning r = meaning r' <-> same_tosses r r').
Proof.
  destruct r as [c f|c f w c' f'], r' as [d e|d e w' d' e']; cbn [report_ok meaning same_tosses].
  - intros _ _. split; [|by intros [-> ->]]. intros H. apply (f_equal g_nodes) in H. cbn [g_nodes] in H.
    apply (inj singleton) in H. by apply coin_node_inj in H.
  - intros _ _. split; [|done]. intros H. apply (f_equal g_edges) in H. cbn [g_edges] in H. set_solver +H.
  - intros _ _. split; [|done]. intros H. apply (f_equal g_edges) in H. cbn [g_edges] in H. set_solver +H.
  - intros [Hc _] [Hd _]. split; [|by intros (-> & -> & -> & ->)]. intros H. apply (f_equal g_edges) in H. cbn [g_edges] in H.
    apply (inj singleton) in H. pose proof (f_equal fst H) as H1. pose proof (f_equal snd H) as H2. cbn [fst snd] in H1, H2.
    destruct (pair_same _ _ _ _ H1) as [[E1 E2]|[E1 E2]]; apply coin_node_inj in E1 as [-> ->], E2 as [-> ->]; [done|].
    exfalso. assert (worth d <> worth d') as Hw by (intros Hw; by apply worth_inj in Hw).
    destruct (decide (worth d' < worth d)%Z), (decide (worth d < worth d')%Z); try done; lia.
Qed.

Lemma describe_lemma o i T sp : build_relation_net py_int i T = Ok sp ->
  exists l, describe_relation_net o sp = Ok l /\ NoDup l.*1.*1 /\
    forall g c p, (g, c, p) ∈ l <-> count_of (sp_out sp) g = Ok c /\ p = qdiv c (Z.of_nat (length T)).
Proof.
  intros Hb. pose proof (C62_lemma i T) as H. rewrite Hb in H. destruct H as (rs & Hne & [_ HT] & _ & _ & _ & Hlen).
  assert (Z.of_nat (length T) <> 0%Z) as Hz. { rewrite HT, fmap_length. destruct rs; [done|cbn; lia]. }
  unfold describe_relation_net.
  set (F := fun (_ : oracle) (x : graph * Z) => let '(g, c) := x in
    k ← count_of (sp_out sp) g; p ← py_div k (ss_length (sp_out sp)); Ok (g, c, p)).
  assert (forall o' g c, ss_map (sp_out sp) !! g = Some c -> F o' (g, c) = Ok (g, c, qdiv c (Z.of_nat (length T)))) as HF.
  { intros o' g c Hg. unfold F, count_of. rewrite Hg. cbn [mbind res_bind]. unfold py_div. by rewrite Hlen, bool_decide_eq_false_2. }
  assert (forall l o', (forall g c, (g, c) ∈ l -> ss_map (sp_out sp) !! g = Some c) ->
    map_res F o' l = Ok ((fun gc => (gc, qdiv gc.2 (Z.of_nat (length T)))) <$> l)) as Hm.
  { clearbody F. induction l as [|[g c] l IH]; intros o' Hl; [done|]. cbn [map_res]. rewrite HF by (apply Hl; left).
    cbn [mbind res_bind]. rewrite IH by (intros; apply Hl; by right). done. }
  assert (forall g c, (g, c) ∈ ss_items (sub o 1) (sp_out sp) <-> ss_map (sp_out sp) !! g = Some c) as Hi.
  { intros g c. unfold ss_items. by rewrite elem_of_iter_map. }
  eexists. split; [apply Hm; intros; by apply Hi|]. split.
  - rewrite <- !list_fmap_compose. cbn. unfold ss_items. apply NoDup_fst_iter_map.
  - intros g c p. rewrite elem_of_list_fmap, count_of_lookup. split.
    + intros ([g' c'] & [= -> -> ->] & Hin). by apply Hi in Hin.
    + intros [Hin ->]. exists (g, c). split; [done|]. by apply Hi.
Qed.
End facts.

(** ** A reader of decimal numbers *)
Definition read_decimal (t : list N) : option Z :=
  Some (foldl (fun a c => 10 * a + (Z.of_N c - 48))%Z 0%Z t).

Lemma digit_value (k : N) : (k < 10)%N -> N_of_ascii (pretty_N_char k) = (48 + k)%N.
Proof.
  intros H. assert (k = 0 \/ k = 1 \/ k = 2 \/ k = 3 \/ k = 4 \/ k = 5 \/ k = 6 \/ k = 7 \/ k = 8 \/ k = 9)%N as Hk by lia.
  repeat destruct Hk as [->|Hk]; try reflexivity. subst k. reflexivity.
Qed.

Lemma read_go (x : N) : forall s, foldl (fun a c => 10 * a + (Z.of_N c - 48))%Z 0%Z (lit (pretty_N_go x s))
  = foldl (fun a c => 10 * a + (Z.of_N c - 48))%Z (Z.of_N x) (lit s).
Proof.
  induction (N.lt_wf_0 x) as [x _ IH]; intros s. destruct (decide (x = 0)%N) as [->|Hx].
  - by rewrite pretty_N_go_0.
  - rewrite pretty_N_go_step by lia. rewrite IH by (apply N.div_lt; lia).
    change (lit (String ?c s)) with (N_of_ascii c :: lit s). cbn [foldl]. f_equal. rewrite digit_value by (apply N.mod_lt; lia).
    pose proof (N.div_mod x 10). lia.
Qed.

Lemma read_decimal_ok : reads_numbers read_decimal.
Proof.
  intros z Hz. unfold read_decimal. f_equal. unfold int_text, pretty, pretty_Z. destruct z as [|p|p]; [reflexivity| |lia].
  exact (read_go (N.pos p) "").
Qed.

(** ** For the statements *)
Section more.
Local Existing Instance StrU.
Local Notation txt := (list N).

Lemma net_lemma (py_int : txt -> option Z) (i : nat) (T : list txt) :
  reads_numbers py_int ->
  match build_relation_net py_int i T with
  | Ok sp => exists l, l <> [] /\ all_reports T l /\
      (forall g c, count_of (sp_out sp) g = Ok c <-> reports_of g l <> [] /\ c = Z.of_nat (length (reports_of g l))) /\
      ss_length (sp_out sp) = Z.of_nat (length T) /\
      cp_vars (sp_cp sp) = {["V1" := {["h1"; "t1"]}; "V2" := {["h2"; "t2"]}; "V3" := {["h3"; "t3"]}]} /\
      cp_rels (sp_cp sp) = {["r1"; "r2"]}
  | Err _ => ~ exists l, l <> [] /\ all_reports T l
  end.
Proof.
  intros Hint. pose proof (C62_lemma py_int Hint i T) as H. destruct (build_relation_net py_int i T) as [sp|]; [|exact H].
  destruct H as (l & H1 & H2 & H3 & H4 & H5 & H6). exists l. rewrite H3. split_and!; try done.
Qed.

Lemma coin_text_inj c c' : coin_text c = coin_text c' -> c = c'.
Proof. by destruct c, c'. Qed.
Lemma face_text_inj f f' : face_text f = face_text f' -> f = f'.
Proof. by destruct f, f'. Qed.
Lemma written_inj r r' : report_ok r -> report_ok r' -> written r = written r' -> r = r'.
Proof.
  intros H H' E. apply (f_equal split_spaces) in E. rewrite !split_written in E by done.
  destruct r as [c f|c f w c' f'], r' as [d e|d e w' d' e']; try done.
  - injection E as E1 E2. apply coin_text_inj in E1 as ->. by apply face_text_inj in E2 as ->.
  - injection E as E1 E2 E3 E4 E5. apply coin_text_inj in E1 as ->, E4 as ->. by apply face_text_inj in E2 as ->, E5 as ->; subst.
Qed.
Lemma reports_unique l l' : Forall report_ok l -> Forall report_ok l' -> written <$> l = written <$> l' -> l = l'.
Proof.
  intros H. revert l'. induction H as [|r l Hr Hl IH]; intros l' H' E; destruct l' as [|r' l']; try done.
  inversion H'; subst. injection E as E1 E2. f_equal; [by apply written_inj|by apply IH].
Qed.
End more.
