(** * Facts about Text.v *)

From stdpp Require Import sorting pretty.
From Coq Require Import Ascii String.
From Verif Require Import BaseFacts HistoryFacts FactorFacts.
From Verif Require Export SpecText.

Section facts.
Context {U : Universe}.

Notation txt := (list N).

(** ** Sorting *)

Lemma txt_le_refl a : txt_le a a.
Proof.
  unfold txt_le. induction a as [|x a IH]; [done|]. simpl.
  by rewrite N.ltb_irrefl, N.eqb_refl.
Qed.

Global Instance txt_le_trans : Transitive txt_le.
Proof.
  intros a b c. unfold txt_le. revert b c.
  induction a as [|x a IH]; intros [|y b] [|z c]; simpl; try done.
  destruct (N.ltb_spec x y), (N.ltb_spec y z), (N.ltb_spec x z); try done; try lia;
    destruct (N.eqb_spec x y), (N.eqb_spec y z), (N.eqb_spec x z); try done; try lia.
  apply IH.
Qed.

Global Instance txt_le_antisymm : AntiSymm (=) txt_le.
Proof.
  intros a b. unfold txt_le. revert b.
  induction a as [|x a IH]; intros [|y b]; simpl; try done.
  destruct (N.ltb_spec x y), (N.ltb_spec y x); try done; try lia;
    destruct (N.eqb_spec x y), (N.eqb_spec y x); try done; try lia.
  intros H1 H2. subst. f_equal. by apply IH.
Qed.

Global Instance txt_le_total : Total txt_le.
Proof.
  intros a b. unfold txt_le. revert b.
  induction a as [|x a IH]; intros [|y b]; simpl; try (by left); try (by right).
  destruct (N.ltb_spec x y), (N.ltb_spec y x); try (by left); try (by right); try lia.
  assert (x = y) as -> by lia. rewrite N.eqb_refl. apply IH.
Qed.

Lemma py_sorted_perm l : py_sorted l ≡ₚ l.
Proof. apply merge_sort_Permutation. Qed.

Lemma py_sorted_eq l l' : l ≡ₚ l' -> py_sorted l = py_sorted l'.
Proof.
  intros H. eapply (Sorted_unique txt_le).
  - apply (Sorted_merge_sort txt_le).
  - apply (Sorted_merge_sort txt_le).
  - by rewrite !py_sorted_perm.
Qed.

(** ** Reading text back *)

(** Reading up to a delimiter. *)
Lemma read_to (a b : txt) c d s s' :
  d ∉ a -> c ∉ b -> a ++ c :: s = b ++ d :: s' -> a = b /\ c = d /\ s = s'.
Proof.
  revert b. induction a as [|x a IH]; intros [|y b] Ha Hb H; simpl in H.
  - injection H as H1 H2. by subst.
  - injection H as H1 H2. subst. destruct Hb. left.
  - injection H as H1 H2. subst. destruct Ha. left.
  - injection H as H1 H. subst y. rewrite not_elem_of_cons in Ha, Hb.
    destruct (IH b) as (-> & -> & ->); [tauto|tauto|done|]. done.
Qed.

Lemma read_to1 (a b : txt) c s s' :
  c ∉ a -> c ∉ b -> a ++ c :: s = b ++ c :: s' -> a = b /\ s = s'.
Proof. intros Ha Hb H. destruct (read_to a b c c s s' Ha Hb H) as (-> & _ & ->). done. Qed.

Lemma read_lit (a b : txt) (c : ascii) (t : string) s s' :
  without c a -> without c b -> a ++ lit (String c t) ++ s = b ++ lit (String c t) ++ s' -> a = b /\ s = s'.
Proof.
  intros Ha Hb H. destruct (read_to1 a b (N_of_ascii c) (lit t ++ s) (lit t ++ s') Ha Hb H) as [-> H1].
  apply app_inv_head in H1. done.
Qed.

Lemma read_lit_ne (a b : txt) (c d : ascii) (t t' : string) s s' :
  without d a -> without c b -> a ++ lit (String c t) ++ s = b ++ lit (String d t') ++ s' -> c = d.
Proof.
  intros Ha Hb H.
  destruct (read_to a b (N_of_ascii c) (N_of_ascii d) (lit t ++ s) (lit t' ++ s') Ha Hb H) as (_ & H1 & _).
  rewrite <- (ascii_N_embedding c), <- (ascii_N_embedding d). by rewrite H1.
Qed.

(** A list of self-delimiting items, joined and followed by something that is neither an item nor a
    separator, can be read back. *)
Lemma join_read {A} (f : A -> txt) (P : A -> Prop) (sep T T' : txt) (l l' : list A) :
  (forall x y s s', P x -> P y -> f x ++ s = f y ++ s' -> x = y /\ s = s') ->
  (forall x s, P x -> T <> f x ++ s /\ T' <> f x ++ s) ->
  (forall s, T <> sep ++ s /\ T' <> sep ++ s) ->
  Forall P l -> Forall P l' ->
  join sep (f <$> l) ++ T = join sep (f <$> l') ++ T' -> l = l' /\ T = T'.
Proof.
  intros Hu Hi Hs Hl. revert l'. induction Hl as [|x l Hx Hl IH]; intros l' Hl' H.
  - destruct Hl' as [|y l' Hy Hl']; [done|]. exfalso. simpl in H.
    destruct l'; simpl in H; [exact (proj1 (Hi y _ Hy) H)|]. rewrite <- app_assoc in H. exact (proj1 (Hi y _ Hy) H).
  - destruct Hl' as [|y l' Hy Hl'].
    { exfalso. simpl in H. destruct l; simpl in H; [exact (proj2 (Hi x _ Hx) (eq_sym H))|].
      rewrite <- app_assoc in H. exact (proj2 (Hi x _ Hx) (eq_sym H)). }
    simpl in H.
    assert (forall (z : A) k, (match f <$> k with [] => f z | _ :: _ => f z ++ sep ++ join sep (f <$> k) end)
      = f z ++ match k with [] => [] | _ :: _ => sep ++ join sep (f <$> k) end) as E.
    { intros z [|? ?]; simpl; [by rewrite app_nil_r|done]. }
    rewrite !E in H. rewrite <- !app_assoc in H.
    destruct (Hu _ _ _ _ Hx Hy H) as [-> H2].
    destruct l as [|x2 l], l' as [|y2 l'].
    + done.
    + exfalso. rewrite <- app_assoc in H2. exact (proj1 (Hs _) H2).
    + exfalso. rewrite <- app_assoc in H2. symmetry in H2. exact (proj2 (Hs _) H2).
    + rewrite <- !app_assoc in H2. apply app_inv_head in H2.
      destruct (IH (y2 :: l') Hl' H2) as [-> ->]. done.
Qed.

Lemma fmap_perm_inv {A} (f : A -> txt) (l : list A) k :
  k ≡ₚ f <$> l -> exists l1, k = f <$> l1 /\ l1 ≡ₚ l.
Proof.
  intros H. apply Permutation_map_inv in H. destruct H as (l1 & -> & H1).
  exists l1. split; [done|by symmetry].
Qed.

(** ** Numbers *)

Lemma lit_inj s s' : lit s = lit s' -> s = s'.
Proof.
  unfold lit. revert s'. induction s as [|c s IH]; intros [|c' s'] H; simpl in H; try done.
  injection H as H1 H2. f_equal; [|by apply IH].
  rewrite <- (ascii_N_embedding c), <- (ascii_N_embedding c'). by rewrite H1.
Qed.

Lemma int_text_inj z z' : int_text z = int_text z' -> z = z'.
Proof. intros H. apply lit_inj in H. by apply (inj pretty) in H. Qed.

Definition digit_or_minus (n : N) : Prop := (n = 45 \/ 48 <= n <= 57)%N.

Lemma digit_char (k : N) : (k < 10)%N -> digit_or_minus (N_of_ascii (pretty_N_char k)).
Proof.
  intros Hk. right.
  assert (k = 0 \/ k = 1 \/ k = 2 \/ k = 3 \/ k = 4 \/ k = 5 \/ k = 6 \/ k = 7 \/ k = 8 \/ k = 9)%N as H by lia.
  destruct H as [->|[->|[->|[->|[->|[->|[->|[->|[->| ->]]]]]]]]]; vm_compute; split; discriminate.
Qed.

Lemma pretty_go_chars (x : N) : forall s, Forall digit_or_minus (lit s) -> Forall digit_or_minus (lit (pretty_N_go x s)).
Proof.
  induction (N.lt_wf_0 x) as [x _ IH]. intros s Hs.
  destruct (decide (0 < x)%N) as [Hx|Hx].
  - rewrite pretty_N_go_step by done. apply IH; [apply N.div_lt; lia|].
    unfold lit. simpl. constructor; [|exact Hs]. apply digit_char. apply N.mod_lt. lia.
  - assert (x = 0%N) as -> by lia. by rewrite pretty_N_go_0.
Qed.

Lemma pretty_N_chars (x : N) : Forall digit_or_minus (lit (pretty x)).
Proof.
  unfold pretty, pretty_N. case_decide.
  - constructor; [|constructor]. vm_compute. right. split; discriminate.
  - apply pretty_go_chars. constructor.
Qed.

Lemma int_chars (z : Z) : Forall digit_or_minus (int_text z).
Proof.
  unfold int_text, pretty, pretty_Z. destruct z as [|p|p].
  - constructor; [|constructor]. vm_compute. right. split; discriminate.
  - apply (pretty_N_chars (N.pos p)).
  - unfold lit. simpl. constructor; [by left|]. apply (pretty_N_chars (N.pos p)).
Qed.

Lemma int_free (z : Z) (c : N) : ~ digit_or_minus c -> c ∉ int_text z.
Proof. intros H Hc. by eapply Forall_forall in Hc; [|apply int_chars]. Qed.

Lemma paren_not_digit : ~ digit_or_minus (N_of_ascii ")").
Proof. change (N_of_ascii ")") with 41%N. intros [H|[H1 H2]]; lia. Qed.

Lemma newline_not_digit : ~ digit_or_minus 10%N.
Proof. intros [H|[H1 H2]]; lia. Qed.

(** ** Order independence *)

Section texts.
Context (sv : Var -> txt) (sx : Val -> txt) (sr : Rel -> txt).

Notation node_text := (node_text sv sx).
Notation rel_text := (rel_text sv sr).
Notation edge_text := (edge_text sv sx sr).
Notation edge_texts := (edge_texts sv sx sr).
Notation default_name := (default_name sv sx sr).
Notation text_view := (text_view sv sx sr).

Lemma edge_text_det o o' e : edge_text o e = edge_text o' e.
Proof.
  unfold Text.edge_text.
  rewrite (py_sorted_eq _ (node_text <$> iter_set o' (endpoints e))); [done|].
  apply fmap_Permutation. by rewrite !iter_set_perm.
Qed.

Lemma imap_const {A B} (f : nat -> A -> B) (g : A -> B) (l : list A) :
  (forall i x, f i x = g x) -> imap f l = g <$> l.
Proof. intros H. rewrite <- (imap_const g l). apply imap_ext. intros i x _. apply H. Qed.

Lemma edge_texts_eq o o' es : edge_texts o es = edge_text o' <$> iter_set o es.
Proof. apply imap_const. intros i e. apply edge_text_det. Qed.

Lemma edge_texts_perm o o' es : edge_texts o es ≡ₚ edge_texts o' es.
Proof.
  rewrite (edge_texts_eq o o), (edge_texts_eq o' o).
  apply fmap_Permutation. by rewrite !iter_set_perm.
Qed.

Lemma default_name_det o o' g : default_name o g = default_name o' g.
Proof.
  unfold Text.default_name. f_equal. f_equal. f_equal. apply py_sorted_eq.
  destruct (bool_decide _); [apply edge_texts_perm|].
  apply fmap_Permutation. by rewrite !iter_set_perm.
Qed.

Lemma py_sorted_single x : py_sorted [x] = [x].
Proof. apply Permutation_singleton_r. apply py_sorted_perm. Qed.

Lemma text_view_name cp o o' g : wf_graph cp g -> text_view o g = default_name o' g.
Proof.
  intros Hg. rewrite (default_name_det o' o). unfold Text.text_view, Text.default_name.
  case_bool_decide as He; [done|].
  assert (g_edges g = ∅) as He'. { destruct (decide (g_edges g = ∅)); [done|]. by destruct He. }
  destruct (decide (g_nodes g = ∅)) as [->|Hn].
  { rewrite iter_set_empty. done. }
  destruct (wf_single_node cp g Hg He' Hn) as [n ->].
  rewrite iter_set_singleton. cbn [fmap list_fmap]. by rewrite py_sorted_single.
Qed.

Lemma text_view_det cp o o' g : wf_graph cp g -> text_view o g = text_view o' g.
Proof. intros H. by rewrite (text_view_name cp o o g H), (text_view_name cp o' o g H). Qed.

Lemma set_repr_det o o' ss : set_repr sv sx sr o ss = set_repr sv sx sr o' ss.
Proof.
  unfold set_repr. do 4 f_equal. apply py_sorted_eq.
  rewrite (imap_const _ (fun '(g, c) => lit "    " ++ default_name o g ++ lit ": " ++ int_text c) (ss_items o ss)).
  2: { intros i [g c]. by rewrite (default_name_det _ o). }
  rewrite (imap_const _ (fun '(g, c) => lit "    " ++ default_name o g ++ lit ": " ++ int_text c) (ss_items o' ss)).
  2: { intros i [g c]. by rewrite (default_name_det _ o). }
  apply fmap_Permutation. unfold ss_items. by rewrite !iter_map_perm.
Qed.

Lemma print_samples_det ls o o' ss : print_samples sv sx sr ls o ss = print_samples sv sx sr ls o' ss.
Proof.
  unfold print_samples. f_equal. apply py_sorted_eq.
  rewrite (imap_const _ (fun '(g, c) => default_name o g ++ lit "(" ++ int_text c ++ lit ")") (ss_items o ss)).
  2: { intros i [g c]. by rewrite (default_name_det _ o). }
  rewrite (imap_const _ (fun '(g, c) => default_name o g ++ lit "(" ++ int_text c ++ lit ")") (ss_items o' ss)).
  2: { intros i [g c]. by rewrite (default_name_det _ o). }
  apply fmap_Permutation. unfold ss_items. by rewrite !iter_map_perm.
Qed.

(** ** Reading samples back *)

Context (cp : provider) (R : readable sv sx sr cp).

Lemma declared_parts n : declared cp n -> declared_var cp n.1 /\ declared_val cp n.2.
Proof. intros (X & H & Hx). split; [by exists X|by exists n.1, X]. Qed.

Lemma node_read n n' s s' :
  declared cp n -> declared cp n' -> node_text n ++ s = node_text n' ++ s' -> n = n' /\ s = s'.
Proof.
  intros Hn Hn' H.
  destruct (declared_parts n Hn) as [V X], (declared_parts n' Hn') as [V' X'].
  unfold Text.node_text in H. rewrite <- !app_assoc in H.
  apply app_inv_head in H.
  apply read_lit in H; [|apply (rd_var_free _ _ _ _ R _ V)|apply (rd_var_free _ _ _ _ R _ V')].
  destruct H as [Hv H].
  apply read_lit in H; [|apply (rd_val_free _ _ _ _ R _ X)|apply (rd_val_free _ _ _ _ R _ X')].
  destruct H as [Hx H]. split; [|done].
  destruct n, n'. simpl in *. f_equal; [by apply (rd_var _ _ _ _ R)|by apply (rd_val _ _ _ _ R)].
Qed.

Lemma has_var_declared X v : (forall n, n ∈ X -> declared cp n) -> has_var X v -> declared_var cp v.
Proof. intros H (x & Hx). destruct (H _ Hx) as (Y & HY & _). by exists Y. Qed.

Lemma rel_read X X' r r' s s' :
  (forall n, n ∈ X -> declared cp n) -> (forall n, n ∈ X' -> declared cp n) ->
  rel_legal cp X r -> rel_legal cp X' r' ->
  rel_text r ++ lit "}--" ++ s = rel_text r' ++ lit "}--" ++ s' -> r = r' /\ s = s'.
Proof.
  intros HX HX' Hr Hr' H.
  destruct r as [r|a b r], r' as [r'|a' b' r']; cbn [rel_legal Text.rel_text] in Hr, Hr', H.
  - destruct (rd_rel_free _ _ _ _ R _ Hr) as [F1 F2], (rd_rel_free _ _ _ _ R _ Hr') as [F1' F2'].
    apply read_lit in H; [|exact F2|exact F2']. destruct H as [E H].
    apply (rd_rel _ _ _ _ R) in E; [|done|done]. by subst r'.
  - exfalso. destruct Hr' as [Hr' _].
    destruct (rd_rel_free _ _ _ _ R _ Hr) as [F1 F2], (rd_rel_free _ _ _ _ R _ Hr') as [F1' F2'].
    rewrite <- !app_assoc in H. apply read_lit_ne in H; [discriminate H|exact F1|exact F2'].
  - exfalso. destruct Hr as [Hr _].
    destruct (rd_rel_free _ _ _ _ R _ Hr) as [F1 F2], (rd_rel_free _ _ _ _ R _ Hr') as [F1' F2'].
    rewrite <- !app_assoc in H. apply read_lit_ne in H; [discriminate H|exact F2|exact F1'].
  - destruct Hr as (Hr & Va & Vb), Hr' as (Hr' & Va' & Vb').
    apply (has_var_declared _ _ HX) in Va, Vb. apply (has_var_declared _ _ HX') in Va', Vb'.
    destruct (rd_rel_free _ _ _ _ R _ Hr) as [F1 F2], (rd_rel_free _ _ _ _ R _ Hr') as [F1' F2'].
    rewrite <- !app_assoc in H.
    apply read_lit in H; [|exact F1|exact F1']. destruct H as [E H].
    apply (rd_rel _ _ _ _ R) in E; [|done|done]. subst r'.
    apply read_lit in H; [|apply (rd_var_free _ _ _ _ R _ Va)|apply (rd_var_free _ _ _ _ R _ Va')].
    destruct H as [E H]. apply (rd_var _ _ _ _ R) in E; [|done|done]. subst a'.
    apply read_lit in H; [|apply (rd_var_free _ _ _ _ R _ Vb)|apply (rd_var_free _ _ _ _ R _ Vb')].
    destruct H as [E H]. apply (rd_var _ _ _ _ R) in E; [|done|done]. subst b'.
    apply app_inv_head in H. done.
Qed.

Lemma edge_form o e :
  edge_legal cp e -> exists x y, e.1 = {[x; y]} /\ declared cp x /\ declared cp y /\
    edge_text o e = node_text x ++ lit "--{" ++ rel_text e.2 ++ lit "}--" ++ node_text y.
Proof.
  intros ((x & y & E & N) & D & _).
  assert (declared cp x /\ declared cp y) as [Dx Dy].
  { split; apply D; rewrite E; apply elem_of_union; [left|right]; by apply elem_of_singleton. }
  assert (x <> y) as N' by congruence.
  assert (py_sorted (node_text <$> iter_set o (endpoints e)) ≡ₚ [node_text x; node_text y]) as P.
  { rewrite py_sorted_perm. unfold endpoints. rewrite E.
    rewrite (iter_set_perm o), elements_union_singleton.
    - by rewrite elements_singleton.
    - by rewrite elem_of_singleton. }
  unfold Text.edge_text. symmetry in P. apply Permutation_length_2_inv in P. destruct P as [->| ->].
  - exists x, y. done.
  - exists y, x. rewrite (comm_L (∪)). done.
Qed.

Lemma edge_read o o' e e' s s' :
  edge_legal cp e -> edge_legal cp e' -> edge_text o e ++ s = edge_text o' e' ++ s' -> e = e' /\ s = s'.
Proof.
  intros He He' H.
  destruct (edge_form o e He) as (x & y & E & Dx & Dy & Et). rewrite Et in H.
  destruct (edge_form o' e' He') as (x' & y' & E' & Dx' & Dy' & Et'). rewrite Et' in H.
  rewrite <- !app_assoc in H.
  destruct (node_read _ _ _ _ Dx Dx' H) as [-> H1].
  apply app_inv_head in H1.
  destruct He as (_ & D & L), He' as (_ & D' & L').
  destruct (rel_read _ _ _ _ _ _ D D' L L' H1) as [Er H2].
  destruct (node_read _ _ _ _ Dy Dy' H2) as [-> H3].
  split; [|done]. destruct e, e'. simpl in *. congruence.
Qed.

(** The sorted texts of a set of legal edges are the texts of its edges in some order. *)
Lemma sorted_edges o o' es :
  (forall e, e ∈ es -> edge_legal cp e) ->
  exists l, py_sorted (edge_texts o es) = edge_text o' <$> l /\ l ≡ₚ elements es /\ Forall (edge_legal cp) l.
Proof.
  intros H. rewrite (edge_texts_eq o o').
  destruct (fmap_perm_inv (edge_text o') (iter_set o es) _ (py_sorted_perm _)) as (l & E & P).
  exists l. split; [done|]. rewrite iter_set_perm in P. split; [done|].
  apply Forall_forall. intros e He. apply H. rewrite P in He. by apply elem_of_elements in He.
Qed.

Lemma edge_text_head o e s : edge_legal cp e -> exists u, edge_text o e ++ s = chr "(" :: u.
Proof.
  intros He. destruct (edge_form o e He) as (x & y & _ & _ & _ & ->). by eexists.
Qed.

Lemma nonempty_list (es : gset edge) (l : list edge) :
  es <> ∅ -> l ≡ₚ elements es -> exists e l', l = e :: l'.
Proof.
  intros Hn P. destruct l as [|e l']; [|eauto]. exfalso. apply Hn.
  symmetry in P. apply Permutation_nil_r in P. by apply elements_empty_iff in P; apply leibniz_equiv.
Qed.

Lemma graph_read o o' g g' s s' :
  wf_graph cp g -> wf_graph cp g' ->
  default_name o g ++ s = default_name o' g' ++ s' -> g = g' /\ s = s'.
Proof.
  intros Hg Hg'. rewrite (default_name_det o' o). intros H.
  assert (forall h, wf_graph cp h ->
    (exists l, g_edges h <> ∅ /\ l ≡ₚ elements (g_edges h) /\ Forall (edge_legal cp) l /\
       default_name o h = lit "{" ++ join (lit "; ") (edge_text o <$> l) ++ lit "}") \/
    (exists n, h = Graph {[n]} ∅ /\ declared cp n /\ default_name o h = lit "{" ++ node_text n ++ lit "}") \/
    (h = Graph ∅ ∅ /\ default_name o h = lit "{" ++ lit "}")) as Hform.
  { intros h Hh. unfold Text.default_name. case_bool_decide as He.
    - left. destruct (sorted_edges o o (g_edges h) (wf_edges _ _ Hh)) as (l & E & P & F).
      exists l. rewrite E. done.
    - assert (g_edges h = ∅) as He'. { destruct (decide (g_edges h = ∅)); [done|]. by destruct He. }
      right. destruct (decide (g_nodes h = ∅)) as [Hn|Hn].
      + right. rewrite Hn, iter_set_empty. destruct h. simpl in *. by subst.
      + left. destruct (wf_single_node cp h Hh He' Hn) as [n En]. exists n.
        split; [destruct h; simpl in *; by subst|].
        split; [apply (wf_nodes _ _ Hh); rewrite En; by apply elem_of_singleton|].
        rewrite En, iter_set_singleton. cbn [fmap list_fmap]. by rewrite py_sorted_single. }
  destruct (Hform g Hg) as [(l & Hne & P & F & E)|[(n & -> & D & E)|[-> E]]]; rewrite E in H;
    destruct (Hform g' Hg') as [(l' & Hne' & P' & F' & E')|[(n' & -> & D' & E')|[-> E']]]; rewrite E' in H;
    rewrite <- !app_assoc in H; apply app_inv_head in H.
  - destruct (join_read (edge_text o) (edge_legal cp) (lit "; ") (lit "}" ++ s) (lit "}" ++ s') l l') as [El Es].
    + intros x y t t' Hx Hy. by apply edge_read.
    + intros x t Hx. destruct (edge_text_head o x t Hx) as [u ->]. split; intros Hu; discriminate Hu.
    + intros t. split; intros Hu; discriminate Hu.
    + done.
    + done.
    + done.
    + apply app_inv_head in Es. split; [|done]. subst l'.
      apply (C10_inj_lemma o o cp); [done|done|]. unfold edges_set_view.
      rewrite !bool_decide_true by done. f_equal.
      apply set_eq. intros e. rewrite <- !elem_of_elements, <- P, <- P'. done.
  - exfalso. destruct (nonempty_list _ l Hne P) as (e & k & ->).
    inversion F as [|? ? He _]; subst. destruct (edge_form o e He) as (x & y & _ & Dx & _ & Et).
    cbn [fmap list_fmap join] in H.
    assert (exists u, join (lit "; ") (edge_text o e :: (edge_text o <$> k)) ++ lit "}" ++ s = node_text x ++ lit "--{" ++ u) as [u Hu].
    { cbn [join]. rewrite Et. destruct (edge_text o <$> k); rewrite <- ?app_assoc; by eexists. }
    cbn [join] in Hu. rewrite Hu in H. destruct (node_read _ _ _ _ Dx D' H) as [_ H']. discriminate H'.
  - exfalso. destruct (nonempty_list _ l Hne P) as (e & k & ->).
    inversion F as [|? ? He _]; subst. destruct (edge_form o e He) as (x & y & _ & Dx & _ & Et).
    cbn [fmap list_fmap join] in H. rewrite Et in H. destruct (edge_text o <$> k); discriminate H.
  - exfalso. destruct (nonempty_list _ l' Hne' P') as (e & k & ->).
    inversion F' as [|? ? He _]; subst. destruct (edge_form o e He) as (x & y & _ & Dx & _ & Et).
    cbn [fmap list_fmap join] in H.
    assert (exists u, join (lit "; ") (edge_text o e :: (edge_text o <$> k)) ++ lit "}" ++ s' = node_text x ++ lit "--{" ++ u) as [u Hu].
    { cbn [join]. rewrite Et. destruct (edge_text o <$> k); rewrite <- ?app_assoc; by eexists. }
    cbn [join] in Hu. rewrite Hu in H. destruct (node_read _ _ _ _ D Dx H) as [_ H']. discriminate H'.
  - destruct (node_read _ _ _ _ D D' H) as [-> H']. apply app_inv_head in H'. done.
  - exfalso. discriminate H.
  - exfalso. destruct (nonempty_list _ l' Hne' P') as (e & k & ->).
    inversion F' as [|? ? He _]; subst. destruct (edge_form o e He) as (x & y & _ & Dx & _ & Et).
    cbn [fmap list_fmap join] in H. rewrite Et in H. destruct (edge_text o <$> k); discriminate H.
  - exfalso. discriminate H.
  - apply app_inv_head in H. done.
Qed.

Theorem name_inj o o' g g' :
  wf_graph cp g -> wf_graph cp g' -> default_name o g = default_name o' g' -> g = g'.
Proof.
  intros Hg Hg' H. apply (graph_read o o' g g' [] [] Hg Hg'). by rewrite !app_nil_r.
Qed.

(** ** Sets of samples *)

Definition entry (o : oracle) (gc : graph * Z) : txt := default_name o gc.1 ++ lit "(" ++ int_text gc.2 ++ lit ")".

Lemma entry_read o (x y : graph * Z) s s' :
  wf_graph cp x.1 -> wf_graph cp y.1 -> entry o x ++ s = entry o y ++ s' -> x = y /\ s = s'.
Proof.
  intros Hx Hy H. unfold entry in H. rewrite <- !app_assoc in H.
  destruct (graph_read _ _ _ _ _ _ Hx Hy H) as [E H1]. apply app_inv_head in H1.
  apply read_lit in H1; [|apply int_free, paren_not_digit..].
  destruct H1 as [Ez ->]. apply int_text_inj in Ez. destruct x, y. simpl in *. by subst.
Qed.

Lemma items_eq (ss ss' : samples) l :
  l ≡ₚ map_to_list (ss_map ss) -> l ≡ₚ map_to_list (ss_map ss') -> ss_map ss = ss_map ss'.
Proof.
  intros P P'. rewrite <- (list_to_map_to_list (ss_map ss)), <- (list_to_map_to_list (ss_map ss')).
  rewrite P in P'. apply list_to_map_proper; [|done]. apply NoDup_fst_map_to_list.
Qed.

Theorem print_samples_inj ls o o' (ss ss' : samples) :
  ls <> [] ->
  (forall g c, ss_map ss !! g = Some c -> wf_graph cp g) ->
  (forall g c, ss_map ss' !! g = Some c -> wf_graph cp g) ->
  print_samples sv sx sr ls o ss = print_samples sv sx sr ls o' ss' -> ss_map ss = ss_map ss'.
Proof.
  intros Hls W W' H. rewrite (print_samples_det ls o' o) in H.
  assert (forall t : samples, (forall g c, ss_map t !! g = Some c -> wf_graph cp g) ->
    exists l, print_samples sv sx sr ls o t = join ls (entry o <$> l) /\ l ≡ₚ map_to_list (ss_map t) /\
      Forall (fun gc => wf_graph cp gc.1) l) as F.
  { intros t Wt. unfold print_samples.
    rewrite (imap_const _ (entry o) (ss_items o t)).
    2: { intros i [g c]. unfold entry. cbn [fst snd]. by rewrite (default_name_det _ o). }
    destruct (fmap_perm_inv (entry o) (ss_items o t) _ (py_sorted_perm _)) as (l & E & P).
    exists l. rewrite E. split; [done|]. unfold ss_items in P. rewrite iter_map_perm in P.
    split; [done|]. apply Forall_forall. intros [g c] Hin. rewrite P, elem_of_map_to_list in Hin. by eapply Wt. }
  destruct (F ss W) as (l & E & P & Fl), (F ss' W') as (l' & E' & P' & Fl').
  rewrite E, E' in H.
  destruct (join_read (entry o) (fun gc => wf_graph cp gc.1) ls [] [] l l') as [-> _].
  - intros x y s s'. apply entry_read.
  - intros x s _. split; intros Hu; discriminate Hu.
  - intros s. split; intros Hu; destruct ls; done.
  - done.
  - done.
  - by rewrite !app_nil_r.
  - by eapply items_eq.
Qed.

Definition line (o : oracle) (gc : graph * Z) : txt := lit "    " ++ default_name o gc.1 ++ lit ": " ++ int_text gc.2.

Lemma line_read o (x y : graph * Z) s s' :
  wf_graph cp x.1 -> wf_graph cp y.1 -> (line o x ++ newline) ++ s = (line o y ++ newline) ++ s' -> x = y /\ s = s'.
Proof.
  intros Hx Hy H. unfold line in H. rewrite <- !app_assoc in H. apply app_inv_head in H.
  destruct (graph_read _ _ _ _ _ _ Hx Hy H) as [E H1]. apply app_inv_head in H1.
  change (int_text x.2 ++ 10%N :: s = int_text y.2 ++ 10%N :: s') in H1.
  apply read_to1 in H1; [|apply int_free, newline_not_digit..].
  destruct H1 as [Ez ->]. apply int_text_inj in Ez. destruct x, y. simpl in *. by subst.
Qed.

Lemma join_newline l : l <> [] -> join newline l ++ newline = join [] ((fun x => x ++ newline) <$> l).
Proof.
  induction l as [|x l IH]; [done|]. intros _. destruct l as [|y l]; [done|].
  cbn [fmap list_fmap] in *. cbn [join]. cbn [join] in IH. rewrite <- IH by done.
  by rewrite <- !app_assoc.
Qed.

Theorem set_repr_inj o o' (ss ss' : samples) :
  (forall g c, ss_map ss !! g = Some c -> wf_graph cp g) ->
  (forall g c, ss_map ss' !! g = Some c -> wf_graph cp g) ->
  set_repr sv sx sr o ss = set_repr sv sx sr o' ss' -> ss_map ss = ss_map ss'.
Proof.
  intros W W' H. rewrite (set_repr_det o' o) in H.
  assert (forall t : samples, (forall g c, ss_map t !! g = Some c -> wf_graph cp g) ->
    exists l, set_repr sv sx sr o t = lit "{" ++ newline ++ join newline (line o <$> l) ++ newline ++ lit "}" /\
      l ≡ₚ map_to_list (ss_map t) /\ Forall (fun gc => wf_graph cp gc.1) l) as F.
  { intros t Wt. unfold set_repr.
    rewrite (imap_const _ (line o) (ss_items o t)).
    2: { intros i [g c]. unfold line. cbn [fst snd]. by rewrite (default_name_det _ o). }
    destruct (fmap_perm_inv (line o) (ss_items o t) _ (py_sorted_perm _)) as (l & E & P).
    exists l. rewrite E. split; [done|]. unfold ss_items in P. rewrite iter_map_perm in P.
    split; [done|]. apply Forall_forall. intros [g c] Hin. rewrite P, elem_of_map_to_list in Hin. by eapply Wt. }
  destruct (F ss W) as (l & E & P & Fl), (F ss' W') as (l' & E' & P' & Fl').
  rewrite E, E' in H. apply app_inv_head in H. apply app_inv_head in H.
  assert (l = l') as <-; [|by eapply items_eq].
  assert (forall k, k <> [] -> join newline (line o <$> k) ++ newline ++ lit "}"
    = join [] ((fun x => line o x ++ newline) <$> k) ++ lit "}") as J.
  { intros k Hk. rewrite (app_assoc _ newline), join_newline; [|by destruct k].
    by rewrite <- list_fmap_compose. }
  assert (forall z k, join [] ((fun x => line o x ++ newline) <$> z :: k)
    = (line o z ++ newline) ++ join [] ((fun x => line o x ++ newline) <$> k)) as J1.
  { intros z k. destruct k; cbn [fmap list_fmap join]; [by rewrite app_nil_r|done]. }
  destruct (decide (l = [])) as [->|Hl], (decide (l' = [])) as [->|Hl'].
  - done.
  - exfalso. rewrite (J l' Hl') in H. destruct l' as [|x l']; [done|].
    rewrite (J1 x l') in H. unfold line in H. discriminate H.
  - exfalso. rewrite (J l Hl) in H. destruct l as [|x l]; [done|].
    rewrite (J1 x l) in H. unfold line in H. discriminate H.
  - rewrite (J l Hl), (J l' Hl') in H. clear J E E' P P' F.
    revert l' Hl' Fl' H. induction Fl as [|x l Hx Fl IH]; intros l' Hl' Fl' H; [done|].
    destruct Fl' as [|y l' Hy Fl']; [done|].
    rewrite (J1 x l), (J1 y l') in H. rewrite <- !app_assoc in H.
    rewrite (app_assoc (line o x)), (app_assoc (line o y)) in H.
    destruct (line_read o x y _ _ Hx Hy H) as [-> H1]. f_equal.
    destruct l as [|x2 l], l' as [|y2 l'].
    + done.
    + exfalso. rewrite (J1 y2 l') in H1. unfold line in H1. discriminate H1.
    + exfalso. rewrite (J1 x2 l) in H1. unfold line in H1. discriminate H1.
    + apply IH; [done|done|done|done].
Qed.

End texts.

End facts.
