(** * PacmanLayout: reading a layout of the demo game *)

From Coq Require Import ZArith Lia Ascii.
From stdpp Require Import base list numbers option sets sorting strings.
From Verif Require Import SpecPacman DemoGridFacts.

Definition agent_entry (text : list (list ascii)) (yx : Z * Z) : option (Z * (Z * Z)) :=
  c ← char_at text (yx.2, yx.1); n ← agent_number c; Some (n, (yx.2, yx.1)).

(** The reading after the cells [L] (rows before columns). *)
Record read_inv (text : list (list ascii)) (w : nat) (L : list (Z * Z)) (r : reading) : Prop := {
  ri_walls : rectangular (r_walls r) /\ gr_width (r_walls r) = Z.of_nat w /\ gr_height (r_walls r) = Z.of_nat (length text);
  ri_wall : forall x y c, char_at text (x, y) = Some c -> (x < Z.of_nat w)%Z ->
    cell (r_walls r) (x, y) = Some (bool_decide ((y, x) ∈ L /\ c = "%"%char));
  ri_foods : rectangular (r_food r) /\ gr_width (r_food r) = Z.of_nat w /\ gr_height (r_food r) = Z.of_nat (length text);
  ri_food : forall x y c, char_at text (x, y) = Some c -> (x < Z.of_nat w)%Z ->
    cell (r_food r) (x, y) = Some (bool_decide ((y, x) ∈ L /\ c = "."%char));
  ri_capsules : r_capsules r = (fun yx => (yx.2, yx.1)) <$> filter (fun yx => char_at text (yx.2, yx.1) = Some "o"%char) L;
  ri_agents : r_agents r = omap (agent_entry text) L;
  ri_ghosts : r_ghosts r = Z.of_nat (length (filter (fun n => n.1 <> 0%Z) (r_agents r)))
}.

Lemma char_at_Some text x y c :
  char_at text (x, y) = Some c <->
  (0 <= x)%Z /\ (0 <= y < Z.of_nat (length text))%Z /\
  exists row, text !! (length text - 1 - Z.to_nat y) = Some row /\ row !! Z.to_nat x = Some c.
Proof.
  unfold char_at. cbn [fst snd]. destruct (Z.leb_spec 0 x), (Z.leb_spec 0 y), (Z.ltb_spec y (Z.of_nat (length text))); cbn [andb].
  1: rewrite bind_Some. all: split; intros Hx; try done; try lia.
  by destruct Hx as (_ & _ & ?).
Qed.

(** One step of the loop. *)
Definition read_step (text : list (list ascii)) (r : reading) (yx : Z * Z) : dres reading :=
  let '(y, x) := yx in
  row ← py_get text (Z.of_nat (length text) - 1 - y); c ← py_get row x; process_char r x y c.

Lemma read_char text x y :
  (0 <= y < Z.of_nat (length text))%Z -> (0 <= x)%Z ->
  exists row, py_get text (Z.of_nat (length text) - 1 - y) = DOk row /\
    py_get row x = match char_at text (x, y) with Some c => DOk c | None => DErr DIndexError end.
Proof.
  intros Hy Hx. destruct (lookup_lt_is_Some_2 text (length text - 1 - Z.to_nat y)) as [row Hr]; [lia|].
  exists row. split.
  - apply py_get_lookup; [lia|]. rewrite <- Hr. f_equal. lia.
  - unfold char_at. cbn [fst snd]. destruct (Z.leb_spec 0 x), (Z.leb_spec 0 y), (Z.ltb_spec y (Z.of_nat (length text))); try lia. cbn [andb].
    rewrite Hr. simpl. destruct (row !! Z.to_nat x) as [c|] eqn:E; [by apply py_get_lookup|].
    unfold py_get, py_index. apply lookup_ge_None in E. destruct (Z.ltb_spec x 0); [lia|].
    destruct (Z.leb_spec 0 x), (Z.ltb_spec x (Z.of_nat (length row))); lia || done.
Qed.

Lemma ascii_eqb_decide (a b : ascii) : (a =? b)%char = bool_decide (a = b).
Proof. destruct (Ascii.eqb_spec a b); [by rewrite bool_decide_true|by rewrite bool_decide_false]. Qed.

Lemma wall_step (text : list (list ascii)) w L (g : grid) x y c (ch : ascii) :
  rectangular g /\ gr_width g = Z.of_nat w /\ gr_height g = Z.of_nat (length text) ->
  (forall x y c, char_at text (x, y) = Some c -> (x < Z.of_nat w)%Z -> cell g (x, y) = Some (bool_decide ((y, x) ∈ L /\ c = ch))) ->
  char_at text (x, y) = Some c -> (x < Z.of_nat w)%Z -> 
  exists g', (if decide (c = ch) then grid_set g x y true = DOk g' else g' = g) /\
    (rectangular g' /\ gr_width g' = Z.of_nat w /\ gr_height g' = Z.of_nat (length text)) /\
    (forall x' y' c', char_at text (x', y') = Some c' -> (x' < Z.of_nat w)%Z ->
       cell g' (x', y') = Some (bool_decide ((y', x') ∈ L ++ [(y, x)] /\ c' = ch))).
Proof.
  intros (R & W & H) Hcell Hc Hx. destruct (decide (c = ch)) as [->|Hne].
  - destruct (grid_set_cell g x y _ true (Hcell _ _ _ Hc Hx)) as (g' & Eg & W' & H' & R' & C & _).
    exists g'. split_and!; [done|by apply R'|congruence..|]. intros x' y' c' Hc' Hx'. rewrite C.
    destruct (decide ((x', y') = (x, y))) as [E|E].
    + simplify_eq. f_equal. symmetry. apply bool_decide_true. split; [|congruence]. set_solver.
    + rewrite (Hcell _ _ _ Hc' Hx'). f_equal. apply bool_decide_ext. rewrite elem_of_app, elem_of_list_singleton.
      split; intros [? ?]; (split; [|done]); [tauto|]. destruct H0 as [?|?]; [done|congruence].
  - exists g. split_and!; try done. intros x' y' c' Hc' Hx'. rewrite (Hcell _ _ _ Hc' Hx'). f_equal. apply bool_decide_ext.
    rewrite elem_of_app, elem_of_list_singleton.
    split; intros [? ?]; (split; [|done]); [tauto|]. destruct H0 as [?|?]; [done|]. simplify_eq.
Qed.

Lemma read_step_inv text w L r x y c :
  read_inv text w L r -> char_at text (x, y) = Some c -> (x < Z.of_nat w)%Z ->
  exists r', read_step text r (y, x) = DOk r' /\ read_inv text w (L ++ [(y, x)]) r'.
Proof.
  intros [IW Iw IF If IC IA IG] Hc Hx. pose proof Hc as (Hx0 & Hy & _)%char_at_Some.
  destruct (read_char text x y) as (row & Hrow & Hch); [done..|]. unfold read_step. rewrite Hrow. cbn [mbind dres_bind].
  rewrite Hch, Hc. cbn [mbind dres_bind].
  destruct (wall_step text w L (r_walls r) x y c "%"%char) as (gw & Ew & Hgw & Hgw'); try done.
  destruct (wall_step text w L (r_food r) x y c "."%char) as (gf & Ef & Hgf & Hgf'); try done.
  assert (Hca : (fun yx : Z * Z => (yx.2, yx.1)) <$> filter (fun yx => char_at text (yx.2, yx.1) = Some "o"%char) (L ++ [(y, x)])
    = r_capsules r ++ (if decide (c = "o"%char) then [(x, y)] else [])).
  { rewrite list.filter_app, fmap_app, <- IC. f_equal. rewrite filter_cons. cbn [fst snd].
    destruct (decide (c = "o"%char)) as [->|Hne].
    - rewrite decide_True by done. done.
    - rewrite decide_False by congruence. done. }
  assert (Hag : omap (agent_entry text) (L ++ [(y, x)])
    = r_agents r ++ match agent_number c with Some n => [(n, (x, y))] | None => [] end).
  { rewrite omap_app, <- IA. f_equal. simpl. unfold agent_entry. cbn [fst snd]. rewrite Hc. simpl. by destruct (agent_number c). }
  destruct r as [rw rf rc ra rg]. cbn [r_walls r_food r_capsules r_agents r_ghosts] in *.
  unfold process_char. rewrite !ascii_eqb_decide.
  assert (Hfin : forall gw' gf' rc' ra' rg',
    gw' = gw -> gf' = gf -> rc' = rc ++ (if decide (c = "o"%char) then [(x, y)] else []) ->
    ra' = ra ++ match agent_number c with Some n => [(n, (x, y))] | None => [] end ->
    rg' = (rg + match agent_number c with Some n => if decide (n = 0) then 0 else 1 | None => 0 end)%Z ->
    read_inv text w (L ++ [(y, x)]) (Reading gw' gf' rc' ra' rg')).
  { intros gw' gf' rc' ra' rg' -> -> -> -> ->. split; cbn [r_walls r_food r_capsules r_agents r_ghosts]; try done.
    rewrite list.filter_app, app_length, Nat2Z.inj_add, <- IG. f_equal. destruct (agent_number c) as [n|]; [|done].
    rewrite filter_cons. simpl. destruct (decide (n = 0%Z)) as [->|Hn].
    - by rewrite decide_False by (intros Hq; by apply Hq).
    - by rewrite decide_True. }
  clear Hca Hag.
  destruct (bool_decide_reflect (c = "%"%char)) as [->|N0].
  { rewrite decide_True in Ew by done. rewrite Ew. cbn [mbind dres_bind]. eexists. split; [reflexivity|]. rewrite decide_False in Ef by done.
    apply Hfin; try done; simpl; by rewrite ?app_nil_r || lia. }
  rewrite decide_False in Ew by done.
  destruct (bool_decide_reflect (c = "."%char)) as [->|N1].
  { rewrite decide_True in Ef by done. rewrite Ef. cbn [mbind dres_bind]. eexists. split; [reflexivity|].
    apply Hfin; try done; simpl; by rewrite ?app_nil_r || lia. }
  rewrite decide_False in Ef by done.
  destruct (bool_decide_reflect (c = "o"%char)) as [->|N2].
  { eexists. split; [reflexivity|]. apply Hfin; try done; simpl; by rewrite ?app_nil_r || lia. }
  rewrite (decide_False (P := c = "o"%char)) in Hfin by done.
  destruct (bool_decide_reflect (c = "P"%char)) as [->|N3].
  { eexists. split; [reflexivity|]. apply Hfin; try done; simpl; by rewrite ?app_nil_r || lia. }
  destruct (bool_decide_reflect (c = "G"%char)) as [->|N4].
  { eexists. split; [reflexivity|]. apply Hfin; try done; simpl; by rewrite ?app_nil_r || lia. }
  destruct (bool_decide_reflect (c = "1"%char)) as [->|N5].
  { eexists. split; [reflexivity|]. apply Hfin; try done; simpl; by rewrite ?app_nil_r || lia. }
  destruct (bool_decide_reflect (c = "2"%char)) as [->|N6].
  { eexists. split; [reflexivity|]. apply Hfin; try done; simpl; by rewrite ?app_nil_r || lia. }
  destruct (bool_decide_reflect (c = "3"%char)) as [->|N7].
  { eexists. split; [reflexivity|]. apply Hfin; try done; simpl; by rewrite ?app_nil_r || lia. }
  destruct (bool_decide_reflect (c = "4"%char)) as [->|N8].
  { eexists. split; [reflexivity|]. apply Hfin; try done; simpl; by rewrite ?app_nil_r || lia. }
  assert (Ea : agent_number c = None).
  { unfold agent_number. rewrite !decide_False; tauto. }
  rewrite Ea in Hfin. eexists. split; [reflexivity|]. apply Hfin; try done; by rewrite ?app_nil_r || lia.
Qed.

(** The cells in the order in which they are read. *)
Definition read_order (h w : nat) : list (Z * Z) := y ← range (Z.of_nat h); x ← range (Z.of_nat w); [(y, x)].

Lemma elem_read_order h w y x : (y, x) ∈ read_order h w <-> (0 <= y < Z.of_nat h /\ 0 <= x < Z.of_nat w)%Z.
Proof.
  unfold read_order. rewrite elem_of_list_bind. split.
  - intros (y' & (x' & E & Hx)%elem_of_list_bind & Hy). apply elem_of_list_singleton in E. simplify_eq.
    by apply elem_of_range in Hx, Hy.
  - intros [Hy Hx]. exists y. split; [|by apply elem_of_range]. apply elem_of_list_bind. exists x.
    split; [apply elem_of_list_here|by apply elem_of_range].
Qed.

Lemma NoDup_range n : NoDup (range n).
Proof. unfold range. apply NoDup_fmap_2; [intros ? ? ?; lia|]. apply NoDup_seq. Qed.

Lemma NoDup_bind {A B} (f : A -> list B) l :
  (forall a1 a2 b, a1 ∈ l -> a2 ∈ l -> b ∈ f a1 -> b ∈ f a2 -> a1 = a2) -> (forall a, a ∈ l -> NoDup (f a)) -> NoDup l ->
  NoDup (l ≫= f).
Proof.
  intros Hd Hf. induction 1 as [|a l Ha Hl IH]; [constructor|]. simpl. apply NoDup_app. split_and!.
  - apply Hf, elem_of_list_here.
  - intros b Hb (a' & Hb' & Ha')%elem_of_list_bind. destruct Ha.
    rewrite (Hd a a' b); [done|apply elem_of_list_here|by apply elem_of_list_further|done|done].
  - apply IH; intros; [eapply Hd|apply Hf]; try done; by apply elem_of_list_further.
Qed.

Lemma NoDup_read_order h w : NoDup (read_order h w).
Proof.
  unfold read_order. apply NoDup_bind.
  - intros y1 y2 [y x] _ _ (x1 & E1 & _)%elem_of_list_bind (x2 & E2 & _)%elem_of_list_bind.
    apply elem_of_list_singleton in E1, E2. by simplify_eq.
  - intros y _. apply NoDup_bind.
    + intros x1 x2 e _ _ E1 E2. apply elem_of_list_singleton in E1, E2. by simplify_eq.
    + intros x _. apply NoDup_singleton.
    + apply NoDup_range.
  - apply NoDup_range.
Qed.

Lemma read_init text w : read_inv text w [] (Reading (grid_new (Z.of_nat w) (Z.of_nat (length text)) false)
                                             (grid_new (Z.of_nat w) (Z.of_nat (length text)) false) [] [] 0).
Proof.
  assert (Hn : forall x y c (ch : ascii), char_at text (x, y) = Some c -> (x < Z.of_nat w)%Z ->
    cell (grid_new (Z.of_nat w) (Z.of_nat (length text)) false) (x, y) = Some (bool_decide ((y, x) ∈ ([] : list (Z * Z)) /\ c = ch))).
  { intros x y c ch (Hx0 & Hy & _)%char_at_Some Hx. by rewrite grid_new_cell by lia. }
  split; cbn [r_walls r_food r_capsules r_agents r_ghosts]; try done.
  - split_and!; [apply grid_new_rect; lia|done|done].
  - intros. by apply Hn.
  - split_and!; [apply grid_new_rect; lia|done|done].
  - intros. by apply Hn.
Qed.

Lemma read_all text w L L0 r0 :
  read_inv text w L0 r0 ->
  (forall y x, (y, x) ∈ L -> (x < Z.of_nat w)%Z /\ is_Some (char_at text (x, y))) ->
  exists r, for_each (read_step text) r0 L = DOk r /\ read_inv text w (L0 ++ L) r.
Proof.
  revert L0 r0. induction L as [|[y x] L IH]; intros L0 r0 H0 HL.
  - exists r0. split; [done|]. by rewrite app_nil_r.
  - destruct (HL y x) as [Hx [c Hc]]; [apply elem_of_list_here|].
    destruct (read_step_inv text w L0 r0 x y c H0 Hc Hx) as (r1 & E1 & H1).
    destruct (IH _ _ H1) as (r & Er & Hr); [intros; apply HL; by apply elem_of_list_further|].
    exists r. cbn [for_each]. rewrite E1. cbn [mbind dres_bind]. split; [done|]. by rewrite <- app_assoc in Hr.
Qed.

Lemma read_fail text w L L0 r0 :
  read_inv text w L0 r0 ->
  (forall y x, (y, x) ∈ L -> (0 <= x < Z.of_nat w /\ 0 <= y < Z.of_nat (length text))%Z) ->
  (exists y x, (y, x) ∈ L /\ char_at text (x, y) = None) ->
  for_each (read_step text) r0 L = DErr DIndexError.
Proof.
  revert L0 r0. induction L as [|[y x] L IH]; intros L0 r0 H0 HL (y' & x' & Hin & Hno); [by apply elem_of_nil in Hin|].
  destruct (HL y x) as [Hx Hy]; [apply elem_of_list_here|]. cbn [for_each].
  destruct (char_at text (x, y)) as [c|] eqn:Hc.
  - destruct (read_step_inv text w L0 r0 x y c H0 Hc) as (r1 & E1 & H1); [lia|]. rewrite E1. cbn [mbind dres_bind].
    eapply IH; [done|intros; apply HL; by apply elem_of_list_further|]. exists y', x'. split; [|done].
    apply elem_of_cons in Hin as [E|]; [|done]. exfalso. congruence.
  - unfold read_step. destruct (read_char text x y) as (row & -> & Hr); [done|lia|]. cbn [mbind dres_bind]. by rewrite Hr, Hc.
Qed.

Global Instance agent_le_total : Total agent_le.
Proof. intros [a [b c]] [a' [b' c']]. unfold agent_le. simpl. lia. Qed.
Global Instance agent_le_trans : Transitive agent_le.
Proof. intros [a [b c]] [a' [b' c']] [a'' [b'' c'']]. unfold agent_le. simpl. lia. Qed.

Lemma make_layout_eq text row0 :
  text !! 0 = Some row0 ->
  make_layout text = (r ← for_each (read_step text) (Reading (grid_new (Z.of_nat (length row0)) (Z.of_nat (length text)) false)
                           (grid_new (Z.of_nat (length row0)) (Z.of_nat (length text)) false) [] [] 0) (read_order (length text) (length row0));
      DOk (Layout (r_walls r) (r_food r) (r_capsules r)
         ((fun '(i, p) => (bool_decide (i = 0%Z), p)) <$> merge_sort agent_le (r_agents r)) (r_ghosts r))).
Proof. intros H0. unfold make_layout. rewrite (py_get_lookup _ _ row0) by done. done. Qed.

Lemma filter_perm_length {A} (P : A -> Prop) `{forall a, Decision (P a)} l k :
  l ≡ₚ k -> length (filter P l) = length (filter P k).
Proof. intros E. by rewrite E. Qed.

Lemma char_at_box text w x y c : box text w -> char_at text (x, y) = Some c -> (0 <= x < Z.of_nat w /\ 0 <= y < Z.of_nat (length text))%Z.
Proof.
  intros [_ Hw] (Hx & Hy & row & Hr & Hc)%char_at_Some. apply lookup_lt_Some in Hc.
  rewrite Forall_lookup in Hw. specialize (Hw _ _ Hr). lia.
Qed.

Lemma char_at_box_Some text w x y : box text w -> (0 <= x < Z.of_nat w /\ 0 <= y < Z.of_nat (length text))%Z -> is_Some (char_at text (x, y)).
Proof.
  intros [_ Hw] [Hx Hy]. destruct (lookup_lt_is_Some_2 text (length text - 1 - Z.to_nat y)) as [row Hr]; [lia|].
  rewrite Forall_lookup in Hw. specialize (Hw _ _ Hr). destruct (lookup_lt_is_Some_2 row (Z.to_nat x)) as [c Hc]; [lia|].
  exists c. apply char_at_Some. split_and!; try lia. eauto.
Qed.

Lemma NoDup_omap {A B} (f : A -> option B) l :
  (forall a a' b, f a = Some b -> f a' = Some b -> a = a') -> NoDup l -> NoDup (omap f l).
Proof.
  intros Hf. induction 1 as [|a l Ha Hl IH]; [constructor|]. simpl. destruct (f a) as [b|] eqn:E; [|done].
  constructor; [|done]. intros (a' & Ha' & E')%elem_of_list_omap. by rewrite (Hf _ _ _ E E') in Ha.
Qed.

Lemma layout_ok text w : box text w -> exists l, make_layout text = DOk l /\ layout_of text w l.
Proof.
  intros Hbox. pose proof Hbox as [Hne Hw]. destruct text as [|row0 text'] eqn:Et; [done|]. rewrite <- Et in *.
  assert (H0 : text !! 0 = Some row0) by (by rewrite Et).
  assert (Hl0 : length row0 = w) by (rewrite Forall_lookup in Hw; by apply (Hw 0)).
  clear Et text'.
  rewrite (make_layout_eq text row0 H0), Hl0.
  destruct (read_all text w (read_order (length text) w) [] _ (read_init text w)) as (r & Er & [IW Iw IF If IC IA IG]).
  { intros y x [Hy Hx]%elem_read_order. split; [lia|]. by eapply char_at_box_Some. }
  rewrite Er. cbn [mbind dres_bind]. eexists. split; [reflexivity|]. rewrite app_nil_l in *.
  assert (Hin : forall x y c, char_at text (x, y) = Some c -> (y, x) ∈ read_order (length text) w).
  { intros x y c Hc. apply elem_read_order. destruct (char_at_box _ _ _ _ _ Hbox Hc). done. }
  split; cbn [l_walls l_food l_capsules l_agents l_ghosts].
  - done.
  - intros [x y] c Hc. rewrite (Iw _ _ _ Hc) by (eapply char_at_box; done). f_equal. apply bool_decide_ext. split; [tauto|].
    intros; split; [by eapply Hin|done].
  - done.
  - intros [x y] c Hc. rewrite (If _ _ _ Hc) by (eapply char_at_box; done). f_equal. apply bool_decide_ext. split; [tauto|].
    intros; split; [by eapply Hin|done].
  - rewrite IC. split.
    + apply NoDup_fmap_2; [intros [] []; simpl; congruence|]. apply list.NoDup_filter, NoDup_read_order.
    + intros [x y]. rewrite elem_of_list_fmap. split.
      * intros ([y' x'] & E & [Hc _]%elem_of_list_filter). simpl in *. by simplify_eq.
      * intros Hc. exists (y, x). split; [done|]. apply elem_of_list_filter. split; [done|]. by eapply Hin.
  - exists (merge_sort agent_le (r_agents r)). split_and!.
    + apply list_fmap_ext. by intros ? [].
    + apply (StronglySorted_merge_sort agent_le).
    + rewrite merge_sort_Permutation, IA. apply NoDup_omap; [|apply NoDup_read_order].
      intros [y x] [y' x'] b. unfold agent_entry. cbn [fst snd].
      destruct (char_at text (x, y)); [|done]. simpl. destruct (agent_number a); [|done]. simpl. intros [= <-].
      destruct (char_at text (x', y')); [|done]. simpl. destruct (agent_number a0); [|done]. simpl. congruence.
    + intros n [x y]. rewrite merge_sort_Permutation, IA, elem_of_list_omap. split.
      * intros ([y' x'] & _ & E). unfold agent_entry in E. cbn [fst snd] in E.
        destruct (char_at text (x', y')) as [c|] eqn:Hc; [|done]. simpl in E.
        destruct (agent_number c) as [n'|] eqn:En; [|done]. simplify_eq/=. eauto.
      * intros (c & Hc & En). exists (y, x). split; [by eapply Hin|]. unfold agent_entry. cbn [fst snd]. rewrite Hc. simpl. by rewrite En.
    + rewrite IG. f_equal. apply filter_perm_length. symmetry. apply merge_sort_Permutation.
Qed.

(** A row shorter than the first one. *)
Lemma layout_short text row0 row :
  text !! 0 = Some row0 -> row ∈ text -> length row < length row0 -> make_layout text = DErr DIndexError.
Proof.
  intros H0 Hin Hlt. rewrite (make_layout_eq text row0 H0). erewrite (read_fail text (length row0) _ [] _ (read_init text _)); [done| |].
  - intros y x [? ?]%elem_read_order. done.
  - apply elem_of_list_lookup in Hin as [j Hj]. pose proof (lookup_lt_Some _ _ _ Hj).
    exists (Z.of_nat (length text - 1 - j)), (Z.of_nat (length row)). split.
    + apply elem_read_order. lia.
    + apply eq_None_not_Some. intros [c (Hx & Hy & row' & Hr & Hc)%char_at_Some]. rewrite !Nat2Z.id in *.
      replace (length text - 1 - (length text - 1 - j)) with j in Hr by lia. rewrite Hj in Hr. simplify_eq.
      apply lookup_lt_Some in Hc. lia.
Qed.

Lemma layout_empty : make_layout [] = DErr DIndexError.
Proof. done. Qed.
