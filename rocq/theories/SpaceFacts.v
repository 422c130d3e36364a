(** * SpaceFacts: facts about sample_space.py and folded_graph.py *)

From Verif Require Export SpecSpace GroupFacts.

(** ** Nested counting dictionaries *)

Section count2.
Context `{Countable K1, Countable K2}.
Notation cmap := (gmap K1 (gmap K2 Z)).

Definition look (acc : cmap) (k : K1) (x : K2) : option Z := acc !! k ≫= lookup x.
Definition tot (acc : cmap) (k : K1) : Z := default 0%Z (msum (fun _ c => c) <$> acc !! k).
Definition full (acc : cmap) : Prop := forall k m, acc !! k = Some m -> m <> ∅.

Lemma look_count2 (acc : cmap) k x c k' x' :
  look (count2 acc k x c) k' x' =
  if decide (k' = k /\ x' = x) then Some (default 0 (look acc k x) + c)%Z else look acc k' x'.
Proof.
  unfold look, count2. destruct (acc !! k) as [m|] eqn:Hk.
  - destruct (decide (k' = k)) as [->|Hne].
    + rewrite lookup_insert, Hk. simpl. destruct (decide (x' = x)) as [->|Hx].
      * rewrite lookup_insert. rewrite decide_True by done. done.
      * rewrite lookup_insert_ne by done. rewrite decide_False by naive_solver. done.
    + rewrite lookup_insert_ne by done. rewrite decide_False by naive_solver. done.
  - destruct (decide (k' = k)) as [->|Hne].
    + rewrite lookup_insert, Hk. simpl. destruct (decide (x' = x)) as [->|Hx].
      * rewrite lookup_singleton. rewrite decide_True by done. done.
      * rewrite lookup_singleton_ne by done. rewrite decide_False by naive_solver. done.
    + rewrite lookup_insert_ne by done. rewrite decide_False by naive_solver. done.
Qed.

Lemma tot_count2 (acc : cmap) k x c k' :
  tot (count2 acc k x c) k' = (tot acc k' + if decide (k' = k) then c else 0)%Z.
Proof.
  unfold tot, count2. destruct (acc !! k) as [m|] eqn:Hk.
  - destruct (decide (k' = k)) as [->|Hne].
    + rewrite lookup_insert, Hk. simpl. destruct (m !! x) as [z|] eqn:Hx; simpl.
      * rewrite <- insert_delete_insert, msum_insert by apply lookup_delete.
        rewrite (msum_delete _ _ _ _ Hx). lia.
      * rewrite msum_insert by done. lia.
    + rewrite lookup_insert_ne by done. lia.
  - destruct (decide (k' = k)) as [->|Hne].
    + rewrite lookup_insert, Hk. simpl. rewrite <- insert_empty, msum_insert by apply lookup_empty.
      rewrite msum_empty. lia.
    + rewrite lookup_insert_ne by done. lia.
Qed.

Lemma full_count2 (acc : cmap) k x c : full acc -> full (count2 acc k x c).
Proof.
  intros Hf k' m. unfold count2. destruct (acc !! k) as [m'|] eqn:Hk.
  - intros [[<- <-]|[_ Hm]]%lookup_insert_Some; [apply insert_non_empty|by apply (Hf k')].
  - intros [[<- <-]|[_ Hm]]%lookup_insert_Some; [apply map_non_empty_singleton|by apply (Hf k')].
Qed.

Lemma full_empty : full (∅ : cmap).
Proof. intros k m Hm. by rewrite lookup_empty in Hm. Qed.

Lemma full_look (acc : cmap) k : full acc -> (forall x, look acc k x = None) -> acc !! k = None.
Proof.
  intros Hf Hl. destruct (acc !! k) as [m|] eqn:Hk; [|done]. exfalso. apply (Hf k m Hk).
  apply map_eq. intros x. rewrite lookup_empty. specialize (Hl x). unfold look in Hl. by rewrite Hk in Hl.
Qed.

(** One pass over a set whose elements count for different entries. *)
Lemma count_set_look {A} `{Countable A} (f1 : A -> K1) (f2 : A -> K2) (c : Z) o o' (acc : cmap) (X : gset A) :
  (forall a b, a ∈ X -> b ∈ X -> f1 a = f1 b -> f2 a = f2 b -> a = b) -> full acc ->
  let acc' := for_each (fun _ acc a => count2 acc (f1 a) (f2 a) c) o acc (iter_set o' X) in
  full acc' /\ forall k x, (forall a, a ∈ X -> f1 a = k -> f2 a = x ->
                            look acc' k x = Some (default 0 (look acc k x) + c)%Z) /\
                           ((forall a, a ∈ X -> ~ (f1 a = k /\ f2 a = x)) -> look acc' k x = look acc k x).
Proof.
  intros Hinj Hfull.
  apply (for_each_set_ind (fun D acc' => D ⊆ X -> full acc' /\ forall k x,
     (forall a, a ∈ D -> f1 a = k -> f2 a = x -> look acc' k x = Some (default 0 (look acc k x) + c)%Z) /\
     ((forall a, a ∈ D -> ~ (f1 a = k /\ f2 a = x)) -> look acc' k x = look acc k x))).
  - intros _. split; [done|]. intros k x. split; [|done]. intros a Ha. by apply elem_of_empty in Ha.
  - intros D a s o'' HaX HaD _ HP HsubX. destruct HP as [HF HP]; [set_solver +HsubX|].
    split; [by apply full_count2|]. intros k x. rewrite look_count2. split.
    + intros b [Hb%elem_of_singleton|Hb]%elem_of_union Hk Hx.
      * subst b k x. rewrite decide_True by done. f_equal. f_equal. f_equal. apply HP.
        intros b Hb [H1' H2']. apply HaD. rewrite (Hinj a b); [done|done|set_solver +Hb HsubX|done|done].
      * rewrite decide_False; [by apply (proj1 (HP k x) b)|]. intros [-> ->]. apply HaD.
        rewrite <- (Hinj b a); [done|set_solver +Hb HsubX|done|done|done].
    + intros Hno. rewrite decide_False.
      * apply HP. intros b Hb. apply Hno. set_solver +Hb.
      * intros [-> ->]. apply (Hno a); [set_solver|done].
  - done.
Qed.

(** The loop over all samples. *)
Lemma count_samples_look `{Countable G} (body : oracle -> cmap -> G * Z -> cmap) (P : G -> K1 -> K2 -> Prop)
    `{!forall g k x, Decision (P g k x)} o o' (m : gmap G Z) :
  (forall o acc g c, m !! g = Some c -> full acc -> full (body o acc (g, c)) /\
     forall k x, look (body o acc (g, c)) k x =
                 if decide (P g k x) then Some (default 0 (look acc k x) + c)%Z else look acc k x) ->
  let acc := for_each body o ∅ (iter_map o' m) in
  full acc /\ forall k x,
    match look acc k x with
    | Some n => (exists g c, m !! g = Some c /\ P g k x) /\
                n = msum (fun g c => if decide (P g k x) then c else 0%Z) m
    | None => forall g c, m !! g = Some c -> ~ P g k x
    end.
Proof.
  intros Hb. pose (Q := fun (D : gmap G Z) (acc : cmap) => full acc /\ forall k x,
    match look acc k x with
    | Some n => (exists g c, D !! g = Some c /\ P g k x) /\
                n = msum (fun g c => if decide (P g k x) then c else 0%Z) D
    | None => forall g c, D !! g = Some c -> ~ P g k x
    end).
  apply (for_each_map_ind Q); unfold Q; clear Q.
  - split; [apply full_empty|]. intros k x. unfold look. rewrite lookup_empty. simpl.
    intros g c Hg. by rewrite lookup_empty in Hg.
  - intros D g c s o'' Hg HD _ [HF HP]. destruct (Hb o'' s g c Hg HF) as [HF' Hl]. split; [done|].
    intros k x. rewrite Hl. specialize (HP k x). destruct (decide (P g k x)) as [Hp|Hp].
    + split; [exists g, c; split; [apply lookup_insert|done]|]. rewrite msum_insert by done.
      rewrite decide_True by done. destruct (look s k x) as [n|]; simpl.
      * destruct HP as [_ ->]. lia.
      * rewrite (msum_ext _ (fun _ _ => 0%Z) D), msum_zero; [lia|]. intros g' c' Hg'.
        rewrite decide_False; [done|]. by apply (HP g' c').
    + destruct (look s k x) as [n|].
      * destruct HP as [(g' & c' & Hg' & Hp') ->]. split.
        -- exists g', c'. split; [|done]. rewrite lookup_insert_ne; [done|]. by intros ->; simplify_eq.
        -- rewrite msum_insert by done. rewrite decide_False by done. lia.
      * intros g' c' [[<- <-]|[_ Hg']]%lookup_insert_Some; [done|by apply (HP g' c')].
Qed.

Lemma count_samples_tot `{Countable G} (body : oracle -> cmap -> G * Z -> cmap) (P : G -> K1 -> Prop)
    `{!forall g k, Decision (P g k)} o o' (m : gmap G Z) k :
  (forall o acc g c, m !! g = Some c ->
     tot (body o acc (g, c)) k = (tot acc k + if decide (P g k) then c else 0)%Z) ->
  tot (for_each body o ∅ (iter_map o' m)) k = msum (fun g c => if decide (P g k) then c else 0%Z) m.
Proof.
  intros Hb. apply (for_each_map_ind (fun D acc =>
    tot acc k = msum (fun g c => if decide (P g k) then c else 0%Z) D)).
  - unfold tot. by rewrite lookup_empty, msum_empty.
  - intros D g c s o'' Hg HD _ HP. rewrite (Hb o'' s g c Hg), HP, msum_insert by done. lia.
Qed.
End count2.

(** A loop over a pair of independent accumulators. *)
Lemma for_each_pair {A B X} (f : oracle -> A -> X -> A) (h : oracle -> B -> X -> B) o a b l :
  for_each (fun o '(a, b) x => (f o a x, h o b x)) o (a, b) l = (for_each f o a l, for_each h o b l).
Proof. revert o a b. induction l as [|x l IH]; intros o a b; [done|]. simpl. by rewrite IH. Qed.

Section space_facts.
Context {U : Universe}.
Implicit Types (g : graph) (ss : samples) (sp : space).

(** ** Total counts *)

Lemma zsum_times ss (l : list graph) (m : gmap graph Z) :
  NoDup l -> (forall g, g ∈ l <-> is_Some (m !! g)) -> m ⊆ ss_map ss ->
  zsum (times_in ss <$> l) = msum (fun _ c => c) m.
Proof.
  revert m. induction l as [|g l IH]; intros m Hnd Hl Hm.
  - assert (m = ∅) as ->; [|by rewrite msum_empty].
    apply map_empty. intros g. destruct (m !! g) eqn:Hg; [|done].
    assert (g ∈ []) as Hx by (apply Hl; by eexists). by apply elem_of_nil in Hx.
  - apply NoDup_cons in Hnd as [Hg Hnd]. destruct (proj1 (Hl g)) as [c Hc]; [left|].
    rewrite (msum_delete _ _ _ _ Hc). rewrite fmap_cons.
    change (times_in ss g + zsum (times_in ss <$> l) = c + msum (fun _ c => c) (delete g m))%Z.
    f_equal.
    + unfold times_in. by rewrite (lookup_weaken _ _ _ _ Hc Hm).
    + apply IH; [done| |].
      * intros h. rewrite lookup_delete_is_Some, <- Hl, elem_of_cons. set_solver.
      * transitivity m; [apply delete_subseteq|done].
Qed.

Lemma weight_msum ss (P : graph -> Prop) `{!forall g, Decision (P g)} n :
  weight ss P n <-> n = msum (fun g c => if decide (P g) then c else 0%Z) (ss_map ss).
Proof.
  assert (forall l, NoDup l -> (forall g, g ∈ l <-> contains ss g /\ P g) ->
            zsum (times_in ss <$> l) = msum (fun g c => if decide (P g) then c else 0%Z) (ss_map ss)) as Hsum.
  { intros l Hnd Hl. rewrite (zsum_times ss l (filter (fun kv => P kv.1) (ss_map ss))).
    - rewrite msum_filter. apply msum_ext. intros k a _. cbn [fst].
      rewrite decide_bool_decide. done.
    - done.
    - intros g. rewrite Hl. unfold contains. split.
      + intros [[c Hc] Hp]. exists c. by apply map_filter_lookup_Some.
      + intros [c [Hc Hp]%map_filter_lookup_Some]. split; [by exists c|done].
    - apply map_filter_subseteq. }
  split.
  - intros Hw. rewrite <- (Hsum (filter P (elements (ss_samples ss)))).
    + apply Hw.
      * apply NoDup_filter, NoDup_elements.
      * intros g. rewrite elem_of_list_filter, elem_of_elements. unfold ss_samples.
        rewrite elem_of_dom. unfold contains. tauto.
    + apply NoDup_filter, NoDup_elements.
    + intros g. rewrite elem_of_list_filter, elem_of_elements. unfold ss_samples.
      rewrite elem_of_dom. unfold contains. tauto.
  - intros -> l Hnd Hl. symmetry. by apply Hsum.
Qed.

Lemma weight_length ss n : weight ss anything n <-> n = ss_length ss.
Proof.
  assert (forall g, Decision (anything g)) as Hd by (intros; left; done).
  rewrite (weight_msum ss anything). rewrite ss_length_msum.
  by rewrite (msum_ext _ (fun _ c => c)) by (intros; by rewrite decide_True).
Qed.


Global Instance having_dec v g : Decision (having v g).
Proof.
  destruct (decide (v ∈ included_variables g)) as [Hv|Hv]; rewrite included_variables_spec in Hv;
    [by left|by right].
Defined.
Global Instance lacking_dec v g : Decision (lacking v g).
Proof. unfold lacking. change (has_var (g_nodes g) v) with (having v g). apply _. Defined.
Global Instance has_dec v x g : Decision (has v x g).
Proof. unfold has. apply _. Defined.

Lemma weight_unique ss (P : graph -> Prop) `{!forall g, Decision (P g)} a b :
  weight ss P a -> weight ss P b -> a = b.
Proof. intros Ha Hb. by rewrite (proj1 (weight_msum ss P a) Ha), (proj1 (weight_msum ss P b) Hb). Qed.

Lemma weight_ext ss (P Q : graph -> Prop) a :
  (forall g, contains ss g -> P g <-> Q g) -> weight ss P a -> weight ss Q a.
Proof. intros HPQ Hw l Hnd Hl. apply Hw; [done|]. intros g. rewrite Hl. naive_solver. Qed.

Lemma weight_lacking ss v a : weight ss (having v) a -> weight ss (lacking v) (ss_length ss - a)%Z.
Proof.
  rewrite (weight_msum ss (having v)), (weight_msum ss (lacking v)), ss_length_msum. intros ->.
  assert (forall x y z : Z, x + y = z -> z - x = y)%Z as Hz by lia. apply Hz.
  rewrite <- msum_add. apply msum_ext. intros g c _. unfold lacking.
  destruct (decide (having v g)) as [Hh|Hh].
  - rewrite decide_False by auto. lia.
  - rewrite decide_True by done. lia.
Qed.

Lemma weight_pos ss (P : graph -> Prop) `{!forall g, Decision (P g)} a g :
  pos_counts ss -> weight ss P a -> contains ss g -> P g -> (0 < a)%Z.
Proof.
  rewrite (weight_msum ss P). intros Hp -> [c Hg] HP. rewrite (msum_delete _ _ _ _ Hg), decide_True by done.
  pose proof (Hp _ _ Hg).
  assert (0 <= msum (fun g c => if decide (P g) then c else 0) (delete g (ss_map ss)))%Z; [|lia].
  apply msum_nonneg. intros k b [_ Hk]%lookup_delete_Some. specialize (Hp _ _ Hk). case_decide; lia.
Qed.

Lemma weight_nonneg ss (P : graph -> Prop) `{!forall g, Decision (P g)} a :
  pos_counts ss -> weight ss P a -> (0 <= a)%Z.
Proof.
  rewrite (weight_msum ss P). intros Hp ->.
  apply msum_nonneg. intros k b Hk. specialize (Hp _ _ Hk). case_decide; lia.
Qed.

Lemma weight_le ss (P Q : graph -> Prop) `{!forall g, Decision (P g)} `{!forall g, Decision (Q g)} a b :
  pos_counts ss -> (forall g, contains ss g -> P g -> Q g) -> weight ss P a -> weight ss Q b -> (a <= b)%Z.
Proof.
  rewrite (weight_msum ss P), (weight_msum ss Q). intros Hp HPQ -> ->.
  apply msum_le. intros k c Hk. pose proof (Hp _ _ Hk).
  destruct (decide (P k)) as [HP|HP]; [rewrite decide_True; [lia|by apply HPQ; [eexists|]]|case_decide; lia].
Qed.

Lemma weight_le_length ss (P : graph -> Prop) `{!forall g, Decision (P g)} a :
  pos_counts ss -> weight ss P a -> (a <= ss_length ss)%Z.
Proof.
  intros Hp Hw. assert (forall g, Decision (anything g)) as Hd by (intros; left; done).
  apply (weight_le ss P anything); [done|done|done|]. by apply weight_length.
Qed.

(** ** Marginals *)

Lemma marginal_body (vars : gset Var) (o : oracle) (acc : gmap Var (gmap Val Z)) g c :
  single_valued (g_nodes g) -> full acc ->
  let acc' := for_each (fun o'' acc v =>
          if bool_decide (v ∈ vars) then
            match value_for_variable o'' g v with
            | None => acc
            | Some x =>
                match acc !! v with
                | Some m => <[v := <[x := (default 0 (m !! x) + c)%Z]> m]> acc
                | None => <[v := {[x := c]}]> acc
                end
            end
          else acc) (sub o 0) acc (iter_set o (included_variables g)) in
  full acc' /\
  (forall v x, look acc' v x =
     if decide (v ∈ vars /\ has v x g) then Some (default 0 (look acc v x) + c)%Z else look acc v x) /\
  (forall v, tot acc' v = (tot acc v + if decide (v ∈ vars /\ having v g) then c else 0)%Z).
Proof.
  intros Hsv Hfull.
  match goal with |- let acc' := for_each ?f _ _ _ in _ => set (F := f) end.
  assert (forall o'' acc v, F o'' acc v = if bool_decide (v ∈ vars) then
            match value_for_variable o'' g v with None => acc | Some x => count2 acc v x c end else acc) as HF
    by done.
  clearbody F.
  pose proof (for_each_set_ind (fun (D : gset Var) acc' => full acc' /\
    (forall v x, look acc' v x =
     if decide (v ∈ D /\ v ∈ vars /\ has v x g) then Some (default 0 (look acc v x) + c)%Z else look acc v x) /\
    (forall v, tot acc' v = (tot acc v + if decide (v ∈ D /\ v ∈ vars /\ having v g) then c else 0)%Z))
    F (sub o 0) o acc (included_variables g)) as Hi.
  destruct Hi as (H1 & H2 & H3).
  - split_and!; [done| |].
    + intros v x. rewrite decide_False; [done|]. intros [Hv _]. by apply elem_of_empty in Hv.
    + intros v. rewrite decide_False; [lia|]. intros [Hv _]. by apply elem_of_empty in Hv.
  - intros D w s o'' Hw HD _ (Hf & Hl & Ht). rewrite HF. case_bool_decide as Hwv.
    + pose proof (value_for_variable_spec o'' g w) as Hval.
      destruct (value_for_variable o'' g w) as [y|].
      2:{ exfalso. apply included_variables_spec in Hw as [y Hy]. apply Hval. by exists y. }
      split_and!; [by apply full_count2| |].
      * intros v x. rewrite look_count2. destruct (decide (v = w /\ x = y)) as [[-> ->]|Hne].
        -- rewrite decide_True by (split; [set_solver|done]). f_equal. f_equal. f_equal.
           rewrite Hl, decide_False by tauto. done.
        -- rewrite Hl. destruct (decide (v ∈ D /\ _)) as [(Hd & Hvv & Hx)|Hn].
           ++ rewrite decide_True; [done|]. split; [set_solver +Hd|done].
           ++ rewrite decide_False; [done|]. intros (Hd & Hvv & Hx). apply Hn. split; [|done].
              apply elem_of_union in Hd as [->%elem_of_singleton|Hd]; [|done]. exfalso. apply Hne.
              split; [done|]. by apply (Hsv w).
      * intros v. rewrite tot_count2, Ht. destruct (decide (v = w)) as [->|Hne].
        -- rewrite decide_False by tauto.
           rewrite decide_True; [lia|]. split; [set_solver|]. split; [done|by exists y].
        -- rewrite Z.add_0_r. f_equal. apply decide_ext. set_solver +Hne.
    + split_and!; [done| |].
      * intros v x. rewrite Hl. apply decide_ext. split; [set_solver|].
        intros ([->%elem_of_singleton|Hd]%elem_of_union & Hvv & Hx); done.
      * intros v. rewrite Ht. f_equal. apply decide_ext. split; [set_solver|].
        intros ([->%elem_of_singleton|Hd]%elem_of_union & Hvv & Hx); done.
  - cbv zeta. split_and!; [done| |].
    + intros v x. rewrite H2. apply decide_ext. rewrite included_variables_spec. split; [tauto|].
      intros [Hv Hx]. split; [by exists x|done].
    + intros v. rewrite H3. f_equal. apply decide_ext. rewrite included_variables_spec. tauto.
Qed.

Lemma marginal_groups_spec o sp (vars : gset Var) :
  one_valued (sp_out sp) ->
  full (marginal_groups o sp vars) /\
  (forall v x, match look (marginal_groups o sp vars) v x with
               | Some n => v ∈ vars /\ occurs (sp_out sp) (v, x) /\ weight (sp_out sp) (has v x) n
               | None => v ∈ vars -> ~ occurs (sp_out sp) (v, x)
               end) /\
  (forall v, v ∈ vars -> weight (sp_out sp) (having v) (tot (marginal_groups o sp vars) v)).
Proof.
  intros Hone. unfold marginal_groups, ss_items.
  match goal with |- context [for_each ?f _ _ (iter_map _ _)] => set (F := f) end.
  assert (forall o' acc g c, ss_map (sp_out sp) !! g = Some c -> full acc ->
    full (F o' acc (g, c)) /\
    (forall v x, look (F o' acc (g, c)) v x =
     if decide (v ∈ vars /\ has v x g) then Some (default 0 (look acc v x) + c)%Z else look acc v x) /\
    (forall v, tot (F o' acc (g, c)) v = (tot acc v + if decide (v ∈ vars /\ having v g) then c else 0)%Z)) as HF.
  { intros o' acc g c Hg Hf. apply (marginal_body vars o' acc g c); [|done]. apply Hone. by exists c. }
  destruct (count_samples_look F (fun g v x => v ∈ vars /\ has v x g) (sub o 0) o (ss_map (sp_out sp))) as [Hf Hl].
  { intros o' acc g c Hg Hfull. destruct (HF o' acc g c Hg Hfull) as (H1 & H2 & _). by split. }
  split_and!; [done| |].
  - intros v x. specialize (Hl v x). destruct (look _ v x) as [n|].
    + destruct Hl as [(g & c & Hg & Hv & Hx) ->]. split_and!; [done|exists g; split; [by exists c|done]|].
      apply (proj2 (weight_msum _ _ _)). apply msum_ext. intros k a _. apply decide_ext. tauto.
    + intros Hv (g & [c Hg] & Hx). by apply (Hl g c).
  - intros v Hv. apply (proj2 (weight_msum _ _ _)).
    assert (full (for_each F (sub o 0) ∅ (iter_map o (ss_map (sp_out sp)))) /\
      tot (for_each F (sub o 0) ∅ (iter_map o (ss_map (sp_out sp)))) v =
      msum (fun g c => if decide (having v g) then c else 0%Z) (ss_map (sp_out sp))) as [_ Ht]; [|done].
    apply (for_each_map_ind (fun D acc => full acc /\
      tot acc v = msum (fun g c => if decide (having v g) then c else 0%Z) D)).
    + split; [apply full_empty|]. unfold tot. by rewrite lookup_empty, msum_empty.
    + intros D g c s o' Hg HD _ [HfP HP]. destruct (HF o' s g c Hg HfP) as (H1 & _ & H2). split; [done|].
      rewrite H2, HP, msum_insert by done. rewrite Z.add_comm. f_equal. apply decide_ext. tauto.
Qed.


(** The distribution made of one group of counts. *)
Definition dist_of (sp : space) (u : bool) (m : gmap Val Z) : gmap Val Qc :=
  let s := zsum (map_to_list m).*2 in
  let len := ss_length (sp_out sp) in
  if u then (fun c => qdiv c len) <$> <[val_u := (len - s)%Z]> m else (fun c => qdiv c s) <$> m.

Definition vars_to_check (sp : space) (variables : option (gset Var)) : gset Var :=
  match variables with
  | None => dom (cp_vars (sp_cp sp))
  | Some X => if bool_decide (X = ∅) then dom (cp_vars (sp_cp sp)) else X
  end.

Lemma elem_of_vars_to_check sp variables v : v ∈ vars_to_check sp variables <-> requested sp variables v.
Proof.
  unfold vars_to_check, requested. destruct variables as [X|]; [|apply elem_of_dom].
  destruct (decide (X = ∅)) as [He|He].
  - rewrite bool_decide_true by done. apply elem_of_dom.
  - by rewrite bool_decide_false by done.
Qed.

Lemma tot_lookup {K1 K2} `{Countable K1, Countable K2} (acc : gmap K1 (gmap K2 Z)) k m :
  acc !! k = Some m -> zsum (map_to_list m).*2 = tot acc k.
Proof. intros Hk. unfold tot. rewrite Hk. simpl. apply zsum_snd_msum. Qed.

Lemma for_res_asserts {A} (p : A -> bool) o (l : list A) :
  for_res (fun _ _ x => passert (p x)) o tt l = if forallb p l then Ok tt else Err AssertionError.
Proof.
  revert o. induction l as [|x l IH]; intros o; [done|]. simpl. unfold passert at 1.
  destruct (p x); [apply IH|done].
Qed.

Lemma marginal_eq o sp variables u :
  one_valued (sp_out sp) -> pos_counts (sp_out sp) ->
  let norm := dist_of sp u <$> marginal_groups (sub o 0) sp (vars_to_check sp variables) in
  marginal_variables_probability o sp variables u =
  if bool_decide (map_Forall (fun _ d => isclose_one (qsum (map_to_list d).*2) = true) norm)
  then Ok norm else Err AssertionError.
Proof.
  intros Hone Hpos. unfold marginal_variables_probability.
  change (match variables with Some X => if bool_decide (X = ∅) then dom (cp_vars (sp_cp sp)) else X
          | None => dom (cp_vars (sp_cp sp)) end) with (vars_to_check sp variables).
  set (vars := vars_to_check sp variables). cbv zeta.
  destruct (marginal_groups_spec (sub o 0) sp vars Hone) as (Hfull & Hlook & Htot).
  set (groups := marginal_groups (sub o 0) sp vars) in *.
  assert (forall v m, groups !! v = Some m ->
    (0 < zsum (map_to_list m).*2)%Z /\ (zsum (map_to_list m).*2 <= ss_length (sp_out sp))%Z /\ m <> ∅) as Hsum.
  { intros v m Hv. rewrite (tot_lookup _ _ _ Hv). pose proof (Hfull _ _ Hv) as Hne.
    pose proof Hne as Hm. apply map_choose in Hm as (x & n & Hx). specialize (Hlook v x).
    unfold look in Hlook. rewrite Hv in Hlook. simpl in Hlook. rewrite Hx in Hlook.
    destruct Hlook as (Hvv & (g & Hg & Hn) & _). specialize (Htot v Hvv). split_and!; [| |done].
    - apply (weight_pos (sp_out sp) (having v) _ g); [done|done|done|by exists x].
    - by apply (weight_le_length _ (having v)). }
  clear Hlook Htot Hfull. clearbody groups.
  match goal with |- context [for_res ?f (sub o 1) ∅ _] => set (F := f) end.
  assert (for_res F (sub o 1) ∅ (iter_map (sub o 2) groups) = Ok (dist_of sp u <$> groups)) as HF.
  { assert (match for_res F (sub o 1) ∅ (iter_map (sub o 2) groups) with
            | Ok norm => norm = dist_of sp u <$> groups | Err _ => False end) as Hi.
    { apply (for_res_map_ind (fun D acc => acc = dist_of sp u <$> D) (fun _ => False)).
      - by rewrite fmap_empty.
      - intros D v m s o' Hv HD _ ->. unfold F. destruct (Hsum v m Hv) as (Hs1 & Hs2 & Hne).
        rewrite !bool_decide_true by lia. cbn [andb passert mbind res_bind].
        unfold div_all. destruct u.
        + rewrite (bool_decide_false (ss_length _ = 0%Z)) by lia. rewrite andb_false_r.
          cbn [mbind res_bind]. by rewrite (fmap_insert (dist_of sp _)).
        + rewrite (bool_decide_false (zsum _ = 0%Z)) by lia. rewrite andb_false_r.
          cbn [mbind res_bind]. by rewrite (fmap_insert (dist_of sp _)). }
    destruct (for_res _ _ _ _); [by f_equal|done]. }
  rewrite HF. cbn [mbind res_bind].
  set (norm := dist_of sp u <$> groups).
  pose proof (for_res_asserts (fun vd : Var * gmap Val Qc => isclose_one (qsum (map_to_list vd.2).*2)) (sub o 3)
    (iter_map (sub o 4) norm)) as Ha.
  match goal with |- context [for_res ?f (sub o 3) tt _] =>
    replace (for_res f (sub o 3) tt (iter_map (sub o 4) norm))
      with (if forallb (fun vd : Var * gmap Val Qc => isclose_one (qsum (map_to_list vd.2).*2)) (iter_map (sub o 4) norm)
            then Ok tt else Err AssertionError : res unit) end.
  2:{ rewrite <- Ha. clear. generalize (sub o 3). induction (iter_map (sub o 4) norm) as [|[v d] l IH]; intros o'; [done|].
      cbn [for_res snd]. destruct (passert _) as [[]|]; [apply IH|done]. }
  case_bool_decide as Hall.
  - assert (forallb (fun vd : Var * gmap Val Qc => isclose_one (qsum (map_to_list vd.2).*2)) (iter_map (sub o 4) norm) = true) as ->; [|done].
    apply forallb_forall. intros [v d] Hin%elem_of_list_In. apply elem_of_iter_map in Hin. by apply (Hall v).
  - destruct (forallb _ _) eqn:Hfb; [|done]. exfalso. apply Hall. intros v d Hvd.
    rewrite forallb_forall in Hfb. apply (Hfb (v, d)). apply elem_of_list_In. by apply elem_of_iter_map.
Qed.

(** What the groups hold, entry by entry. *)
Lemma marginal_group_at o sp variables v :
  one_valued (sp_out sp) ->
  match marginal_groups o sp (vars_to_check sp variables) !! v with
  | Some m => requested sp variables v /\ occurs_var (sp_out sp) v /\ m <> ∅ /\
      (forall x, match m !! x with
                 | Some n => occurs (sp_out sp) (v, x) /\ weight (sp_out sp) (has v x) n
                 | None => ~ occurs (sp_out sp) (v, x)
                 end) /\
      weight (sp_out sp) (having v) (zsum (map_to_list m).*2)
  | None => ~ (requested sp variables v /\ occurs_var (sp_out sp) v)
  end.
Proof.
  intros Hone. destruct (marginal_groups_spec o sp (vars_to_check sp variables) Hone) as (Hfull & Hlook & Htot).
  destruct (_ !! v) as [m|] eqn:Hv.
  - pose proof (Hfull _ _ Hv) as Hne. pose proof Hne as Hm. apply map_choose in Hm as (x & n & Hx).
    pose proof (Hlook v x) as Hl. unfold look in Hl. rewrite Hv in Hl. simpl in Hl. rewrite Hx in Hl.
    destruct Hl as (Hvv & Ho & Hn). pose proof Hvv as Hr. apply elem_of_vars_to_check in Hr.
    split_and!; [done|by exists x|done| |].
    + intros y. specialize (Hlook v y). unfold look in Hlook. rewrite Hv in Hlook. simpl in Hlook.
      destruct (m !! y) as [k|]; tauto.
    + rewrite (tot_lookup _ _ _ Hv). by apply Htot.
  - intros [Hr [x Hx]]. specialize (Hlook v x). unfold look in Hlook. rewrite Hv in Hlook. simpl in Hlook.
    apply Hlook; [by apply elem_of_vars_to_check|done].
Qed.

Lemma qsum_dist_of sp u m : (0 < zsum (map_to_list m).*2)%Z -> (0 < ss_length (sp_out sp))%Z ->
  qsum (map_to_list (dist_of sp u m)).*2 =
  if u then qdiv (ss_length (sp_out sp) - default 0%Z (m !! val_u))%Z (ss_length (sp_out sp)) else 1%Qc.
Proof.
  intros H1 H2. unfold dist_of. destruct u; rewrite qsum_map_qdiv; [|apply qdiv_self; lia].
  f_equal. rewrite !zsum_snd_msum. destruct (m !! val_u) as [n|] eqn:Hu; simpl.
  - rewrite <- insert_delete_insert, msum_insert by apply lookup_delete.
    rewrite (msum_delete _ _ _ _ Hu). lia.
  - rewrite msum_insert by done. lia.
Qed.

Lemma C26_lemma o sp variables (u : bool) :
  one_valued (sp_out sp) -> pos_counts (sp_out sp) ->
  (u = true -> forall v, requested sp variables v -> ~ occurs (sp_out sp) (v, val_u)) ->
  exists m, marginal_variables_probability o sp variables u = Ok m /\
    forall v, match m !! v with
              | Some d => requested sp variables v /\ occurs_var (sp_out sp) v /\
                  if u then full_marginal (sp_out sp) v d else observed_marginal (sp_out sp) v d
              | None => ~ (requested sp variables v /\ occurs_var (sp_out sp) v)
              end.
Proof.
  intros Hone Hpos Hu. rewrite (marginal_eq o sp variables u Hone Hpos). cbv zeta.
  set (groups := marginal_groups (sub o 0) sp (vars_to_check sp variables)).
  assert (forall v m, groups !! v = Some m ->
     (0 < zsum (map_to_list m).*2)%Z /\ (0 < ss_length (sp_out sp))%Z /\
     qsum (map_to_list (dist_of sp u m)).*2 = 1%Qc) as Hone'.
  { intros v m Hv. pose proof (marginal_group_at (sub o 0) sp variables v Hone) as Hg. fold groups in Hg.
    rewrite Hv in Hg. destruct Hg as (Hr & [x [g [Hc Hx]]] & Hne & Hm & Hw).
    assert (0 < zsum (map_to_list m).*2)%Z as H1 by (apply (weight_pos (sp_out sp) (having v) _ g); [done|done|done|by exists x]).
    assert (zsum (map_to_list m).*2 <= ss_length (sp_out sp))%Z as H2 by (by apply (weight_le_length _ (having v))).
    split_and!; [done|lia|]. rewrite qsum_dist_of by lia. destruct u; [|done].
    specialize (Hm val_u). destruct (m !! val_u) as [n|].
    - exfalso. by apply (Hu eq_refl v Hr), Hm.
    - simpl. rewrite Z.sub_0_r. apply qdiv_self. lia. }
  rewrite bool_decide_true.
  2:{ intros v d Hd. apply lookup_fmap_Some in Hd as (m & <- & Hm). destruct (Hone' v m Hm) as (_ & _ & ->).
      apply isclose_one_1. }
  eexists. split; [done|]. intros v. rewrite lookup_fmap.
  pose proof (marginal_group_at (sub o 0) sp variables v Hone) as Hg. fold groups in Hg.
  destruct (groups !! v) as [m|] eqn:Hv; simpl; [|done].
  destruct Hg as (Hr & Hov & Hne & Hm & Hw). destruct (Hone' v m Hv) as (H1 & H2 & H3).
  split_and!; [done|done|]. unfold dist_of. destruct u.
  - split; [exact H3|]. intros x. specialize (Hm x). rewrite lookup_fmap. case_decide as Hx.
    + subst x. rewrite lookup_insert. simpl. eexists. split; [done|].
      exists (ss_length (sp_out sp) - zsum (map_to_list m).*2)%Z, (ss_length (sp_out sp)).
      split_and!; [by apply weight_lacking|by apply weight_length|done].
    + rewrite lookup_insert_ne by done. destruct (m !! x) as [n|]; simpl; [|done].
      destruct Hm as [Ho Hn]. split; [done|]. exists n, (ss_length (sp_out sp)).
      split_and!; [done|by apply weight_length|done].
  - split; [exact H3|]. intros x. specialize (Hm x). rewrite lookup_fmap.
    destruct (m !! x) as [n|]; simpl; [|done].
    destruct Hm as [Ho Hn]. split; [done|]. exists n, (zsum (map_to_list m).*2). done.
Qed.


Lemma marginal_groups_order o o' sp (vars : gset Var) :
  one_valued (sp_out sp) -> marginal_groups o sp vars = marginal_groups o' sp vars.
Proof.
  intros Hone. destruct (marginal_groups_spec o sp vars Hone) as (Hf & Hl & _).
  destruct (marginal_groups_spec o' sp vars Hone) as (Hf' & Hl' & _).
  assert (forall v x, look (marginal_groups o sp vars) v x = look (marginal_groups o' sp vars) v x) as Heq.
  { intros v x. specialize (Hl v x). specialize (Hl' v x).
    destruct (look (marginal_groups o sp vars) v x) as [n|], (look (marginal_groups o' sp vars) v x) as [n'|];
      [|naive_solver..|done].
    f_equal. destruct Hl as (_ & _ & Hn), Hl' as (_ & _ & Hn'). by apply (weight_unique (sp_out sp) (has v x)). }
  apply map_eq. intros v. destruct (marginal_groups o sp vars !! v) as [m|] eqn:Hm.
  - destruct (marginal_groups o' sp vars !! v) as [m'|] eqn:Hm'.
    + f_equal. apply map_eq. intros x. specialize (Heq v x). unfold look in Heq. rewrite Hm, Hm' in Heq. done.
    + rewrite <- Hm. apply (full_look _ v Hf). intros x. rewrite Heq. unfold look. by rewrite Hm'.
  - symmetry. apply (full_look _ v Hf'). intros x. rewrite <- Heq. unfold look. by rewrite Hm.
Qed.

Lemma marginal_order o o' sp variables u :
  one_valued (sp_out sp) -> pos_counts (sp_out sp) ->
  marginal_variables_probability o sp variables u = marginal_variables_probability o' sp variables u.
Proof.
  intros Hone Hpos. rewrite !(marginal_eq _ sp variables u Hone Hpos). cbv zeta.
  by rewrite (marginal_groups_order (sub o 0) (sub o' 0) sp _ Hone).
Qed.

(** The entry for outcomes without the variable replaces a value that is called the same. *)
Lemma isclose_one_far (p : Qc) : (0 <= p)%Qc -> (p < 1)%Qc -> (Q2Qc (1 # 1000000000) < 1 - p)%Qc ->
  isclose_one p = false.
Proof.
  intros H0 H1 Hd. unfold isclose_one.
  assert (qabs p = p) as Hp.
  { unfold qabs. apply Qc_is_canon. unfold Q2Qc. cbn [this]. rewrite Qred_correct. by apply Qabs.Qabs_pos. }
  assert (qabs (p - Q2Qc 1) = 1 - p)%Qc as Hq.
  { unfold qabs. apply Qc_is_canon. unfold Q2Qc at 1. cbn [this]. rewrite Qred_correct. rewrite Qabs.Qabs_neg.
    - unfold Qcminus, Qcplus, Qcopp, Q2Qc. cbn [this]. rewrite !Qred_correct. ring.
    - unfold Qcminus, Qcplus, Qcopp, Q2Qc. cbn [this]. rewrite !Qred_correct.
      apply Qlt_le_weak in H1. change (this p <= 1)%Q in H1. change (this (Q2Qc 1)) with 1%Q.
      apply (Qplus_le_l _ _ 1). ring_simplify. exact H1. }
  rewrite Hp, Hq. destruct (Qclt_le_dec p (Q2Qc 1)) as [_|Hle].
  - rewrite Qcmult_1_r. destruct (Qclt_le_dec _ _) as [|Hle]; [done|].
    by apply Qclt_not_le in Hd.
  - by apply Qclt_not_le in H1.
Qed.


Lemma marginal_u_lemma o sp variables v a :
  one_valued (sp_out sp) -> pos_counts (sp_out sp) ->
  requested sp variables v -> occurs (sp_out sp) (v, val_u) -> weight (sp_out sp) (has v val_u) a ->
  (ss_length (sp_out sp) < a * 1000000000)%Z ->
  marginal_variables_probability o sp variables true = Err AssertionError.
Proof.
  intros Hone Hpos Hr Hocc Ha Hlt. rewrite (marginal_eq o sp variables true Hone Hpos). cbv zeta.
  pose proof (marginal_group_at (sub o 0) sp variables v Hone) as Hg.
  destruct (_ !! v) as [m|] eqn:Hv; [|exfalso; apply Hg; split; [done|by exists val_u]].
  destruct Hg as (_ & _ & _ & Hm & Hw). pose proof Hocc as (g & Hc & Hx).
  assert (0 < zsum (map_to_list m).*2)%Z as H1
    by (apply (weight_pos (sp_out sp) (having v) _ g); [done|done|done|by exists val_u]).
  assert (zsum (map_to_list m).*2 <= ss_length (sp_out sp))%Z as H2 by (by apply (weight_le_length _ (having v))).
  rewrite bool_decide_false; [done|]. intros Hall.
  specialize (Hall v (dist_of sp true m)). rewrite lookup_fmap, Hv in Hall. specialize (Hall eq_refl).
  cbv beta in Hall. rewrite qsum_dist_of in Hall by lia.
  pose proof (Hm val_u) as Hu. destruct (m !! val_u) as [n|]; [|done]. simpl in Hall.
  destruct Hu as [_ Hn]. rewrite (weight_unique (sp_out sp) (has v val_u) n a Hn Ha) in Hall.
  assert (0 < a)%Z as Ha0 by (apply (weight_pos (sp_out sp) (has v val_u) _ g); done).
  assert (a <= ss_length (sp_out sp))%Z as Ha1 by (by apply (weight_le_length _ (has v val_u))).
  set (len := ss_length (sp_out sp)) in *.
  rewrite isclose_one_far in Hall; [done|..].
  - rewrite qdiv_0, qdiv_le; lia.
  - apply Qcnot_le_lt. rewrite qdiv_1, qdiv_le; lia.
  - replace (1 - qdiv (len - a) len)%Qc with (qdiv a len).
    + apply Qcnot_le_lt. intros Hle.
      replace (Q2Qc (1 # 1000000000)) with (qdiv 1 1000000000) in Hle by (by apply Qc_is_canon).
      rewrite qdiv_le in Hle by lia. lia.
    + rewrite <- (qdiv_self len) by lia. rewrite <- (Z.sub_add a len) at 2. rewrite <- qdiv_add. ring.
Qed.

End space_facts.
