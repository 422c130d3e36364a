(** * PropsManual: the manual computation in pgmpy_bayes_net_test.py (C68) *)

From Coq Require Import String.
From Verif Require Import SpecManual ManualFacts ExamplesSets.

(** ** Products *)

Theorem C68_product (o : oracle) (r x : table) (k : gset string) (w : Qc) : single_variable r -> one_value_of r x ->
  cpd_product o r x !! k = Some w <->
  exists a p c, a ∈ k /\ r !! {[a]} = Some p /\ x !! k = Some c /\ w = (p * c)%Qc.
Proof. exact (product_spec o r x k w). Qed.

Theorem C68_joint (o : oracle) (roots : list table) (child : table) (k : gset string) (w : Qc) :
  Forall single_variable roots -> Forall (fun r => one_value_of r child) roots ->
  joint_factor o roots child !! k = Some w <-> exists p c, weighs roots k p /\ child !! k = Some c /\ w = (p * c)%Qc.
Proof. exact (joint_spec o roots child k w). Qed.

Theorem C68_weight (roots : list table) (child : table) (k : gset string) (c p q : Qc) :
  Forall (fun r => one_value_of r child) roots -> child !! k = Some c -> weighs roots k p -> weighs roots k q -> p = q.
Proof. exact (weighs_det roots child k c p q). Qed.

(** ** Evidence *)

Theorem C68_select_child (o o' : oracle) (roots : list table) (child : table) (v : string) :
  Forall single_variable roots -> Forall (fun r => one_value_of r child) roots ->
  forall (k : gset string) (w : Qc), joint_factor o roots (select_value child v) !! k = Some w <->
    joint_factor o' roots child !! k = Some w /\ v ∈ k.
Proof. intros Hs Ho k w. rewrite (select_child o o' roots child v Hs Ho). apply select_lookup. Qed.

Theorem C68_select_prior (o o' : oracle) (rs1 rs2 : list table) (r child : table) (v : string) :
  Forall single_variable (rs1 ++ r :: rs2) -> Forall (fun r => one_value_of r child) (rs1 ++ r :: rs2) -> is_Some (r !! {[v]}) ->
  forall (k : gset string) (w : Qc), joint_factor o (rs1 ++ select_value r v :: rs2) child !! k = Some w <->
    joint_factor o' (rs1 ++ r :: rs2) child !! k = Some w /\ v ∈ k.
Proof. intros Hs Ho Hv k w. rewrite (select_prior o o' rs1 r rs2 child v Hs Ho Hv). apply select_lookup. Qed.

(** ** Normalising and marginals *)

Theorem C68_norm (x : table) :
  match norm x with
  | Ok y => (x = ∅ \/ mass any_key x <> 0%Qc) /\
      (forall k w, y !! k = Some w <-> exists v, x !! k = Some v /\ w = (v / mass any_key x)%Qc) /\
      (forall P, mass P y = (mass P x / mass any_key x)%Qc) /\ (x <> ∅ -> mass any_key y = 1%Qc)
  | Err e => e = ZeroDivisionError /\ x <> ∅ /\ mass any_key x = 0%Qc
  end.
Proof. exact (norm_spec x). Qed.

Theorem C68_margin (o : oracle) (x : table) (var e : string) (p : Qc) : one_named var x ->
  margin o x var !! e = Some p <->
  (exists k c, x !! k = Some c /\ e ∈ k) /\ name_has var e /\ p = mass (with_value e) x.
Proof. exact (margin_spec o x var e p). Qed.

(** No number is lost as long as every key has a value of the name, even when it has several. *)
Theorem C68_margin_total (o : oracle) (x : table) (var : string) :
  (forall k c, x !! k = Some c -> exists e, e ∈ k /\ name_has var e) -> qsum (snd <$> map_to_list (margin o x var)) = mass any_key x.
Proof. exact (margin_total o x var). Qed.

(** The marginal of a value of a root is its prior times what the other tables give to the value: the prior itself where they give one. *)
Theorem C68_root_margin (o : oracle) (r : table) (rs : list table) (child : table) (e : string) (p : Qc) :
  Forall single_variable (r :: rs) -> Forall (fun r => one_value_of r child) (r :: rs) -> r !! {[e]} = Some p ->
  mass (with_value e) (joint_factor o (r :: rs) child) = (p * mass (with_value e) (joint_factor (sub o 1) rs child))%Qc.
Proof.
  intros Hs Ho He. apply Forall_cons in Hs as [Hs1 Hs2], Ho as [Ho1 Ho2]. apply mass_root; [done| |done].
  intros k c a b Ha Hb Hc. apply joint_spec in Hc as (q & d & _ & Hd & _); [|done|done]. by apply (Ho1 k d).
Qed.

(** The marginals printed for one piece of evidence. *)
Theorem C68_conditional (o : oracle) (x y : table) (v var e : string) (p : Qc) : one_named var x -> norm (select_value x v) = Ok y ->
  margin o y var !! e = Some p <->
  (exists k c, x !! k = Some c /\ e ∈ k /\ v ∈ k) /\ name_has var e /\
  p = (mass (fun k => with_value e k && with_value v k) x / mass (with_value v) x)%Qc.
Proof. exact (conditional o x v var e p y). Qed.

(** The second piece of evidence: multiplying by the prior of the value once more and normalising. *)
Theorem C68_second_evidence (o : oracle) (r x y : table) (v : string) (p : Qc) :
  single_variable r -> one_value_of r x -> r !! {[v]} = Some p -> p <> 0%Qc ->
  norm x = Ok y -> mass any_key x <> 0%Qc ->
  norm (cpd_product o (select_value r v) y) = norm (select_value x v).
Proof.
  intros Hs Ho Hv Hp Hy Ht. rewrite <- (norm_select_norm x v y Hy Ht). apply (second_evidence o r y v p); [done| |done|done].
  intros k c a b Ha Hb Hk. pose proof (norm_spec x) as Hn. rewrite Hy in Hn. apply Hn in Hk as (c' & Hk & _). by apply (Ho k c').
Qed.

(** ** The network of the file *)

Definition s1 (a : string) : gset string := {[a]}.
Definition s3 (a b c : string) : gset string := {[a; b; c]}.
Definition fr (n d : Z) : Qc := Q2Qc (n # Z.to_pos d).
(** pgmpy_bayes_net_test.py:76-78, :80-82 and :84-96 *)
Definition cpd_d : table := list_to_map [(s1 "d_0", fr 6 10); (s1 "d_1", fr 4 10)].
Definition cpd_i : table := list_to_map [(s1 "i_0", fr 7 10); (s1 "i_1", fr 3 10)].
Definition cpd_g : table := list_to_map
  [(s3 "i_0" "d_0" "g_0", fr 3 10); (s3 "i_0" "d_0" "g_1", fr 7 10); (s3 "i_0" "d_1" "g_0", fr 5 100); (s3 "i_0" "d_1" "g_1", fr 95 100);
   (s3 "i_1" "d_0" "g_0", fr 9 10); (s3 "i_1" "d_0" "g_1", fr 1 10); (s3 "i_1" "d_1" "g_0", fr 5 10); (s3 "i_1" "d_1" "g_1", fr 5 10)].
Definition in_order : oracle := fun _ => [].
Definition backwards : oracle := fun _ => replicate 9 9%nat.

Definition singleb (r : table) : bool :=
  forallb (fun kv => bool_decide (size kv.1 = 1%nat)) (map_to_list r).
Definition one_valueb (r x : table) : bool :=
  forallb (fun kv => forallb (fun a => forallb (fun b => bool_decide (r !! s1 a = None) || bool_decide (r !! s1 b = None) || bool_decide (a = b))
    (elements kv.1)) (elements kv.1)) (map_to_list x).
Definition one_namedb (var : string) (x : table) : bool :=
  forallb (fun kv => bool_decide (length (filter (fun e => str_in var e = true) (elements kv.1)) = 1%nat)) (map_to_list x).

Lemma singleb_ok r : singleb r = true -> single_variable r.
Proof.
  unfold singleb. rewrite forallb_forall. intros H k p Hk%elem_of_map_to_list%elem_of_list_In. apply H in Hk.
  apply bool_decide_eq_true_1, size_1_elem_of in Hk as [a Ha]. exists a. simpl in Ha. set_solver.
Qed.
Lemma one_valueb_ok r x : one_valueb r x = true -> one_value_of r x.
Proof.
  unfold one_valueb. rewrite forallb_forall. intros H k c a b [p Ha] [q Hb] Hk%elem_of_map_to_list%elem_of_list_In Hak Hbk.
  apply H in Hk. simpl in Hk. rewrite forallb_forall in Hk. apply elem_of_elements, elem_of_list_In, Hk in Hak. rewrite forallb_forall in Hak.
  apply elem_of_elements, elem_of_list_In, Hak in Hbk. unfold s1 in Hbk. rewrite Ha, Hb in Hbk. by apply bool_decide_eq_true_1 in Hbk.
Qed.
Lemma one_namedb_ok var x : one_namedb var x = true -> one_named var x.
Proof.
  unfold one_namedb. rewrite forallb_forall. intros H k c Hk%elem_of_map_to_list%elem_of_list_In. apply H in Hk. simpl in Hk.
  apply bool_decide_eq_true_1 in Hk. destruct (filter _ _) as [|e [|? ?]] eqn:E; [done| |done]. exists e. intros e'.
  assert (e' ∈ [e] <-> e' = e) as <- by apply elem_of_list_singleton. rewrite <- E, elem_of_list_filter, elem_of_elements, str_in_spec. tauto.
Qed.

Definition joint_of_file : table := joint_factor in_order [cpd_d; cpd_i] cpd_g.

Example C68_case_tables : Forall single_variable [cpd_d; cpd_i] /\ Forall (fun r => one_value_of r cpd_g) [cpd_d; cpd_i] /\
  is_Some (cpd_d !! {["d_1"]}) /\ one_value_of cpd_d joint_of_file /\ one_named "g" joint_of_file /\ one_named "d" joint_of_file.
Proof.
  split; [repeat (apply List.Forall_cons; [apply singleb_ok; vm_compute; reflexivity|]); constructor|].
  split; [repeat (apply List.Forall_cons; [apply one_valueb_ok; vm_compute; reflexivity|]); constructor|].
  split; [by_vm|]. split; [apply one_valueb_ok; vm_compute; reflexivity|]. split; apply one_namedb_ok; vm_compute; reflexivity.
Qed.
Example C68_case_margin : margin backwards joint_of_file "g" !! "g_0" = Some (fr 362 1000) /\ joint_of_file !! s3 "i_1" "d_0" "g_0" = Some (fr 162 1000).
Proof. split; by_vm. Qed.
Example C68_case_root : mass (with_value "d_1") (joint_factor (sub in_order 1) [cpd_i] cpd_g) = 1%Qc /\
  margin in_order joint_of_file "d" !! "d_1" = Some (fr 4 10).
Proof. split; by_vm. Qed.
Example C68_case_norm : mass any_key joint_of_file = 1%Qc /\ mass (with_value "g_1") joint_of_file = fr 638 1000 /\
  norm ∅ = Ok ∅ /\ norm {[s1 "a" := 0%Qc]} = Err ZeroDivisionError.
Proof. split; [by_vm|]. split; [by_vm|]. split; by_vm. Qed.

(** The evidence of the file can be normalised, so [C68_conditional] and [C68_second_evidence] apply. *)
Lemma norm_ok (x : table) : mass any_key x <> 0%Qc -> exists y, norm x = Ok y.
Proof. intros H. pose proof (C68_norm x) as Hn. destruct (norm x) as [y|e]; [by exists y|]. destruct Hn as (_ & _ & Hn). congruence. Qed.
Example C68_case_evidence : (exists y, norm (select_value joint_of_file "g_1") = Ok y) /\
  (exists y, norm (joint_factor in_order [cpd_d; cpd_i] (select_value cpd_g "g_1")) = Ok y) /\
  mass (fun k => with_value "i_0" k && with_value "g_1" k) joint_of_file = fr 56 100 /\
  cpd_d !! {["d_1"]} = Some (fr 4 10) /\ fr 4 10 <> 0%Qc.
Proof.
  split; [apply norm_ok; by_vm|]. split; [apply norm_ok; by_vm|]. split; [by_vm|]. split; by_vm.
Qed.

(** ** What the product does not give *)

(** Two tables that share a variable besides another one: the values contradict each other. *)
Theorem C68_two_shared_refuted : exists (o : oracle) (x1 x2 : table) (a b b' : string),
  (forall k, is_Some (x1 !! k) -> k = {[a; b]}) /\ (forall k, is_Some (x2 !! k) -> k = {[a; b']}) /\ b <> b' /\
  is_Some (cpd_product o x1 x2 !! {[a; b; b']}).
Proof.
  exists in_order, {[ {["a_0"; "b_0"]} := fr 1 2 ]}, {[ {["a_0"; "b_1"]} := fr 1 3 ]}, "a_0", "b_0", "b_1".
  split; [by intros k [w [<- _]%lookup_singleton_Some]|]. split; [by intros k [w [<- _]%lookup_singleton_Some]|].
  split; [discriminate|by_vm].
Qed.

(** The tables must be multiplied in the order of the file. *)
Theorem C68_association_refuted : exists (o : oracle) (d i g : table), Forall single_variable [d; i] /\
  Forall (fun r => one_value_of r g) [d; i] /\ cpd_product o d (cpd_product o i g) <> ∅ /\ cpd_product o (cpd_product o d i) g = ∅.
Proof.
  exists in_order, cpd_d, cpd_i, cpd_g.
  split; [repeat (apply List.Forall_cons; [apply singleb_ok; vm_compute; reflexivity|]); constructor|].
  split; [repeat (apply List.Forall_cons; [apply one_valueb_ok; vm_compute; reflexivity|]); constructor|]. split; by_vm.
Qed.

(** Multiplying by the whole prior once more changes the distribution. *)
Theorem C68_prior_again_refuted : exists (o : oracle) (r x y : table), single_variable r /\ one_value_of r x /\
  mass any_key x = 1%Qc /\ norm (cpd_product o r x) = Ok y /\ y <> x.
Proof.
  exists in_order, {[ s1 "d_0" := fr 1 4; s1 "d_1" := fr 3 4 ]}, {[ s1 "d_0" := fr 1 4; s1 "d_1" := fr 3 4 ]},
    {[ s1 "d_0" := fr 1 10; s1 "d_1" := fr 9 10 ]}.
  split; [apply singleb_ok; vm_compute; reflexivity|]. split; [apply one_valueb_ok; vm_compute; reflexivity|].
  split; [by_vm|]. split; by_vm.
Qed.

(** A name that contains the name of another variable: the marginal depends on the order in which a frozenset is iterated. *)
Theorem C68_names_refuted : exists (o o' : oracle) (x : table) (var : string), margin o x var <> margin o' x var.
Proof. exists in_order, backwards, {[ {["i_0"; "hi_0"]} := 1%Qc ]}, "i". by_vm. Qed.

Print Assumptions C68_product.
Print Assumptions C68_joint.
Print Assumptions C68_weight.
Print Assumptions C68_select_child.
Print Assumptions C68_select_prior.
Print Assumptions C68_norm.
Print Assumptions C68_margin.
Print Assumptions C68_margin_total.
Print Assumptions C68_root_margin.
Print Assumptions C68_conditional.
Print Assumptions C68_second_evidence.
Print Assumptions C68_two_shared_refuted.
Print Assumptions C68_association_refuted.
Print Assumptions C68_prior_again_refuted.
Print Assumptions C68_names_refuted.
