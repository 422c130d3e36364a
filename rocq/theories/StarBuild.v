(** * StarBuild: building the outcome of a variable and its parents. *)

From Verif Require Import BaseFacts BuilderFacts.
From Verif Require Export NetInfer.

Section star_build.
Context {U : Universe}.

Context (cp : provider) (var : Var) (rel : Rel) (nm : Var -> Val).

Definition star_nodes (l : list Var) (n : node) : Prop := l <> [] /\ (n = (var, nm var) \/ exists p, p ∈ l /\ n = (p, nm p)).
Definition star_edge (p : Var) : edge := ({[(p, nm p); (var, nm var)]}, Directed p var rel).

Definition star_state (l : list Var) (b : builder) : Prop :=
  index_ok b /\ b_cp b = cp /\ (forall n, n ∈ b_nodes b <-> star_nodes l n) /\
  (forall e, e ∈ b_edges b <-> exists p, p ∈ l /\ e = star_edge p).

Lemma star_new : star_state [] (new_builder cp).
Proof.
  split_and!; [apply index_ok_new|done| |].
  - intros n. simpl. split; [intros H; by apply elem_of_empty in H|by intros [H _]].
  - intros e. simpl. split; [intros H; by apply elem_of_empty in H|]. intros (p & H & _). by apply elem_of_nil in H.
Qed.

Lemma star_step l b p : rel ∈ cp_rels cp -> declared cp (var, nm var) -> declared cp (p, nm p) -> p <> var -> p ∉ l -> star_state l b ->
  exists b', add_relation b {[(p, nm p); (var, nm var)]} (Directed p var rel) = (b', Ok tt) /\ star_state (l ++ [p]) b'.
Proof.
  intros Hrel Hdv Hdp Hne Hp (Hi & Hcp & Hn & He).
  pose proof (add_relation_spec b {[(p, nm p); (var, nm var)]} (Directed p var rel) Hi) as Hspec.
  pose proof (index_ok_add b {[(p, nm p); (var, nm var)]} (Directed p var rel) Hi) as Hi'.
  destruct (add_relation b _ _) as [b' [[]|err]].
  - destruct Hspec as (_ & Hcp' & Hn' & He'). exists b'. split; [done|]. split_and!; [done|congruence| |].
    + intros n. rewrite Hn', !elem_of_union, !elem_of_singleton, Hn. unfold star_nodes. split.
      * intros [[_ [->|(q & Hq & ->)]]|[->| ->]]; (split; [by destruct l|]).
        -- by left.
        -- right. exists q. split; [apply elem_of_app; by left|done].
        -- right. exists p. split; [apply elem_of_app; right; by apply elem_of_list_singleton|done].
        -- by left.
      * intros [_ [->|(q & Hq & ->)]]; [by right; right|].
        apply elem_of_app in Hq as [Hq|Hq].
        -- left. split; [by intros ->; apply elem_of_nil in Hq|]. right. by exists q.
        -- apply elem_of_list_singleton in Hq as ->. by right; left.
    + intros e. rewrite He', elem_of_union, elem_of_singleton, He. split.
      * intros [(q & Hq & ->)| ->]; [exists q|exists p]; (split; [apply elem_of_app|done]); [by left|right; by apply elem_of_list_singleton].
      * intros (q & Hq & ->). apply elem_of_app in Hq as [Hq|Hq]; [left; by exists q|]. apply elem_of_list_singleton in Hq as ->. by right.
  - exfalso. destruct Hspec as (_ & Hno & _). apply Hno. rewrite <- Hcp in *. split_and!.
    + split_and!; simpl.
      * exists (p, nm p), (var, nm var). split; [done|]. simpl. done.
      * intros n. rewrite elem_of_union, !elem_of_singleton. by intros [->| ->].
      * split_and!; [done| |].
        -- exists (nm p). apply elem_of_union_l. by apply elem_of_singleton.
        -- exists (nm var). apply elem_of_union_r. by apply elem_of_singleton.
    + destruct l as [|q l].
      * left. apply set_eq. intros n. rewrite Hn. unfold star_nodes. split; [by intros [[] _]|intros H; by apply elem_of_empty in H].
      * right. exists (var, nm var). split; [apply elem_of_union_r; by apply elem_of_singleton|]. apply Hn. split; [done|by left].
    + intros e Hin Heq. apply He in Hin as (q & Hq & ->). simpl in Heq.
      assert ((p, nm p) ∈ ({[(q, nm q); (var, nm var)]} : gset node)) as Hpq by (rewrite Heq; apply elem_of_union_l; by apply elem_of_singleton).
      rewrite elem_of_union, !elem_of_singleton in Hpq. destruct Hpq as [[= -> _]|[= -> _]]; done.
Qed.

Lemma star_loop (F : oracle -> builder -> Var -> res builder) o ps :
  rel ∈ cp_rels cp -> declared cp (var, nm var) -> (forall p, p ∈ ps -> declared cp (p, nm p) /\ p <> var) -> NoDup ps ->
  (forall o b p, p ∈ ps -> F o b p = match add_relation b {[(p, nm p); (var, nm var)]} (Directed p var rel) with
                                     | (b', Ok _) => Ok b' | (_, Err e) => Err e end) ->
  exists b, for_res F o (new_builder cp) ps = Ok b /\ star_state ps b.
Proof.
  intros Hrel Hdv Hdp Hnd HF.
  pose proof (for_res_ind star_state (fun _ => False) F o (new_builder cp) ps star_new) as H.
  destruct (for_res F o (new_builder cp) ps) as [b|]; [exists b; split; [done|]|exfalso]; apply H; clear H.
  all: intros done p rest b1 o' Hl Hst.
  all: assert (p ∈ ps) as Hp by (rewrite Hl; apply elem_of_app; right; by left).
  all: rewrite HF by done; destruct (Hdp p Hp) as [Hd Hne].
  all: destruct (star_step done b1 p) as (b' & -> & Hst'); try assumption.
  all: rewrite Hl in Hnd; apply NoDup_app in Hnd as (_ & Hnd & _); intros Hin; apply (Hnd p Hin); by left.
Qed.

(** The outcome is the graph of the factor. *)
Lemma star_graph ps b (f : factor) : ps <> [] -> star_state ps b ->
  (forall v, v ∈ f_vars f <-> v = var \/ v ∈ ps) ->
  (forall v w r, (v, w, r) ∈ f_links f <-> v ∈ ps /\ w = var /\ r = Directed v var rel) ->
  build b = Ok (Sample (cp_id cp) (f_graph f nm)).
Proof.
  intros Hps (_ & Hcp & Hn & He) Hv Hl. unfold build. rewrite bool_decide_true; cbn [passert mbind res_bind].
  - assert (b_nodes b = g_nodes (f_graph f nm)) as ->; [|assert (b_edges b = g_edges (f_graph f nm)) as ->; [|by rewrite Hcp]].
    + apply set_eq. intros [v x]. rewrite Hn. apply (iff_trans (B := v ∈ f_vars f /\ x = nm v)); [rewrite Hv|symmetry; apply (f_nodes f nm (v, x))]. split.
      * intros [_ [[= -> ->]|(p & Hp & [= -> ->])]]; auto.
      * intros [[->|Hvp] ->]; (split; [done|]); [by left|right; by exists v].
    + apply set_eq. intros e. rewrite He. etransitivity; [|symmetry; apply (f_edges f nm e)]. split.
      * intros (p & Hp & ->). exists p, var, (Directed p var rel). split; [by apply Hl|done].
      * intros (v & w & r & Hlk & ->). apply Hl in Hlk as (Hvp & -> & ->). by exists v.
  - intros H. assert ((var, nm var) ∈ b_nodes b) as Hin by (apply Hn; split; [done|by left]). rewrite H in Hin. by apply elem_of_empty in Hin.
Qed.

End star_build.
