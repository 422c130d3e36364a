(** * MarkovInfer: inference on several values in the Markov network experiment. *)

From stdpp Require Import pretty.
From Verif Require Import BaseFacts CondJoinFacts.
From Verif Require Export MarkovFacts StageFacts.

Local Existing Instance StrU.

Section markov.
Context (nodes : list Var) (edges : list (Var * Var * list Z)) (Hok : markov_ok nodes edges) (i : nat).
Local Notation mfs := (markov_factor <$> edges).
Context (Hcover : forall v, v ∈ nodes -> exists e, e ∈ edges /\ (v = e.1.1 \/ v = e.1.2)).
Context (Hconn : net_connected mfs) (Htree : ~ net_cyclic mfs \/ ~ net_crowded mfs).

Lemma markov_stages o o' l :
  (forall v x, given_in l (v, x) -> v ∈ nodes /\ exists j, j < 2 /\ x = value_name v j) ->
  (forall v x y, given_in l (v, x) -> given_in l (v, y) -> x = y) ->
  exists sp r m, make_markov_graph i nodes edges = Ok sp /\ run_stages o sp (l ++ [Joined]) = Ok r /\
  relation_graph_prop o' nodes r = Ok m /\
  shares (fun t => binary_tuple (length nodes) t /\ forall v j, given_in l (v, value_name v j) -> value_at nodes t v = j)
    (markov_product nodes edges) (fun t => m !! t).
Proof.
  intros Hgiven Huniq. destruct (markov_built nodes edges Hok i) as (sp & Hsp & Hcp & Hholds).
  assert (net_ok (sp_cp sp) mfs) as Hnet by (rewrite Hcp; by apply markov_net_ok).
  pose proof (net_joinable sp _ Hnet Hholds) as Hj.
  assert (~ disconnected (sp_out sp)) as Hd by by apply (net_not_disconnected sp _ Hnet Hholds).
  assert (~ cyclic (sp_out sp) \/ ~ crowded (sp_out sp)) as Hc.
  { destruct Htree as [H|H]; [left; by apply (net_not_cyclic sp _ Hnet Hholds)|right; by apply (net_not_crowded sp _ Hnet Hholds)]. }
  destruct (stages_joined o o sp l Hj Hd Hc) as (rj & r & Hrj & Hr & Hrcp & Hrcp' & HGr).
  { split; [|done]. intros [v x] Hg. destruct (Hgiven v x Hg) as (Hv & j & Hlt & ->).
    apply (net_occurs sp _ Hnet Hholds); [by apply (markov_net_vars nodes edges Hok Hcover)|]. rewrite Hcp.
    refine (proj2 (markov_declared nodes edges Hok i v (value_name v j)) _). split; [done|by exists j]. }
  destruct (net_joined sp mfs Hnet Hholds o (edges_factors nodes edges Hok Hcover Hconn Htree) Hconn Htree) as (rj' & Hrj' & _ & _ & HG).
  assert (rj' = rj) as -> by congruence. clear Hrj'.
  destruct (markov_readout nodes edges Hok i Hcover o' r (fun a => forall n, given_in l n -> n.2 = a n.1)) as (m & Hm & Hs).
  - congruence.
  - congruence.
  - intros a b Hab Ha [v x] Hg. destruct (Hgiven v x Hg) as (Hv & _). simpl. rewrite <- (Hab v Hv). exact (Ha (v, x) Hg).
  - intros G c. rewrite HGr, HG. split.
    + intros [(a & Ha & -> & ->) Hn]. exists a. split_and!; [|intros n Hg; exact (proj2 (proj1 (net_graph_nodes _ _ _) (Hn n Hg)))|done|done].
      intros v Hv. rewrite <- Hcp. by apply Ha, (markov_net_vars nodes edges Hok Hcover).
    + intros (a & Ha & He & -> & ->). split.
      * exists a. split_and!; [|done|done]. intros v Hv. rewrite Hcp. by apply Ha, (markov_net_vars nodes edges Hok Hcover).
      * intros [v x] Hg. apply net_graph_nodes. split; [|exact (He (v, x) Hg)]. apply (markov_net_vars nodes edges Hok Hcover).
        by destruct (Hgiven v x Hg).
  - exists sp, r, m. split_and!; [done..|].
    assert (forall t, (forall n, given_in l n -> n.2 = named (value_at nodes t) n.1) <->
      (forall v j, given_in l (v, value_name v j) -> value_at nodes t v = j)) as Hn.
    { intros t. unfold named. split.
      - intros H v j Hg. symmetry. exact (proj2 (value_name_inj _ _ _ _ (H (v, value_name v j) Hg))).
      - intros H [v x] Hg. destruct (Hgiven v x Hg) as (_ & j & _ & ->). simpl. f_equal. symmetry. by apply H. }
    intros l' Hnd Hl t q. rewrite (Hs l' Hnd); [by rewrite Hn|]. intros k. rewrite Hl. by rewrite Hn.
Qed.

End markov.
