(** * DemoPack: packing, listing and hashing of grids of the demo *)

From Coq Require Import ZArith Lia.
From stdpp Require Import base list numbers option sets.
From Verif Require Import SpecPacman DemoGridFacts PacmanLayout.

(** ** Words of 30 cells *)
Fixpoint wsum (g : nat -> bool) (from n : nat) : Z :=
  match n with
  | O => 0
  | S n => (if g from then 2 ^ (29 - Z.of_nat from) else 0) + wsum g (S from) n
  end%Z.

Lemma wsum_snoc g from n : wsum g from (S n) = (wsum g from n + if g (from + n)%nat then 2 ^ (29 - Z.of_nat (from + n)) else 0)%Z.
Proof.
  revert from. induction n as [|n IH]; intros from.
  - simpl. rewrite Nat.add_0_r. lia.
  - change (wsum g from (S (S n))) with ((if g from then 2 ^ (29 - Z.of_nat from) else 0) + wsum g (S from) (S n))%Z.
    rewrite IH. cbn [wsum]. replace (S from + n) with (from + S n) by lia. lia.
Qed.

Lemma wsum_bound g from n : from + n = 30 -> (0 <= wsum g from n < 2 ^ Z.of_nat n)%Z.
Proof.
  revert from. induction n as [|n IH]; intros from Hn; [simpl; lia|]. cbn [wsum]. specialize (IH (S from) ltac:(lia)).
  replace (29 - Z.of_nat from)%Z with (Z.of_nat n) by lia. rewrite Nat2Z.inj_succ, Z.pow_succ_r by lia.
  pose proof (Z.pow_pos_nonneg 2 (Z.of_nat n)). destruct (g from); lia.
Qed.

Lemma wsum_ext g g' from n : (forall k, from <= k < from + n -> g k = g' k) -> wsum g from n = wsum g' from n.
Proof.
  revert from. induction n as [|n IH]; intros from Hg; [done|]. cbn [wsum]. rewrite Hg by lia. f_equal. apply IH. intros. apply Hg. lia.
Qed.

Lemma wsum_false g from n m : (forall k, from + n <= k -> g k = false) -> wsum g from (n + m) = wsum g from n.
Proof.
  intros Hg. induction m as [|m IH]; [by rewrite Nat.add_0_r|]. rewrite Nat.add_succ_r, wsum_snoc, IH.
  rewrite Hg by lia. lia.
Qed.

Definition unpack_step : list bool * Z -> Z -> list bool * Z := fun '(bools, packed) i =>
  let n := (2 ^ (CELLS_PER_INT - i - 1))%Z in
  if (n <=? packed)%Z then (bools ++ [true], packed - n)%Z else (bools ++ [false], packed).

Lemma unpack_steps g from n :
  from + n = 30 ->
  forall bools, fold_left unpack_step (Z.of_nat <$> seq from n) (bools, wsum g from n) = (bools ++ (g <$> seq from n), 0%Z).
Proof.
  revert from. induction n as [|n IH]; intros from Hn bools; [simpl; by rewrite app_nil_r|].
  pose proof (wsum_bound g (S from) n ltac:(lia)) as Hb.
  cbn [seq]. rewrite fmap_cons. cbn [fold_left unpack_step wsum]. unfold CELLS_PER_INT.
  replace (30 - Z.of_nat from - 1)%Z with (Z.of_nat n) by lia. replace (29 - Z.of_nat from)%Z with (Z.of_nat n) by lia.
  destruct (g from) eqn:Eg.
  - destruct (Z.leb_spec (2 ^ Z.of_nat n) (2 ^ Z.of_nat n + wsum g (S from) n)) as [_|]; [|lia].
    replace (2 ^ Z.of_nat n + wsum g (S from) n - 2 ^ Z.of_nat n)%Z with (wsum g (S from) n) by lia.
    rewrite IH by lia. rewrite <- app_assoc. cbn [fmap list_fmap app]. by rewrite Eg.
  - rewrite Z.add_0_l. destruct (Z.leb_spec (2 ^ Z.of_nat n) (wsum g (S from) n)) as [|_]; [lia|].
    rewrite IH by lia. rewrite <- app_assoc. cbn [fmap list_fmap app]. by rewrite Eg.
Qed.

Lemma unpack_int_word g : unpack_int (wsum g 0 30) CELLS_PER_INT = DOk (g <$> seq 0 30).
Proof.
  unfold unpack_int. pose proof (wsum_bound g 0 30 eq_refl).
  destruct (Z.ltb_spec (wsum g 0 30) 0); [lia|]. f_equal.
  change (range CELLS_PER_INT) with (Z.of_nat <$> seq 0 30).
  pose proof (unpack_steps g 0 30 eq_refl []) as E. unfold unpack_step in E. rewrite E. done.
Qed.

(** ** The cells of a grid in a row *)
Definition nth_cell (g : grid) (i : nat) : bool :=
  match cell g (cell_of (gr_height g) (Z.of_nat i)) with Some b => b | None => false end.

Lemma cell_of_bounds w h i : (0 <= h)%Z -> (0 <= i < w * h)%Z -> (0 <= (cell_of h i).1 < w /\ 0 <= (cell_of h i).2 < h)%Z.
Proof.
  intros Hh Hi. assert (0 < h)%Z by (destruct (decide (h = 0%Z)) as [->|]; lia). unfold cell_of. cbn [fst snd]. pose proof (Z.mod_pos_bound i h).
  split; [|lia]. split; [apply Z.div_pos; lia|]. apply Z.div_lt_upper_bound; lia.
Qed.

Lemma cell_of_inj w h i j : (0 <= h)%Z -> (0 <= i < w * h)%Z -> (0 <= j < w * h)%Z -> cell_of h i = cell_of h j -> i = j.
Proof.
  intros Hh Hi Hj [= E1 E2]. assert (0 < h)%Z by (destruct (decide (h = 0%Z)) as [->|]; lia). rewrite (Z.div_mod i h), (Z.div_mod j h) by lia. congruence.
Qed.

Lemma cell_of_surj w h x y : (0 <= x < w)%Z -> (0 <= y < h)%Z -> exists i, (0 <= i < w * h)%Z /\ cell_of h i = (x, y).
Proof.
  intros Hx Hy. exists (x * h + y)%Z. split; [nia|]. unfold cell_of. f_equal.
  - rewrite Z.div_add_l by lia. rewrite Z.div_small by lia. lia.
  - rewrite Z.add_comm, Z.mod_add by lia. by apply Z.mod_small.
Qed.

Lemma nth_cell_get g i :
  rectangular g -> (0 <= gr_height g)%Z -> (Z.of_nat i < gr_width g * gr_height g)%Z ->
  cell g (cell_of (gr_height g) (Z.of_nat i)) = Some (nth_cell g i) /\
  grid_get g (cell_of (gr_height g) (Z.of_nat i)).1 (cell_of (gr_height g) (Z.of_nat i)).2 = DOk (nth_cell g i).
Proof.
  intros Hr Hh Hi. assert (Hb := cell_of_bounds (gr_width g) (gr_height g) (Z.of_nat i) Hh ltac:(lia)).
  destruct (cell_of (gr_height g) (Z.of_nat i)) as [x y] eqn:E. cbn [fst snd] in *.
  apply cell_rect in Hb as [b Hb]; [|done]. assert (En : nth_cell g i = b) by (unfold nth_cell; by rewrite E, Hb).
  rewrite En. split; [done|]. by apply grid_get_cell.
Qed.

(** ** Packing *)
Definition word (g : grid) (N j : nat) : Z := wsum (fun b => bool_decide (30 * j + b < N) && nth_cell g (30 * j + b)) 0 30.

Definition pack_step (g : grid) (st : list Z * Z) (i : Z) : dres (list Z * Z) :=
  let '(bits, cur) := st in
  let bit := (CELLS_PER_INT - i mod CELLS_PER_INT - 1)%Z in
  let '(x, y) := cell_of (gr_height g) i in
  b ← grid_get g x y;
  let cur := if (b : bool) then (cur + 2 ^ bit)%Z else cur in
  DOk (if ((i + 1) mod CELLS_PER_INT =? 0)%Z then (bits ++ [cur], 0%Z) else (bits, cur)).

Definition part (g : grid) (j m : nat) : Z := wsum (fun b => nth_cell g (30 * j + b)) 0 m.

Lemma pack_loop g j m :
  rectangular g -> (0 <= gr_height g)%Z -> m < 30 -> (Z.of_nat (30 * j + m) <= gr_width g * gr_height g)%Z ->
  for_each (pack_step g) ([gr_width g; gr_height g], 0%Z) (Z.of_nat <$> seq 0 (30 * j + m))
  = DOk ([gr_width g; gr_height g] ++ ((fun j => part g j 30) <$> seq 0 j), part g j m).
Proof.
  intros Hr Hh. revert m. induction j as [|j IHj]; intros m.
  - induction m as [|m IH]; intros Hm Hn; [done|]. change (30 * 0 + S m) with (S m) in *. rewrite seq_S, fmap_app, for_each_app.
    change (30 * 0 + m) with m in IH. rewrite IH by lia. cbn [mbind dres_bind fmap list_fmap for_each Nat.add].
    destruct (nth_cell_get g m Hr Hh ltac:(lia)) as [_ Hget]. unfold pack_step.
    destruct (cell_of (gr_height g) (Z.of_nat m)) as [x y]. cbn [fst snd] in Hget. rewrite Hget. cbn [mbind dres_bind].
    unfold CELLS_PER_INT. destruct (Z.eqb_spec ((Z.of_nat m + 1) mod 30) 0) as [E|_].
    { rewrite Z.mod_small in E by lia. lia. }
    do 2 f_equal. unfold part. rewrite wsum_snoc. cbn [Nat.add]. rewrite Z.mod_small by lia.
    replace (30 - Z.of_nat m - 1)%Z with (29 - Z.of_nat m)%Z by lia. change (30 * 0 + m) with m. destruct (nth_cell g m); lia.
  - induction m as [|m IH]; intros Hm Hn.
    + rewrite Nat.add_0_r. replace (30 * S j) with (S (30 * j + 29)) by lia. rewrite seq_S, fmap_app, for_each_app.
      rewrite IHj by lia. cbn [mbind dres_bind fmap list_fmap for_each Nat.add].
      destruct (nth_cell_get g (30 * j + 29) Hr Hh ltac:(lia)) as [_ Hget]. unfold pack_step.
      destruct (cell_of (gr_height g) (Z.of_nat (30 * j + 29))) as [x y]. cbn [fst snd] in Hget. rewrite Hget. cbn [mbind dres_bind].
      unfold CELLS_PER_INT. replace (Z.of_nat (30 * j + 29) + 1)%Z with (30 * Z.of_nat (S j))%Z by lia.
      rewrite (Z.mul_comm 30), Z.mod_mul by lia. cbn [Z.eqb].
      replace (Z.of_nat (30 * j + 29)) with (29 + Z.of_nat j * 30)%Z by lia. rewrite Z.mod_add by lia. rewrite Z.mod_small by lia.
      do 2 f_equal. rewrite seq_S, fmap_app. rewrite app_assoc. f_equal. cbn [Nat.add fmap list_fmap]. f_equal.
      unfold part. rewrite (wsum_snoc _ 0 29). cbn [Nat.add].
      replace (30 - 29 - 1)%Z with 0%Z by lia. change (29 - Z.of_nat 29)%Z with 0%Z. destruct (nth_cell g (30 * j + 29)); lia.
    + replace (30 * S j + S m) with (S (30 * S j + m)) in * by lia. rewrite seq_S, fmap_app, for_each_app.
      rewrite IH by lia. cbn [mbind dres_bind fmap list_fmap for_each Nat.add].
      destruct (nth_cell_get g (30 * S j + m) Hr Hh ltac:(lia)) as [_ Hget]. unfold pack_step.
      destruct (cell_of (gr_height g) (Z.of_nat (30 * S j + m))) as [x y]. cbn [fst snd] in Hget. rewrite Hget. cbn [mbind dres_bind].
      unfold CELLS_PER_INT. replace (Z.of_nat (30 * S j + m)) with (Z.of_nat m + Z.of_nat (S j) * 30)%Z by lia.
      replace (Z.of_nat m + Z.of_nat (S j) * 30 + 1)%Z with (Z.of_nat m + 1 + Z.of_nat (S j) * 30)%Z by lia.
      rewrite !Z.mod_add by lia. rewrite !Z.mod_small by lia.
      destruct (Z.eqb_spec (Z.of_nat m + 1) 0); [lia|].
      do 2 f_equal. unfold part. rewrite wsum_snoc. cbn [Nat.add].
      replace (30 - Z.of_nat m - 1)%Z with (29 - Z.of_nat m)%Z by lia. destruct (nth_cell g (30 * S j + m)); lia.
Qed.

Lemma pack_bits_words g :
  rectangular g -> (0 <= gr_width g)%Z -> (0 <= gr_height g)%Z ->
  pack_bits g = DOk ([gr_width g; gr_height g] ++
    (word g (Z.to_nat (gr_width g * gr_height g)) <$> seq 0 (S (Z.to_nat (gr_width g * gr_height g) / 30)))).
Proof.
  intros Hr Hw Hh. set (N := Z.to_nat (gr_width g * gr_height g)).
  assert (HN : Z.of_nat N = (gr_width g * gr_height g)%Z) by (subst N; nia).
  assert (Hdiv : N = 30 * (N / 30) + N mod 30) by (apply Nat.div_mod; lia).
  assert (Hmod : N mod 30 < 30) by (apply Nat.mod_upper_bound; lia).
  pose proof (pack_loop g (N / 30) (N mod 30) Hr Hh Hmod ltac:(lia)) as Hl. rewrite <- Hdiv in Hl.
  unfold pack_bits. fold (pack_step g). unfold range. rewrite (Z.mul_comm (gr_height g)). fold N.
  match goal with |- mbind _ ?x = _ => change x with (for_each (pack_step g) ([gr_width g; gr_height g], 0%Z) (Z.of_nat <$> seq 0 N)) end.
  rewrite Hl. cbn [mbind dres_bind]. f_equal. rewrite <- app_assoc. f_equal. rewrite seq_S, fmap_app. f_equal.
  - apply list_fmap_ext. intros i j Hj. apply lookup_seq in Hj as [-> Hj]. unfold part, word. apply wsum_ext. intros k Hk.
    rewrite bool_decide_true by (simpl; lia). done.
  - cbn [fmap list_fmap Nat.add]. f_equal. unfold word, part.
    set (f := fun b => bool_decide (30 * (N / 30) + b < N) && nth_cell g (30 * (N / 30) + b)).
    assert (E : wsum f 0 30 = wsum f 0 (N mod 30)).
    { rewrite <- (wsum_false f 0 (N mod 30) (30 - N mod 30)); [f_equal; lia|]. intros k Hk. subst f. cbv beta. by rewrite bool_decide_false by lia. }
    rewrite E. apply wsum_ext. intros k Hk. subst f. cbv beta. by rewrite bool_decide_true by lia.
Qed.

(** ** Unpacking *)
Lemma unpack_cells_spec bs g c :
  rectangular g -> (0 <= gr_height g)%Z -> (Z.of_nat c <= gr_width g * gr_height g)%Z ->
  exists g' n, unpack_cells g (Z.of_nat c) bs = DOk (g', Z.of_nat (c + n)) /\
    n = Nat.min (length bs) (Z.to_nat (gr_width g * gr_height g) - c) /\
    rectangular g' /\ gr_width g' = gr_width g /\ gr_height g' = gr_height g /\
    (forall i, (Z.of_nat i < gr_width g * gr_height g)%Z ->
       nth_cell g' i = if decide (c <= i < c + n) then match bs !! (i - c) with Some b => b | None => false end else nth_cell g i).
Proof.
  revert g c. induction bs as [|b bs IH]; intros g c Hr Hh Hc.
  - exists g, 0. rewrite Nat.add_0_r. split_and!; try done. intros i Hi. by rewrite decide_False by lia.
  - cbn [unpack_cells]. destruct (Z.eqb_spec (Z.of_nat c) (gr_width g * gr_height g)) as [E|E].
    + exists g, 0. rewrite Nat.add_0_r. split_and!; try done; [lia|]. intros i Hi. by rewrite decide_False by lia.
    + destruct (nth_cell_get g c Hr Hh ltac:(lia)) as [Hcell _].
      assert (Hbb := cell_of_bounds (gr_width g) (gr_height g) (Z.of_nat c) Hh ltac:(lia)).
      destruct (cell_of (gr_height g) (Z.of_nat c)) as [x y] eqn:Exy.
      destruct (grid_set_cell g x y _ b Hcell) as (g1 & E1 & W1 & H1 & R1 & C1 & _). rewrite E1. cbn [mbind dres_bind].
      replace (Z.of_nat c + 1)%Z with (Z.of_nat (S c)) by lia.
      destruct (IH g1 (S c)) as (g' & n & Eg & En & Rg & Wg & Hg & Ng); [by apply R1|lia|rewrite W1, H1; lia|].
      rewrite W1, H1 in *. exists g', (S n). split_and!.
      * rewrite Eg. do 2 f_equal. lia.
      * cbn [length]. lia.
      * done.
      * congruence.
      * congruence.
      * intros i Hi. rewrite (Ng i Hi). assert (N1 : nth_cell g1 i = if decide (i = c) then b else nth_cell g i).
        { unfold nth_cell. rewrite H1, C1. destruct (decide (i = c)) as [->|Hne].
          - rewrite Exy. by rewrite decide_True.
          - rewrite decide_False; [done|]. intros E2. rewrite <- Exy in E2.
            apply (cell_of_inj (gr_width g)) in E2; lia. }
        destruct (decide (S c <= i < S c + n)).
        -- rewrite decide_True by lia. replace (i - c) with (S (i - S c)) by lia. done.
        -- rewrite N1. destruct (decide (i = c)) as [->|].
           ++ rewrite decide_True by lia. by rewrite Nat.sub_diag.
           ++ by rewrite decide_False by lia.
Qed.

Definition unpack_word (st : grid * Z) (packed : Z) : dres (grid * Z) :=
  let '(g, cell) := st in bools ← unpack_int packed CELLS_PER_INT; unpack_cells g cell bools.

Lemma unpack_word_eq g c f : unpack_word (g, c) (wsum f 0 30) = unpack_cells g c (f <$> seq 0 30).
Proof. unfold unpack_word. by rewrite unpack_int_word. Qed.

Lemma unpack_loop (f : nat -> bool) N m g j :
  rectangular g -> (0 <= gr_height g)%Z -> Z.of_nat N = (gr_width g * gr_height g)%Z ->
  (forall i, i < N -> i < 30 * j -> nth_cell g i = f i) ->
  exists g', for_each unpack_word (g, Z.of_nat (Nat.min (30 * j) N))
      ((fun j => wsum (fun b => bool_decide (30 * j + b < N) && f (30 * j + b)) 0 30) <$> seq j m)
    = DOk (g', Z.of_nat (Nat.min (30 * (j + m)) N)) /\
    rectangular g' /\ gr_width g' = gr_width g /\ gr_height g' = gr_height g /\
    (forall i, i < N -> i < 30 * (j + m) -> nth_cell g' i = f i).
Proof.
  revert g j. induction m as [|m IH]; intros g j Hr Hh HN Hf.
  - exists g. rewrite Nat.add_0_r. split_and!; done.
  - cbn [seq]. rewrite fmap_cons. cbn [for_each]. rewrite unpack_word_eq.
    set (bs := (fun b => bool_decide (30 * j + b < N) && f (30 * j + b)) <$> seq 0 30).
    destruct (unpack_cells_spec bs g (Nat.min (30 * j) N) Hr Hh ltac:(lia)) as (g1 & n & E1 & En & R1 & W1 & H1 & N1).
    assert (Hlen : length bs = 30) by (subst bs; by rewrite fmap_length, seq_length).
    assert (HNn : Z.to_nat (gr_width g * gr_height g) = N) by lia. rewrite HNn, Hlen in En.
    rewrite E1. cbn [mbind dres_bind]. replace (Nat.min (30 * j) N + n) with (Nat.min (30 * S j) N) by lia.
    destruct (IH g1 (S j)) as (g' & Eg & Rg & Wg & Hg & Ng); [done|lia|rewrite W1, H1; lia| |].
    + intros i Hi Hij. rewrite (N1 i) by lia. destruct (decide (Nat.min (30 * j) N <= i < Nat.min (30 * j) N + n)) as [Hd|Hd].
      * subst bs. rewrite list_lookup_fmap, seq_lookup by lia. cbn [fmap option_fmap option_map].
        replace (30 * j + (i - Nat.min (30 * j) N)) with i by lia. by rewrite bool_decide_true by lia.
      * apply Hf; lia.
    + exists g'. rewrite Eg. split_and!; [by replace (S j + m) with (j + S m) by lia|done|congruence..|].
      intros i Hi Him. apply Ng; lia.
Qed.

Lemma nth_cell_ext g g' :
  rectangular g -> rectangular g' -> (0 <= gr_height g)%Z -> gr_width g = gr_width g' -> gr_height g = gr_height g' ->
  (forall i, (Z.of_nat i < gr_width g * gr_height g)%Z -> nth_cell g i = nth_cell g' i) -> g = g'.
Proof.
  intros Hr Hr' Hh Ew Eh Hc. apply grid_ext; try done. intros [x y].
  destruct (decide ((0 <= x < gr_width g)%Z /\ (0 <= y < gr_height g)%Z)) as [[Hx Hy]|Hout].
  - destruct (cell_of_surj (gr_width g) (gr_height g) x y Hx Hy) as (i & Hi & E).
    rewrite <- E. rewrite <- (Z2Nat.id i) by lia. rewrite (proj1 (nth_cell_get g (Z.to_nat i) Hr Hh ltac:(lia))).
    rewrite Eh. rewrite (proj1 (nth_cell_get g' (Z.to_nat i) Hr' ltac:(lia) ltac:(lia))). f_equal. apply Hc. lia.
  - destruct (cell g (x, y)) eqn:E1.
    { destruct Hout. apply (cell_rect g x y Hr). by eexists. }
    destruct (cell g' (x, y)) eqn:E2; [|done]. destruct Hout. rewrite Ew, Eh. apply (cell_rect g' x y Hr'). by eexists.
Qed.

Lemma pack_roundtrip g :
  rectangular g -> (0 <= gr_height g)%Z ->
  exists bits, pack_bits g = DOk bits /\ reconstitute_grid bits = DOk g.
Proof.
  intros Hr Hh. assert (Hw : (0 <= gr_width g)%Z) by (destruct Hr as [<- _]; lia).
  eexists. split; [by apply pack_bits_words|]. set (N := Z.to_nat (gr_width g * gr_height g)).
  assert (HN : Z.of_nat N = (gr_width g * gr_height g)%Z) by (subst N; nia).
  cbn [app reconstitute_grid]. unfold unpack_bits.
  assert (Hr0 := grid_new_rect (gr_width g) (gr_height g) false Hw Hh).
  destruct (unpack_loop (nth_cell g) N (S (N / 30)) (grid_new (gr_width g) (gr_height g) false) 0) as (g' & Eg & Rg & Wg & Hg & Ng).
  { done. } { done. } { done. } { intros; lia. }
  match goal with |- mbind _ ?x = _ => change x with (for_each unpack_word (grid_new (gr_width g) (gr_height g) false, 0%Z) (word g N <$> seq 0 (S (N / 30)))) end.
  change (Z.of_nat (30 * 0 `min` N)) with 0%Z in Eg.
  match type of Eg with ?l = _ => match goal with |- mbind _ ?x = _ => change x with l end end.
  rewrite Eg. cbn [mbind dres_bind]. f_equal. cbn [gr_width gr_height grid_new] in Wg, Hg. apply nth_cell_ext; try done; [lia|].
  intros i Hi. apply Ng; [rewrite Wg, Hg in Hi; lia|]. rewrite Wg, Hg, <- HN in Hi.
  pose proof (Nat.div_mod N 30 ltac:(lia)). pose proof (Nat.mod_upper_bound N 30 ltac:(lia)). lia.
Qed.

(** ** Lists of cells *)
Lemma as_list_loop g key (L : list (Z * Z)) acc :
  (forall x y, (x, y) ∈ L -> is_Some (cell g (x, y))) ->
  for_each (fun (acc : list (Z * Z)) '(x, y) => b ← grid_get g x y; DOk (if eqb b key then acc ++ [(x, y)] else acc)) acc L
  = DOk (acc ++ filter (fun c => cell g c = Some key) L).
Proof.
  revert acc. induction L as [|[x y] L IH]; intros acc HL; [by rewrite app_nil_r|]. cbn [for_each].
  destruct (HL x y) as [b Hb]; [apply elem_of_list_here|]. rewrite (grid_get_cell _ _ _ _ Hb). cbn [mbind dres_bind].
  rewrite IH by (intros; apply HL; by apply elem_of_list_further). f_equal. rewrite filter_cons.
  destruct (eqb b key) eqn:E.
  - apply eqb_prop in E as ->. rewrite decide_True by done. by rewrite <- app_assoc.
  - rewrite decide_False; [done|]. rewrite Hb. intros [= ->]. by rewrite eqb_reflx in E.
Qed.

Lemma order_rows h w : (x ← range (Z.of_nat w); y ← range (Z.of_nat h); [(x, y)]) = read_order w h.
Proof. done. Qed.

Lemma as_list_spec g key :
  rectangular g -> (0 <= gr_height g)%Z ->
  exists l, grid_as_list g key = DOk l /\ NoDup l /\ forall c, c ∈ l <-> cell g c = Some key.
Proof.
  intros Hr Hh. assert (Hw : (0 <= gr_width g)%Z) by (destruct Hr as [<- _]; lia).
  assert (Ho : (x ← range (gr_width g); y ← range (gr_height g); [(x, y)]) = read_order (Z.to_nat (gr_width g)) (Z.to_nat (gr_height g))).
  { rewrite <- order_rows. by rewrite !Z2Nat.id by lia. }
  unfold grid_as_list. rewrite Ho. eexists. split; [apply as_list_loop|].
  - intros x y Hxy%elem_read_order. apply cell_rect; [done|lia].
  - split; [apply list.NoDup_filter, NoDup_read_order|]. intros [x y]. cbn [app]. rewrite elem_of_list_filter. split; [tauto|].
    intros Hc. split; [done|]. apply elem_read_order. assert (is_Some (cell g (x, y))) as Hs by (by eexists).
    apply cell_rect in Hs; [lia|done].
Qed.

(** ** Hashes *)
Fixpoint bits_value (l : list bool) : Z := match l with [] => 0 | b :: l => (if b then 1 else 0) + 2 * bits_value l end%Z.

Definition hash_bit : Z * Z -> bool -> Z * Z := fun '(base, h) (i : bool) => (base * 2, if i then h + base else h)%Z.

Lemma hash_col l base h :
  fold_left hash_bit l (base, h) = (base * 2 ^ Z.of_nat (length l), h + base * bits_value l)%Z.
Proof.
  revert base h. induction l as [|b l IH]; intros base h; [simpl; f_equal; lia|]. cbn [fold_left hash_bit]. rewrite IH. cbn [length bits_value].
  rewrite Nat2Z.inj_succ, Z.pow_succ_r by lia. f_equal; [lia|]. destruct b; lia.
Qed.

Lemma bits_value_app l k : bits_value (l ++ k) = (bits_value l + 2 ^ Z.of_nat (length l) * bits_value k)%Z.
Proof.
  induction l as [|b l IH]; [cbn; lia|]. cbn [app length bits_value]. rewrite IH, Nat2Z.inj_succ, Z.pow_succ_r by lia. lia.
Qed.

Lemma hash_value g : grid_hash_int g = bits_value (concat (gr_data g)).
Proof.
  unfold grid_hash_int.
  enough (H : forall d base h, fold_left (fun '(base, h) (l : list bool) =>
       fold_left (fun '(base, h) (i : bool) => (base * 2, if i then h + base else h)%Z) l (base, h)) d (base, h)
    = (base * 2 ^ Z.of_nat (length (concat d)), h + base * bits_value (concat d))%Z).
  { rewrite H. cbn [snd]. lia. }
  induction d as [|l d IH]; intros base h; [simpl; f_equal; lia|]. cbn [fold_left concat].
  pose proof (hash_col l base h) as Hc. unfold hash_bit in Hc. rewrite Hc, IH, bits_value_app, app_length.
  rewrite Nat2Z.inj_add, Z.pow_add_r by lia. f_equal; lia.
Qed.

Lemma bits_value_inj l k : length l = length k -> bits_value l = bits_value k -> l = k.
Proof.
  revert k. induction l as [|b l IH]; intros [|c k] Hl He; try done. cbn [length bits_value] in *.
  assert (b = c) as -> by (destruct b, c; try done; lia). f_equal. apply IH; [lia|]. destruct c; lia.
Qed.

Lemma concat_inj {A} (d e : list (list A)) (n : nat) :
  Forall (fun c => length c = n) d -> Forall (fun c => length c = n) e -> length d = length e -> concat d = concat e -> d = e.
Proof.
  intros Hd. revert e. induction Hd as [|c d Hc Hd IH]; intros e He Hlen Heq.
  - by destruct e.
  - destruct He as [|c' e Hc' He]; [done|]. cbn [concat] in Heq. apply app_inj_1 in Heq as [-> Heq]; [|lia]. f_equal. apply IH; try done. simpl in Hlen. lia.
Qed.

Lemma concat_length' (d : list (list bool)) (n : nat) : Forall (fun c => length c = n) d -> length (concat d) = length d * n.
Proof. induction 1 as [|c d Hc Hd IH]; [done|]. cbn [concat length]. rewrite app_length, IH. lia. Qed.

Lemma hash_eq g g' :
  rectangular g -> rectangular g' -> gr_width g = gr_width g' -> gr_height g = gr_height g' -> (0 <= gr_height g)%Z ->
  grid_hash_int g = grid_hash_int g' <-> grid_eqb g g' = true.
Proof.
  intros [Hw Hh] [Hw' Hh'] Ew Eh Hpos. rewrite !hash_value. unfold grid_eqb. rewrite bool_decide_eq_true.
  assert (F : Forall (fun c => length c = Z.to_nat (gr_height g)) (gr_data g)) by (eapply Forall_impl; [exact Hh|]; simpl; lia).
  assert (F' : Forall (fun c => length c = Z.to_nat (gr_height g)) (gr_data g')) by (eapply Forall_impl; [exact Hh'|]; simpl; lia).
  split; [|by intros ->]. intros E. apply bits_value_inj in E.
  - eapply concat_inj; [done|done| |done]. lia.
  - rewrite (concat_length' _ _ F), (concat_length' _ _ F'). f_equal. lia.
Qed.

(** ** Counts *)
Fixpoint col_places (b : bool) (x y : Z) (l : list bool) : list (Z * Z) :=
  match l with [] => [] | c :: l => (if decide (c = b) then [(x, y)] else []) ++ col_places b x (y + 1) l end.
Fixpoint places (b : bool) (x : Z) (d : list (list bool)) : list (Z * Z) :=
  match d with [] => [] | l :: d => col_places b x 0 l ++ places b (x + 1) d end.

Lemma col_places_length b x y l : Z.of_nat (length (col_places b x y l)) = col_count l b.
Proof.
  revert y. induction l as [|c l IH]; intros y; [done|]. rewrite col_count_cons. cbn [col_places]. rewrite app_length, Nat2Z.inj_add, IH.
  by destruct (decide (c = b)).
Qed.

Lemma places_length b x d : Z.of_nat (length (places b x d)) = data_count d b.
Proof.
  revert x. induction d as [|l d IH]; intros x; [done|]. cbn [places data_count fold_right]. rewrite app_length, Nat2Z.inj_add, IH, col_places_length. done.
Qed.

Lemma elem_col_places b x y l p : p ∈ col_places b x y l <-> exists n, p = (x, y + Z.of_nat n)%Z /\ l !! n = Some b.
Proof.
  revert y. induction l as [|c l IH]; intros y; cbn [col_places].
  - split; [intros Hp; by apply elem_of_nil in Hp|]. by intros (n & _ & Hn).
  - rewrite elem_of_app, IH. split.
    + intros [Hp|(n & -> & Hn)].
      * destruct (decide (c = b)) as [->|]; [|by apply elem_of_nil in Hp]. apply elem_of_list_singleton in Hp as ->.
        exists 0. split; [f_equal; lia|done].
      * exists (S n). split; [f_equal; lia|done].
    + intros ([|n] & -> & Hn); simpl in Hn.
      * left. simplify_eq. rewrite decide_True by done. apply elem_of_list_singleton. f_equal. lia.
      * right. exists n. split; [f_equal; lia|done].
Qed.

Lemma elem_places b x d p : p ∈ places b x d <-> exists m n col, p = (x + Z.of_nat m, Z.of_nat n)%Z /\ d !! m = Some col /\ col !! n = Some b.
Proof.
  revert x. induction d as [|l d IH]; intros x; cbn [places].
  - split; [intros Hp; by apply elem_of_nil in Hp|]. by intros (m & n & col & _ & Hm & _).
  - rewrite elem_of_app, IH, elem_col_places. split.
    + intros [(n & -> & Hn)|(m & n & col & -> & Hm & Hn)].
      * exists 0, n, l. split_and!; [f_equal; lia|done|done].
      * exists (S m), n, col. split_and!; [f_equal; lia|done|done].
    + intros ([|m] & n & col & -> & Hm & Hn); simpl in Hm.
      * simplify_eq. left. exists n. split; [f_equal; lia|done].
      * right. exists m, n, col. split_and!; [f_equal; lia|done|done].
Qed.

Lemma NoDup_col_places b x y l : NoDup (col_places b x y l).
Proof.
  revert y. induction l as [|c l IH]; intros y; cbn [col_places]; [constructor|]. apply NoDup_app. split_and!; [|  |apply IH].
  - destruct (decide (c = b)); [apply NoDup_singleton|constructor].
  - intros p Hp (n & -> & _)%elem_col_places. destruct (decide (c = b)); [|by apply elem_of_nil in Hp].
    apply elem_of_list_singleton in Hp. simplify_eq. lia.
Qed.

Lemma NoDup_places b x d : NoDup (places b x d).
Proof.
  revert x. induction d as [|l d IH]; intros x; cbn [places]; [constructor|]. apply NoDup_app. split_and!; [apply NoDup_col_places| |apply IH].
  intros p (n & -> & _)%elem_col_places (m & n' & col & E & _ & _)%elem_places. simplify_eq. lia.
Qed.

Lemma count_spec g key l : NoDup l -> (forall c, c ∈ l <-> cell g c = Some key) -> grid_count g key = Z.of_nat (length l).
Proof.
  intros Hnd Hl. rewrite grid_count_data, <- (places_length key 0). f_equal. apply Permutation_length.
  apply NoDup_Permutation; [apply NoDup_places|done|]. intros [x y]. rewrite Hl, elem_places, cell_Some. split.
  - intros (m & n & col & [= -> ->] & Hm & Hn). rewrite Z.add_0_l. rewrite !Nat2Z.id. split_and!; [lia..|eauto].
  - intros (Hx & Hy & col & Hc & Hb). exists (Z.to_nat x), (Z.to_nat y), col. split_and!; [f_equal; lia|done|done].
Qed.
