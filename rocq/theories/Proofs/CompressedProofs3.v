(** C58 (memory), C69 (quantiles) and C70 (sketch) of the compressed buffers. *)
From Coq Require Import String List Bool Arith ZArith Permutation Sorted Lia Reals Lra.
From Verif Require Import Model.Tree Model.Unroll Model.Float Model.Modules Model.Ewm Model.FlaxModules Model.Compressed
  Spec.FlaxSpec Spec.CompressedSpec Proofs.ListFacts Proofs.RunFacts Proofs.BufferProofs Proofs.FloatFacts
  Proofs.FlaxProofs Proofs.FlaxCoreProofs3 Proofs.CompressedProofs Proofs.CompressedProofs2.
Import ListNotations.

(** *** sorting *)
Fixpoint rinsert (x : R) (l : list R) : list R :=
  match l with [] => [x] | y :: r => if Rle_dec x y then x :: l else y :: rinsert x r end.
Definition rsort (l : list R) : list R := fold_right rinsert [] l.
Lemma fle_fin a b : fle (Fin a) (Fin b) = if Rle_dec a b then true else false.
Proof.
  unfold fle, flt, feq, Rlt_b, Req_b. destruct (Rlt_dec a b), (Req_EM_T a b), (Rle_dec a b); cbn; try reflexivity; lra.
Qed.
Lemma insert_fin x l : insert (Fin x) (map Fin l) = map Fin (rinsert x l).
Proof.
  induction l as [|y l IH]; [reflexivity|]. cbn [map insert rinsert]. rewrite fle_fin.
  destruct (Rle_dec x y); [reflexivity|]. rewrite IH. reflexivity.
Qed.
Lemma fsort_fin l : fsort (map Fin l) = map Fin (rsort l).
Proof. induction l as [|x l IH]; [reflexivity|]. cbn. fold (fsort (map Fin l)). rewrite IH. apply insert_fin. Qed.
Lemma rinsert_perm x l : Permutation (x :: l) (rinsert x l).
Proof.
  induction l as [|y l IH]; [apply Permutation_refl|]. cbn [rinsert]. destruct (Rle_dec x y); [apply Permutation_refl|].
  rewrite perm_swap. constructor. exact IH.
Qed.
Lemma rsort_perm l : Permutation l (rsort l).
Proof. induction l as [|x l IH]; [constructor|]. cbn. rewrite <- rinsert_perm. constructor. exact IH. Qed.
Lemma rinsert_sorted x l : Sorted Rle l -> Sorted Rle (rinsert x l).
Proof.
  intros H. induction H as [|y l H IH Hd]; [repeat constructor|]. cbn [rinsert].
  destruct (Rle_dec x y) as [L|L]; [constructor; [constructor; assumption|constructor; exact L]|]. constructor; [exact IH|].
  destruct l as [|z l]; cbn [rinsert]; [constructor; lra|]. inversion Hd; subst.
  destruct (Rle_dec x z); constructor; lra.
Qed.
Lemma rsort_sorted l : Sorted Rle (rsort l).
Proof. induction l; [constructor|]. cbn. now apply rinsert_sorted. Qed.

(** *** floor and ceiling *)
Lemma floor_spec r (i : Z) : (IZR i <= r < IZR i + 1)%R -> floorZ r = i.
Proof.
  intros [A B]. unfold floorZ. destruct (base_Int_part r) as [C D].
  assert (IZR i < IZR (Int_part r + 1))%R by (rewrite plus_IZR; lra).
  assert (IZR (Int_part r) < IZR (i + 1))%R by (rewrite plus_IZR; lra).
  apply lt_IZR in H. apply lt_IZR in H0. lia.
Qed.
Lemma floor_bounds r : (IZR (floorZ r) <= r < IZR (floorZ r) + 1)%R.
Proof. unfold floorZ. destruct (base_Int_part r). lra. Qed.
Lemma ceil_int r : r = IZR (floorZ r) -> ceilZ r = floorZ r.
Proof.
  intros H. unfold ceilZ. fold (floorZ (- r)). rewrite (floor_spec (- r) (- floorZ r)); [lia|].
  rewrite opp_IZR. lra.
Qed.
Lemma ceil_frac r : (IZR (floorZ r) < r)%R -> ceilZ r = (floorZ r + 1)%Z.
Proof.
  intros H. unfold ceilZ. fold (floorZ (- r)). rewrite (floor_spec (- r) (- floorZ r - 1)); [lia|].
  rewrite minus_IZR, opp_IZR. pose proof (floor_bounds r). lra.
Qed.

Lemma quantile_at_fin vs p : vs <> [] -> (0 <= p <= 1)%R ->
  exists q, quantile_at (fsort (map Fin vs)) p = Fin q /\ is_quantile vs p q.
Proof.
  intros N Hp. rewrite fsort_fin. set (s := rsort vs).
  assert (P : Permutation vs s) by apply rsort_perm.
  assert (Ls : 1 <= length s).
  { rewrite <- (Permutation_length P). destruct vs; [easy|]. cbn. lia. }
  set (idx := (p * (INR (length s) - 1))%R).
  assert (HN : (1 <= INR (length s))%R) by (apply (le_INR 1); exact Ls).
  assert (I0 : (0 <= idx)%R) by (unfold idx; nra).
  assert (I1 : (idx <= INR (length s) - 1)%R) by (unfold idx; nra).
  pose proof (floor_bounds idx) as [F1 F2].
  assert (Z0 : (0 <= floorZ idx)%Z).
  { assert (IZR (-1) < IZR (floorZ idx))%R by lra. apply lt_IZR in H. lia. }
  set (i := Z.to_nat (floorZ idx)).
  assert (Ei : INR i = IZR (floorZ idx)) by (unfold i; rewrite INR_IZR_INZ, Z2Nat.id by exact Z0; reflexivity).
  assert (Li : i < length s).
  { apply INR_lt. rewrite Ei. lra. }
  exists ((1 - (idx - INR i)) * nth i s 0 + (idx - INR i) * nth (i + 1) s 0)%R.
  assert (Nt : forall k, k < length s -> nth k (map Fin s) NaN = Fin (nth k s 0%R)).
  { intros k Hk. rewrite (nth_indep _ NaN (Fin 0)) by (rewrite map_length; exact Hk). apply map_nth. }
  split.
  - unfold quantile_at. rewrite map_length. fold idx. rewrite <- Ei. fold i.
    destruct (Req_dec idx (INR i)) as [E|E].
    + rewrite (ceil_int idx) by lra. fold i. rewrite !Nt by exact Li. cbn. f_equal. rewrite E. ring.
    + rewrite (ceil_frac idx) by lra.
      replace (Z.to_nat (floorZ idx + 1)) with (i + 1) by (unfold i; lia).
      assert (Li' : i + 1 < length s).
      { apply INR_lt. rewrite plus_INR. cbn [INR].
        assert (INR i < INR (length s) - 1)%R by lra.
        assert (INR (length s) - 1 = INR (length s - 1))%R by (rewrite minus_INR by exact Ls; reflexivity).
        rewrite H0 in H. apply INR_lt in H.
        assert (INR (i + 1) < INR (length s))%R by (apply lt_INR; lia). rewrite plus_INR in H1. exact H1. }
      rewrite (Nt i) by exact Li. rewrite (Nt (i + 1)) by exact Li'. cbn. f_equal. ring.
  - exists s, i, (idx - INR i)%R. split; [exact P|]. split; [apply rsort_sorted|]. split; [lra|].
    split; [fold idx; lra|]. split; [exact Li|]. split; [|reflexivity].
    destruct (Req_dec idx (INR i)) as [E|E]; [left; lra|right].
    assert (INR i < INR (length s) - 1)%R by lra.
    assert (INR (length s) - 1 = INR (length s - 1))%R by (rewrite minus_INR by exact Ls; reflexivity).
    rewrite H0 in H. apply INR_lt in H. lia.
Qed.

(** *** consequences of [is_quantile] *)
Lemma sorted_nth_le s : Sorted Rle s -> forall i j, i <= j -> j < length s -> (nth i s 0 <= nth j s 0)%R.
Proof.
  intros H. apply Sorted_StronglySorted in H; [|intros ? ? ? ? ?; lra].
  induction H as [|a s H IH F]; intros i j L Lj; [cbn in Lj; lia|]. destruct i as [|i], j as [|j]; cbn [nth]; try lia; try lra.
  - rewrite Forall_forall in F. apply F, nth_In. cbn in Lj. lia.
  - apply IH; cbn in Lj; lia.
Qed.
Lemma is_quantile_between vs p q : is_quantile vs p q ->
  exists lo hi, In lo vs /\ In hi vs /\ (lo <= q <= hi)%R.
Proof.
  intros (s & i & w & P & So & W & _ & Li & Lw & ->).
  assert (M : forall k, k < length s -> In (nth k s 0%R) vs).
  { intros k Hk. apply (Permutation_in _ (Permutation_sym P)), nth_In, Hk. }
  destruct Lw as [->|L].
  - exists (nth i s 0%R), (nth i s 0%R). split; [now apply M|]. split; [now apply M|]. lra.
  - pose proof (sorted_nth_le s So i (i + 1) ltac:(lia) L). exists (nth i s 0%R), (nth (i + 1) s 0%R).
    split; [now apply M|]. split; [now apply M|]. nra.
Qed.
Lemma sorted_perm_eq s : forall s', Sorted Rle s -> Sorted Rle s' -> Permutation s s' -> s = s'.
Proof.
  induction s as [|a s IH]; intros s' H H' P; [now apply Permutation_nil in P|].
  destruct s' as [|b s']; [now apply Permutation_sym, Permutation_nil in P|].
  apply Sorted_StronglySorted in H; [|intros ? ? ? ? ?; lra]. apply Sorted_StronglySorted in H'; [|intros ? ? ? ? ?; lra].
  apply StronglySorted_inv in H as [H F]. apply StronglySorted_inv in H' as [H' F'].
  rewrite Forall_forall in F, F'.
  assert (E : a = b).
  { assert (Ia : In a (b :: s')) by (apply (Permutation_in _ P); now left).
    assert (Ib : In b (a :: s)) by (apply (Permutation_in _ (Permutation_sym P)); now left).
    destruct Ia as [|Ia]; [congruence|]. destruct Ib as [|Ib]; [congruence|].
    specialize (F b Ib). specialize (F' a Ia). lra. }
  subst b. f_equal. apply IH; [now apply StronglySorted_Sorted|now apply StronglySorted_Sorted|].
  now apply Permutation_cons_inv in P.
Qed.
Lemma is_quantile_monotone vs p q p' q' : is_quantile vs p q -> is_quantile vs p' q' -> (p <= p')%R -> (q <= q')%R.
Proof.
  intros (s & i & w & P & So & W & E & Li & Lw & ->) (s' & i' & w' & P' & So' & W' & E' & Li' & Lw' & ->) L.
  assert (s' = s) by (apply sorted_perm_eq; [assumption|assumption|]; now rewrite <- P, <- P'). subst s'.
  assert (HN : (1 <= INR (length s))%R) by (apply (le_INR 1); lia).
  assert (X : (INR i + w <= INR i' + w')%R) by (rewrite <- E, <- E'; nra).
  assert (Ii : i <= i').
  { apply INR_le. destruct (Rle_lt_dec (INR i) (INR i')) as [|G]; [assumption|]. apply INR_lt in G.
    assert (INR (i' + 1) <= INR i)%R by (apply le_INR; lia). rewrite plus_INR in H. cbn in H. lra. }
  assert (Up : forall j v, j < length s -> (v = 0%R \/ j + 1 < length s) -> (0 <= v < 1)%R ->
    (nth j s 0 <= (1 - v) * nth j s 0 + v * nth (j + 1) s 0)%R).
  { intros j v Lj Lv Hv. destruct Lv as [->|Lv]; [lra|]. pose proof (sorted_nth_le s So j (j + 1) ltac:(lia) Lv). nra. }
  destruct (Nat.eq_dec i i') as [<-|N].
  - destruct Lw as [->|Lw].
    + destruct Lw' as [->|Lw']; [lra|]. pose proof (sorted_nth_le s So i (i + 1) ltac:(lia) Lw'). nra.
    + pose proof (sorted_nth_le s So i (i + 1) ltac:(lia) Lw). nra.
  - assert (H1 : i + 1 < length s \/ i + 1 = length s) by lia. assert (i + 1 <= i') by lia.
    pose proof (sorted_nth_le s So (i + 1) i' H Li').
    pose proof (sorted_nth_le s So i (i + 1) ltac:(lia) ltac:(lia)).
    pose proof (Up i' w' Li' Lw' W'). nra.
Qed.

(** *** the quantile strategy *)
Section Quantile.
  Variables (fm : R) (ti : fl -> Z) (maxlen : nat) (fill : fl) (ps : list R).
  Hypothesis Hm : 0 < maxlen.
  Notation cap := (Nat.min maxlen (Z.to_nat 1000)).
  Notation CB := (CompressedBuffer fm ti maxlen (SQuantile ps) fill).
  Definition est_of (st : cb_state) : list fl := match st with CQuantile _ e _ => e | _ => [] end.

  Lemma quantile_state xs : exists est, steps (fx_call CB) (cb_init (SQuantile ps) maxlen fill) xs =
    CQuantile (steps (ring_call cap) (ring_init cap fill) xs) est (length xs).
  Proof.
    induction xs as [|x xs (est & IH)] using rev_ind; [eexists; reflexivity|].
    rewrite !steps_app, IH, app_length. cbn [steps length fx_call CompressedBuffer cb_call].
    destruct (ring_call cap _ x) as [w b']. eexists. reflexivity.
  Qed.

  Theorem quantile_spec x0 xs t : index_safe cap (x0 :: xs) -> t < length (x0 :: xs) ->
    let window := padded_window cap fill (firstn (t + 1) (x0 :: xs)) in
    let out := fun k => nth_error (flax_from_scratch CB (x0 :: xs)) k in
    (t mod 10 = 0 -> valid window <> [] -> out t = Some (OVec (map (quantile_at (fsort (valid window))) ps))) /\
    (t <> 0 -> t mod 10 <> 0 \/ valid window = [] -> out t = out (t - 1)) /\
    (t = 0 -> valid window = [] -> out t = Some (OVec (map (fun _ => fill) ps))).
  Proof.
    intros Hs Ht. cbv zeta. destruct (nth_error_lt (x0 :: xs) t Ht) as [x Hx].
    destruct (scratch_nth CB x0 xs t x Hx) as [H1 H2]. rewrite H1.
    assert (Hc : 0 < cap) by lia.
    assert (L : length (firstn t (x0 :: xs)) = t) by (rewrite firstn_length; lia).
    change (fx_vars CB x0) with (cb_init (SQuantile ps) maxlen fill).
    destruct (quantile_state (firstn t (x0 :: xs))) as (est & E). rewrite E, L.
    pose proof (ring_out cap fill (firstn t (x0 :: xs)) x Hc) as RO. rewrite <- H2 in RO.
    specialize (RO (index_safe_le cap (x0 :: xs) (firstn (t + 1) (x0 :: xs)) ltac:(rewrite firstn_length; lia) Hs)).
    cbn [fx_call CompressedBuffer cb_call].
    destruct (ring_call cap _ x) as [w b'] eqn:Er. cbn [fst] in RO |- *. rewrite <- RO. fold (valid w).
    assert (Prev : t <> 0 -> nth_error (flax_from_scratch CB (x0 :: xs)) (t - 1) = Some (OVec est)).
    { intros T0. destruct (nth_error_lt (x0 :: xs) (t - 1) ltac:(lia)) as [y Hy].
      destruct (scratch_nth CB x0 xs (t - 1) y Hy) as [G1 G2]. rewrite G1.
      replace (t - 1 + 1) with t in G2 by lia. rewrite G2, steps_app in E. cbn [steps] in E.
      change (fx_vars CB x0) with (cb_init (SQuantile ps) maxlen fill).
      destruct (quantile_state (firstn (t - 1) (x0 :: xs))) as (est' & E'). rewrite E' in E |- *.
      cbn [fx_call CompressedBuffer cb_call] in E |- *. destruct (ring_call cap _ y) as [w2 b2]. cbn [fst snd] in *.
      match type of E with CQuantile _ ?a _ = CQuantile _ ?b _ => assert (EE : a = b) by congruence end. now rewrite EE. }
    split; [|split].
    - intros T V. rewrite T. cbn [Nat.eqb]. destruct (valid w) eqn:Ev; [easy|]. reflexivity.
    - intros T0 C. rewrite (Prev T0). destruct (Nat.eqb_spec (t mod 10) 0) as [T|T].
      + destruct C as [C|C]; [easy|]. rewrite C. reflexivity.
      + reflexivity.
    - intros -> C. rewrite C. cbn [length Nat.ltb Nat.leb].
      cbn [firstn steps cb_init] in E. injection E as <-. reflexivity.
  Qed.
End Quantile.

Lemma quantile_finite fm ti maxlen fill ps x0 xs t vs : 0 < maxlen ->
  index_safe (Nat.min maxlen (Z.to_nat 1000)) (x0 :: xs) -> t < length (x0 :: xs) -> t mod 10 = 0 ->
  valid (padded_window (Nat.min maxlen (Z.to_nat 1000)) fill (firstn (t + 1) (x0 :: xs))) = map Fin vs -> vs <> [] ->
  Forall (fun p => 0 <= p <= 1)%R ps ->
  exists qs, nth_error (flax_from_scratch (CompressedBuffer fm ti maxlen (SQuantile ps) fill) (x0 :: xs)) t =
    Some (OVec (map Fin qs)) /\ Forall2 (is_quantile vs) ps qs.
Proof.
  intros Hm Hs Ht T V N F.
  destruct (quantile_spec fm ti maxlen fill ps Hm x0 xs t Hs Ht) as [Q _]. cbv zeta in Q.
  rewrite V in Q. specialize (Q T). rewrite Q by (destruct vs; easy). clear - N F.
  induction F as [|p ps Hp F (qs & E & G)]; [exists []; split; [reflexivity|constructor]|].
  destruct (quantile_at_fin vs p N Hp) as (q & Eq & Iq). exists (q :: qs). split; [|now constructor].
  assert (E' : map (quantile_at (fsort (map Fin vs))) ps = map Fin qs) by congruence.
  cbn [map]. rewrite Eq, E'. reflexivity.
Qed.

(** *** the sketch *)
Section Sketch.
  Variables (fm : R) (ti : fl -> Z) (maxlen h nb : nat) (fill : fl).
  Hypothesis Hn : 0 < nb.
  Notation CB := (CompressedBuffer fm ti maxlen (SSketching h nb) fill).
  Definition row_of (xs : list fl) (i : nat) : list nat := map (fun j => hits nb ti i j xs) (seq 0 nb).

  Lemma bucket_lt' i z : bucket nb i z < nb.
  Proof.
    unfold bucket. destruct (hash_row i) as [a b].
    pose proof (Z.mod_pos_bound (wrap32 (wrap32 (a * z) + b)) (Z.of_nat nb) ltac:(lia)). lia.
  Qed.
  Lemma hits_snoc i j xs x : hits nb ti i j (xs ++ [x]) =
    hits nb ti i j xs + (if Nat.eqb (bucket nb i (ti x)) j then 1 else 0).
  Proof.
    unfold hits. rewrite filter_app, app_length. cbn [filter]. destruct (Nat.eqb _ _); reflexivity.
  Qed.
  Lemma nth_row xs i j : nth j (row_of xs i) 0 = if j <? nb then hits nb ti i j xs else 0.
  Proof.
    unfold row_of. destruct (Nat.ltb_spec j nb) as [L|L].
    - rewrite (nth_indep _ 0 (hits nb ti i 0 xs)) by (rewrite map_length, seq_length; exact L).
      rewrite (map_nth (fun j => hits nb ti i j xs)). now rewrite seq_nth.
    - apply nth_overflow. rewrite map_length, seq_length. exact L.
  Qed.
  Lemma nth_ext' (l l' : list nat) : length l = length l' -> (forall j, nth j l 0 = nth j l' 0) -> l = l'.
  Proof. intros L H. apply (nth_ext l l' 0 0 L). intros n _. apply H. Qed.
  Lemma set_at_nth (l : list nat) k v j : k < length l -> nth j (set_at l k v) 0 = if Nat.eqb k j then v else nth j l 0.
  Proof.
    unfold set_at. revert k j. induction l as [|a l IH]; intros [|k] [|j] L; cbn in L; try lia; try reflexivity.
    cbn [firstn skipn app nth Nat.eqb]. apply IH. lia.
  Qed.
  Lemma set_at_length (l : list nat) k v : k < length l -> length (set_at l k v) = length l.
  Proof. intros L. unfold set_at. rewrite app_length, firstn_length. cbn [length]. rewrite skipn_length. lia. Qed.
  Lemma row_step xs x i : add_one (row_of xs i) (bucket nb i (ti x)) = row_of (xs ++ [x]) i.
  Proof.
    pose proof (bucket_lt' i (ti x)) as B.
    assert (LR : forall xs, length (row_of xs i) = nb) by (intros; unfold row_of; now rewrite map_length, seq_length).
    apply nth_ext'; [unfold add_one; rewrite set_at_length; now rewrite !LR|]. intros j. unfold add_one.
    rewrite set_at_nth by (now rewrite LR). rewrite !nth_row, hits_snoc.
    destruct (Nat.eqb_spec (bucket nb i (ti x)) j) as [<-|E].
    - apply Nat.ltb_lt in B. rewrite B. reflexivity.
    - destruct (j <? nb); lia.
  Qed.
  Lemma sketch_state xs : steps (fx_call CB) (cb_init (SSketching h nb) maxlen fill) xs = CSketch (map (row_of xs) (seq 0 h)).
  Proof.
    induction xs as [|x xs IH] using rev_ind.
    - cbn [steps cb_init]. f_equal. generalize 0 at 2. induction h as [|k IH]; intros s; [reflexivity|].
      cbn [repeat seq map]. f_equal; [|apply IH]. apply nth_ext'; [unfold row_of; now rewrite repeat_length, map_length, seq_length|].
      intros j. rewrite nth_row. rewrite nth_repeat. unfold hits. cbn [filter length]. now destruct (j <? nb).
    - rewrite steps_app, IH. cbn [steps fx_call CompressedBuffer cb_call snd]. f_equal.
      clear IH. generalize 0 as s. induction h as [|k IHk]; intros s; [reflexivity|]. cbn [seq map combine fst snd].
      f_equal; [apply row_step|apply IHk].
  Qed.
  Lemma col_min_spec rows : rows <> [] -> (forall r, In r rows -> length r = nb) ->
    length (col_min rows) = nb /\ forall j, j < nb ->
      (exists r, In r rows /\ nth j (col_min rows) 0 = nth j r 0) /\ (forall r, In r rows -> nth j (col_min rows) 0 <= nth j r 0).
  Proof.
    induction rows as [|a rows IH]; [easy|]. intros _ L. destruct rows as [|b rows].
    - cbn [col_min]. split; [apply L; now left|]. intros j _. split; [exists a; split; [now left|reflexivity]|].
      intros r [<-|[]]. lia.
    - destruct IH as [LC H]; [easy|intros r I; apply L; now right|].
      change (col_min (a :: b :: rows)) with (map2 Nat.min a (col_min (b :: rows))).
      assert (La : length a = nb) by (apply L; now left).
      assert (M2 : forall (u v : list nat) j, length u = length v -> j < length u ->
        nth j (map2 Nat.min u v) 0 = Nat.min (nth j u 0) (nth j v 0)).
      { induction u as [|p u IHu]; intros [|q v] [|j] E J; cbn in *; try lia; try reflexivity. apply IHu; lia. }
      assert (ML : forall (u v : list nat), length u = length v -> length (map2 Nat.min u v) = length u).
      { induction u as [|p u IHu]; intros [|q v] E; cbn in *; try lia; try reflexivity. f_equal. apply IHu. lia. }
      split; [rewrite ML; lia|]. intros j J. destruct (H j J) as [(r & I & E) Le].
      rewrite M2 by lia. split.
      + destruct (Nat.le_ge_cases (nth j a 0) (nth j (col_min (b :: rows)) 0)).
        * exists a. split; [now left|]. lia.
        * exists r. split; [now right|]. lia.
      + intros r' [<-|I']; [lia|]. specialize (Le r' I'). lia.
  Qed.

  Theorem sketch_spec x0 xs t : 0 < h -> t < length (x0 :: xs) ->
    exists counts, nth_error (flax_from_scratch CB (x0 :: xs)) t = Some (OCounts counts) /\ length counts = nb /\
      forall j, j < nb ->
        (exists i, i < h /\ nth j counts 0 = hits nb ti i j (firstn (t + 1) (x0 :: xs))) /\
        (forall i, i < h -> nth j counts 0 <= hits nb ti i j (firstn (t + 1) (x0 :: xs))).
  Proof.
    intros Hh Ht. destruct (nth_error_lt (x0 :: xs) t Ht) as [x Hx].
    destruct (scratch_nth CB x0 xs t x Hx) as [H1 H2]. rewrite H1.
    assert (E : fst (fx_call CB (steps (fx_call CB) (fx_vars CB x0) (firstn t (x0 :: xs))) x) =
                OCounts (col_min (map (row_of (firstn (t + 1) (x0 :: xs))) (seq 0 h)))).
    { change (fx_vars CB x0) with (cb_init (SSketching h nb) maxlen fill).
      pose proof (sketch_state (firstn (t + 1) (x0 :: xs))) as S1. rewrite H2, steps_app in S1. cbn [steps] in S1.
      rewrite H2. rewrite sketch_state in S1 |- *. cbn [fx_call CompressedBuffer cb_call fst snd] in S1 |- *.
      injection S1 as S1. rewrite S1. reflexivity. }
    rewrite E. eexists. split; [reflexivity|].
    destruct (col_min_spec (map (row_of (firstn (t + 1) (x0 :: xs))) (seq 0 h))) as [L C].
    { destruct h; [lia|easy]. }
    { intros r I. apply in_map_iff in I as (i & <- & _). unfold row_of. now rewrite map_length, seq_length. }
    split; [exact L|]. intros j J. destruct (C j J) as [(r & I & Er) Le]. apply Nat.ltb_lt in J. split.
    - apply in_map_iff in I as (i & <- & I). apply in_seq in I. exists i. split; [lia|].
      rewrite Er, nth_row, J. reflexivity.
    - intros i Li. specialize (Le (row_of (firstn (t + 1) (x0 :: xs)) i)). rewrite nth_row, J in Le. apply Le.
      apply in_map. apply in_seq. lia.
  Qed.

  (** the estimate a Count-Min sketch would give from the same table *)
  Lemma hits_count i x xs : occurrences ti x xs <= hits nb ti i (bucket nb i (ti x)) xs.
  Proof.
    clear Hn. unfold hits, occurrences. induction xs as [|y xs IH]; [cbn; lia|]. cbn [filter].
    destruct (Z.eqb_spec (ti y) (ti x)) as [E|E].
    - rewrite E, Nat.eqb_refl. cbn [length]. lia.
    - destruct (Nat.eqb _ _); cbn [length]; lia.
  Qed.
End Sketch.

Lemma sketch_zero fm ti maxlen fill x0 xs t : (forall x, In x (x0 :: xs) -> ti x = 0%Z) -> t < length (x0 :: xs) ->
  exists counts, nth_error (flax_from_scratch (CompressedBuffer fm ti maxlen (SSketching 4 (Z.to_nat 1024)) fill) (x0 :: xs)) t =
    Some (OCounts counts) /\ forall j, nth j counts 0 = 0.
Proof.
  intros Z0 Ht.
  destruct (sketch_spec fm ti maxlen 4 (Z.to_nat 1024) fill ltac:(lia) x0 xs t ltac:(lia) Ht) as (counts & E & L & C).
  exists counts. split; [exact E|]. intros j.
  destruct (Nat.lt_ge_cases j (Z.to_nat 1024)) as [J|J]; [|apply nth_overflow; lia].
  destruct (C j J) as [_ Le].
  assert (HZ : forall i b, bucket (Z.to_nat 1024) i 0 = b -> j <> b ->
     hits (Z.to_nat 1024) ti i j (firstn (t + 1) (x0 :: xs)) = 0).
  { intros i b B N. unfold hits. 
    assert (G : forall l, (forall x, In x l -> ti x = 0%Z) ->
       filter (fun x => Nat.eqb (bucket (Z.to_nat 1024) i (ti x)) j) l = []).
    { induction l as [|y l IH]; intros Hl; [reflexivity|]. cbn [filter]. rewrite (Hl y (or_introl eq_refl)), B.
      destruct (Nat.eqb_spec b j); [congruence|]. apply IH. intros x I. apply Hl. now right. }
    rewrite G; [reflexivity|]. intros x I. apply Z0. rewrite <- (firstn_skipn (t + 1) (x0 :: xs)). apply in_or_app. now left. }
  destruct (Nat.eq_dec j 17) as [->|N].
  - specialize (Le 1 ltac:(lia)). rewrite (HZ 1 23) in Le; [lia|reflexivity|lia].
  - specialize (Le 0 ltac:(lia)). rewrite (HZ 0 17) in Le; [lia|reflexivity|exact N].
Qed.

(** *** memory *)
Lemma memory_constant fm ti maxlen s fill xs : 0 < maxlen -> (forall h nb, s = SSketching h nb -> 0 < nb) ->
  cells (snd (flax_calls (CompressedBuffer fm ti maxlen s fill) (cb_init s maxlen fill) xs)) =
  cells (cb_init s maxlen fill).
Proof.
  intros Hm Hn. rewrite (cb_cells fm ti maxlen s fill xs Hm Hn).
  change (cb_init s maxlen fill) with (snd (flax_calls (CompressedBuffer fm ti maxlen s fill) (cb_init s maxlen fill) [])).
  now rewrite cb_cells.
Qed.
Lemma memory_report (maxlen : nat) (s : strategy) (fill : fl) : 0 < maxlen ->
  let stored := 8 * cells (cb_init s maxlen fill) in
  match s with
  | SEwma _ | SQuantile _ => memory_usage s maxlen = stored + 4
  | SDownsample f => 0 < f -> memory_usage s maxlen = (if f <=? maxlen then stored + 4 else stored - 4)
  | SSketching h _ => memory_usage s maxlen = stored + 8 * h
  | SNone => memory_usage s maxlen = stored
  end.
Proof.
  intros Hm. cbv zeta. destruct s; unfold memory_usage; cbn [cb_init cells ring ring_init].
  - lia.
  - rewrite repeat_length, map_length. lia.
  - intros Hf. rewrite repeat_length. unfold down_maxlen. destruct (Nat.leb_spec factor maxlen) as [L|L].
    + pose proof (Nat.div_le_lower_bound maxlen factor 1 ltac:(lia) ltac:(lia)). lia.
    + rewrite Nat.div_small by exact L. reflexivity.
  - rewrite (concat_length_const num_buckets), repeat_length; [lia|].
    apply Forall_forall. intros r I. apply repeat_spec in I. subst r. apply repeat_length.
  - rewrite repeat_length. lia.
Qed.
Lemma memory_total rl ml ll m l sm sl : medium_strategy m = Some sm -> long_strategy l = Some sl ->
  m <> "sketching"%string -> l <> "sketching"%string ->
  total_memory_usage rl ml ll m l = rl * 8 + memory_usage sm ml + memory_usage sl ll.
Proof.
  intros Em El Nm Nl. unfold total_memory_usage.
  assert (G : forall name a n s, strategy_of name (level_params name a) = Some s -> name <> "sketching"%string -> level_usage name n = memory_usage s n).
  { intros name a n s E N. unfold strategy_of, level_params, default_params in E. unfold level_usage.
    destruct (String.eqb name "ewma"); [cbn in E; injection E as <-; reflexivity|].
    destruct (String.eqb name "quantile"); [cbn in E; injection E as <-; cbn [memory_usage map length]; lia|].
    destruct (String.eqb name "downsample"); [cbn in E; injection E as <-; reflexivity|].
    destruct (String.eqb_spec name "sketching"); [easy|].
    destruct (String.eqb name "none"); [cbn in E; injection E as <-; reflexivity|easy]. }
  rewrite (G m _ ml sm Em Nm), (G l _ ll sl El Nl). reflexivity.
Qed.

(** *** settings *)
Definition compressions : list string := ["ewma"; "quantile"; "downsample"; "sketching"; "none"]%string.
Lemma strategy_known name p : strategy_of name p <> None <-> In name compressions.
Proof.
  unfold strategy_of, default_params, compressions.
  destruct (String.eqb_spec name "ewma"); [subst; cbn; split; [auto|easy]|].
  destruct (String.eqb_spec name "quantile"); [subst; cbn; split; [auto|easy]|].
  destruct (String.eqb_spec name "downsample"); [subst; cbn; split; [auto|easy]|].
  destruct (String.eqb_spec name "sketching"); [subst; cbn [In]; split; [auto 10|discriminate]|].
  destruct (String.eqb_spec name "none"); [subst; cbn; split; [auto 10|easy]|].
  split; [easy|]. cbn. intuition congruence.
Qed.
Lemma buffer_known fm ti maxlen name p fill : compressed_buffer fm ti maxlen name p fill <> None <-> In name compressions.
Proof.
  rewrite <- (strategy_known name p). unfold compressed_buffer. destruct (strategy_of name p); split; easy.
Qed.
Lemma hierarchical_known fm ti rl ml ll m l fill :
  hierarchical_buffer fm ti rl ml ll m l fill <> None <-> In m compressions /\ In l compressions.
Proof.
  rewrite <- (strategy_known m (level_params m (1 / 10)%R)), <- (strategy_known l (level_params l (1 / 100)%R)).
  unfold hierarchical_buffer, medium_strategy, long_strategy.
  destruct (strategy_of m _), (strategy_of l _); split; intros; try split; try easy; intuition congruence.
Qed.

(** the EWMA levels of a HierarchicalBuffer, by name *)
Lemma hierarchical_ewma fm ti rl ml ll fill : exists module, hierarchical_buffer fm ti rl ml ll "ewma" "ewma" fill = Some module /\
  forall x0 xs t x, 0 < rl -> index_safe rl (x0 :: xs) -> nth_error (x0 :: xs) t = Some x ->
  exists o m l, nth_error (flax_from_scratch module (x0 :: xs)) t = Some o /\
    o_input o = x /\ o_recent o = padded_window rl fill (firstn (t + 1) (x0 :: xs)) /\
    o_medium o = OScalar m /\ o_long o = OScalar l /\
    last (map Some (map fst (flax_from_scratch (FEWMA fm (EwmaCfg (1 / (1 / 10) - 1)%R 0 AdjTrue false NaN)) (sampled 5 (firstn (t + 1) (x0 :: xs)))))) None = Some m /\
    last (map Some (map fst (flax_from_scratch (FEWMA fm (EwmaCfg (1 / (1 / 100) - 1)%R 0 AdjTrue false NaN)) (sampled 50 (firstn (t + 1) (x0 :: xs)))))) None = Some l.
Proof.
  eexists. split; [reflexivity|]. intros x0 xs t x Hr Hs Hx.
  destruct (hb_spec fm ti rl ml ll (SEwma (1 / 10)) (SEwma (1 / 100)) fill x0 xs t x Hr Hs Hx)
    as (o & Ho & Hi & Hrec & (y & ys & lm & Sm & Lm & Om) & (z & zs & l' & Sl & Ll & Ol)).
  assert (G : forall {A B} (f : A -> B) (l : list A) v, last (map Some (map f l)) None = Some v ->
            exists w, v = f w /\ last (map Some l) None = Some w).
  { intros A B f l. induction l as [|a [|b r] IH]; intros v Hv; [easy| |].
    - cbn in Hv. injection Hv as <-. exists a. split; reflexivity.
    - destruct (IH v Hv) as (w & -> & Hw). exists w. split; [reflexivity|exact Hw]. }
  rewrite ewma_spec in Lm. rewrite ewma_spec in Ll.
  apply G in Lm. destruct Lm as (wm & -> & Lm). apply G in Ll. destruct Ll as (wl & -> & Ll).
  assert (K : forall {A B} (f : A -> B) (l : list A) w, last (map Some l) None = Some w -> last (map Some (map f l)) None = Some (f w)).
  { intros A B f l. induction l as [|a [|b r] IH]; intros v Hv; [easy| |].
    - cbn in Hv. injection Hv as <-. reflexivity.
    - exact (IH v Hv). }
  exists o, (fst wm), (fst wl). rewrite Sm, Sl.
  split; [exact Ho|]. split; [exact Hi|]. split; [exact Hrec|].
  split; [destruct (t mod 5 =? 0); exact Om|]. split; [destruct (t mod 50 =? 0); exact Ol|].
  split; apply K; assumption.
Qed.
(** what CompressedBuffer is configured with *)
Lemma settings fm ti maxlen fill p : let buffer := fun name => compressed_buffer fm ti maxlen name (Some p) fill in
  let built := fun s => Some (CompressedBuffer fm ti maxlen s fill) in
  (forall a, p_alpha p = Some a -> buffer "ewma"%string = built (SEwma a)) /\
  (forall ps, p_percentiles p = Some ps -> buffer "quantile"%string = built (SQuantile ps)) /\
  (forall f, p_factor p = Some f -> buffer "downsample"%string = built (SDownsample f)) /\
  (forall h b, p_num_hashes p = Some h -> p_num_buckets p = Some b -> buffer "sketching"%string = built (SSketching h b)) /\
  (forall h, p_num_hashes p = Some h -> p_num_buckets p = None -> buffer "sketching"%string = built (SSketching h (Z.to_nat 1024))) /\
  (forall b, p_num_buckets p = Some b -> p_num_hashes p = None -> buffer "sketching"%string = built (SSketching 4 b)) /\
  buffer "none"%string = built SNone.
Proof.
  destruct p as [a ps f h b o]. unfold compressed_buffer, strategy_of, default_params.
  cbn [p_alpha p_percentiles p_factor p_num_hashes p_num_buckets String.eqb Ascii.eqb Bool.eqb].
  repeat split; intros; subst; destruct o;
    repeat match goal with |- context [truthy_params (CParams ?a ?b ?c ?d ?e _)] => is_var a; destruct a end;
    repeat match goal with |- context [truthy_params (CParams _ ?b ?c ?d ?e _)] => is_var b; destruct b end;
    repeat match goal with |- context [truthy_params (CParams _ _ ?c ?d ?e _)] => is_var c; destruct c end;
    repeat match goal with |- context [truthy_params (CParams _ _ _ ?d ?e _)] => is_var d; destruct d end;
    repeat match goal with |- context [truthy_params (CParams _ _ _ _ ?e _)] => is_var e; destruct e end;
    reflexivity.
Qed.
Lemma default_settings fm ti maxlen fill params : params = None \/ params = Some no_params ->
  let buffer := fun name => compressed_buffer fm ti maxlen name params fill in
  let built := fun s => Some (CompressedBuffer fm ti maxlen s fill) in
  buffer "ewma"%string = built (SEwma (1 / 10)%R) /\
  buffer "quantile"%string = built (SQuantile [10 / 100; 25 / 100; 50 / 100; 75 / 100; 90 / 100]%R) /\
  buffer "downsample"%string = built (SDownsample 2) /\
  buffer "sketching"%string = built (SSketching 4 (Z.to_nat 1024)) /\
  buffer "none"%string = built SNone.
Proof. intros [-> | ->]; repeat split; reflexivity. Qed.
