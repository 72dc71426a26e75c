From Coq Require Import String List Bool Arith ZArith Permutation Sorted Lia Reals Lra.
From Verif Require Import Model.Tree Model.Unroll Model.Float Model.Modules Model.Ewm Model.FlaxModules Model.Compressed
  Spec.FlaxSpec Spec.CompressedSpec Proofs.ListFacts Proofs.RunFacts Proofs.BufferProofs Proofs.FloatFacts
  Proofs.FlaxProofs Proofs.FlaxCoreProofs3.
Import ListNotations.

(** *** sampling *)
Lemma sampled_from_app {A} f k (xs ys : list A) :
  sampled_from f k (xs ++ ys) = sampled_from f k xs ++ sampled_from f (k + length xs) ys.
Proof.
  revert k. induction xs as [|x xs IH]; intros k; cbn [app sampled_from length]; [rewrite Nat.add_0_r; reflexivity|].
  rewrite IH. replace (k + 1 + length xs) with (k + S (length xs)) by lia. destruct (Nat.eqb (k mod f) 0); reflexivity.
Qed.
Lemma sampled_snoc {A} f (xs : list A) x :
  sampled f (xs ++ [x]) = sampled f xs ++ (if Nat.eqb (length xs mod f) 0 then [x] else []).
Proof. unfold sampled. rewrite sampled_from_app. reflexivity. Qed.

Lemma sampled_from_nth {A} f : 0 < f -> forall (xs : list A) k j,
  nth_error (sampled_from f k xs) j = nth_error xs ((f - k mod f) mod f + j * f).
Proof.
  intros Hf. induction xs as [|x xs IH]; intros k j; cbn [sampled_from].
  - destruct j; destruct ((f - k mod f) mod f + _); reflexivity.
  - pose proof (Nat.mod_upper_bound k f ltac:(lia)) as B. 
    assert (M1 : (k + 1) mod f = if Nat.eqb (k mod f + 1) f then 0 else k mod f + 1).
    { rewrite <- Nat.add_mod_idemp_l by lia. destruct (Nat.eqb_spec (k mod f + 1) f) as [E|E].
      - rewrite E, Nat.mod_same by lia. reflexivity.
      - apply Nat.mod_small. lia. }
    destruct (Nat.eqb_spec (k mod f) 0) as [E|E].
    + rewrite E, Nat.sub_0_r, Nat.mod_same by lia. cbn [Nat.add]. destruct j as [|j]; [reflexivity|].
      cbn [nth_error]. rewrite IH, M1, E. cbn [Nat.add].
      destruct (Nat.eqb_spec 1 f) as [F|F].
      * subst f. replace ((1 - 0) mod 1) with 0 by reflexivity.
        replace (S j * 1) with (S j) by lia. cbn [nth_error]. f_equal. lia.
      * rewrite Nat.mod_small by lia. replace (S j * f) with (S (f - 1 + j * f)) by nia. reflexivity.
    + rewrite IH, M1. rewrite (Nat.mod_small (f - k mod f) f) by lia.
      destruct (Nat.eqb_spec (k mod f + 1) f) as [F|F].
      * rewrite Nat.sub_0_r, Nat.mod_same by lia. replace (f - k mod f) with 1 by lia. reflexivity.
      * rewrite Nat.mod_small by lia. replace (f - k mod f + j * f) with (S (f - (k mod f + 1) + j * f)) by lia. reflexivity.
Qed.
Lemma sampled_nth {A} f (xs : list A) j : 0 < f -> nth_error (sampled f xs) j = nth_error xs (j * f).
Proof. intros H. unfold sampled. rewrite sampled_from_nth by exact H. rewrite Nat.mod_0_l, Nat.sub_0_r, Nat.mod_same by lia. reflexivity. Qed.
Lemma sampled_length_le {A} f (xs : list A) : length (sampled f xs) <= length xs.
Proof.
  unfold sampled. generalize 0. induction xs as [|x xs IH]; intros k; cbn [sampled_from length]; [lia|].
  specialize (IH (k + 1)). destruct (Nat.eqb (k mod f) 0); cbn [length]; lia.
Qed.

(** *** ring buffers along a run *)
Section Ring.
  Context {A : Type}.
  Lemma ring_rel_safe m (f : A) xs : 0 < m -> index_safe m xs ->
    exists hs, buf_inv m f xs hs /\ ring_rel m (length xs) (steps (ring_call m) (ring_init m f) xs) hs.
  Proof.
    intros Hm. induction xs as [|x xs IH] using rev_ind; intros Hs.
    - exists (buffer_init m f). split; [apply buf_inv_init|apply ring_rel_init; auto].
    - destruct IH as (hs & HI & HR).
      { destruct Hs as [Hs|Hs]; [left|right; exact Hs]. rewrite app_length in Hs. cbn in Hs. lia. }
      exists (snd (buffer_apply m hs x)). split; [apply buf_inv_step; auto|].
      rewrite steps_app. cbn [steps]. rewrite app_length. cbn [length]. replace (length xs + 1) with (S (length xs)) by lia.
      apply ring_call_sim; auto. apply (index_safe_call m (xs ++ [x])); [exact Hs|rewrite app_length; cbn; lia].
  Qed.
  Lemma ring_after m (f : A) xs : 0 < m -> index_safe m xs ->
    let st := steps (ring_call m) (ring_init m f) xs in
    rotated (length xs mod m) (ring st) = padded_window m f xs /\ length (ring st) = m.
  Proof.
    intros Hm Hs. destruct (ring_rel_safe m f xs Hm Hs) as (hs & (HI & _) & (H1 & H2 & H3 & _)).
    cbn zeta. split; [|exact H1]. apply window_list in HI. unfold padded_window. rewrite <- HI, H3. f_equal.
    rewrite H2. destruct Hs as [Hs|Hs].
    - rewrite wrap32_small by lia. rewrite <- Nat2Z.inj_mod, Nat2Z.id. reflexivity.
    - rewrite wrap32_mod by (lia || exact Hs). rewrite <- Nat2Z.inj_mod, Nat2Z.id. reflexivity.
  Qed.
  Lemma ring_out m (f : A) xs x : 0 < m -> index_safe m (xs ++ [x]) ->
    fst (ring_call m (steps (ring_call m) (ring_init m f) xs) x) = padded_window m f (xs ++ [x]).
  Proof.
    intros Hm Hs.
    assert (Hs' : index_safe m xs).
    { destruct Hs as [Hs|Hs]; [left|right; exact Hs]. rewrite app_length in Hs. cbn in Hs. lia. }
    destruct (ring_rel_safe m f xs Hm Hs') as (hs & (HI & _) & HR).
    destruct (ring_call_sim m (length xs) _ hs x Hm
       (index_safe_call m (xs ++ [x]) (length xs) Hs ltac:(rewrite app_length; cbn; lia)) HR) as [E _].
    rewrite E. unfold buffer_apply. cbn [fst].
    pose proof (push_window m f xs (buffer hs) x Hm HI) as P. apply window_list in P. rewrite P. reflexivity.
  Qed.
  Lemma ring_len_inv m (st : ring_state A) x : 0 < m -> length (ring st) = m -> length (ring (snd (ring_call m st x))) = m.
  Proof. intros Hm L. unfold ring_call. cbn [snd ring]. rewrite set_at_length; [exact L|]. rewrite L. apply to_nat_mod. exact Hm. Qed.
End Ring.

Lemma index_safe_le {X Y} m (xs : list X) (ys : list Y) : length ys <= length xs -> index_safe m xs -> index_safe m ys.
Proof. intros L [H|H]; [left; lia|right; exact H]. Qed.

(** nth output of a module run from scratch *)
Lemma scratch_nth {S X Y} (m : flax_module S X Y) x0 xs t x : nth_error (x0 :: xs) t = Some x ->
  nth_error (flax_from_scratch m (x0 :: xs)) t =
  Some (fst (fx_call m (steps (fx_call m) (fx_vars m x0) (firstn t (x0 :: xs))) x)) /\
  firstn (t + 1) (x0 :: xs) = firstn t (x0 :: xs) ++ [x].
Proof.
  intros Hx. set (l := x0 :: xs) in *. assert (Sp : l = firstn t l ++ x :: skipn (Datatypes.S t) l).
  { clear - Hx. revert t Hx. induction l as [|a l IH]; intros [|t] H; try discriminate.
    - cbn in H. cbn. congruence.
    - cbn in H. cbn [firstn skipn app]. f_equal. apply IH. exact H. }
  assert (Lt : t < length l) by (apply nth_error_Some; congruence).
  assert (Lf : length (firstn t l) = t) by (rewrite firstn_length; lia). split.
  - assert (FS : flax_from_scratch m l = fst (flax_calls m (fx_vars m x0) (firstn t l ++ x :: skipn (Datatypes.S t) l)))
      by (rewrite <- Sp; reflexivity).
    rewrite FS, flax_calls_app. cbn [fst]. rewrite nth_error_app2 by (rewrite flax_calls_length; lia).
    rewrite flax_calls_length, Lf, Nat.sub_diag, flax_calls_steps. cbn [flax_calls].
    destruct (fx_call m (steps (fx_call m) (fx_vars m x0) (firstn t l)) x) as [y s'].
    destruct (flax_calls m s' (skipn (Datatypes.S t) l)). reflexivity.
  - rewrite Sp at 1. rewrite firstn_app, Lf, (firstn_all2 (firstn t l)) by lia.
    replace (t + 1 - t) with 1 by lia. reflexivity.
Qed.

(** *** downsampling *)
Section Down.
  Variables (fm : R) (ti : fl -> Z) (maxlen f : nat) (fill : fl).
  Hypothesis Hf : 0 < f.
  Notation cap := (Nat.max 1 (maxlen / f)).
  Notation CB := (CompressedBuffer fm ti maxlen (SDownsample f) fill).

  Lemma down_state xs : steps (fx_call CB) (cb_init (SDownsample f) maxlen fill) xs =
    CDownsample (steps (ring_call cap) (ring_init cap fill) (sampled f xs)) (length xs).
  Proof.
    induction xs as [|x xs IH] using rev_ind; [reflexivity|].
    rewrite steps_app, IH, sampled_snoc, steps_app, app_length. cbn [steps length].
    cbn [fx_call CompressedBuffer cb_call]. destruct (Nat.eqb (length xs mod f) 0).
    - cbn [steps]. unfold down_maxlen. destruct (ring_call cap _ x). reflexivity.
    - reflexivity.
  Qed.

  Theorem down_spec x0 xs t : index_safe cap (x0 :: xs) -> t < length (x0 :: xs) ->
    let stored := sampled f (firstn (t + 1) (x0 :: xs)) in
    exists w, nth_error (flax_from_scratch CB (x0 :: xs)) t = Some (OVec w) /\
      (t mod f = 0 -> w = padded_window cap fill stored) /\
      rotated (if Nat.eqb (t mod f) 0 then 0 else length stored mod cap) w = padded_window cap fill stored.
  Proof.
    intros Hs Ht. cbn zeta. destruct (nth_error_lt (x0 :: xs) t Ht) as [x Hx].
    destruct (scratch_nth CB x0 xs t x Hx) as [H1 H2]. rewrite H1.
    assert (Hc : 0 < cap) by lia.
    assert (L : length (firstn t (x0 :: xs)) = t) by (rewrite firstn_length; lia).
    change (fx_vars CB x0) with (cb_init (SDownsample f) maxlen fill). rewrite down_state, L.
    assert (Sz : length (sampled f (firstn (t + 1) (x0 :: xs))) <= length (x0 :: xs)).
    { etransitivity; [apply sampled_length_le|]. rewrite firstn_length. lia. }
    rewrite H2 in Sz |- *. rewrite sampled_snoc, L in Sz |- *.
    cbn [fx_call CompressedBuffer cb_call]. unfold down_maxlen.
    destruct (Nat.eqb_spec (t mod f) 0) as [E|E].
    - pose proof (ring_out cap fill (sampled f (firstn t (x0 :: xs))) x Hc (index_safe_le _ _ _ Sz Hs)) as RO.
      destruct (ring_call cap _ x) as [d b']. cbn [fst] in *. exists d. split; [reflexivity|]. split; [auto|].
      unfold rotated. cbn [skipn firstn]. rewrite app_nil_r. exact RO.
    - rewrite app_nil_r in *. cbn [fst].
      destruct (ring_after cap fill (sampled f (firstn t (x0 :: xs))) Hc (index_safe_le _ _ _ Sz Hs)) as [RA _].
      eexists. split; [reflexivity|]. split; [congruence|exact RA].
  Qed.
End Down.

(** *** none *)
Lemma none_spec fm ti maxlen fill x0 xs t : 0 < maxlen -> index_safe maxlen (x0 :: xs) -> t < length (x0 :: xs) ->
  nth_error (flax_from_scratch (CompressedBuffer fm ti maxlen SNone fill) (x0 :: xs)) t =
  Some (OVec (padded_window maxlen fill (firstn (t + 1) (x0 :: xs)))).
Proof.
  intros Hm Hs Ht. destruct (nth_error_lt (x0 :: xs) t Ht) as [x Hx].
  destruct (scratch_nth (CompressedBuffer fm ti maxlen SNone fill) x0 xs t x Hx) as [H1 H2]. rewrite H1, H2.
  assert (St : forall l, steps (cb_call fm ti maxlen SNone) (CNone (ring_init maxlen fill)) l =
                         CNone (steps (ring_call maxlen) (ring_init maxlen fill) l)).
  { induction l as [|y l IH] using rev_ind; [reflexivity|]. rewrite !steps_app, IH. cbn [steps cb_call].
    destruct (ring_call maxlen _ y). reflexivity. }
  change (fx_call (CompressedBuffer fm ti maxlen SNone fill)) with (cb_call fm ti maxlen SNone).
  change (fx_vars (CompressedBuffer fm ti maxlen SNone fill) x0) with (CNone (ring_init maxlen fill)).
  rewrite St. cbn [cb_call].
  pose proof (ring_out maxlen fill (firstn t (x0 :: xs)) x Hm) as RO.
  rewrite <- H2 in RO. specialize (RO (index_safe_le maxlen (x0 :: xs) (firstn (t + 1) (x0 :: xs)) ltac:(rewrite firstn_length; lia) Hs)).
  destruct (ring_call maxlen _ x). cbn [fst] in *. rewrite RO, H2. reflexivity.
Qed.

(** *** ewma *)
Lemma ewma_spec fm ti maxlen a fill x0 xs : 
  flax_from_scratch (CompressedBuffer fm ti maxlen (SEwma a) fill) (x0 :: xs) =
  map (fun o => OScalar (fst o)) (flax_from_scratch (FEWMA fm (cb_cfg a)) (x0 :: xs)).
Proof.
  unfold flax_from_scratch. cbn [fx_vars CompressedBuffer FEWMA cb_init].
  generalize (ewma_init (cb_cfg a)) as e. generalize (Fin 0) as c. generalize 0 as k. generalize (x0 :: xs) as l.
  induction l as [|x l IH]; intros k c e; [reflexivity|]. cbn [flax_calls fx_call CompressedBuffer FEWMA cb_call].
  destruct (fewma_call fm (cb_cfg a) e x) as [[v i] e'] eqn:E. specialize (IH (k + 1) v e').
  change {| fx_vars := _; fx_call := cb_call fm ti maxlen (SEwma a) |} with (CompressedBuffer fm ti maxlen (SEwma a) fill).
  destruct (flax_calls (CompressedBuffer fm ti maxlen (SEwma a) fill) (CEwma e' v (k + 1)) l).
  destruct (flax_calls (FEWMA fm (cb_cfg a)) e' l). cbn [fst map] in *. congruence.
Qed.
