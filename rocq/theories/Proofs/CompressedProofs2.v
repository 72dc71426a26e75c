From Coq Require Import String List Bool Arith ZArith Permutation Sorted Lia Reals Lra.
From Verif Require Import Model.Tree Model.Unroll Model.Float Model.Modules Model.Ewm Model.FlaxModules Model.Compressed
  Spec.FlaxSpec Spec.CompressedSpec Proofs.ListFacts Proofs.RunFacts Proofs.BufferProofs Proofs.FloatFacts
  Proofs.FlaxProofs Proofs.FlaxCoreProofs3 Proofs.CompressedProofs.
Import ListNotations.

(** *** HierarchicalBuffer *)
Section HB.
  Variables (fm : R) (ti : fl -> Z) (rl ml ll : nat) (med lng : strategy) (fill : fl).
  Notation HB := (HierarchicalBuffer fm ti rl ml ll med lng fill).
  Notation CBm := (CompressedBuffer fm ti ml med fill).
  Notation CBl := (CompressedBuffer fm ti ll lng fill).

  Lemma hb_state_after xs : steps (fx_call HB) (fx_vars HB NaN) xs =
    HBState (steps (ring_call rl) (ring_init rl fill) xs)
            (steps (fx_call CBm) (cb_init med ml fill) (sampled 5 xs))
            (steps (fx_call CBl) (cb_init lng ll fill) (sampled 50 xs)) (length xs) (length xs).
  Proof.
    induction xs as [|x xs IH] using rev_ind; [reflexivity|].
    rewrite steps_app, IH, !sampled_snoc, !steps_app, app_length. cbn [steps length].
    change (fx_call HB) with (hb_call fm ti rl ml ll med lng). unfold hb_call.
    cbn [hb_recent hb_medium hb_long medium_counter long_counter].
    destruct (ring_call rl _ x) as [rd r']. cbn [snd].
    destruct (Nat.eqb (length xs mod 5) 0), (Nat.eqb (length xs mod 50) 0); cbn [steps fx_call CompressedBuffer];
      repeat match goal with |- context [cb_call ?a ?b ?c ?d ?e x] => destruct (cb_call a b c d e x) end; reflexivity.
  Qed.

  Lemma peek_after (s : strategy) (n : nat) (y : fl) (ys : list fl) o :
    last (map Some (flax_from_scratch (CompressedBuffer fm ti n s fill) (y :: ys))) None = Some o ->
    peek (steps (fx_call (CompressedBuffer fm ti n s fill)) (cb_init s n fill) (y :: ys)) =
    match s with SEwma _ => o | _ => OScalar (Fin 0) end.
  Proof.
    destruct (snoc_cases (y :: ys)) as [E|[l [z E]]]; [discriminate|].
    unfold flax_from_scratch. rewrite E, flax_calls_app. cbn [fst].
    rewrite map_app, flax_calls_steps. cbn [flax_calls].
    cbn [fx_vars CompressedBuffer]. change {| fx_vars := _; fx_call := cb_call fm ti n s |} with (CompressedBuffer fm ti n s fill).
    rewrite steps_app. set (st := steps (fx_call (CompressedBuffer fm ti n s fill)) (cb_init s n fill) l).
    cbn [steps]. change (fx_call (CompressedBuffer fm ti n s fill) st z) with (cb_call fm ti n s st z).
    destruct (cb_call fm ti n s st z) as [o' st'] eqn:C. cbn [fst map snd]. rewrite last_last. intros F.
    assert (o' = o) by congruence. subst o'. clear F.
    assert (K : forall l, match s, steps (fx_call (CompressedBuffer fm ti n s fill)) (cb_init s n fill) l with
       | SEwma _, CEwma _ _ _ | SQuantile _, CQuantile _ _ _ | SDownsample _, CDownsample _ _ | SSketching _ _, CSketch _ | SNone, CNone _ => True
       | _, _ => False end).
    { clear. intros l. induction l as [|x l IH] using rev_ind; [destruct s; exact I|].
      rewrite steps_app. cbn [steps fx_call CompressedBuffer]. 
      change {| fx_vars := _; fx_call := cb_call fm ti n s |} with (CompressedBuffer fm ti n s fill) in *.
      change (fx_call (CompressedBuffer fm ti n s fill)) with (cb_call fm ti n s) in *.
      destruct s, (steps (cb_call fm ti n _) _ l); try contradiction; cbn [cb_call snd].
      - destruct (fewma_call fm (cb_cfg alpha) ewma x) as [[? ?] ?]. exact I.
      - destruct (ring_call _ buffer x). exact I.
      - destruct (Nat.eqb (sample_counter mod factor) 0); [destruct (ring_call _ buffer x)|]; exact I.
      - exact I.
      - destruct (ring_call _ buffer x). exact I. }
    specialize (K l). fold st in K. destruct s, st; try contradiction; cbn [cb_call] in C.
    - destruct (fewma_call fm (cb_cfg alpha) ewma z) as [[v i] e']. assert (st' = CEwma e' v (count + 1)) by congruence.
      assert (o = OScalar v) by congruence. subst. reflexivity.
    - destruct (ring_call _ buffer z). match type of C with (_, ?q) = _ => assert (st' = q) by congruence end. subst. reflexivity.
    - destruct (Nat.eqb (sample_counter mod factor) 0); [destruct (ring_call _ buffer z)|];
        match type of C with (_, ?q) = _ => assert (st' = q) by congruence end; subst; reflexivity.
    - match type of C with (_, ?q) = _ => assert (st' = q) by congruence end; subst; reflexivity.
    - destruct (ring_call _ buffer z). match type of C with (_, ?q) = _ => assert (st' = q) by congruence end. subst. reflexivity.
  Qed.

  (** the output of a level updated every [f] calls *)
  Lemma level_out (s : strategy) (n f : nat) x0 xs t x : 0 < f -> nth_error (x0 :: xs) t = Some x ->
    let past := firstn t (x0 :: xs) in
    let st := steps (fx_call (CompressedBuffer fm ti n s fill)) (cb_init s n fill) (sampled f past) in
    let o := if Nat.eqb (t mod f) 0 then fst (cb_call fm ti n s st x) else peek st in
    exists y ys l, sampled f (firstn (t + 1) (x0 :: xs)) = y :: ys /\
      last (map Some (flax_from_scratch (CompressedBuffer fm ti n s fill) (y :: ys))) None = Some l /\
      o = if Nat.eqb (t mod f) 0 then l else match s with SEwma _ => l | _ => OScalar (Fin 0) end.
  Proof.
    intros Hf Hx. cbn zeta. destruct (scratch_nth (CompressedBuffer fm ti n s fill) x0 xs t x Hx) as [_ H2].
    assert (Lt : t < length (x0 :: xs)) by (apply nth_error_Some; congruence).
    assert (L : length (firstn t (x0 :: xs)) = t) by (rewrite firstn_length; lia).
    destruct (sampled f (firstn (t + 1) (x0 :: xs))) as [|y ys] eqn:Sm.
    { exfalso. pose proof (sampled_nth f (firstn (t + 1) (x0 :: xs)) 0 Hf) as N0. rewrite Sm in N0. cbn in N0.
      destruct (t + 1) eqn:E; [lia|]. cbn in N0. discriminate. }
    exists y, ys. 
    set (outs := flax_from_scratch (CompressedBuffer fm ti n s fill) (y :: ys)).
    assert (Lo : length outs = length (y :: ys)) by (unfold outs, flax_from_scratch; apply flax_calls_length).
    destruct (snoc_cases outs) as [E|[os [o E]]]; [rewrite E in Lo; discriminate|].
    exists o. split; [reflexivity|]. split; [rewrite E, map_app; apply last_last|].
    rewrite H2, sampled_snoc, L in Sm.
    destruct (Nat.eqb_spec (t mod f) 0) as [T|T].
    - unfold outs, flax_from_scratch in E. rewrite <- Sm, flax_calls_app in E. cbn [fst] in E.
      rewrite flax_calls_steps in E. cbn [flax_calls] in E.
      change (fx_vars (CompressedBuffer fm ti n s fill) y) with (cb_init s n fill) in E.
      change (fx_call (CompressedBuffer fm ti n s fill)) with (cb_call fm ti n s) in *.
      destruct (cb_call fm ti n s (steps (cb_call fm ti n s) (cb_init s n fill) (sampled f (firstn t (x0 :: xs)))) x) as [o1 s1].
      cbn [fst] in *. apply app_inj_tail in E. destruct E as [_ E]. exact E.
    - rewrite app_nil_r in Sm. rewrite Sm. apply peek_after. fold outs. rewrite E, map_app. apply last_last.
  Qed.

  Theorem hb_spec x0 xs t x : 0 < rl -> index_safe rl (x0 :: xs) -> nth_error (x0 :: xs) t = Some x ->
    exists o, nth_error (flax_from_scratch HB (x0 :: xs)) t = Some o /\
      o_input o = x /\ o_recent o = padded_window rl fill (firstn (t + 1) (x0 :: xs)) /\
      (exists y ys l, sampled 5 (firstn (t + 1) (x0 :: xs)) = y :: ys /\
         last (map Some (flax_from_scratch CBm (y :: ys))) None = Some l /\
         o_medium o = if Nat.eqb (t mod 5) 0 then l else match med with SEwma _ => l | _ => OScalar (Fin 0) end) /\
      (exists y ys l, sampled 50 (firstn (t + 1) (x0 :: xs)) = y :: ys /\
         last (map Some (flax_from_scratch CBl (y :: ys))) None = Some l /\
         o_long o = if Nat.eqb (t mod 50) 0 then l else match lng with SEwma _ => l | _ => OScalar (Fin 0) end).
  Proof.
    intros Hr Hs Hx. destruct (scratch_nth HB x0 xs t x Hx) as [H1 H2]. eexists. split; [exact H1|].
    assert (Lt : t < length (x0 :: xs)) by (apply nth_error_Some; congruence).
    assert (L : length (firstn t (x0 :: xs)) = t) by (rewrite firstn_length; lia).
    change (fx_vars HB x0) with (fx_vars HB NaN). rewrite hb_state_after, L.
    change (fx_call HB) with (hb_call fm ti rl ml ll med lng). unfold hb_call.
    cbn [hb_recent hb_medium hb_long medium_counter long_counter].
    pose proof (ring_out rl fill (firstn t (x0 :: xs)) x Hr) as RO. rewrite <- H2 in RO.
    specialize (RO (index_safe_le rl (x0 :: xs) (firstn (t + 1) (x0 :: xs)) ltac:(rewrite firstn_length; lia) Hs)).
    destruct (ring_call rl _ x) as [rd r']. cbn [fst] in RO.
    pose proof (level_out med ml 5 x0 xs t x ltac:(lia) Hx) as LM. cbn zeta in LM.
    pose proof (level_out lng ll 50 x0 xs t x ltac:(lia) Hx) as LL. cbn zeta in LL.
    destruct (Nat.eqb (t mod 5) 0); [destruct (cb_call fm ti ml med _ x) as [md m']|];
      (destruct (Nat.eqb (t mod 50) 0); [destruct (cb_call fm ti ll lng _ x) as [ld l']|]);
      cbn [fst o_input o_recent o_medium o_long] in *; auto.
  Qed.
End HB.

(** *** bounded memory *)
Lemma quantile_len fm ti maxlen ps b est uc x :
  exists b' est', snd (cb_call fm ti maxlen (SQuantile ps) (CQuantile b est uc) x) = CQuantile b' est' (uc + 1) /\
    b' = snd (ring_call (Nat.min maxlen (Z.to_nat 1000)) b x) /\ (length est = length ps -> length est' = length ps).
Proof.
  cbn [cb_call]. destruct (ring_call (Nat.min maxlen (Z.to_nat 1000)) b x) as [d b']. cbn [snd].
  exists b'. eexists. split; [reflexivity|]. split; [reflexivity|]. intros E.
  destruct (Nat.eqb (uc mod 10) 0); [|exact E]. destruct (0 <? _); [apply map_length|exact E].
Qed.

Definition cb_ok (maxlen : nat) (s : strategy) (st : cb_state) : Prop :=
  match s, st with
  | SEwma _, CEwma _ _ _ => True
  | SQuantile ps, CQuantile b est _ => length (ring b) = Nat.min maxlen (Z.to_nat 1000) /\ length est = length ps
  | SDownsample f, CDownsample b _ => length (ring b) = down_maxlen maxlen f
  | SSketching h nb, CSketch sk => length sk = h /\ Forall (fun r => length r = nb) sk
  | SNone, CNone b => length (ring b) = maxlen
  | _, _ => False
  end.
Lemma bucket_lt nb i z : 0 < nb -> bucket nb i z < nb.
Proof. intros H. unfold bucket. destruct (hash_row i). apply to_nat_mod. exact H. Qed.
Lemma add_one_length row j : j < length row -> length (add_one row j) = length row.
Proof. intros H. unfold add_one. apply set_at_length. exact H. Qed.
Lemma cb_ok_step fm ti maxlen s st x : 0 < maxlen -> (forall h nb, s = SSketching h nb -> 0 < nb) ->
  cb_ok maxlen s st -> cb_ok maxlen s (snd (cb_call fm ti maxlen s st x)).
Proof.
  intros Hm Hb. destruct s, st; cbn [cb_ok]; try contradiction.
  - intros _. cbn [cb_call]. destruct (fewma_call fm (cb_cfg alpha) ewma x) as [[? ?] ?]. exact I.
  - intros [H1 H2]. destruct (quantile_len fm ti maxlen percentiles buffer estimates update_count x) as (b' & e' & E1 & E2 & E3).
    rewrite E1. cbn [cb_ok]. split; [|auto]. rewrite E2. apply ring_len_inv; [lia|exact H1].
  - intros H. cbn [cb_call]. destruct (Nat.eqb (sample_counter mod factor) 0).
    + pose proof (ring_len_inv (down_maxlen maxlen factor) buffer x ltac:(unfold down_maxlen; lia) H) as R.
      destruct (ring_call (down_maxlen maxlen factor) buffer x). exact R.
    + exact H.
  - intros [H1 H2]. cbn [cb_call snd cb_ok]. rewrite map_length, combine_length, seq_length, H1, Nat.min_id. split; [reflexivity|].
    specialize (Hb _ _ eq_refl). apply Forall_forall. intros r Ir. apply in_map_iff in Ir. destruct Ir as [[i row] [F I]].
    apply in_combine_r in I. rewrite Forall_forall in H2. specialize (H2 row I). cbn [fst snd] in F. subst r.
    rewrite add_one_length; [exact H2|]. rewrite H2. apply bucket_lt. exact Hb.
  - intros H. cbn [cb_call]. pose proof (ring_len_inv maxlen buffer x Hm H) as R. destruct (ring_call maxlen buffer x). exact R.
Qed.
Lemma cb_ok_init s maxlen fill : cb_ok maxlen s (cb_init s maxlen fill).
Proof.
  destruct s; cbn [cb_ok cb_init ring ring_init].
  - exact I.
  - rewrite repeat_length, map_length. auto.
  - apply repeat_length.
  - rewrite repeat_length. split; [reflexivity|]. apply Forall_forall. intros r Ir. apply repeat_spec in Ir. subst. apply repeat_length.
  - apply repeat_length.
Qed.
Lemma concat_length_const {A} n (l : list (list A)) : Forall (fun r => length r = n) l -> length (concat l) = length l * n.
Proof. induction 1; cbn; [reflexivity|]. rewrite app_length. lia. Qed.

Definition footprint (s : strategy) (maxlen : nat) : nat :=
  match s with
  | SEwma _ => 1
  | SQuantile ps => Nat.min maxlen (Z.to_nat 1000) + length ps
  | SDownsample f => Nat.max 1 (maxlen / f)
  | SSketching h b => h * b
  | SNone => maxlen
  end.
Lemma cb_cells fm ti maxlen s fill xs : 0 < maxlen -> (forall h nb, s = SSketching h nb -> 0 < nb) ->
  cells (snd (flax_calls (CompressedBuffer fm ti maxlen s fill) (cb_init s maxlen fill) xs)) = footprint s maxlen.
Proof.
  intros Hm Hb. rewrite flax_calls_steps.
  assert (OK : cb_ok maxlen s (steps (fx_call (CompressedBuffer fm ti maxlen s fill)) (cb_init s maxlen fill) xs)).
  { induction xs as [|x xs IH] using rev_ind; [apply cb_ok_init|]. rewrite steps_app. cbn [steps].
    apply cb_ok_step; assumption. }
  destruct s, (steps (fx_call (CompressedBuffer fm ti maxlen _ fill)) _ xs); try contradiction; cbn [cb_ok] in OK;
    cbn [cells footprint].
  - reflexivity.
  - destruct OK; congruence.
  - exact OK.
  - destruct OK as [O1 O2]. rewrite (concat_length_const num_buckets) by exact O2. rewrite O1. reflexivity.
  - exact OK.
Qed.
