(** Property theorems C131-C134: the algebra of the modules.  Vocabulary: Spec/AlgebraSpec.v; [of_option None] is a
    missing value (NaN), [of_option (Some x)] the number x. *)
From Coq Require Import List Arith ZArith Lia Reals Lra Bool.
From Verif Require Import Model.Unroll Model.Batch Model.Float Model.Modules Model.Ewm Model.Dynamics Spec.SeriesSpec Spec.EwmSpec Spec.DynSpec
  Spec.AlgebraSpec Proofs.AlgebraProofs Proofs.AlgebraProofs2 Proofs.AlgebraProofs3 Proofs.AlgebraExamples.
Import ListNotations.
Local Open Scope R_scope.

(** C131: RollingMean of a x + b is a RollingMean(x) + b, whatever is missing. *)
Theorem C131_rolling_affine :
  forall h mp a b (os : list (option R)) ys sF ys' sF', (0 < h)%nat ->
  run (RollingMean h mp) (map of_option os) = Some (ys, sF) ->
  run (RollingMean h mp) (map of_option (map (affine a b) os)) = Some (ys', sF') ->
  ys' = map (affine_fl a b) ys.
Proof. exact @rolling_affine. Qed.
Print Assumptions C131_rolling_affine.

(** C131: RollingMean of a sum of two series missing at the same steps is the sum of the RollingMeans. *)
Theorem C131_rolling_additive :
  forall h mp (xs xs' : list (option R)) ys sF ys' sF' zs sG, (0 < h)%nat -> same_holes xs xs' ->
  run (RollingMean h mp) (map of_option xs) = Some (ys, sF) ->
  run (RollingMean h mp) (map of_option xs') = Some (ys', sF') ->
  run (RollingMean h mp) (map of_option (map plus_opt (combine xs xs'))) = Some (zs, sG) ->
  zs = map plus_fl (combine ys ys').
Proof. exact @rolling_additive. Qed.
Print Assumptions C131_rolling_additive.

(** C131: an output of RollingMean is missing or lies within any bounds of the observations of its window. *)
Theorem C131_rolling_within :
  forall h mp (os : list (option R)) ys sF lo hi t y, (0 < h)%nat ->
  run (RollingMean h mp) (map of_option os) = Some (ys, sF) -> nth_error ys t = Some y ->
  (forall s x, (s <= t)%nat -> (t < s + h)%nat -> nth_error os s = Some (Some x) -> lo <= x <= hi) ->
  y = NaN \/ exists r, y = Fin r /\ lo <= r <= hi.
Proof. exact @rolling_range. Qed.
Print Assumptions C131_rolling_within.

(** C131: the RollingMean of the differences of a series is (x_t - x_(t-h)) / h once h differences are available. *)
Theorem C131_rolling_of_diff :
  forall h (r0 : R) rs d ds sD ys sF t, (0 < h)%nat ->
  Diff 1 = Some d -> run d (map Fin (r0 :: rs)) = Some (ds, sD) ->
  run (RollingMean h 1) ds = Some (ys, sF) -> (h <= t)%nat -> (t <= length rs)%nat ->
  nth_error ys t = Some (Fin ((nth t (r0 :: rs) 0 - nth (t - h) (r0 :: rs) 0) / INR h)).
Proof. exact @rolling_diff. Qed.
Print Assumptions C131_rolling_of_diff.

(** x = [1; -; 3; 5], 2 x + 1 = [3; -; 7; 11], their sum = [4; -; 10; 16]; the differences of [1; 3; 7] averaged over 2. *)
Example C131_example :
  same_holes [Some 1; None; Some 3; Some 5] [Some 3; None; Some 7; Some 11] /\
  (exists sF, run (RollingMean 2 1) [Fin 1; NaN; Fin 3; Fin 5] = Some ([Fin 1; Fin 1; Fin 3; Fin 4], sF)) /\
  (exists sF, run (RollingMean 2 1) [Fin 3; NaN; Fin 7; Fin 11] = Some ([Fin 3; Fin 3; Fin 7; Fin 9], sF)) /\
  (exists sF, run (RollingMean 2 1) [Fin 4; NaN; Fin 10; Fin 16] = Some ([Fin 4; Fin 4; Fin 10; Fin 13], sF)) /\
  (exists d sF, Diff 1 = Some d /\ run d [Fin 1; Fin 3; Fin 7] = Some ([NaN; Fin 2; Fin 4], sF)) /\
  (exists sF, run (RollingMean 2 1) [NaN; Fin 2; Fin 4] = Some ([NaN; Fin 2; Fin 3], sF)).
Proof.
  split; [repeat constructor; discriminate|].
  exact (conj rolling_ex1 (conj rolling_ex2 (conj rolling_ex3 (conj diff_ex1 rolling_ex4)))).
Qed.

(** C132: Diff ignores a shift and scales with its input. *)
Theorem C132_diff_affine :
  forall d a b (os : list (option R)) ys sF ys' sF', Diff 1 = Some d ->
  run d (map of_option os) = Some (ys, sF) ->
  run d (map of_option (map (affine a b) os)) = Some (ys', sF') ->
  ys' = map (affine_fl a 0) ys.
Proof. exact @diff_affine. Qed.
Print Assumptions C132_diff_affine.

(** C132: PctChange does not depend on the (positive) unit of its input. *)
Theorem C132_pct_change_unit :
  forall m meth fz c (os : list (option R)) ys sF ys' sF', 0 < c -> PctChange 1 meth fz = Some m ->
  run m (map of_option os) = Some (ys, sF) ->
  run m (map of_option (map (affine c 0) os)) = Some (ys', sF') ->
  ys' = ys.
Proof. exact @pct_scaled. Qed.
Print Assumptions C132_pct_change_unit.

Example C132_example :
  (exists m sF, PctChange 1 Pad true = Some m /\ run m [Fin 1; NaN; Fin 3] = Some ([NaN; Fin 0; Fin 2], sF)) /\
  (exists m sF, PctChange 1 Pad true = Some m /\ run m [Fin 5; NaN; Fin 15] = Some ([NaN; Fin 0; Fin 2], sF)).
Proof. exact (conj pct_ex1 pct_ex2). Qed.

(** C133: EWMA with com = 0 (alpha = 1) is Ffill, for every adjust mode and ignore_na. *)
Theorem C133_ewma_com_zero_is_ffill :
  forall fm adj ig (os : list (option R)) ys sF zs sG,
  run (EWMA fm (EwmaCfg 0 0 adj ig NaN)) (map of_option os) = Some (ys, sF) ->
  run Ffill (map of_option os) = Some (zs, sG) -> ys = zs.
Proof. exact @ewma0_ffill. Qed.
Print Assumptions C133_ewma_com_zero_is_ffill.

(** C133: EWMVar with com = 0 is always 0. *)
Theorem C133_ewmvar_com_zero :
  forall adj (os : list (option R)) ys sF,
  run (EWMVar 0 adj) (map of_option os) = Some (ys, sF) -> Forall (fun y => y = Fin 0) ys.
Proof. exact @ewmvar0. Qed.
Print Assumptions C133_ewmvar_com_zero.

(** C133: RollingMean of horizon 1 (min_periods at most 1), Lag 0 and Buffer 1 return their input. *)
Theorem C133_horizon_one :
  (forall mp (os : list (option R)) ys sF, (mp <= 1)%Z ->
     run (RollingMean 1 mp) (map of_option os) = Some (ys, sF) -> ys = map of_option os) /\
  (forall (A : Type) (full : A -> A) (xs : list A) ys sF,
     run (Lag 0 full) xs = Some (ys, sF) -> ys = map Some xs) /\
  (forall (A : Type) (full : A -> A) (xs : list A) ys sF,
     run (Buffer 1 full) xs = Some (ys, sF) -> ys = map (fun x => [x]) xs).
Proof. exact (conj (@rolling_one) (conj (@lag_zero) (@buffer_one))). Qed.
Print Assumptions C133_horizon_one.

(** C133: UpdateOnEvent with an event at every step is the wrapped module. *)
Theorem C133_event_at_every_step :
  forall (K P S X Y : Type) (split : K -> K * K) (full : Y -> Y) (tf : transformed K P S X Y) rng p prev s (xs : list X),
  fst (unroll_apply split (update_on_event full tf) false p (prev, s) rng (map (pair true) xs)) =
  fst (unroll_apply split tf false p s rng xs).
Proof. exact @always_event. Qed.
Print Assumptions C133_event_at_every_step.

Example C133_example :
  (exists sF, run (EWMA 1000 (EwmaCfg 0 0 AdjTrue false NaN)) [NaN; Fin 2; NaN; Fin 5] = Some ([NaN; Fin 2; Fin 2; Fin 5], sF)) /\
  (exists sF, run (Lag 0 (fun _ => 0%nat)) [4; 5]%nat = Some ([Some 4; Some 5]%nat, sF)) /\
  (exists sF, run (Buffer 1 (fun _ => 0%nat)) [4; 5]%nat = Some ([[4]; [5]]%nat, sF)).
Proof. split; [exact ewma0_ex|]. split; eexists; reflexivity. Qed.

(** C134: dropping the reset between two bins gives, at the end, the bar merged from the two bars: the first open, the
    larger high, the smaller low, the last close, a bin without observation being ignored. *)
Theorem C134_bars_merge :
  forall pre v1 b1 v2 b2 ys sF ys' sF',
  Forall (fun p => snd p = false) b1 -> Forall (fun p => snd p = false) b2 ->
  run OHLC (pre ++ (v1, true) :: b1 ++ (v2, true) :: b2) = Some (ys, sF) ->
  run OHLC (pre ++ (v1, true) :: b1 ++ (v2, false) :: b2) = Some (ys', sF') ->
  exists o1 o2, nth_error ys (length pre + length b1) = Some o1 /\ last ys ohlc_nan = o2 /\
    last ys' ohlc_nan = merged o1 o2.
Proof. exact @ohlc_merge. Qed.
Print Assumptions C134_bars_merge.

(** C134: the bar of some values is unique, and the bar of two lists of values is the merged bar. *)
Theorem C134_bar_algebra :
  (forall vs o o', bar vs o -> bar vs o' -> o = o') /\
  (forall vs ws o1 o2, Forall (fun v => v <> NaN) vs -> Forall (fun v => v <> NaN) ws ->
     bar vs o1 -> bar ws o2 -> bar (vs ++ ws) (merged o1 o2)).
Proof. exact (conj (@bar_unique) (@bar_merge)). Qed.
Print Assumptions C134_bar_algebra.

Example C134_example :
  (exists sF, run OHLC [(Fin 2, true); (Fin 5, false); (Fin 1, true); (NaN, false)] =
    Some ([Ohlc (Fin 2) (Fin 2) (Fin 2) (Fin 2); Ohlc (Fin 2) (Fin 5) (Fin 2) (Fin 5);
           Ohlc (Fin 1) (Fin 1) (Fin 1) (Fin 1); Ohlc (Fin 1) (Fin 1) (Fin 1) (Fin 1)], sF)) /\
  (exists sF ys, run OHLC [(Fin 2, true); (Fin 5, false); (Fin 1, false); (NaN, false)] = Some (ys, sF) /\
    last ys ohlc_nan = Ohlc (Fin 2) (Fin 5) (Fin 1) (Fin 1) /\
    merged (Ohlc (Fin 2) (Fin 5) (Fin 2) (Fin 5)) (Ohlc (Fin 1) (Fin 1) (Fin 1) (Fin 1)) = Ohlc (Fin 2) (Fin 5) (Fin 1) (Fin 1)).
Proof. exact (conj ohlc_ex1 ohlc_ex2). Qed.
