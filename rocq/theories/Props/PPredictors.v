(** Property theorems C139, C140: the online predictors of the examples. *)
From Coq Require Import List Arith Reals Lra Lia.
From Verif Require Import Model.Unroll Model.Float Model.Compositions Model.Predictors
  Spec.EwmSpec Spec.CompositionSpec Spec.PredictorSpec Proofs.CompositionProofs Proofs.PredictorProofs Proofs.PredictorProofs2.
Import ListNotations.
Local Open Scope R_scope.

(** C139: what ensemble_predictor returns at each call; missing values included.  The scale [s] has been updated at each of the
    earlier calls, the one of init included. *)
Theorem C139_ensemble_outputs :
  forall fm (x0 : (option R * option R) * fl) xs t x, nth_error xs t = Some x ->
  let h := map fst (seen x0 xs t) in
  let p := ensemble_prediction h in
  let s := descend (1 / 100) (compared ensemble_prediction snd (map fst (x0 :: firstn t xs))) in
  nth_error (session (ensemble_predictor fm) (call3 x0) (map call3 xs)) t =
  Some (of_option (with_all squared_error p (snd (fst x)) s), of_option p,
        EnsembleAux (of_option (times (105 / 100) (ema (2 / 10) (map fst h))))
                    (of_option (times (1 / 1000) (ema (15 / 100) (map snd h))))
                    (of_option (ema (2 / 10) (map fst h))) (of_option (ema (15 / 100) (map snd h)))).
Proof. exact @ensemble_ok. Qed.
Print Assumptions C139_ensemble_outputs.

(** C139 fails as "the loss compares the prediction with the target": the target has no effect at all. *)
Theorem C139_target_ignored :
  forall fm x0 xs x0' xs', map fst (x0 :: xs) = map fst (x0' :: xs') ->
  session (ensemble_predictor fm) (call3 x0) (map call3 xs) = session (ensemble_predictor fm) (call3 x0') (map call3 xs').
Proof. exact @ensemble_blind. Qed.
Print Assumptions C139_target_ignored.

(** C139: after one missing volume every loss is NaN. *)
Theorem C139_missing_volume :
  forall fm x0 xs t x, nth_error xs t = Some x ->
  In None (map (fun z => snd (fst z)) (seen x0 xs t)) ->
  option_map (fun y => fst (fst y)) (nth_error (session (ensemble_predictor fm) (call3 x0) (map call3 xs)) t) = Some NaN.
Proof. exact @ensemble_missing. Qed.
Print Assumptions C139_missing_volume.

(** C139: with constant prices and volumes, the loss vanishes for predictions between -10 and 10 and explodes outside. *)
Theorem C139_constant_inputs :
  forall fm P V u,
  let x := ((Some P, Some V), u) in
  let p := (105 / 100 * P + 1 / 1000 * V) / 2 in
  (forall m t, (t < m)%nat ->
     option_map fst (nth_error (session (ensemble_predictor fm) (call3 x) (repeat (call3 x) m)) t) =
     Some (Fin ((1 - p ^ 2 / 50) ^ (2 * (t + 1)) * (p - V) ^ 2), Fin p)) /\
  exists l : nat -> R,
    (forall m t, (t < m)%nat ->
       option_map fst (nth_error (session (ensemble_predictor fm) (call3 x) (repeat (call3 x) m)) t) = Some (Fin (l t), Fin p)) /\
    (0 < Rabs p < 10 -> vanishes l) /\ (10 < Rabs p -> p <> V -> explodes l).
Proof. exact (fun fm P V u => conj (fun m t => @ensemble_constant fm P V u m t) (@ensemble_limits fm P V u)). Qed.
Print Assumptions C139_constant_inputs.

(** The price 100 and the volume 1000 of the demo: the prediction is 53. *)
Example C139_example :
  (105 / 100 * 100 + 1 / 1000 * 1000) / 2 = 53 /\ 10 < Rabs 53 /\ 53 <> 1000 /\
  descend (1 / 100) (compared ensemble_prediction snd [(Some 2, Some 0)]) = Some (1 - 2 * 105 / 100 * (105 / 100) / 100) /\
  descend (1 / 100) [(Some 1, None)] = None /\ ensemble_prediction [(Some 2, None)] = None.
Proof.
  split; [lra|]. split; [rewrite Rabs_pos_eq; lra|]. split; [lra|]. split; [|split].
  - unfold descend, compared, ensemble_prediction, prefixes, ema, exp_average, exp_weighted_mean, slope. cbn. f_equal. field.
  - reflexivity.
  - unfold ensemble_prediction, ema, exp_average. reflexivity.
Qed.

(** C140: what adaptive_price_predictor returns when nothing is missing. *)
Theorem C140_adaptive_outputs :
  forall fm x0 xs t x, nth_error xs t = Some x ->
  let h := seen x0 xs t in
  let s := adam_scale (1 / 1000) (compared adaptive_value snd (x0 :: firstn t xs)) in
  nth_error (session (adaptive_price_predictor fm) (finite2 x0) (map finite2 xs)) t =
  Some (Fin (squared_error (adaptive_value h) (snd x) s), Fin (adaptive_value h), tt).
Proof. exact @adaptive_ok. Qed.
Print Assumptions C140_adaptive_outputs.

(** C140: the scale moves by at most 1/100 per call, whatever the data. *)
Theorem C140_scale_moves_slowly :
  (forall lr gs, 0 <= lr -> Rabs (adam_move lr gs) <= 10 * lr) /\
  forall x0 (xs : list (R * R)) t, (t < length xs)%nat ->
  Rabs (adam_scale (1 / 1000) (compared adaptive_value snd (x0 :: firstn t xs)) - 1) <= INR (t + 1) / 100.
Proof. exact (conj (@adam_move_bound) (@adaptive_slow)). Qed.
Print Assumptions C140_scale_moves_slowly.

(** C140: the predictions do not depend on the targets, missing or not. *)
Theorem C140_predictions :
  forall fm x0 xs t x, nth_error xs t = Some x ->
  option_map (fun y => snd (fst y)) (nth_error (session (adaptive_price_predictor fm) (call2 x0) (map call2 xs)) t) =
  Some (of_option (adaptive_prediction (map fst (seen x0 xs t)))).
Proof. exact @adaptive_predictions. Qed.
Print Assumptions C140_predictions.

(** C140: after one missing target every loss is NaN. *)
Theorem C140_missing_target :
  forall fm x0 xs t x, nth_error xs t = Some x -> In None (map snd (seen x0 xs t)) ->
  option_map (fun y => fst (fst y)) (nth_error (session (adaptive_price_predictor fm) (call2 x0) (map call2 xs)) t) = Some NaN.
Proof. exact @adaptive_missing. Qed.
Print Assumptions C140_missing_target.

(** One call: the slope is 2 * 1.1 * (1.1 - 0), and the first move of Adam is almost lr. *)
Example C140_example :
  adaptive_value [(1, 0)] = 11 / 10 /\ slope (11 / 10) 0 1 = 242 / 100 /\
  adam_scale (1 / 1000) [(11 / 10, 0)] = 1 - 1 / 1000 * (242 / 100 / (242 / 100 + 1 / 10 ^ 8)) /\
  In None (map snd [(Some 1, Some 2); (Some 3, @None R)]) /\ adaptive_prediction [Some 1; None] = Some (11 / 10).
Proof.
  assert (A : forall a x, average a [x] = x).
  { intros. unfold average, ema, exp_average, exp_weighted_mean. cbn. field. }
  split; [|split; [|split; [|split]]].
  - unfold adaptive_value. cbn [map fst]. rewrite A. field.
  - unfold slope. field.
  - unfold adam_scale. cbn [fold_left adam_step fst snd app]. unfold adam_move. cbn [map]. rewrite !A. unfold slope.
    replace (2 * (11 / 10) * (1 * (11 / 10) - 0)) with (242 / 100) by field. rewrite sqrt_pow2 by lra. reflexivity.
  - cbn. auto.
  - unfold adaptive_prediction, ema, exp_average, exp_weighted_mean. cbn. f_equal. field.
Qed.
