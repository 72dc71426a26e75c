(** C122-C125: the pipelines of the demonstration scripts (flax/examples). *)
From Coq Require Import String List Arith ZArith Reals Lra Lia Bool Sorted.
From Verif Require Import Model.Unroll Model.Float Model.Modules Model.FlaxModules Model.FlaxCore Model.Compositions Model.Demos
  Spec.EwmSpec Spec.FlaxSpec Spec.MaskSpec Spec.CompositionSpec Spec.DemoSpec
  Proofs.CompositionProofs Proofs.DemoProofs Proofs.DemoProofs2 Proofs.DemoProofs3.
Import ListNotations.
Local Open Scope R_scope.

(** C122: what the signal processor outputs, prices may be missing. *)
Theorem C122_signal_processor :
  forall fm o0 os t o, index_safe 10 (o0 :: os) -> nth_error os t = Some o ->
  nth_error (session (streaming_signal_processor fm) (of_option o0) (map of_option os)) t =
  Some (processor_view (seen o0 os t) o).
Proof. exact @signal_ok. Qed.
Print Assumptions C122_signal_processor.

(** C122: once a price is known the signal is in (-1, 1) and has the sign of the momentum. *)
Theorem C122_signal_bounds :
  forall h o, count_obs h <> 0%nat ->
  exists m v g, s_momentum (processor_view h o) = Fin m /\ s_volatility (processor_view h o) = Fin v /\
    s_signal (processor_view h o) = Fin g /\ 0 <= v /\ -1 < g < 1 /\ (0 < g <-> 0 < m) /\ (g < 0 <-> m < 0).
Proof. exact @signal_bounds. Qed.
Print Assumptions C122_signal_bounds.

(** C122: before, everything is NaN. *)
Theorem C122_no_price :
  forall h o, count_obs h = 0%nat ->
  s_fast (processor_view h o) = NaN /\ s_slow (processor_view h o) = NaN /\ s_momentum (processor_view h o) = NaN /\
  s_volatility (processor_view h o) = NaN /\ s_signal (processor_view h o) = NaN.
Proof. exact @signal_silent. Qed.
Print Assumptions C122_no_price.

(** C122: constant prices. *)
Theorem C122_constant :
  forall h o p, count_obs h <> 0%nat -> Forall (fun x => x = p) (valid_obs h) ->
  s_fast (processor_view h o) = Fin p /\ s_slow (processor_view h o) = Fin p /\ s_momentum (processor_view h o) = Fin 0 /\
  s_volatility (processor_view h o) = Fin 0 /\ s_signal (processor_view h o) = Fin 0.
Proof. exact @signal_constant. Qed.
Print Assumptions C122_constant.

(** C122: the signal follows a trend. *)
Theorem C122_trend :
  forall h o g, s_signal (processor_view h o) = Fin g ->
  (StronglySorted Rle (valid_obs h) -> 0 <= g) /\ (StronglySorted Rge (valid_obs h) -> g <= 0).
Proof. exact @signal_trend. Qed.
Print Assumptions C122_trend.

(** C122: shifting all the prices changes neither the momentum nor the volatility nor the signal. *)
Theorem C122_shift :
  forall b h o o', let h' := map (option_map (fun x => x + b)) h in
  s_momentum (processor_view h' o') = s_momentum (processor_view h o) /\
  s_volatility (processor_view h' o') = s_volatility (processor_view h o) /\
  s_signal (processor_view h' o') = s_signal (processor_view h o).
Proof. exact @signal_shift. Qed.
Print Assumptions C122_shift.

Example C122_example :
  index_safe 10 (Some 1 :: [None; Some 2]) /\ seen (Some 1) [None; Some 2] 1 = [Some 1; None; Some 2] /\
  distances [Some 1; None] = [Some 0; None] /\ count_obs [Some 1; None] = 1%nat /\
  padded_window 3 (Fin 0) (map of_option [Some 1; None]) = [Fin 0; Fin 1; NaN] /\
  StronglySorted Rle (valid_obs [Some 1; None; Some 2]).
Proof.
  split; [left; cbn; lia|]. split; [reflexivity|]. split.
  { unfold distances, prefixes, distance_to_slow. cbn [length seq map firstn last].
    rewrite (ema_const (1 / 10) [Some 1] 1); [|lra|cbn; lia|apply Forall_cons; [reflexivity|constructor]].
    cbn [minus option_map]. rewrite Rminus_diag_eq, Rabs_R0 by reflexivity. reflexivity. }
  split; [reflexivity|]. split; [reflexivity|].
  cbn. apply SSorted_cons; [apply SSorted_cons; constructor|apply Forall_cons; [lra|constructor]].
Qed.

(** C123: dicts having the same keys in the same order: each asset has its own processor. *)
Theorem C123_own_processor :
  forall fm d0 ds, Forall (fun d => keys d = keys d0) ds ->
  exists outs, portfolio_session fm d0 ds = Some outs /\ map keys outs = map keys ds /\
  forall k x0 xs, value_of k d0 = Some x0 -> map (value_of k) ds = map Some xs ->
    map (value_of k) outs = map Some (session (streaming_signal_processor fm) x0 xs).
Proof. exact @portfolio_by_name. Qed.
Print Assumptions C123_own_processor.

(** C123: in general a processor belongs to a position, not to a name. *)
Theorem C123_positional :
  forall fm d0 ds, Forall (fun d => (length d <= length d0)%nat) ds ->
  exists outs, portfolio_session fm d0 ds = Some outs /\ map keys outs = map keys ds /\
  forall i k0 x0, nth_error d0 i = Some (k0, x0) ->
    at_position i outs = session (streaming_signal_processor fm) x0 (at_position i ds).
Proof. exact @portfolio_positional. Qed.
Print Assumptions C123_positional.

(** C123 fails for the same prices given in another order. *)
Theorem C123_order_refuted :
  forall fm,
  let d0 := [("A"%string, Fin 1); ("B"%string, Fin 3)] in
  let d1 := [("B"%string, Fin 3); ("A"%string, Fin 1)] in
  exists a b, portfolio_session fm d0 [d0] = Some [a] /\ portfolio_session fm d0 [d1] = Some [b] /\
    option_map s_fast (value_of "A" a) = Some (Fin 1) /\
    exists f, option_map s_fast (value_of "A" b) = Some (Fin f) /\ 1 < f.
Proof. exact @portfolio_order. Qed.
Print Assumptions C123_order_refuted.

(** C123: an asset more than at init raises. *)
Theorem C123_new_asset_raises :
  forall fm d0 ds d, In d ds -> (length d0 < length d)%nat -> portfolio_session fm d0 ds = None.
Proof. exact @portfolio_new_asset. Qed.
Print Assumptions C123_new_asset_raises.

Example C123_example :
  let d := [("A"%string, Fin 1); ("B"%string, Fin 2)] in
  Forall (fun e => keys e = keys d) [d; [("A"%string, Fin 3); ("B"%string, NaN)]] /\
  value_of "B" d = Some (Fin 2) /\ at_position 1 [d; [("A"%string, Fin 3)]; d] = [Fin 2; Fin 2].
Proof. cbv zeta. split; [|split; reflexivity]. repeat apply Forall_cons; try constructor; reflexivity. Qed.

(** C124: the processors of the scan demos. *)
Theorem C124_processor :
  forall fm o0 os t o, index_safe 5 (o0 :: os) -> nth_error os t = Some o ->
  nth_error (session (streaming_processor fm) (of_option o0) (map of_option os)) t =
  Some (ProcessorOut (of_option o) (of_option (ema (2 / 10) (seen o0 os t)))
          (mean_or_nan (padded_window 5 (Some 0) (seen o0 os t))) (volatility_of (padded_window 5 (Some 0) (seen o0 os t)))).
Proof. exact @processor_ok. Qed.
Print Assumptions C124_processor.

Theorem C124_simple_processor :
  forall fm o0 os t o, index_safe 3 (o0 :: os) -> nth_error os t = Some o ->
  nth_error (session (simple_processor fm) (of_option o0) (map of_option os)) t =
  Some (SimpleOut (of_option o) (of_option (ema (1 / 2) (seen o0 os t)))
          (mean_or_nan (padded_window 3 (Some 0) (seen o0 os t)))).
Proof. exact @simple_ok. Qed.
Print Assumptions C124_simple_processor.

(** C124: the scan gives the results and the final state of the loop. *)
Theorem C124_scan_equals_loop :
  forall fm prices s,
  process_with_jax_scan fm prices tt s = Some (process_with_for_loop (streaming_processor fm) prices tt s).
Proof. exact @scan_equals_loop. Qed.
Print Assumptions C124_scan_equals_loop.

(** C124 fails as "buffer_mean is a mean of prices": constant prices, the zeros of the buffer count. *)
Theorem C124_mean_of_prices_refuted :
  forall fm p, p <> 0 ->
  exists y m, nth_error (session (streaming_processor fm) (Fin p) [Fin p]) 0 = Some y /\
    q_smoothed y = Fin p /\ q_mean y = Fin m /\ m = 2 / 5 * p.
Proof. exact @processor_zeros. Qed.
Print Assumptions C124_mean_of_prices_refuted.

Example C124_example :
  index_safe 5 (Some 1 :: [None; Some 2]) /\
  padded_window 5 (Some 0) [Some 1; None] = [Some 0; Some 0; Some 0; Some 1; None] /\
  mean_or_nan [Some 1; Some 2] = Fin (3 / 2) /\ mean_or_nan [Some 1; None] = NaN.
Proof.
  split; [left; cbn; lia|]. split; [reflexivity|]. split; [|reflexivity].
  unfold mean_or_nan, mean_of, MaskSpec.total. cbn. f_equal. field.
Qed.

(** C125: the baseline of the conditional demo. *)
Theorem C125_baseline :
  forall fm o0 os t o, index_safe 5 (o0 :: os) -> nth_error os t = Some o ->
  nth_error (session (always_updating_baseline fm) (of_option o0) (map of_option os)) t =
  Some (baseline_view (seen o0 os t) o).
Proof. exact @baseline_ok. Qed.
Print Assumptions C125_baseline.

(** C125: its signal is missing exactly when one of the last five prices is, and in (-1, 1) otherwise. *)
Theorem C125_baseline_signal :
  forall h o,
  (In None (skipn (length (h ++ [o]) - 5) (h ++ [o])) /\ baseline_signal (h ++ [o]) o = None) \/
  (~ In None (skipn (length (h ++ [o]) - 5) (h ++ [o])) /\
   exists g, baseline_signal (h ++ [o]) o = Some g /\ -1 < g < 1).
Proof. exact @baseline_bounds. Qed.
Print Assumptions C125_baseline_signal.

(** C125: init of an update_on_event function raises exactly when its output contains a Python object. *)
Theorem C125_raises_iff :
  forall (S X : Type) (vars : S) (call : S -> X -> outputs * S) ev x,
  conditional_init vars call ev x = None <-> has_python_leaf (fst (call vars x)).
Proof. exact @conditional_raises. Qed.
Print Assumptions C125_raises_iff.

(** C125 fails: both conditional pipelines of the demo raise in init, for every input. *)
Theorem C125_demo_runs_refuted :
  forall fm, (forall price, high_price_init fm price = None) /\ (forall data, volume_init fm data = None).
Proof. intros fm. split; [exact (high_price_raises fm)|exact (volume_raises fm)]. Qed.
Print Assumptions C125_demo_runs_refuted.

(** C125: with arrays only, the output at every step is what the always updated pipeline gave at the last event. *)
Theorem C125_last_event :
  forall (S X : Type) (ks : list string) (call : S -> X -> outputs * S) ev,
  (forall s x, keys (fst (call s x)) = ks) -> (forall s x, ~ has_python_leaf (fst (call s x))) ->
  forall s x0 xs,
  exists st outs, conditional_init s call ev x0 = Some st /\ conditional_applies call ev st xs = Some outs /\
  length outs = length xs /\
  forall t, (t < length xs)%nat ->
    nth_error outs t =
    Some (last_event
            (combine (map ev (seen x0 xs t))
               (firstn (t + 2) (applied (flax_tf (FlaxModule (fun _ => s) call)) tt s (x0 :: xs))))
            (nan_outputs (fst (call s x0)))).
Proof. exact @conditional_ok. Qed.
Print Assumptions C125_last_event.

Example C125_example :
  let call := fun (s : R) (x : R) => ([("sum"%string, Arr (Fin (s + x)))], s + x) in
  (forall s x, keys (fst (call s x)) = ["sum"%string]) /\ (forall s x, ~ has_python_leaf (fst (call s x))) /\
  (exists st, conditional_init 0 call (fun x => Rlt_b 0 x) 1 = Some st) /\
  last_event [(true, [("a"%string, Arr (Fin 1))]); (false, [("a"%string, Arr (Fin 2))])] [] = [("a"%string, Arr (Fin 1))] /\
  baseline_signal [Some 100; None] None = None.
Proof.
  cbv zeta. split; [reflexivity|]. split.
  { intros s x (k & b & [H|[]]). discriminate. }
  split; [eexists; reflexivity|]. split; reflexivity.
Qed.
