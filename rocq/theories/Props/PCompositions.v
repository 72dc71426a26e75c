(** Property theorems C104-C109: the example compositions of wax.flax.examples.transform_compositions.
    [session tf x0 xs]: the outputs of apply on the inputs [xs], in sequence, after init on [x0];
    [seen x0 xs t]: the inputs up to the output number t, that of init included (Spec/CompositionSpec.v). *)
From Coq Require Import List Arith ZArith Lia Reals Lra Sorted.
From Verif Require Import Model.Unroll Model.Float Model.Ewm Model.FlaxModules Model.Compositions Spec.EwmSpec Spec.FlaxSpec
  Spec.MaskSpec Spec.CompositionSpec Proofs.FloatFacts Proofs.CompositionProofs Proofs.CompositionProofs2 Proofs.CompositionProofs3.
Import ListNotations.
Local Open Scope R_scope.

(** C104: the Bollinger bands. *)
Theorem C104_bands :
  forall fm w k o0 os t o,
  (2 <= w)%nat -> index_safe w (o0 :: os) -> nth_error os t = Some o ->
  exists b, nth_error (session (bollinger_bands fm w k) (of_option o0) (map of_option os)) t = Some b /\
            bands_at w k (seen o0 os t) o b.
Proof. exact @bollinger_ok. Qed.
Print Assumptions C104_bands.

(** C104: the center line is between the bands, in the middle. *)
Theorem C104_order :
  forall w k h o b c,
  bands_at w k h o b -> ema_of_period w h = Some c -> 0 <= k ->
  exists u l, b_upper b = Fin u /\ b_lower b = Fin l /\ b_center b = Fin c /\ l <= c <= u /\ c = (u + l) / 2.
Proof. exact @bands_order. Qed.
Print Assumptions C104_order.

(** C104: the band position is in [0, 1] exactly when the price is between the bands. *)
Theorem C104_position :
  forall w k h p b u l,
  bands_at w k h (Some p) b -> b_upper b = Fin u -> b_lower b = Fin l -> 1 / 10 ^ 8 < u - l ->
  exists q, b_position b = Fin q /\ (0 <= q <= 1 <-> l <= p <= u) /\ q = (p - l) / (u - l).
Proof. exact @bands_inside. Qed.
Print Assumptions C104_position.

(** C104 fails as "the position is in [0, 1]": with the default window and width, a jump after 19 equal prices. *)
Theorem C104_position_in_unit_interval_refuted :
  forall fm, exists b q,
  nth_error (session (bollinger_bands fm 20 2) (Fin 0) (map Fin (repeat 0 18 ++ [1]))) 18 = Some b /\
  b_position b = Fin q /\ 1 < q.
Proof. exact @bollinger_jump. Qed.
Print Assumptions C104_position_in_unit_interval_refuted.

Example C104_example :
  index_safe 20 (Some 1 :: [Some 3; None]) /\ seen (Some 1) [Some 3; None] 0 = [Some 1; Some 3] /\
  recent 2 [Some 1; Some 3; None; Some 5] = [5] /\ deviation [1; 3] = 1 /\
  ema_of_period 3 [Some 1; Some 4] = Some 3 /\ ema_of_period 3 [None] = None.
Proof.
  split; [left; cbn; lia|]. split; [reflexivity|]. split; [reflexivity|]. split; [|split; [|reflexivity]].
  - unfold deviation, var_of, mean_of. cbn.
    replace ((_ + (_ + 0)) / _) with (1 * 1) by lra. apply sqrt_square. lra.
  - unfold ema_of_period, ema, exp_average, exp_weighted_mean. cbn. f_equal. field.
Qed.

(** C105: the MACD indicator. *)
Theorem C105_macd :
  forall fm nf ns ng o0 os t o,
  (2 <= nf)%nat -> (2 <= ns)%nat -> (2 <= ng)%nat -> nth_error os t = Some o ->
  let h := seen o0 os t in
  let m := macd_line nf ns h in
  let g := ema_of_period ng (macd_lines nf ns h) in
  nth_error (session (macd_indicator fm nf ns ng) (of_option o0) (map of_option os)) t =
  Some (MacdOut (of_option o) (of_option m) (of_option g) (of_option (minus m g))
          (of_option (ema_of_period nf h)) (of_option (ema_of_period ns h))).
Proof. exact @macd_ok. Qed.
Print Assumptions C105_macd.

(** C105: constant prices (some may be missing). *)
Theorem C105_constant :
  forall fm nf ns ng o0 os t out p,
  (2 <= nf)%nat -> (2 <= ns)%nat -> (2 <= ng)%nat ->
  nth_error (session (macd_indicator fm nf ns ng) (of_option o0) (map of_option os)) t = Some out ->
  (t < length os)%nat ->
  (exists x, In x (valid_obs (seen o0 os t))) -> Forall (fun x => x = p) (valid_obs (seen o0 os t)) ->
  m_fast out = Fin p /\ m_slow out = Fin p /\ m_macd out = Fin 0 /\ m_signal out = Fin 0 /\ m_histogram out = Fin 0.
Proof. exact @macd_constant. Qed.
Print Assumptions C105_constant.

(** C105: prices in another unit, shifted: the lines are scaled. *)
Theorem C105_scaling :
  forall fm nf ns ng s b o0 os t out,
  (2 <= nf)%nat -> (2 <= ns)%nat -> (2 <= ng)%nat ->
  nth_error (session (macd_indicator fm nf ns ng) (of_option o0) (map of_option os)) t = Some out ->
  (t < length os)%nat ->
  let f := option_map (fun x => s * x + b) in
  exists out', nth_error (session (macd_indicator fm nf ns ng) (of_option (f o0)) (map of_option (map f os))) t = Some out' /\
    m_macd out' = fscale s (m_macd out) /\ m_signal out' = fscale s (m_signal out) /\
    m_histogram out' = fscale s (m_histogram out).
Proof. exact @macd_scaled. Qed.
Print Assumptions C105_scaling.

(** C105: the sign of the MACD line in a trend. *)
Theorem C105_trend :
  forall fm nf ns ng o0 os t out,
  (2 <= nf <= ns)%nat -> (2 <= ng)%nat ->
  nth_error (session (macd_indicator fm nf ns ng) (of_option o0) (map of_option os)) t = Some out ->
  (t < length os)%nat -> forall m, m_macd out = Fin m ->
  (StronglySorted Rle (valid_obs (seen o0 os t)) -> 0 <= m) /\
  (StronglySorted Rge (valid_obs (seen o0 os t)) -> m <= 0).
Proof. exact @macd_trend. Qed.
Print Assumptions C105_trend.

(** A rising series with a positive line. *)
Example C105_example :
  macd_line 3 7 [Some 1; None; Some 2] = Some (18 / 10 - (9 / 16 + 2) / (9 / 16 + 1)) /\
  0 < 18 / 10 - (9 / 16 + 2) / (9 / 16 + 1) /\
  StronglySorted Rle (valid_obs [Some 1; None; Some 2]) /\
  macd_lines 3 7 [None; Some 1] = [None; Some 0].
Proof.
  split; [|split; [lra|split]].
  - unfold macd_line, ema_of_period, ema, exp_average, exp_weighted_mean. cbn. f_equal. field.
  - cbn. constructor; [constructor; constructor|constructor; [lra|constructor]].
  - unfold macd_lines, prefixes, macd_line, ema_of_period, ema, exp_average, exp_weighted_mean. cbn. do 2 f_equal. f_equal. field.
Qed.

(** C106: the breakout detector holds the report of the last high-volume input ([held]), all prices being recorded. *)
Theorem C106_held_report :
  forall x0 xs t y,
  index_safe 20 (x0 :: xs) ->
  nth_error (session volume_breakout_detector (fpair x0) (map fpair xs)) t = Some y -> (t < length xs)%nat ->
  held (fst x0) (seen x0 xs t) y.
Proof. exact @breakout_ok. Qed.
Print Assumptions C106_held_report.

(** C106 fails as "no breakout before an event": is_breakout is the NaN of the initial cache, which is true. *)
Theorem C106_breakout_without_event_refuted :
  forall x0 xs t y,
  index_safe 20 (x0 :: xs) -> Forall (fun x => snd x <= 1000) (x0 :: xs) ->
  nth_error (session volume_breakout_detector (fpair x0) (map fpair xs)) t = Some y -> (t < length xs)%nat ->
  k_is_breakout y = true /\ k_strength y = NaN /\ k_price y = NaN /\ k_volume y = NaN.
Proof.
  intros x0 xs t y Hs Hf H Hlt. destruct (breakout_ok x0 xs t y Hs H Hlt) as [(h1 & p & v & h2 & E & Hv & _)|[_ ->]].
  - exfalso. assert (Hin : In (p, v) (x0 :: xs)).
    { assert (Hi : In (p, v) (seen x0 xs t)) by (rewrite E; apply in_or_app; right; left; reflexivity).
      destruct Hi as [Hi|Hi]; [left; exact Hi|right]. rewrite <- (firstn_skipn (t + 1) xs). apply in_or_app. left. exact Hi. }
    rewrite Forall_forall in Hf. specialize (Hf _ Hin). cbn in Hf. lra.
  - repeat split.
Qed.
Print Assumptions C106_breakout_without_event_refuted.

(** C106: flat prices are never a breakout once an event has occurred. *)
Theorem C106_flat :
  forall first h p v q,
  Forall (fun x => fst x = q) (h ++ [(p, v)]) -> first = q ->
  k_is_breakout (report first (h ++ [(p, v)]) p v) = false /\ k_strength (report first (h ++ [(p, v)]) p v) = Fin 0.
Proof.
  intros first h p v q Hf ->. unfold report. cbn [k_is_breakout k_strength].
  set (ps := map fst (h ++ [(p, v)])). assert (Hp : p = q).
  { apply Forall_app in Hf. destruct Hf as [_ A]. exact (Forall_inv A). }
  assert (Hw : Forall (fun x => x = q) (breakout_window q ps)).
  { unfold breakout_window, padded_window. apply Forall_app. split.
    - apply Forall_forall. intros x Hx. exact (repeat_spec _ _ _ Hx).
    - apply Forall_forall. intros x Hx. assert (Hi : In x ps).
      { rewrite <- (firstn_skipn (length ps - 20) ps). apply in_or_app. right. exact Hx. }
      unfold ps in Hi. apply in_map_iff in Hi. destruct Hi as (z & <- & Hz). rewrite Forall_forall in Hf. exact (Hf z Hz). }
  assert (E : strength q ps p = 0).
  { unfold strength, momentum. rewrite (mean_const _ q); [|intros E; apply (f_equal (@length _)) in E; unfold breakout_window in E; rewrite padded_length in E; discriminate|exact Hw].
    rewrite Hp, Rminus_diag_eq by reflexivity. rewrite Rabs_R0. unfold Rdiv. apply Rmult_0_l. }
  rewrite E. split; [apply Rlt_b_false; lra|reflexivity].
Qed.
Print Assumptions C106_flat.

(** A quiet input after an event: the report of the event is returned; the input price is in the next report. *)
Example C106_example :
  held 1 [(1, 500); (2, 2000); (3, 10)] (report 1 [(1, 500); (2, 2000)] 2 2000) /\
  map fst [(1, 500); (2, 2000); (3, 10); (4, 1001)] = [1; 2; 3; 4] /\
  breakout_window 1 [1; 2; 3; 4] = repeat 1 16 ++ [1; 2; 3; 4] /\ changes [1; 3; 2] = [1 - 1; 3 - 1; 2 - 3].
Proof.
  split; [|repeat split]. left. exists [(1, 500)], 2, 2000, [(3, 10)]. split; [reflexivity|]. split; [lra|].
  split; [constructor; [cbn; lra|constructor]|reflexivity].
Qed.

(** C107: the regime is the comparison of the volatility of the last 50 prices with the threshold, but the signal is
    the average of one alpha for the whole session, chosen at init. *)
Theorem C107_regime :
  forall fm thr o0 os t o,
  index_safe 50 (o0 :: os) -> nth_error os t = Some o ->
  let h := seen o0 os t in
  let v := volatility_of (padded_window 50 o0 h) in
  nth_error (session (regime_aware_processor fm thr) (of_option o0) (map of_option os)) t =
  Some (RegimeOut (of_option o) (of_option (ema (regime_alpha thr o0) h)) v (flt (Fin thr) v)).
Proof. exact @regime_ok. Qed.
Print Assumptions C107_regime.

(** C107 fails as "responsive signals in the high volatility regime": with a threshold which is not negative the signal
    has alpha = 0.05 in both regimes. *)
Theorem C107_signal_ignores_regime_refuted :
  forall fm thr o0 os t y,
  0 <= thr -> index_safe 50 (o0 :: os) -> (t < length os)%nat ->
  nth_error (session (regime_aware_processor fm thr) (of_option o0) (map of_option os)) t = Some y ->
  g_signal y = of_option (ema (5 / 100) (seen o0 os t)).
Proof.
  intros fm thr o0 os t y Ht Hs Hlt H. destruct (nth_error os t) as [o|] eqn:Ho; [|apply nth_error_None in Ho; lia].
  rewrite (regime_ok fm thr o0 os t o Hs Ho) in H. apply some_eq in H. subst y. cbn [g_signal].
  unfold regime_alpha. destruct o0; [|reflexivity]. rewrite Rlt_b_false by lra. reflexivity.
Qed.
Print Assumptions C107_signal_ignores_regime_refuted.

(** A session which is in the high volatility regime. *)
Example C107_example :
  forall fm, exists y, nth_error (session (regime_aware_processor fm 1) (Fin 0) (map Fin [50])) 0 = Some y /\ g_high y = true /\
  g_signal y = of_option (ema (5 / 100) [Some 0; Some 50]).
Proof.
  intros fm. pose proof (regime_ok fm 1 (Some 0) [Some 50] 0 (Some 50) ltac:(left; cbn; lia) eq_refl) as H. cbv zeta in H.
  change (map of_option [Some 50]) with (map Fin [50]) in H. cbn [of_option] in H. rewrite H.
  eexists. split; [reflexivity|]. cbn [g_high g_signal]. split.
  - change (padded_window 50 (Some 0) (seen (Some 0) [Some 50] 0)) with (map Some (repeat 0 49 ++ [50])).
    assert (K : forall l, all_known (map Some l) = Some l).
    { induction l as [|a l IH]; cbn; [reflexivity|rewrite IH; reflexivity]. }
    unfold volatility_of. rewrite K. cbn [flt]. apply Rlt_b_true.
    assert (E50 : INR 50 = 50) by (rewrite INR_IZR_INZ; reflexivity).
    unfold deviation. rewrite <- sqrt_1. apply sqrt_lt_1_alt. split; [lra|]. unfold var_of.
    assert (E : mean_of (repeat 0 49 ++ [50]) = 1).
    { unfold mean_of, MaskSpec.total. cbn [repeat app fold_right length]. rewrite E50. lra. }
    rewrite E. unfold mean_of, MaskSpec.total. rewrite map_length. cbn [repeat app map fold_right length]. rewrite E50. lra.
  - unfold regime_alpha. rewrite Rlt_b_false by lra. reflexivity.
Qed.

(** C108: whatever the inputs (NaN and infinities included), the position is in [-0.1, 0.1] and the signals in [-1, 1], or NaN. *)
Theorem C108_bounded :
  forall fm x0 xs t y,
  nth_error (session (complete_trading_system fm) x0 xs) t = Some y ->
  let bounded m v := v = NaN \/ exists r, v = Fin r /\ - m <= r <= m in
  bounded (1 / 10) (t_final y) /\ bounded 1 (t_raw y) /\
  bounded 1 (t_technical y) /\ bounded 1 (t_momentum y) /\ bounded 1 (t_macd_signal y).
Proof. exact @trading_always_bounded. Qed.
Print Assumptions C108_bounded.

(** C108: for positive prices, all the outputs; the volume only selects the average used for the momentum. *)
Theorem C108_formula :
  forall fm x0 xs t p v,
  index_safe 20 (x0 :: xs) -> nth_error xs t = Some (p, v) -> Forall (fun x => 0 < fst x) (x0 :: xs) ->
  let ps := map fst (seen x0 xs t) in
  let c := avg (2 / 21) ps in
  let sigma := deviation (last20 ps) in
  let macd := avg (2 / 13) ps - avg (2 / 27) ps in
  let mom := if Rlt_b 1200 v then avg (3 / 10) ps else avg (1 / 10) ps in
  let technical := tanh ((p - c) / (sigma + 1 / 10 ^ 8) - 1 / 2) in
  let raw := (technical + tanh (mom / p - 1) + tanh (macd * 10)) / 3 in
  nth_error (session (complete_trading_system fm) (fpair x0) (map fpair xs)) t =
  Some (Trading (Fin c) (Fin ((p - c) / (sigma + 1 / 10 ^ 8))) (Fin sigma) (Fin macd) (Fin technical)
     (Fin (tanh (mom / p - 1))) (Fin (tanh (macd * 10))) (Fin raw) (Fin (raw / (1 + sigma / c)))
     (Fin (raw / (1 + sigma / c) / 10)) (Fin (sigma / c)) (Rlt_b 1200 v)) /\ 0 < c.
Proof. exact @trading_ok. Qed.
Print Assumptions C108_formula.

(** C108 fails as "no position without a signal": in a flat market the system is short, as 1/2 is subtracted from a
    band position which is 0 (and not 1/2) at the center. *)
Theorem C108_flat_market_is_short_refuted :
  forall fm x0 xs t y q,
  index_safe 20 (x0 :: xs) -> (t < length xs)%nat -> 0 < q -> Forall (fun x => fst x = q) (x0 :: xs) ->
  nth_error (session (complete_trading_system fm) (fpair x0) (map fpair xs)) t = Some y ->
  t_band_position y = Fin 0 /\ t_macd y = Fin 0 /\
  t_final y = Fin (tanh (- (1 / 2)) / 30) /\ tanh (- (1 / 2)) / 30 < 0.
Proof. exact @trading_flat. Qed.
Print Assumptions C108_flat_market_is_short_refuted.

Example C108_example :
  index_safe 20 [(100, 1000); (101, 1300)] /\ Forall (fun x => 0 < fst x) [(100, 1000); (101, 1300)] /\
  avg (1 / 2) [1; 4] = 3 /\ last20 [1; 2] = [1; 2] /\ length (last20 (repeat 1 25)) = 20%nat.
Proof.
  split; [left; cbn; lia|]. split; [repeat constructor; cbn; lra|]. split; [|split; reflexivity].
  unfold avg, ema, exp_average, exp_weighted_mean. cbn. field.
Qed.

(** C109: the returns of cumulative_returns_with_reset: each output is the logarithm of its own price: nothing is
    accumulated and the reset has no effect ... *)
Theorem C109_not_cumulative_refuted :
  forall prices,
  prices <> [] ->
  cumulative_returns_with_reset (map Fin prices) =
  Some (map (fun p => if Rlt_b 0 (p + 1 / 10 ^ 8) then Fin (ln (p + 1 / 10 ^ 8))
                      else if Req_b (p + 1 / 10 ^ 8) 0 then NInf else NaN) prices, tt).
Proof.
  intros prices H. unfold cumulative_returns_with_reset. rewrite stateless_scan by (destruct prices; [congruence|discriminate]).
  rewrite map_map. f_equal.
Qed.
Print Assumptions C109_not_cumulative_refuted.

(** ... and the positions are 2% of the signal limited to [-1, 1] (an infinite signal counts as full size, an unknown
    one gives an unknown position); an empty sequence is refused. *)
Definition position_for (s : fl) : fl :=
  match s with
  | NaN => NaN
  | PInf => Fin (2 / 100)
  | NInf => Fin (- (2 / 100))
  | Fin s => Fin (Rmax (-1) (Rmin s 1) * (2 / 100))
  end.
Theorem C109_positions :
  forall signals,
  signals <> [] ->
  adaptive_position_sizing signals = Some (map (fun s => (s, position_for s)) signals, tt) /\
  adaptive_position_sizing [] = None /\ cumulative_returns_with_reset [] = None.
Proof.
  intros signals H. split; [|split; reflexivity]. unfold adaptive_position_sizing.
  rewrite stateless_scan by exact H. f_equal. f_equal.
  apply map_ext. intros s. f_equal. destruct s as [| | |s]; [reflexivity|..].
  - unfold position_of, position_for. cbn. f_equal. lra.
  - unfold position_of, position_for. cbn. f_equal. lra.
  - destruct (position_value (2 / 100) s) as (r & E & ->). rewrite E. reflexivity.
Qed.
Print Assumptions C109_positions.

Example C109_example :
  adaptive_position_sizing (map Fin [3; -1 / 2]) = Some ([(Fin 3, Fin (1 * (2 / 100))); (Fin (-1 / 2), Fin ((-1 / 2) * (2 / 100)))], tt).
Proof.
  destruct (C109_positions (map Fin [3; -1 / 2]) ltac:(discriminate)) as [E _]. rewrite E. cbn [map position_for].
  rewrite (Rmin_right 3 1), (Rmin_left (-1 / 2) 1), (Rmax_right (-1) 1), (Rmax_right (-1) (-1 / 2)) by lra. reflexivity.
Qed.
