(** Models of the example compositions of /repo/src/wax/flax/examples/transform_compositions.py: each one is a
    function of its inputs which calls flax modules, turned into an init/apply pair by streaming_transform_with_state
    (/repo/src/wax/flax/core/streaming_transforms.py lines 342-466, i.e. flax_transform_with_state).
    Scalar inputs.  The functions which test traced values or filter by a boolean mask (bollinger_bands,
    regime_aware_processor) run outside jit only, which is what is modelled. *)
From Coq Require Import List ZArith Reals Bool.
From Verif Require Import Model.Unroll Model.Float Model.Modules Model.Ewm Model.FlaxModules Model.FlaxCore.
Import ListNotations.
Local Open Scope R_scope.

(** EWMA(alpha=...) with the defaults of /repo/src/wax/flax/modules/ewma.py lines 30-36 and the com its parameter
    logcom holds (lines 47-56, 74-79). *)
Definition ewma_with_com (c : R) : ewma_cfg := EwmaCfg c 0 AdjTrue false NaN.
Definition com_of_alpha (a : R) : R := 1 / a - 1.
Definition ema_call (fmax_ : R) (c : R) (st : ewma_state) (x : fl) : fl * ewma_state :=
  let '((y, _), s) := fewma_call fmax_ (ewma_with_com c) st x in (y, s).
Definition ema_vars : ewma_state := ewma_init (ewma_with_com 0).

(** jnp.mean, jnp.std (ddof=0), jnp.nanstd, jnp.tanh, jnp.abs, jnp.clip and jnp.diff(prepend=first). *)
Definition fmean (l : list fl) : fl := fdiv (fsum l) (Fin (INR (length l))).
Definition fstd (l : list fl) : fl :=
  let m := fmean l in fsqrt (fmean (map (fun v => let d := fsub v m in fmul d d) l)).
Definition fnanstd (l : list fl) : fl := fstd (filter (fun v => negb (isnan v)) l).
Definition ftanh (x : fl) : fl := match x with NaN => NaN | PInf => Fin 1 | NInf => Fin (- 1) | Fin r => Fin (tanh r) end.
Definition fabs (x : fl) : fl := match x with NaN => NaN | PInf | NInf => PInf | Fin r => Fin (Rabs r) end.
Definition fclip (x lo hi : fl) : fl := fmin (fmax x lo) hi.
Fixpoint fdiff_from (p : fl) (l : list fl) : list fl :=
  match l with [] => [] | x :: r => fsub x p :: fdiff_from x r end.
Definition fdiff_prepend (l : list fl) : list fl := fdiff_from (hd NaN l) l.

(** *** bollinger_bands: lines 39-78 *)
Record bands := Bands { b_price : fl; b_upper : fl; b_lower : fl; b_center : fl; b_position : fl; b_width : fl }.
Definition bollinger_call (fmax_ : R) (window : nat) (num_std : R) (st : ring_state fl * ewma_state) (price : fl)
  : bands * (ring_state fl * ewma_state) :=
  let '(buffered_prices, rs) := ring_call window (fst st) price in             (* 49-50 *)
  let '(center_line, es) :=                                                    (* 53 *)
    ema_call fmax_ (com_of_alpha (2 / (INR window + 1))) (snd st) price in
  let valid_prices := filter (fun v => negb (isnan v)) buffered_prices in      (* 56 *)
  let rolling_std := if Nat.ltb 1 (length valid_prices) then fstd valid_prices else Fin 0 in (* 57 *)
  let upper_band := fadd center_line (fmul (Fin num_std) rolling_std) in       (* 60 *)
  let lower_band := fsub center_line (fmul (Fin num_std) rolling_std) in       (* 61 *)
  let band_width := fsub upper_band lower_band in                              (* 64 *)
  let band_position :=                                                         (* 65-69 *)
    fwhere (flt (Fin (1 / 10 ^ 8)) band_width) (fdiv (fsub price lower_band) band_width) (Fin (1 / 2)) in
  (Bands price upper_band lower_band center_line band_position band_width, (rs, es)).
Definition bollinger_bands (fmax_ : R) (window : nat) (num_std : R) :=
  flax_tf (FlaxModule (fun _ => (ring_init window NaN, ema_vars)) (bollinger_call fmax_ window num_std)).

(** *** macd_indicator: lines 81-109 *)
Record macd_out := MacdOut { m_price : fl; m_macd : fl; m_signal : fl; m_histogram : fl; m_fast : fl; m_slow : fl }.
Definition period_com (period : nat) : R := com_of_alpha (2 / (INR period + 1)).
Definition macd_call (fmax_ : R) (fast_period slow_period signal_period : nat)
  (st : ewma_state * ewma_state * ewma_state) (price : fl) : macd_out * (ewma_state * ewma_state * ewma_state) :=
  let '(sf, ss, sg) := st in
  let '(fast_ema, sf) := ema_call fmax_ (period_com fast_period) sf price in   (* 90 *)
  let '(slow_ema, ss) := ema_call fmax_ (period_com slow_period) ss price in   (* 91 *)
  let macd_line := fsub fast_ema slow_ema in                                   (* 94 *)
  let '(signal_line, sg) := ema_call fmax_ (period_com signal_period) sg macd_line in (* 97 *)
  let histogram := fsub macd_line signal_line in                               (* 100 *)
  (MacdOut price macd_line signal_line histogram fast_ema slow_ema, (sf, ss, sg)).
Definition macd_indicator (fmax_ : R) (fast_period slow_period signal_period : nat) :=
  flax_tf (FlaxModule (fun _ => (ema_vars, ema_vars, ema_vars))
             (macd_call fmax_ fast_period slow_period signal_period)).

(** *** volume_breakout_detector: lines 117-148; the input is (price, volume). *)
Record breakout := Breakout { k_price : fl; k_volume : fl; k_momentum : fl; k_volatility : fl; k_strength : fl;
                              k_is_breakout : bool }.
Definition breakout_call (st : ring_state fl) (inp : fl * fl) : breakout * ring_state fl :=
  let '(price, volume) := inp in
  let '(price_history, rs) := ring_call 20 st price in                         (* 128-129 *)
  let price_returns := fdiff_prepend price_history in                          (* 132 *)
  let volatility := fstd price_returns in                                      (* 133 *)
  let momentum := fsub price (fmean price_history) in                          (* 136 *)
  let breakout_strength := fdiv (fabs momentum) (fadd volatility (Fin (1 / 10 ^ 8))) in (* 139 *)
  (Breakout price volume momentum volatility breakout_strength (flt (Fin 2) breakout_strength), rs).
(** jnp.full(x.shape, nan, dtype=x.dtype): NaN is true as a bool. *)
Definition nan_breakout (_ : breakout) : breakout := Breakout NaN NaN NaN NaN NaN true.
Definition volume_breakout_detector :=
  flax_tf (ConditionalComputation nan_breakout
             (FlaxModule (fun inp => ring_init 20 (fst inp)) breakout_call)    (* 128: fill_value=price *)
             (Some (fun inp => flt (Fin 1000) (snd inp)))).                    (* 118 *)

(** *** regime_aware_processor: lines 151-174.  flax names the EWMA of either branch EWMA_0, the only one created in
    the call.  self.param (flax/modules/ewma.py lines 74-78) returns the stored parameter if there is one: [stored] is
    None in init, where the value of the branch taken is stored, and Some in apply.  The state variables are shared
    in the same way. *)
Record regime_out := RegimeOut { g_price : fl; g_signal : fl; g_volatility : fl; g_high : bool }.
Definition flax_param {P : Type} (stored : option P) (initial : P) : P := match stored with Some p => p | None => initial end.
Definition regime_call (fmax_ volatility_threshold : R) (stored : option R) (st : ring_state fl * ewma_state) (price : fl)
  : regime_out * (R * (ring_state fl * ewma_state)) :=
  let '(recent_prices, rs) := ring_call 50 (fst st) price in                   (* 160-161 *)
  let current_volatility := fstd recent_prices in                              (* 162 *)
  if flt (Fin volatility_threshold) current_volatility then                    (* 165 *)
    let p := flax_param stored (com_of_alpha (3 / 10)) in
    let '(signal, es) := ema_call fmax_ p (snd st) price in                    (* 167 *)
    (RegimeOut price signal current_volatility true, (p, (rs, es)))
  else
    let p := flax_param stored (com_of_alpha (5 / 100)) in
    let '(signal, es) := ema_call fmax_ p (snd st) price in                    (* 171 *)
    (RegimeOut price signal current_volatility false, (p, (rs, es))).
Definition regime_aware_processor (fmax_ volatility_threshold : R)
  : transformed unit R (ring_state fl * ewma_state) fl regime_out :=
  Transformed
    (fun _ x => snd (regime_call fmax_ volatility_threshold None (ring_init 50 x, ema_vars) x))
    (fun p s _ x => let '(y, (_, s')) := regime_call fmax_ volatility_threshold (Some p) s x in (y, s')).

(** *** complete_trading_system: lines 275-353; the input is (price, volume). *)
Record trading := Trading {
  t_center : fl; t_band_position : fl; t_band_width : fl; t_macd : fl; t_technical : fl; t_momentum : fl;
  t_macd_signal : fl; t_raw : fl; t_risk_adjusted : fl; t_final : fl; t_volatility : fl; t_high_volume : bool }.
Record trading_state := TradingState {
  ts_buffer : ring_state fl; ts_center : ewma_state; ts_fast : ewma_state; ts_slow : ewma_state;
  ts_responsive : ewma_state; ts_smooth : ewma_state }.
Definition trading_call (fmax_ : R) (st : trading_state) (inp : fl * fl) : trading * trading_state :=
  let '(price, volume) := inp in
  let '(recent_prices, rs) := ring_call 20 (ts_buffer st) price in             (* 287-288 *)
  let '(center_line, e0) := ema_call fmax_ (com_of_alpha (2 / 21)) (ts_center st) price in (* 289 *)
  let volatility := fnanstd recent_prices in                                   (* 293 *)
  let volatility := fwhere (isnan volatility) (Fin (1 / 100)) volatility in    (* 294 *)
  let '(fast_ema, e1) := ema_call fmax_ (com_of_alpha (2 / 13)) (ts_fast st) price in (* 297 *)
  let '(slow_ema, e2) := ema_call fmax_ (com_of_alpha (2 / 27)) (ts_slow st) price in (* 298 *)
  let macd_line := fsub fast_ema slow_ema in                                   (* 299 *)
  let band_position := fdiv (fsub price center_line) (fadd volatility (Fin (1 / 10 ^ 8))) in (* 302-306 *)
  let is_high_volume := flt (Fin 1200) volume in                               (* 315-316 *)
  let '(responsive_signal, e3) := ema_call fmax_ (com_of_alpha (3 / 10)) (ts_responsive st) price in (* 319 *)
  let '(smooth_signal, e4) := ema_call fmax_ (com_of_alpha (1 / 10)) (ts_smooth st) price in (* 320 *)
  let momentum_signal := if is_high_volume then responsive_signal else smooth_signal in (* 321 *)
  let technical_signal := ftanh (fsub band_position (Fin (1 / 2))) in          (* 325 *)
  let momentum_component := ftanh (fsub (fdiv momentum_signal price) (Fin 1)) in (* 326 *)
  let macd_component := ftanh (fmul macd_line (Fin 10)) in                     (* 327 *)
  let raw_signal := fdiv (fadd (fadd technical_signal momentum_component) macd_component) (Fin 3) in (* 330 *)
  let volatility2 := fdiv volatility center_line in                            (* 333 *)
  let risk_adjusted_signal := fdiv raw_signal (fadd (Fin 1) volatility2) in    (* 334 *)
  let max_position := Fin (1 / 10) in                                          (* 337 *)
  let final_position :=                                                        (* 338 *)
    fclip (fmul risk_adjusted_signal max_position) (fneg max_position) max_position in
  (Trading center_line band_position volatility macd_line technical_signal momentum_component macd_component
     raw_signal risk_adjusted_signal final_position volatility2 is_high_volume,
   TradingState rs e0 e1 e2 e3 e4).
Definition complete_trading_system (fmax_ : R) :=
  flax_tf (FlaxModule (fun _ => TradingState (ring_init 20 NaN) ema_vars ema_vars ema_vars ema_vars ema_vars)
             (trading_call fmax_)).

(** *** cumulative_returns_with_reset: lines 182-192, and adaptive_position_sizing: lines 195-210: functions without
    flax modules, hence without state, under streaming_scan (core/streaming_transforms.py lines 631-712).  jnp.log of a
    negative number is NaN, of zero -inf. *)
Definition flog (x : fl) : fl :=
  match x with
  | NaN | NInf => NaN
  | PInf => PInf
  | Fin r => if Rlt_b 0 r then Fin (ln r) else if Req_b r 0 then NInf else NaN
  end.
Definition stateless {X Y : Type} (f : X -> Y) : transformed unit unit unit X Y :=
  flax_tf (FlaxModule (fun _ => tt) (fun s x => (f x, s))).
Definition return_rate (price : fl) : fl := flog (fadd price (Fin (1 / 10 ^ 8))).       (* 191 *)
Definition cumulative_returns_with_reset (inputs : list fl) : option (list fl * unit) :=
  streaming_scan tt (stateless return_rate) (Some (fun price => flt price (Fin 0))) true inputs None None None.
(** jnp.sign *)
Definition fsign (x : fl) : fl :=
  match x with
  | NaN => NaN | PInf => Fin 1 | NInf => Fin (- 1)
  | Fin r => if Rlt_b 0 r then Fin 1 else if Rlt_b r 0 then Fin (- 1) else Fin 0
  end.
Definition position_of (risk_per_trade : R) (signal : fl) : fl :=
  let signal_strength := fabs signal in                                                 (* 204 *)
  let base_position := fmul (fsign signal) (fmin signal_strength (Fin 1)) in            (* 205 *)
  fmul base_position (Fin risk_per_trade).                                              (* 208 *)
(** the defaults of keyword arguments cannot be changed through scan_apply *)
Definition adaptive_position_sizing (inputs : list fl) : option (list (fl * fl) * unit) :=
  streaming_scan tt (stateless (fun s => (s, position_of (2 / 100) s))) None true inputs None None None.
