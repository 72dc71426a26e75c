(** Models of the pipelines of the demonstration scripts of /repo/src/wax/flax/examples: streaming_demo.py,
    jax_scan_compatibility.py, scan_validation.py and conditional_computation_demo.py.  As in Model/Compositions.v each
    one is a function calling flax modules, turned into init/apply by streaming_transform_with_state; scalar prices.
    The printing functions (demo_..., main) are not modelled. *)
From Coq Require Import String List ZArith Reals Bool.
From Verif Require Import Model.Unroll Model.Float Model.Modules Model.Ewm Model.FlaxModules Model.FlaxCore
  Model.Compositions.
Import ListNotations.
Local Open Scope R_scope.

(** *** streaming_signal_processor: streaming_demo.py lines 27-64 *)
Record signal_out := SignalOut { s_price : fl; s_recent : list fl; s_fast : fl; s_slow : fl; s_volatility : fl;
                                 s_signal : fl; s_momentum : fl }.
Definition signal_state : Type := ring_state fl * ewma_state * ewma_state * ewma_state.
Definition signal_call (fmax_ : R) (st : signal_state) (price : fl) : signal_out * signal_state :=
  let '(rs, sf, ss, sv) := st in
  let '(recent_prices, rs) := ring_call 10 rs price in                                    (* 35, 41 *)
  let '(fast_signal, sf) := ema_call fmax_ (com_of_alpha (3 / 10)) sf price in            (* 36, 44 *)
  let '(slow_signal, ss) := ema_call fmax_ (com_of_alpha (1 / 10)) ss price in            (* 37, 45 *)
  let deviation := fabs (fsub price slow_signal) in                                       (* 48 *)
  let '(vol, sv) := ema_call fmax_ (com_of_alpha (2 / 10)) sv deviation in                (* 38, 49 *)
  let momentum := fsub fast_signal slow_signal in                                         (* 52 *)
  let normalized_momentum := fdiv momentum (fadd vol (Fin (1 / 10 ^ 6))) in               (* 53 *)
  let signal := ftanh normalized_momentum in                                              (* 54 *)
  (SignalOut price recent_prices fast_signal slow_signal vol signal momentum, (rs, sf, ss, sv)).
Definition signal_vars : signal_state := (ring_init 10 (Fin 0), ema_vars, ema_vars, ema_vars).
Definition signal_module (fmax_ : R) : flax_module signal_state fl signal_out :=
  FlaxModule (fun _ => signal_vars) (signal_call fmax_).
Definition streaming_signal_processor (fmax_ : R) := flax_tf (signal_module fmax_).

(** *** portfolio_manager: streaming_demo.py lines 67-80.  The prices are a dict, in the order of prices.items().
    signal_proc.fn(price) creates its modules in the scope of the portfolio: flax names them by the order of their
    creation (Buffer_0, EWMA_0, EWMA_1, EWMA_2, Buffer_1, EWMA_3, ...), so that the variables used for the i-th item of
    the dict are the i-th ones [sts].  In init the missing variables are created; in apply a parameter which does not
    exist raises (None); the variables which are not used stay. *)
Fixpoint portfolio_init (fmax_ : R) (prices : list (string * fl)) : list signal_state :=
  match prices with
  | [] => []
  | (_, price) :: r => snd (signal_call fmax_ signal_vars price) :: portfolio_init fmax_ r
  end.
Fixpoint portfolio_apply (fmax_ : R) (sts : list signal_state) (prices : list (string * fl)) {struct prices}
  : option (list (string * signal_out) * list signal_state) :=
  match prices, sts with
  | [], _ => Some ([], sts)
  | _ :: _, [] => None
  | (asset_name, price) :: r, st :: sts' =>
      let '(signals, st1) := signal_call fmax_ st price in
      match portfolio_apply fmax_ sts' r with
      | None => None
      | Some (asset_signals, sts1) => Some ((asset_name, signals) :: asset_signals, st1 :: sts1)
      end
  end.
(** for prices in dicts: output, state = portfolio_manager.apply(params, state, None, prices) *)
Fixpoint portfolio_applies (fmax_ : R) (sts : list signal_state) (ds : list (list (string * fl)))
  : option (list (list (string * signal_out))) :=
  match ds with
  | [] => Some []
  | d :: r =>
      match portfolio_apply fmax_ sts d with
      | None => None
      | Some (o, sts1) => match portfolio_applies fmax_ sts1 r with None => None | Some os => Some (o :: os) end
      end
  end.
Definition portfolio_session (fmax_ : R) (d0 : list (string * fl)) (ds : list (list (string * fl))) :=
  portfolio_applies fmax_ (portfolio_init fmax_ d0) ds.

(** *** streaming_processor: jax_scan_compatibility.py lines 27-41 *)
Record processor_out := ProcessorOut { q_price : fl; q_smoothed : fl; q_mean : fl; q_std : fl }.
Definition processor_state : Type := ring_state fl * ewma_state.
Definition processor_call (fmax_ : R) (st : processor_state) (price : fl) : processor_out * processor_state :=
  let '(buffered, rs) := ring_call 5 (fst st) price in                                    (* 30, 33 *)
  let '(smoothed, es) := ema_call fmax_ (com_of_alpha (2 / 10)) (snd st) price in         (* 31, 34 *)
  (ProcessorOut price smoothed (fmean buffered) (fstd buffered), (rs, es)).
Definition streaming_processor (fmax_ : R) :=
  flax_tf (FlaxModule (fun _ => (ring_init 5 (Fin 0), ema_vars)) (processor_call fmax_)).

(** process_with_for_loop: lines 44-53 *)
Fixpoint process_with_for_loop {K P S X Y : Type} (tf : transformed K P S X Y) (prices : list X) (params : P)
  (state : S) : list Y * S :=
  match prices with
  | [] => ([], state)
  | price :: r =>
      let '(output, state1) := t_apply tf params state None price in
      let '(results, final) := process_with_for_loop tf r params state1 in
      (output :: results, final)
  end.
(** process_with_jax_scan: lines 56-77.  The scan stacks the outputs, one array by key; the results are read back
    row by row. *)
Record stacked_out := StackedOut { st_price : list fl; st_smoothed : list fl; st_mean : list fl; st_std : list fl }.
Definition stack_outputs (l : list processor_out) : stacked_out :=
  StackedOut (map q_price l) (map q_smoothed l) (map q_mean l) (map q_std l).
Definition row_of (o : stacked_out) (i : nat) : option processor_out :=
  match nth_error (st_price o) i, nth_error (st_smoothed o) i, nth_error (st_mean o) i, nth_error (st_std o) i with
  | Some a, Some b, Some c, Some d => Some (ProcessorOut a b c d)
  | _, _, _, _ => None
  end.
Fixpoint collect {A : Type} (l : list (option A)) : option (list A) :=
  match l with
  | [] => Some []
  | Some a :: r => match collect r with Some q => Some (a :: q) | None => None end
  | None :: _ => None
  end.
Definition process_with_jax_scan (fmax_ : R) (prices : list fl) (params : unit) (initial_state : processor_state)
  : option (list processor_out * processor_state) :=
  let '(final_state, outputs) :=
    lax_scan (fun carry price => let '(output, new) := t_apply (streaming_processor fmax_) params carry None price
                                 in (new, output)) initial_state prices in
  match collect (map (row_of (stack_outputs outputs)) (seq 0 (length prices))) with
  | Some results => Some (results, final_state)
  | None => None
  end.

(** *** always_updating_baseline: conditional_computation_demo.py lines 89-108.  A leaf of an output is an array or a
    Python object such as True. *)
Inductive leaf := Arr (x : fl) | BoolArr (b : bool) | PyBool (b : bool).
Definition outputs := list (string * leaf).
Definition price_state : Type := ring_state fl * ewma_state.
(** lines 92-108, and 36-54 up to the name of the flag *)
Definition price_signal (flag : string) (fmax_ : R) (st : price_state) (price : fl) : outputs * price_state :=
  let '(smoothed, es) := ema_call fmax_ (com_of_alpha (2 / 10)) (snd st) price in         (* 92, 95 *)
  let '(recent, rs) := ring_call 5 (fst st) price in                                      (* 93, 96 *)
  let volatility := fstd recent in                                                        (* 97 *)
  let signal_strength := fdiv (fsub price smoothed) (fadd volatility (Fin (1 / 10 ^ 6))) in (* 99 *)
  let signal := ftanh signal_strength in                                                  (* 100 *)
  ([("price"%string, Arr price); ("smoothed"%string, Arr smoothed); ("signal"%string, Arr signal);
    ("volatility"%string, Arr volatility); (flag, PyBool true)], (rs, es)).
Definition price_vars : price_state := (ring_init 5 (Fin 100), ema_vars).
Definition always_updating_baseline (fmax_ : R) :=
  flax_tf (FlaxModule (fun _ => price_vars) (price_signal "always_updated" fmax_)).

(** *** ConditionalComputation of streaming_transforms.py lines 468-528 again, with leaves which may be Python objects:
    jnp.full(x.shape, ...) (lines 506-509) raises AttributeError (None) on those; jnp.where makes an array of one.
    NaN is true as a bool. *)
Definition full_leaf (l : leaf) : option leaf :=
  match l with Arr _ => Some (Arr NaN) | BoolArr _ => Some (BoolArr true) | PyBool _ => None end.
Fixpoint full_outputs (o : outputs) : option outputs :=
  match o with
  | [] => Some []
  | (k, l) :: r =>
      match full_leaf l, full_outputs r with Some l', Some r' => Some ((k, l') :: r') | _, _ => None end
  end.
Definition as_array (l : leaf) : leaf := match l with PyBool b => BoolArr b | _ => l end.
Definition where_leaf (c : bool) (new cached : leaf) : leaf := as_array (if c then new else cached).
Definition where_outputs (c : bool) (new cached : outputs) : outputs :=
  map (fun nc => (fst (fst nc), where_leaf c (snd (fst nc)) (snd (snd nc)))) (combine new cached).
Definition conditional_outputs {S X : Type} (call : S -> X -> outputs * S) (event_fn : X -> bool)
  (st : S * option outputs) (x : X) : option (outputs * (S * option outputs)) :=
  let '(new_output, s') := call (fst st) x in                                             (* 499 *)
  match (match snd st with Some c => Some c | None => full_outputs new_output end) with   (* 503-510 *)
  | None => None
  | Some cached =>
      let selected := where_outputs (event_fn x) new_output cached in                     (* 517-524 *)
      Some (selected, (s', Some selected))
  end.
(** init (there is no cache yet), then the applies; None if one raises. *)
Definition conditional_init {S X : Type} (vars : S) (call : S -> X -> outputs * S) (event_fn : X -> bool) (x : X)
  : option (S * option outputs) :=
  match conditional_outputs call event_fn (vars, None) x with Some (_, st) => Some st | None => None end.
Fixpoint conditional_applies {S X : Type} (call : S -> X -> outputs * S) (event_fn : X -> bool)
  (st : S * option outputs) (xs : list X) : option (list outputs) :=
  match xs with
  | [] => Some []
  | x :: r =>
      match conditional_outputs call event_fn st x with
      | None => None
      | Some (o, st1) => match conditional_applies call event_fn st1 r with Some os => Some (o :: os) | None => None end
      end
  end.
(** *** high_price_signal: conditional_computation_demo.py lines 27-54 *)
Definition high_price_event (price : fl) : bool := flt (Fin 100) price.                    (* 28 *)
Definition high_price_init (fmax_ : R) (price : fl) :=
  conditional_init price_vars (price_signal "updated" fmax_) high_price_event price.
(** *** volume_based_signal: conditional_computation_demo.py lines 57-86; the input is (price, volume). *)
Definition log1p (x : fl) : fl :=
  match x with
  | NaN | NInf => NaN
  | PInf => PInf
  | Fin r => if Rlt_b (-1) r then Fin (ln (1 + r)) else if Rlt_b r (-1) then NaN else NInf
  end.
Definition volume_signal (fmax_ : R) (st : ewma_state * ewma_state) (data : fl * fl)
  : outputs * (ewma_state * ewma_state) :=
  let '(price, volume) := data in
  let '(smoothed_price, sp) := ema_call fmax_ (com_of_alpha (1 / 10)) (fst st) price in    (* 68, 71 *)
  let '(smoothed_volume, sv) := ema_call fmax_ (com_of_alpha (3 / 10)) (snd st) volume in  (* 69, 72 *)
  let volume_ratio := fdiv volume (fadd smoothed_volume (Fin 1)) in                        (* 75 *)
  let price_momentum := fdiv (fsub price smoothed_price) (fadd smoothed_price (Fin (1 / 10 ^ 6))) in (* 76 *)
  let signal := fmul price_momentum (log1p volume_ratio) in                                (* 78 *)
  ([("price"%string, Arr price); ("volume"%string, Arr volume); ("signal"%string, Arr signal);
    ("volume_ratio"%string, Arr volume_ratio); ("high_volume_event"%string, PyBool true)], (sp, sv)).
Definition volume_event (data : fl * fl) : bool := flt (Fin 1000) (snd data).              (* 58 *)
Definition volume_init (fmax_ : R) (data : fl * fl) :=
  conditional_init (ema_vars, ema_vars) (volume_signal fmax_) volume_event data.

(** *** simple_processor: scan_validation.py lines 23-32 *)
Record simple_out := SimpleOut { z_input : fl; z_smoothed : fl; z_mean : fl }.
Definition simple_call (fmax_ : R) (st : ring_state fl * ewma_state) (x : fl) : simple_out * (ring_state fl * ewma_state) :=
  let '(buffered, rs) := ring_call 3 (fst st) x in                                        (* 26, 29 *)
  let '(smoothed, es) := ema_call fmax_ (com_of_alpha (1 / 2)) (snd st) x in              (* 27, 30 *)
  (SimpleOut x smoothed (fmean buffered), (rs, es)).
Definition simple_processor (fmax_ : R) :=
  flax_tf (FlaxModule (fun _ => (ring_init 3 (Fin 0), ema_vars)) (simple_call fmax_)).
