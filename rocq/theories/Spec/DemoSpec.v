(** Vocabulary for the demonstration pipelines (C122-C125).  A price is an [option R], None for a NaN. *)
From Coq Require Import String List ZArith Reals.
From Verif Require Import Model.Unroll Model.Float Model.Demos Spec.EwmSpec Spec.FlaxSpec Spec.MaskSpec Spec.CompositionSpec.
Import ListNotations.
Local Open Scope R_scope.

(** The distance of the last price of [h] to the slow average (alpha 0.1) of [h]; at each price of [h]. *)
Definition distance_to_slow (h : list (option R)) : option R :=
  option_map Rabs (minus (last h None) (ema (1 / 10) h)).
Definition distances (h : list (option R)) : list (option R) := map distance_to_slow (prefixes h).
(** their average (alpha 0.2), and the difference of the fast (alpha 0.3) and slow averages *)
Definition average_distance (h : list (option R)) : option R := ema (2 / 10) (distances h).
Definition fast_minus_slow (h : list (option R)) : option R := minus (ema (3 / 10) h) (ema (1 / 10) h).
Definition trading_signal (h : list (option R)) : option R :=
  match fast_minus_slow h, average_distance h with
  | Some m, Some v => Some (tanh (m / (v + 1 / 10 ^ 6)))
  | _, _ => None
  end.
(** What the signal processor shows after the prices [h], the last one being [o]. *)
Definition processor_view (h : list (option R)) (o : option R) : signal_out :=
  SignalOut (of_option o) (padded_window 10 (Fin 0) (map of_option h)) (of_option (ema (3 / 10) h)) (of_option (ema (1 / 10) h))
    (of_option (average_distance h)) (of_option (trading_signal h)) (of_option (fast_minus_slow h)).

(** The values of the key [k] in a list of dicts having the same keys in the same order. *)
Definition keys {A : Type} (d : list (string * A)) : list string := map fst d.
Fixpoint value_of {A : Type} (k : string) (d : list (string * A)) : option A :=
  match d with [] => None | (k', v) :: r => if String.eqb k k' then Some v else value_of k r end.

(** The mean and deviation of a window with missing prices: NaN. *)
Definition mean_or_nan (l : list (option R)) : fl := match all_known l with Some r => Fin (mean_of r) | None => NaN end.

(** What the baseline shows after the prices [h], the last one being [o]: the window is padded by 100. *)
Definition price_window (h : list (option R)) : list (option R) := padded_window 5 (Some 100) h.
Definition baseline_signal (h : list (option R)) (o : option R) : option R :=
  match minus o (ema (2 / 10) h), all_known (price_window h) with
  | Some m, Some w => Some (tanh (m / (deviation w + 1 / 10 ^ 6)))
  | _, _ => None
  end.
Definition baseline_view (h : list (option R)) (o : option R) : list (string * leaf) :=
  [("price"%string, Arr (of_option o)); ("smoothed"%string, Arr (of_option (ema (2 / 10) h)));
   ("signal"%string, Arr (of_option (baseline_signal h o))); ("volatility"%string, Arr (volatility_of (price_window h)));
   ("always_updated"%string, PyBool true)].

(** The values at position [i] of the dicts which have one. *)
Definition at_position {A : Type} (i : nat) (ds : list (list (string * A))) : list A :=
  flat_map (fun d => match nth_error d i with Some (_, x) => [x] | None => [] end) ds.

(** Whether an output contains a Python object; the output filled with NaN (true for a bool). *)
Definition has_python_leaf (o : list (string * leaf)) : Prop := exists k b, In (k, PyBool b) o.
Definition nan_outputs (o : list (string * leaf)) : list (string * leaf) :=
  map (fun kl => (fst kl, match snd kl with Arr _ => Arr NaN | _ => BoolArr true end)) o.
(** What an update function [outs] gave at the last event: [outs] pairs the outputs with the events, oldest first. *)
Fixpoint last_event (outs : list (bool * list (string * leaf))) (held : list (string * leaf)) : list (string * leaf) :=
  match outs with [] => held | (e, o) :: r => last_event r (if e then o else held) end.
