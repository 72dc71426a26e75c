(** Vocabulary for the online predictors of the examples (C139, C140).  A missing number is None. *)
From Coq Require Import List Reals.
From Verif Require Import Model.Float Spec.EwmSpec Spec.CompositionSpec.
Import ListNotations.
Local Open Scope R_scope.

(** What adaptive_price_predictor predicts after the features [h]. *)
Definition adaptive_prediction (h : list (option R)) : option R := option_map (fun m => 11 / 10 * m) (ema (1 / 10) h).
(** What ensemble_predictor predicts after the prices and volumes [h]. *)
Definition ensemble_prediction (h : list (option R * option R)) : option R :=
  match ema (2 / 10) (map fst h), ema (15 / 100) (map snd h) with
  | Some p, Some v => Some ((105 / 100 * p + 1 / 1000 * v) / 2)
  | _, _ => None
  end.

(** The squared error of the prediction [p] times the scale [s], for what is compared with it, and its derivative in
    [s]; missing if one of the three is. *)
Definition with_all (f : R -> R -> R -> R) (p y s : option R) : option R :=
  match p, y, s with Some p, Some y, Some s => Some (f p y s) | _, _, _ => None end.
Definition squared_error (p y s : R) : R := (s * p - y) ^ 2.
Definition slope (p y s : R) : R := 2 * p * (s * p - y).

(** Gradient descent on the scale, from 1, over a list of (prediction, what it is compared with). *)
Definition descend (lr : R) (pys : list (option R * option R)) : option R :=
  fold_left (fun s py => with_all (fun p y s => s - lr * slope p y s) (fst py) (snd py) s) pys (Some 1).

(** Adam on the scale, from 1: each step moves it by lr times the exponential average of the slopes so far over the
    square root of the exponential average of their squares.  The accumulator is the scale and the slopes so far. *)
Definition known (l : list R) : list (option R) := map Some l.
Definition average (a : R) (l : list R) : R := match ema a (known l) with Some m => m | None => 0 end.
Definition adam_move (lr : R) (gs : list R) : R :=
  lr * (average (1 / 10) gs / (sqrt (average (1 / 1000) (map (fun g => g ^ 2) gs)) + 1 / 10 ^ 8)).
Definition adam_step (lr : R) (acc : R * list R) (py : R * R) : R * list R :=
  let gs := snd acc ++ [slope (fst py) (snd py) (fst acc)] in (fst acc - adam_move lr gs, gs).
Definition adam_scale (lr : R) (pys : list (R * R)) : R := fst (fold_left (adam_step lr) pys (1, [])).

(** The predictions along a history, each next to what it is compared with. *)
Definition compared {X Y Z : Type} (predict : list X -> Y) (target : X -> Z) (h : list X) : list (Y * Z) :=
  combine (map predict (prefixes h)) (map target h).

(** The arguments of a call as floats. *)
Definition call2 (x : option R * option R) : fl * fl := (of_option (fst x), of_option (snd x)).
Definition call3 (x : (option R * option R) * fl) : fl * fl * fl := (call2 (fst x), snd x).
Definition times (c : R) (o : option R) : option R := option_map (fun m => c * m) o.

(** The two limits of a sequence of reals. *)
Definition vanishes (u : nat -> R) : Prop := forall e, 0 < e -> exists n, forall m, (n <= m)%nat -> Rabs (u m) < e.
Definition explodes (u : nat -> R) : Prop := forall b, exists n, forall m, (n <= m)%nat -> b < u m.
(** adaptive_prediction when no feature is missing. *)
Definition adaptive_value (h : list (R * R)) : R := 11 / 10 * average (1 / 10) (map fst h).
Definition finite2 (x : R * R) : fl * fl := (Fin (fst x), Fin (snd x)).
