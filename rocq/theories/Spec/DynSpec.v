(** Specification vocabulary for event-driven modules and linear filters. *)
From Coq Require Import List Reals.
From Verif Require Import Model.Unroll Model.Float Model.Tree Model.Ewm Model.Dynamics Spec.SeriesSpec Spec.EwmSpec.
Import ListNotations.

(** [bin] are the values since the last reset, the one of the reset included. *)
Definition is_bin (pre : list (fl * bool)) (bin : list fl) : Prop :=
  (exists before v after, pre = before ++ (v, true) :: after /\
     Forall (fun p => snd p = false) after /\ bin = v :: map fst after) \/
  (Forall (fun p => snd p = false) pre /\ bin = map fst pre).

(** [m] is the greatest / least element of [vs]. *)
Definition greatest (m : fl) (vs : list fl) : Prop := In m vs /\ forall v, In v vs -> fle v m = true.
Definition least (m : fl) (vs : list fl) : Prop := In m vs /\ forall v, In v vs -> fle m v = true.

(** Bar of the valid values of a bin: first, greatest, least and last; NaN for an empty one. *)
Definition bar (vs : list fl) (o : ohlc) : Prop :=
  match vs with
  | [] => o = ohlc_nan
  | _ => hd_error vs = Some (o_open o) /\ last vs NaN = o_close o /\
         greatest (o_high o) vs /\ least (o_low o) vs
  end.

(** Keys received by the successive calls of an unroll with key [rng]. *)
Fixpoint step_keys {K : Type} (split : K -> K * K) (rng : option K) (n : nat) : list (option K) :=
  match n with
  | O => []
  | S n' => option_map (fun k => snd (split k)) rng ::
            step_keys split (option_map (fun k => fst (split k)) rng) n'
  end.

(** Successive calls of a transformed function with given keys. *)
Fixpoint drive {K P S X Y : Type} (tf : transformed K P S X Y) (p : P) (s : S)
  (kxs : list (option K * X)) : list Y * S :=
  match kxs with
  | [] => ([], s)
  | (k, x) :: r => let '(y, s') := t_apply tf p s k x in
                   let '(ys, sF) := drive tf p s' r in (y :: ys, sF)
  end.

(** The keys and inputs of the steps with an event. *)
Fixpoint event_calls {K X : Type} (keys : list (option K)) (exs : list (bool * X))
  : list (option K * X) :=
  match keys, exs with
  | k :: ks, (e, x) :: r => if e then (k, x) :: event_calls ks r else event_calls ks r
  | _, _ => []
  end.

(** The value of the series [l] [k] steps before [t], [d] before the beginning. *)
Definition lagged {A : Type} (d : A) (l : list A) (t k : nat) : A :=
  if Nat.leb k t then nth (t - k) l d else d.

(** Missing and infinite values replaced by 0. *)
Definition zero_filled (x : fl) : fl := match x with Fin r => Fin r | _ => Fin 0%R end.

Local Open Scope R_scope.

(** The ARMA recursion: coefficients oldest first, values before the beginning counted as 0. *)
Definition arma_value (alpha beta ys eps : list R) (t : nat) : R :=
  sum_n (length alpha) (fun i => nth i alpha 0 * lagged 0 ys t (length alpha - i)) +
  sum_n (length beta) (fun j => nth j beta 0 * lagged 0 eps t (length beta - j)) + nth t eps 0.

Definition arma_rec (alpha beta : list R) (eps ys : list R) :=
  length ys = length eps /\
  forall t, (t < length eps)%nat -> nth t ys 0 =  arma_value alpha beta ys eps t.

(** Pointwise linear combination of two series. *)
Definition lin (a b : R) (x y : list R) : list R := map2 (fun u v => a * u + b * v) x y.

(** Features of SNARIMAX at step t: exogenous values, the errors of the [q] previous steps, and the
    targets of the steps t-p+1, ..., t; undefined ones replaced by 0. *)
Definition sn_features (p q : nat) (X : list fl) (errs ys : list fl) (t : nat) : list fl :=
  map zero_filled X ++
  map (fun i => zero_filled (lagged NaN errs t (q - i))) (seq 0 q) ++
  map (fun i => zero_filled (lagged NaN ys t (p - 1 - i))) (seq 0 p).

(** The predictions and errors of a one-step regression on these features. *)
Definition sn_rec (p q : nat) (reg : list fl -> fl) (yX : list (fl * list fl)) (preds errs : list fl) : Prop :=
  length preds = length yX /\ length errs = length yX /\
  forall t y X, nth_error yX t = Some (y, X) ->
    nth t preds NaN = reg (sn_features p q X errs (map fst yX) t) /\
    nth t errs NaN = fsub y (nth t preds NaN).
