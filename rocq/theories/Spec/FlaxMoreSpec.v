(** Vocabulary for the flax OHLC, ARMA, SNARIMAX and mask modules. *)
From Coq Require Import List Bool Arith ZArith Reals.
From Verif Require Import Model.Float Model.Masks Model.Dynamics Spec.DynSpec Spec.EwmSpec Spec.MaskSpec Spec.FlaxSpec.
Import ListNotations.

(** The values from the first valid one on. *)
Fixpoint from_first_valid (l : list fl) : list fl :=
  match l with [] => [] | v :: r => if isnan v then from_first_valid r else l end.

(** The bar of the flax OHLC for the values [bin] since the last reset: the close is the latest value even if missing; the open is
    the first valid value; high and low are those of all values since, and NaN if one of these is missing. *)
Definition flax_bar (bin : list fl) (o : ohlc) : Prop :=
  o_close o = last bin NaN /\
  match from_first_valid bin with
  | [] => o_open o = NaN /\ o_high o = NaN /\ o_low o = NaN
  | v :: r =>
      o_open o = v /\
      (In NaN (v :: r) -> o_high o = NaN /\ o_low o = NaN) /\
      (~ In NaN (v :: r) -> greatest (o_high o) (v :: r) /\ least (o_low o) (v :: r))
  end.

Local Open Scope R_scope.

(** What the flax ARMA computes.  Coefficients oldest first; [ys] are its own outputs. *)
Definition flax_arma_value (alpha beta ys eps : list R) (t : nat) : R :=
  nth t eps 0 +
  sum_n (length alpha) (fun i => if Nat.even (length alpha - i)
                                 then nth i alpha 0 * lagged 0 ys t (Nat.div2 (length alpha - i)) else 0) +
  sum_n (length beta) (fun j => nth j beta 0 * lagged 0 eps t (length beta - 1 - j)).
Definition flax_arma_rec (alpha beta eps ys : list R) : Prop :=
  length ys = length eps /\
  forall t, (t < length eps)%nat -> nth t ys 0 = flax_arma_value alpha beta ys eps t.

(** The targets given so far, minus the input at the same time. *)
Definition given_errors (xys : list (fl * option fl)) : list fl :=
  flat_map (fun p => match snd p with Some y => [fsub y (fst p)] | None => [] end) xys.
(** Features of the flax SNARIMAX at step t: the last inputs, the last errors (the current target included) if a target is
    given, and the input again. *)
Definition flax_sn_features (lags_x lags_y : nat) (xys : list (fl * option fl)) (t : nat) : list fl :=
  let past := firstn (t + 1) xys in
  padded_window lags_x (Fin 0) (map fst past) ++
  (match nth_error xys t with
   | Some (_, Some _) => padded_window lags_y (Fin 0) (given_errors past)
   | _ => []
   end) ++
  match nth_error xys t with Some (x, _) => [x] | None => [] end.

(** Standard deviation of a selection in the flax MaskStd. *)
Definition flax_centered_std (fm eps : R) (l : list fl) : fl :=
  match l with
  | [] => NaN
  | _ => let v := second_moment (map (contribution fm) l) in if Rlt_b 0 v then Fin (sqrt (eps + v)) else Fin 0
  end.
Definition flax_std (fm eps : R) (l : list fl) : fl :=
  match l with
  | [] => NaN
  | _ => if existsb isnan l then Fin 0
         else if forallb isfinite l then
           let v := var_of (map (contribution fm) l) in if Rlt_b 0 v then Fin (sqrt (eps + v)) else Fin 0
         else PInf
  end.
Definition flax_std_of (fm eps : R) (centered : bool) (l : list fl) : fl :=
  if centered then flax_centered_std fm eps l else flax_std fm eps l.
