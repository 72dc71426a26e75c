(** Specification vocabulary for exponentially weighted statistics. *)
From Coq Require Import List ZArith Reals.
From Verif Require Import Model.Float Model.Ewm.
Import ListNotations.
Local Open Scope R_scope.

(** A float seen as an observation: NaN is a missing one, an infinite one is read as the largest
    finite float [fm] with its sign (numpy's nan_to_num). *)
Definition observation (fm : R) (x : fl) : option R :=
  match x with NaN => None | PInf => Some fm | NInf => Some (- fm) | Fin r => Some r end.

(** Number of observations that are not missing. *)
Fixpoint count_obs (os : list (option R)) : nat :=
  match os with [] => 0 | Some _ :: r => S (count_obs r) | None :: r => count_obs r end.

Fixpoint valid_obs (os : list (option R)) : list R :=
  match os with [] => [] | Some x :: r => x :: valid_obs r | None :: r => valid_obs r end.

(** Every valid observation with its age at the end of the series: the number of later steps, or
    (relative positions, ignore_na) the number of later valid observations. *)
Fixpoint aged (ignore : bool) (os : list (option R)) : list (nat * R) :=
  match os with
  | [] => []
  | None :: r => aged ignore r
  | Some x :: r => ((if ignore then count_obs r else length r), x) :: aged ignore r
  end.

Definition sum_over {A : Type} (f : A -> R) (l : list A) : R := fold_right (fun x s => f x + s) 0 l.

(** Weighted average with the weight (1-a)^age. *)
Definition exp_weighted_mean (a : R) (l : list (nat * R)) : R :=
  sum_over (fun p => (1 - a) ^ fst p * snd p) l / sum_over (fun p => (1 - a) ^ fst p) l.

(** Nothing is missing after the first observation. *)
Fixpoint complete_from_first (os : list (option R)) : Prop :=
  match os with
  | [] => True
  | None :: r => complete_from_first r
  | Some _ :: r => Forall (fun o => o <> None) r
  end.

(** Exponentially weighted average of a series with missing values, [None] if all are missing. *)
Definition exp_average (ignore : bool) (a : R) (os : list (option R)) : option R :=
  match aged ignore os with [] => None | l => Some (exp_weighted_mean a l) end.

(** The unadjusted recursion: value so far and number of missing steps since the last observation.
    The old value weighs (1-a) to the number of steps since it was updated, the new one a. *)
Definition exp_recursion_step (ignore : bool) (a : R) (acc : option (R * nat)) (o : option R)
  : option (R * nat) :=
  match acc, o with
  | None, None => None
  | None, Some x => Some (x, 0%nat)
  | Some (y, g), None => Some (y, S g)
  | Some (y, g), Some x =>
      let w := (1 - a) ^ (if ignore then 1 else S g) in
      Some ((w * y + a * x) / (w + a), 0%nat)
  end.
Definition exp_recursion (ignore : bool) (a : R) (os : list (option R)) : option R :=
  option_map fst (fold_left (exp_recursion_step ignore a) os None).

(** The linear scheme: the n-th observation (n = 1, 2, ...) enters with weight max(1/n, a). *)
Definition linear_recursion_step (a : R) (acc : nat * R) (x : R) : nat * R :=
  let '(n, y) := acc in
  let e := Rmax (/ INR (S n)) a in (S n, (1 - e) * y + e * x).
Definition linear_recursion (a : R) (xs : list R) : R :=
  snd (fold_left (linear_recursion_step a) xs (0%nat, 0)).

(** A statistic that is only defined from [mp] observations on ([os]), NaN otherwise. *)
Definition when_enough (mp : Z) (os : list (option R)) (y : option R) : fl :=
  match y with
  | Some r => if (Z.of_nat (count_obs os) <? mp)%Z then NaN else Fin r
  | None => NaN
  end.
Definition of_option (y : option R) : fl := match y with Some r => Fin r | None => NaN end.

(** *** Weighted variances *)
Definition scale_weight (c : R) (p : R * R) : R * R := (c * fst p, snd p).
(** adjust=True: weight (1-a)^age, ages counted in observations. *)
Definition weights_true (a : R) (os : list (option R)) : list (R * R) :=
  map (fun p => ((1 - a) ^ fst p, snd p)) (aged true os).
(** adjust=False: a * (1-a)^age, and (1-a)^age for the oldest one. *)
Definition weights_false (a : R) (os : list (option R)) : list (R * R) :=
  match aged true os with
  | [] => []
  | (k0, x0) :: r => ((1 - a) ^ k0, x0) :: map (fun p => (a * (1 - a) ^ fst p, snd p)) r
  end.
(** adjust="linear": the n-th observation enters with weight max(1/n, a). *)
Definition weights_linear (a : R) (os : list (option R)) : list (R * R) :=
  fold_left (fun W x => let e := Rmax (/ INR (S (length W))) a in
                        map (scale_weight (1 - e)) W ++ [(e, x)]) (valid_obs os) [].

Definition weighted_mean (W : list (R * R)) : R :=
  sum_over (fun p => fst p * snd p) W / sum_over fst W.
Definition weighted_variance (W : list (R * R)) : R :=
  sum_over (fun p => fst p * (snd p - weighted_mean W) ^ 2) W / sum_over fst W.

(** f 0 + ... + f (n-1) *)
Fixpoint sum_n (n : nat) (f : nat -> R) : R := match n with O => 0 | S k => sum_n k f + f k end.

Definition weights (adj : adjust_mode) (a : R) (os : list (option R)) : list (R * R) :=
  match adj with
  | AdjTrue => weights_true a os | AdjFalse => weights_false a os | AdjLinear => weights_linear a os
  end.
(** the weighted variance of the observations, 0 when there is none *)
Definition ewm_variance (adj : adjust_mode) (a : R) (os : list (option R)) : R :=
  match valid_obs os with [] => 0 | _ => weighted_variance (weights adj a os) end.
