(** Property theorems C114-C120: how the modules relate to each other and behave over long histories.
    Vocabulary: Spec/AnalysisSpec.v. *)
From Coq Require Import String List ZArith Reals Lra Lia.
From Verif Require Import Model.Unroll Model.Batch Model.Float Model.Modules Model.Ewm Model.Dynamics Model.Newton Model.Optim
  Spec.EwmSpec Spec.CovSpec Spec.SeriesSpec Spec.DynSpec Spec.NewtonSpec Spec.OptimSpec Spec.AnalysisSpec
  Proofs.AnalysisProofs Proofs.AnalysisProofs2 Proofs.AnalysisProofs3 Proofs.AnalysisProofs4 Proofs.AnalysisProofs5
  Proofs.AnalysisProofs6 Proofs.AnalysisProofs7 Proofs.EwmExamples.
Import ListNotations.
Local Open Scope list_scope.
Local Open Scope R_scope.

(** C114: the i-th diagonal entry of EWMCov(x, x) is EWMVar of the i-th column, when missing values do not
    count for the weights (ignore_na, or none missing after the first observation) and there are enough
    observations; otherwise it is missing. *)
Theorem C114_ewmvar_is_the_diagonal_of_ewmcov :
  forall fm cfg p (xs : list (list (option R))) Ms sF i vs sV,
  0 <= com cfg -> initial_value cfg = NaN ->
  Forall (fun x => length x = p) xs -> (i < p)%nat ->
  run (EWMCov fm cfg false) (map (fun x => (map of_option x, map of_option x)) xs) = Some (Ms, sF) ->
  run (EWMVar (com cfg) (adjust cfg)) (map (fun x => of_option (nth i x None)) xs) = Some (vs, sV) ->
  forall t M, nth_error Ms t = Some M ->
  let seen := map (fun x => nth i x None) (firstn (t + 1) xs) in
  ignore_na cfg = true \/ complete_from_first seen ->
  (valid_obs seen <> [] /\ (min_periods cfg <= Z.of_nat (length (valid_obs seen)))%Z ->
     nth2 M i i = nth_error vs t) /\
  (~ (valid_obs seen <> [] /\ (min_periods cfg <= Z.of_nat (length (valid_obs seen)))%Z) ->
     nth2 M i i = Some NaN).
Proof. exact @ewmvar_ewmcov. Qed.
Print Assumptions C114_ewmvar_is_the_diagonal_of_ewmcov.

Example C114_example :
  (exists sF, run (EWMCov 1000 (EwmaCfg 1 0 AdjFalse false NaN) false)
    [([Fin 1; Fin 2], [Fin 1; Fin 2]); ([Fin 3; Fin 2], [Fin 3; Fin 2])] =
    Some ([ [[Fin 0; Fin 0]; [Fin 0; Fin 0]]; [[Fin 1; Fin 0]; [Fin 0; Fin 0]] ], sF)) /\
  (exists sV, run (EWMVar 1 AdjFalse) [Fin 1; Fin 3] = Some ([Fin 0; Fin 1], sV)).
Proof. split; [exact ewmcov_example|exact ewmvar_case]. Qed.

(** C115: EWMA forgets.  Two runs with missing values at the same steps and the same observations after step s
    differ, at a later step t, by at most (com/(1+com))^n times their difference at step s, n being the number of
    observations made after s (adjust True or False, linear, whatever min_periods and ignore_na). *)
Theorem C115_ewma_forgets :
  forall fm cfg xs ys sF xs' ys' sF',
  0 <= com cfg ->
  run (EWMA fm cfg) xs = Some (ys, sF) -> run (EWMA fm cfg) xs' = Some (ys', sF') ->
  map isnan xs = map isnan xs' ->
  forall s t a b, (s <= t < length xs)%nat ->
  (forall k, (s < k <= t)%nat -> nth_error xs k = nth_error xs' k) ->
  nth_error ys s = Some (Fin a) -> nth_error ys' s = Some (Fin b) ->
  exists a' b', nth_error ys t = Some (Fin a') /\ nth_error ys' t = Some (Fin b') /\
    Rabs (a' - b') <= (com cfg / (1 + com cfg)) ^ count_obs (between fm s t xs) * Rabs (a - b).
Proof. exact @ewma_forgets. Qed.
Print Assumptions C115_ewma_forgets.

(** C115: once the observations lie in [lo, hi], the distance of the average to [lo, hi] decays at the same rate. *)
Theorem C115_ewma_enters_the_range :
  forall fm cfg xs ys sF lo hi,
  0 <= com cfg -> lo <= hi -> run (EWMA fm cfg) xs = Some (ys, sF) ->
  forall s t a, (s <= t < length xs)%nat ->
  (forall k x v, (s < k <= t)%nat -> nth_error xs k = Some x -> observation fm x = Some v -> lo <= v <= hi) ->
  nth_error ys s = Some (Fin a) ->
  exists a', nth_error ys t = Some (Fin a') /\
    lo - (com cfg / (1 + com cfg)) ^ count_obs (between fm s t xs) * Rmax 0 (lo - a) <= a' <=
    hi + (com cfg / (1 + com cfg)) ^ count_obs (between fm s t xs) * Rmax 0 (a - hi).
Proof. exact @ewma_range_forgets. Qed.
Print Assumptions C115_ewma_enters_the_range.

(** C115: on a series that becomes constant (or missing), the average converges to the constant, uniformly over
    the histories that left it within D of it. *)
Theorem C115_ewma_converges :
  forall fm cfg c, 0 <= com cfg -> forall D eps, 0 <= D -> 0 < eps ->
  exists n0, forall xs ys sF, run (EWMA fm cfg) xs = Some (ys, sF) ->
  forall s t a, (s <= t < length xs)%nat ->
  (forall k x, (s < k <= t)%nat -> nth_error xs k = Some x -> x = NaN \/ x = Fin c) ->
  nth_error ys s = Some (Fin a) -> Rabs (a - c) <= D ->
  (n0 <= count_obs (between fm s t xs))%nat ->
  exists a', nth_error ys t = Some (Fin a') /\ Rabs (a' - c) <= eps.
Proof. exact @ewma_converges. Qed.
Print Assumptions C115_ewma_converges.

(* two histories 6 apart; one more observation halves the difference at least (here it is divided by 3) *)
Example C115_example :
  (exists sF, run (EWMA 1000 (EwmaCfg 1 0 AdjTrue true NaN)) [Fin 3; NaN; Fin 6] = Some ([Fin 3; Fin 3; Fin 5], sF)) /\
  (exists sF, run (EWMA 1000 (EwmaCfg 1 0 AdjTrue true NaN)) [Fin 9; NaN; Fin 6] = Some ([Fin 9; Fin 9; Fin 7], sF)) /\
  map isnan [Fin 3; NaN; Fin 6] = map isnan [Fin 9; NaN; Fin 6].
Proof. exact (conj forget_case1 (conj forget_case2 eq_refl)). Qed.

(** C116: a lag of a steps followed by a lag of b steps is a lag of a + b steps, when filling a filler gives the
    filler (zeros_like, full_like). *)
Theorem C116_lags_add_up :
  forall {A} (a b : nat) (full : A -> A) (x0 : A) xs ys sF z0 zs ws sG vs sH,
  full (full x0) = full x0 ->
  run (Lag a full) (x0 :: xs) = Some (ys, sF) -> ys = map Some (z0 :: zs) ->
  run (Lag b full) (z0 :: zs) = Some (ws, sG) ->
  run (Lag (a + b) full) (x0 :: xs) = Some (vs, sH) -> ws = vs.
Proof. exact @lag_compose. Qed.
Print Assumptions C116_lags_add_up.

(** C116: the series is its first value plus the running sum of Diff. *)
Theorem C116_diff_sums_back :
  forall m r0 rs ys sF,
  Diff 1 = Some m -> run m (map Fin (r0 :: rs)) = Some (ys, sF) ->
  exists ds, ys = NaN :: map Fin ds /\ length ds = length rs /\
    forall t, (t <= length rs)%nat -> nth t (r0 :: rs) 0 = r0 + rsum (firstn t ds).
Proof. exact @diff_telescopes. Qed.
Print Assumptions C116_diff_sums_back.

(** C116: the forward filled series is its first value times the running product of 1 + PctChange; in particular
    no change is missing after the first. *)
Theorem C116_pct_change_compounds :
  forall m meth x0 (os : list (option R)) ys sF zs sG,
  PctChange 1 meth true = Some m -> x0 <> 0 -> Forall (fun o => o <> Some 0) os ->
  run m (Fin x0 :: map of_option os) = Some (ys, sF) ->
  run Ffill (Fin x0 :: map of_option os) = Some (zs, sG) ->
  exists ps, ys = NaN :: map Fin ps /\ length ps = length os /\
    forall t, (t <= length os)%nat -> nth_error zs t = Some (Fin (x0 * rprod (map (Rplus 1) (firstn t ps)))).
Proof. exact @pct_compounds'. Qed.
Print Assumptions C116_pct_change_compounds.

Example C116_example :
  option_map fst (run (Lag 1 (fun _ => 99%nat)) [5; 6; 7; 8]%nat) = Some [Some 99; Some 5; Some 6; Some 7]%nat /\
  option_map fst (run (Lag 2 (fun _ => 99%nat)) [99; 5; 6; 7]%nat) = Some [Some 99; Some 99; Some 99; Some 5]%nat /\
  option_map fst (run (Lag 3 (fun _ => 99%nat)) [5; 6; 7; 8]%nat) = Some [Some 99; Some 99; Some 99; Some 5]%nat.
Proof. repeat split; reflexivity. Qed.

(** C117: an ARMA process whose autoregressive coefficients sum to less than 1 in absolute value is stable:
    innovations bounded by E give outputs bounded by (1 + |beta|) E / (1 - |alpha|), at every step. *)
Theorem C117_arma_stable :
  forall alpha beta eps outs sF E,
  abs_sum alpha < 1 -> 0 <= E -> Forall (fun e => Rabs e <= E) eps ->
  run (ARMA (map Fin alpha) (map Fin beta)) (map Fin eps) = Some (outs, sF) ->
  forall t y, nth_error outs t = Some y ->
  exists r, y = Fin r /\ Rabs r <= (1 + abs_sum beta) * E / (1 - abs_sum alpha).
Proof. exact @arma_run_stable. Qed.
Print Assumptions C117_arma_stable.

(** C117: and it forgets: innovations that agree after step s give outputs whose difference decays geometrically. *)
Theorem C117_arma_forgets :
  forall alpha beta e1 e2 o1 s1 o2 s2 s D,
  abs_sum alpha < 1 -> 0 <= D -> length e1 = length e2 ->
  run (ARMA (map Fin alpha) (map Fin beta)) (map Fin e1) = Some (o1, s1) ->
  run (ARMA (map Fin alpha) (map Fin beta)) (map Fin e2) = Some (o2, s2) ->
  (forall k, (k <= s)%nat -> Rabs (nth k e1 0 - nth k e2 0) <= D) ->
  (forall k, (s < k)%nat -> nth_error e1 k = nth_error e2 k) ->
  forall n t, (t < length e1)%nat -> (s + length beta + n * length alpha < t)%nat ->
  exists a b, nth_error o1 t = Some (Fin a) /\ nth_error o2 t = Some (Fin b) /\
    Rabs (a - b) <= abs_sum alpha ^ n * ((1 + abs_sum beta) * D / (1 - abs_sum alpha)).
Proof. exact @arma_run_forgets. Qed.
Print Assumptions C117_arma_forgets.

Example C117_example : abs_sum [1/2] < 1 /\
  exists sF, run (ARMA [Fin (1/2)] [Fin (1/4)]) [Fin 1; Fin (Ropp 1); Fin 1] = Some ([Fin 1; Fin (Ropp (1/4)); Fin (5/8)], sF).
Proof. exact arma_case. Qed.

(** C118: the Newton updates u = H^-1 g.  Whatever the gradients, 0 <= g.u < 1 and |u|^2 <= 1/(4 eps). *)
Theorem C118_newton_steps_are_bounded :
  forall n eps gs us H, 0 < eps -> newton_run n (newton_init eps n) gs = (us, H) ->
  forall t g u, nth_error gs t = Some g -> nth_error us t = Some u ->
  0 <= dotp n g u < 1 /\ dotp n u u <= / (4 * eps).
Proof. exact @newton_steps_small. Qed.
Print Assumptions C118_newton_steps_are_bounded.

(** C118: in every direction x the squared moves sum to at most |x|^2 / eps, whatever the number of steps. *)
Theorem C118_newton_moves_are_square_summable :
  forall n eps gs us H x, 0 < eps -> newton_run n (newton_init eps n) gs = (us, H) ->
  0 <= qform n H x /\ sum_over (fun u => dotp n x u ^ 2) us + qform n H x <= dotp n x x / eps.
Proof. exact @newton_square_sum. Qed.
Print Assumptions C118_newton_moves_are_square_summable.

Theorem C118_newton_total_displacement :
  forall n eps gs us H, 0 < eps -> newton_run n (newton_init eps n) gs = (us, H) ->
  sum_over (fun u => dotp n u u) us <= INR n / eps.
Proof. exact @newton_total_displacement. Qed.
Print Assumptions C118_newton_total_displacement.

(** C118: the inverse matrix of the state only decreases, as a quadratic form. *)
Theorem C118_newton_matrix_decreases :
  forall n eps gs gs' us H us' H' x, 0 < eps ->
  newton_run n (newton_init eps n) gs = (us, H) -> newton_run n (newton_init eps n) (gs ++ gs') = (us', H') ->
  qform n H' x <= qform n H x.
Proof. exact @newton_monotone. Qed.
Print Assumptions C118_newton_matrix_decreases.

Example C118_example : exists us H, newton_run 1 (newton_init 1 1) [(fun _ => 2); (fun _ => 1)] = (us, H) /\
  map (fun u => u 0%nat) us = [2 / 5; 1 / 6].
Proof. exact newton_case. Qed.

(** C119: the exact regret identity of the iterates x_{t+1} = x_t - lr u_t, for any comparison point z. *)
Theorem C119_newton_regret_identity :
  forall n eps lr gs us H z (x : nat -> vec) g0, 0 < eps ->
  newton_run n (newton_init eps n) gs = (us, H) ->
  (forall t u, nth_error us t = Some u -> forall i, (i < n)%nat -> x (S t) i = x t i - lr * u i) ->
  sum_n (length gs) (fun t => 2 * lr * dotp n (nth t gs g0) (fun i => x t i - z i) -
                              dotp n (nth t gs g0) (fun i => x t i - z i) ^ 2) +
    qform n (hessian eps (rev gs)) (fun i => x (length gs) i - z i) =
  eps * dotp n (fun i => x 0%nat i - z i) (fun i => x 0%nat i - z i) +
    lr ^ 2 * sum_n (length gs) (fun t => dotp n (nth t gs g0) (nth t us g0)).
Proof. exact @newton_regret. Qed.
Print Assumptions C119_newton_regret_identity.

(** C119: hence the regret on losses that curve like beta/2 (g.d)^2 along their gradient (exp-concave losses). *)
Theorem C119_newton_regret :
  forall n eps beta gs us H z (x : nat -> vec) (f : nat -> vec -> R) g0, 0 < eps -> 0 < beta ->
  newton_run n (newton_init eps n) gs = (us, H) ->
  (forall t u, nth_error us t = Some u -> forall i, (i < n)%nat -> x (S t) i = x t i - (1 / beta) * u i) ->
  (forall t g, nth_error gs t = Some g -> f t (x t) - f t z <=
     dotp n g (fun i => x t i - z i) - beta / 2 * dotp n g (fun i => x t i - z i) ^ 2) ->
  sum_n (length gs) (fun t => f t (x t) - f t z) <=
  beta / 2 * eps * dotp n (fun i => x 0%nat i - z i) (fun i => x 0%nat i - z i) +
  1 / (2 * beta) * sum_n (length gs) (fun t => dotp n (nth t gs g0) (nth t us g0)).
Proof. exact @newton_regret_bound. Qed.
Print Assumptions C119_newton_regret.

(** C119: the last sum grows at most like the square root of the number of steps. *)
Theorem C119_newton_regret_is_sublinear :
  forall n eps gs us H G2 g0, 0 < eps -> 0 <= G2 ->
  newton_run n (newton_init eps n) gs = (us, H) ->
  (forall t g, nth_error gs t = Some g -> dotp n g g <= G2) ->
  sum_n (length gs) (fun t => dotp n (nth t gs g0) (nth t us g0)) ^ 2 <= INR (length gs) * (G2 * INR n / eps).
Proof. exact @newton_leverage_sublinear. Qed.
Print Assumptions C119_newton_regret_is_sublinear.

(** C119: in fact at most like its logarithm. *)
Theorem C119_newton_leverage_is_logarithmic :
  forall n eps gs us H g0, 0 < eps -> (0 < n)%nat ->
  newton_run n (newton_init eps n) gs = (us, H) ->
  sum_n (length gs) (fun t => dotp n (nth t gs g0) (nth t us g0)) <=
  INR n * ln (1 + sum_over (fun g => dotp n g g) gs / (INR n * eps)).
Proof. exact @newton_leverage_log. Qed.
Print Assumptions C119_newton_leverage_is_logarithmic.

(** C119: so, with gradients of squared norm at most G2, the regret after T steps is O(n log T). *)
Theorem C119_newton_logarithmic_regret :
  forall n eps beta gs us H z (x : nat -> vec) (f : nat -> vec -> R) G2, 0 < eps -> 0 < beta -> (0 < n)%nat ->
  newton_run n (newton_init eps n) gs = (us, H) ->
  (forall t u, nth_error us t = Some u -> forall i, (i < n)%nat -> x (S t) i = x t i - (1 / beta) * u i) ->
  (forall t g, nth_error gs t = Some g -> dotp n g g <= G2 /\ f t (x t) - f t z <=
     dotp n g (fun i => x t i - z i) - beta / 2 * dotp n g (fun i => x t i - z i) ^ 2) ->
  sum_n (length gs) (fun t => f t (x t) - f t z) <=
  beta / 2 * eps * dotp n (fun i => x 0%nat i - z i) (fun i => x 0%nat i - z i) +
  INR n / (2 * beta) * ln (1 + INR (length gs) * G2 / (INR n * eps)).
Proof. exact @newton_log_regret. Qed.
Print Assumptions C119_newton_logarithmic_regret.

(* the squared loss (w - 1)^2 from w = 0, against w = 1, with lr = 2 *)
Example C119_example : exists us H,
  newton_run 1 (newton_init 1 1) [(fun _ => -2); (fun _ => -2/5)] = (us, H) /\
  (forall t u, nth_error us t = Some u -> forall i, (i < 1)%nat ->
     newton_points (S t) i = newton_points t i - (1 / (1/2)) * u i) /\
  sum_n 2 (fun t => (newton_points t 0%nat - 1) ^ 2 - (1 - 1) ^ 2) <= 1/4 + ln 9.
Proof. exact newton_regret_case. Qed.

(** C120: the losses reported by OnlineOptimizer with sgd(lr).  If grad gives subgradients of norm^2 at most G2 of
    the (regularized) loss as a function of the trainable parameters, and the projection brings no point further
    from z, the cumulated loss exceeds that of the constant parameters z by at most |v0-z|^2/(2 lr) + lr G2 T / 2. *)
Theorem C120_online_gradient_descent_regret :
  forall (K S X Info OS : Type) (split : K -> K * K) (fm : R)
    (model : transformed K (pmap array) S X (fl * Info)) (opt : gradient_transformation OS array)
    (project_params : option (pmap array -> pmap array)) (regularize_loss : option (pmap array -> fl))
    (pred : pkey -> array -> bool) (return_params : bool) (grad : (pmap array -> fl) -> pmap array -> pmap array)
    lr G2 k x0 xs p0 s0 v0 (z : list R) (zp : pmap array),
    0 < lr -> is_sgd lr opt ->
    t_init model (Some (snd (split k))) x0 = (p0, s0) -> NoDup (map fst p0) ->
    let tp0 := fst (partition pred p0) in
    let total_loss := fun (s : S) (x : X) (q : pmap array) =>
      let lq := fst (fst (t_apply model (merge q (snd (partition pred p0))) s None x)) in
      match regularize_loss with Some reg => fadd lq (reg q) | None => lq end in
    at_point tp0 tp0 v0 -> at_point tp0 zp z ->
    (forall s x p v, In x (x0 :: xs) -> at_point tp0 p v ->
       exists g lp lz, at_point tp0 (grad (total_loss s x) p) g /\ sq_norm g <= G2 /\
         total_loss s x p = Fin lp /\ total_loss s x zp = Fin lz /\ lp - lz <= inner_diff g v z) ->
    (forall proj p v, project_params = Some proj -> at_point tp0 p v ->
       exists v', at_point tp0 (proj p) v' /\ sq_dist v' z <= sq_dist v z) ->
    exists outs sF ls cs (ms : nat -> S),
      unroll split (OnlineOptimizer split fm model opt project_params regularize_loss pred return_params grad)
        false (Some k) None None (x0 :: xs) = Some (outs, sF) /\
      map loss outs = map Fin ls /\ length cs = length ls /\ ms 0%nat = s0 /\
      (forall t x, nth_error (x0 :: xs) t = Some x ->
         option_map Fin (nth_error cs t) = Some (total_loss (ms t) x zp)) /\
      sum_n (length ls) (fun t => nth t ls 0 - nth t cs 0) <=
        sq_dist v0 z / (2 * lr) + lr * G2 / 2 * INR (length ls).
Proof. exact @ogd_regret. Qed.
Print Assumptions C120_online_gradient_descent_regret.

(* the losses w, -w, w, from w = 0, against w = -1 *)
Example C120_example : exists outs sF,
  unroll (fun k : unit => (k, k)) (OnlineOptimizer (fun k => (k, k)) 1000 lin_model (sgd (1/2)) None None (fun _ _ => true) true lin_grad)
    false (Some tt) None None [1; Ropp 1; 1] = Some (outs, sF) /\
  exists ls, map loss outs = map Fin ls /\
    sum_n (length ls) (fun t => nth t ls 0 - nth t [1; Ropp 1; 1] 0 * (Ropp 1)) <= 1 / (2 * (1 / 2)) + 1 / 2 * 1 / 2 * 3.
Proof. exact ogd_case. Qed.
