(** Property theorems C19-C26, C61-C63: exponentially weighted statistics.  The inputs are floats with exact real
    arithmetic (Model/Float.v); [observation fm x] reads a float as an observation (Spec/EwmSpec.v). *)
From Coq Require Import List Arith ZArith Lia Reals Lra Bool.
From Verif Require Import Model.Unroll Model.Float Model.Modules Model.Ewm Spec.EwmSpec Spec.CovSpec
  Spec.SeriesSpec Proofs.FloatFacts Proofs.EwmFacts Proofs.EwmProofs Proofs.EwmExtra Proofs.EwmvarProofs
  Proofs.EwmcovProofs Proofs.EwmcovExtra Proofs.NumbaProofs Proofs.EwmExamples.
Import ListNotations.
Local Open Scope R_scope.

(** C19: adjust=True.  A finite initial_value counts as an observation before the first step,
    except for min_periods. *)
Theorem C19_ewma_adjust_true :
  forall fm cfg xs ys sF,
  0 < com cfg -> adjust cfg = AdjTrue -> run (EWMA fm cfg) xs = Some (ys, sF) ->
  let os := map (observation fm) xs in
  length ys = length xs /\
  forall t, (t < length xs)%nat -> nth_error ys t = Some
    (when_enough (min_periods cfg) (firstn (t + 1) os)
      (exp_average (ignore_na cfg) (1 / (1 + com cfg))
        (observation fm (initial_value cfg) :: firstn (t + 1) os))).
Proof. exact @ewma_adjust_true. Qed.
Print Assumptions C19_ewma_adjust_true.

(** C19: the constructor takes exactly one of com and alpha; alpha in (0, 1] is the 1 / (1 + com) of these theorems. *)
Theorem C19_com_or_alpha :
  forall c alpha,
  match c, alpha with
  | Some com_, None => com_of c alpha = Some com_
  | None, Some a => 0 < a <= 1 -> exists com_, com_of c alpha = Some com_ /\ 0 <= com_ /\ 1 / (1 + com_) = a
  | _, _ => com_of c alpha = None
  end.
Proof. exact @com_of_spec. Qed.
Print Assumptions C19_com_or_alpha.

(** [x0, NaN, x2] with alpha = 1/2: weights (1/4, 1) or (1/2, 1), as documented. *)
Example C19_example_aged :
  aged false [Some 3; None; Some 6] = [(2%nat, 3); (0%nat, 6)] /\
  aged true [Some 3; None; Some 6] = [(1%nat, 3); (0%nat, 6)].
Proof. split; reflexivity. Qed.
Example C19_example :
  exists sF, run (EWMA 1000 (EwmaCfg 1 0 AdjTrue true NaN)) [Fin 3; NaN; Fin 6] =
    Some ([Fin 3; Fin 3; Fin 5], sF).
Proof. exact ewma_example_true. Qed.

(** C20: adjust=False is the documented recursion. *)
Theorem C20_ewma_adjust_false :
  forall fm cfg xs ys sF,
  0 <= com cfg -> adjust cfg = AdjFalse -> run (EWMA fm cfg) xs = Some (ys, sF) ->
  let os := map (observation fm) xs in
  length ys = length xs /\
  forall t, (t < length xs)%nat -> nth_error ys t = Some
    (when_enough (min_periods cfg) (firstn (t + 1) os)
      (exp_recursion (ignore_na cfg) (1 / (1 + com cfg))
        (observation fm (initial_value cfg) :: firstn (t + 1) os))).
Proof. exact @ewma_adjust_false. Qed.
Print Assumptions C20_ewma_adjust_false.

(** C20: on complete data the recursion is y_t = (1-a) y_{t-1} + a x_t ... *)
Theorem C20_recursion_on_complete_data :
  forall ig a os x y,
  exp_recursion ig a (map Some os) = Some y ->
  exp_recursion ig a (map Some (os ++ [x])) = Some ((1 - a) * y + a * x).
Proof. exact @exp_recursion_complete_next. Qed.
Print Assumptions C20_recursion_on_complete_data.

(** ... with the closed form (1-a)^t x_0 + a sum_i (1-a)^(t-i) x_i. *)
Theorem C20_closed_form :
  forall ig a x0 r,
  exp_recursion ig a (map Some (x0 :: r)) =
  Some ((1 - a) ^ length r * x0 +
        a * sum_over (fun p => (1 - a) ^ fst p * snd p) (aged false (map Some r))).
Proof. exact @exp_recursion_complete. Qed.
Print Assumptions C20_closed_form.

Example C20_example :
  exists sF, run (EWMA 1000 (EwmaCfg 1 0 AdjFalse false NaN)) [Fin 3; NaN; Fin 6] =
    Some ([Fin 3; Fin 3; Fin 5], sF).
Proof. exact ewma_example_false. Qed.

(** C21: all modes, any min_periods: outputs are NaN or within the range of what was observed. *)
Theorem C21_ewma_within_range :
  forall fm cfg xs ys sF lo hi,
  0 <= com cfg -> run (EWMA fm cfg) xs = Some (ys, sF) ->
  (forall v, observation fm (initial_value cfg) = Some v -> lo <= v <= hi) ->
  forall t y,
  (forall s x v, (s <= t)%nat -> nth_error xs s = Some x -> observation fm x = Some v -> lo <= v <= hi) ->
  nth_error ys t = Some y ->
  y = NaN \/ exists r, y = Fin r /\ lo <= r <= hi.
Proof. exact @ewma_range. Qed.
Print Assumptions C21_ewma_within_range.

(** C21: a missing input does not change the output. *)
Theorem C21_missing_input_keeps_output :
  forall fm cfg xs ys sF t,
  0 <= com cfg -> run (EWMA fm cfg) xs = Some (ys, sF) ->
  nth_error xs (S t) = Some NaN -> nth_error ys (S t) = nth_error ys t.
Proof. exact @ewma_missing. Qed.
Print Assumptions C21_missing_input_keeps_output.

(** C22: adjust="linear".  (With ignore_na=False only when no observation is missing after the
    first one.) *)
Theorem C22_ewma_linear :
  forall fm cfg xs ys sF,
  0 <= com cfg -> adjust cfg = AdjLinear -> run (EWMA fm cfg) xs = Some (ys, sF) ->
  let os := map (observation fm) xs in
  let i := observation fm (initial_value cfg) in
  forall t, (t < length xs)%nat ->
  let seen := i :: firstn (t + 1) os in
  ignore_na cfg = true \/ complete_from_first seen ->
  nth_error ys t = Some
    (when_enough (min_periods cfg) (firstn (t + 1) os)
       match valid_obs seen with
       | [] => None | l => Some (linear_recursion (1 / (1 + com cfg)) l) end).
Proof. exact @ewma_linear. Qed.
Print Assumptions C22_ewma_linear.

(** C22: the plain mean as long as there are at most 1/a = 1 + com observations. *)
Theorem C22_plain_mean :
  forall a l,
  0 < a -> l <> [] -> INR (length l) <= 1 / a -> linear_recursion a l = rsum l / INR (length l).
Proof. exact @linear_plain_mean. Qed.
Print Assumptions C22_plain_mean.

Example C22_example :
  exists sF, run (EWMA 1000 (EwmaCfg 3 0 AdjLinear false NaN)) [Fin 3; Fin 5; Fin 10] =
    Some ([Fin 3; Fin 4; Fin 6], sF).
Proof. exact ewma_example_linear. Qed.

(** C23: EWMVar on finite or missing data is the weighted variance of the observations. *)
Theorem C23_ewmvar_is_weighted_variance :
  forall com_ adj os ys sF,
  0 <= com_ -> run (EWMVar com_ adj) (map of_option os) = Some (ys, sF) ->
  length ys = length os /\
  forall t, (t < length os)%nat ->
    nth_error ys t = Some (Fin (ewm_variance adj (1 / (1 + com_)) (firstn (t + 1) os))).
Proof. exact @ewmvar_run. Qed.
Print Assumptions C23_ewmvar_is_weighted_variance.

Theorem C23_ewmvar_nonnegative :
  forall com_ adj os ys sF, 0 <= com_ ->
  run (EWMVar com_ adj) (map of_option os) = Some (ys, sF) ->
  forall t y, nth_error ys t = Some y -> exists v, y = Fin v /\ 0 <= v.
Proof. exact @ewmvar_nonneg. Qed.
Print Assumptions C23_ewmvar_nonnegative.

Theorem C23_ewmvar_constant_series :
  forall com_ adj b os ys sF, 0 <= com_ ->
  Forall (fun o => o = None \/ o = Some b) os ->
  run (EWMVar com_ adj) (map of_option os) = Some (ys, sF) -> ys = repeat (Fin 0) (length os).
Proof. exact @ewmvar_constant. Qed.
Print Assumptions C23_ewmvar_constant_series.

Theorem C23_ewmvar_affine :
  forall com_ adj c b os ys sF ys' sF', 0 <= com_ ->
  run (EWMVar com_ adj) (map of_option os) = Some (ys, sF) ->
  run (EWMVar com_ adj) (map of_option (map (option_map (fun x => c * x + b)) os)) = Some (ys', sF') ->
  length ys' = length ys /\
  forall t v, nth_error ys t = Some (Fin v) -> nth_error ys' t = Some (Fin (c ^ 2 * v)).
Proof. exact @ewmvar_affine. Qed.
Print Assumptions C23_ewmvar_affine.

Example C23_example :
  exists sF, run (EWMVar 1 AdjFalse) [NaN; Fin 1; Fin 3] = Some ([Fin 0; Fin 0; Fin 1], sF).
Proof. exact ewmvar_example. Qed.

(** C24: EWMCov = EWMA(x y^T) - EWMA(x) EWMA(y)^T entry by entry. *)
Theorem C24_ewmcov_entries :
  forall fm cfg p q xs ys sF,
  Forall (shaped p q) xs -> run (EWMCov fm cfg false) xs = Some (ys, sF) ->
  length ys = length xs /\
  forall i j, (i < p)%nat -> (j < q)%nat ->
  forall exy ex ey s1 s2 s3,
  run (EWMA fm cfg) (map (comp_xy i j) xs) = Some (exy, s1) ->
  run (EWMA fm cfg) (map (comp_x i) xs) = Some (ex, s2) ->
  run (EWMA fm cfg) (map (comp_y j) xs) = Some (ey, s3) ->
  forall t, (t < length xs)%nat ->
  exists M a b c, nth_error ys t = Some M /\ nth_error exy t = Some a /\ nth_error ex t = Some b /\
    nth_error ey t = Some c /\ nth2 M i j = Some (fsub a (fmul b c)).
Proof. exact @cov_run. Qed.
Print Assumptions C24_ewmcov_entries.

(** C24: with assume_centered=True the entries are EWMA(x y^T). *)
Theorem C24_assume_centered :
  forall fm cfg p q xs ys sF,
  Forall (shaped p q) xs -> run (EWMCov fm cfg true) xs = Some (ys, sF) ->
  length ys = length xs /\
  forall i j, (i < p)%nat -> (j < q)%nat ->
  forall exy s1, run (EWMA fm cfg) (map (comp_xy i j) xs) = Some (exy, s1) ->
  forall t, (t < length xs)%nat ->
  exists M a, nth_error ys t = Some M /\ nth_error exy t = Some a /\ nth2 M i j = Some a.
Proof. exact @cov_centered. Qed.
Print Assumptions C24_assume_centered.

Theorem C24_ewmcov_transpose :
  forall fm cfg p q xs ys sF ys' sF',
  Forall (shaped p q) xs -> run (EWMCov fm cfg false) xs = Some (ys, sF) ->
  run (EWMCov fm cfg false) (map (fun xy => (snd xy, fst xy)) xs) = Some (ys', sF') ->
  forall t M M', nth_error ys t = Some M -> nth_error ys' t = Some M' ->
  forall i j, (i < p)%nat -> (j < q)%nat ->
  exists v, nth2 M i j = Some v /\ nth2 M' j i = Some v.
Proof. exact @cov_transpose. Qed.
Print Assumptions C24_ewmcov_transpose.

(** C24: non-negative diagonal, whatever is missing. *)
Theorem C24_ewmcov_diagonal :
  forall fm cfg p (xs : list (list (option R))) ys sF,
  0 <= com cfg -> initial_value cfg = NaN ->
  Forall (fun x => length x = p) xs ->
  run (EWMCov fm cfg false) (map (fun x => (map of_option x, map of_option x)) xs) = Some (ys, sF) ->
  forall t M i, nth_error ys t = Some M -> (i < p)%nat ->
    exists v, nth2 M i i = Some v /\ (v = NaN \/ exists r, v = Fin r /\ 0 <= r).
Proof. exact @cov_diag. Qed.
Print Assumptions C24_ewmcov_diagonal.

(** C24: positive semi-definite when each vector is entirely observed or entirely missing. *)
Theorem C24_ewmcov_positive_semidefinite :
  forall fm cfg p (vs : list (option (nat -> R))) ys sF,
  0 <= com cfg -> initial_value cfg = NaN ->
  run (EWMCov fm cfg false) (map (fun o => (row_of p o, row_of p o)) vs) = Some (ys, sF) ->
  forall t M c C, nth_error ys t = Some M ->
    (forall i j, (i < p)%nat -> (j < p)%nat -> nth2 M i j = Some (Fin (C i j))) ->
    0 <= quad p c C.
Proof. exact @cov_psd. Qed.
Print Assumptions C24_ewmcov_positive_semidefinite.

Example C24_example :
  exists sF, run (EWMCov 1000 (EwmaCfg 1 0 AdjFalse false NaN) false)
    [([Fin 1; Fin 2], [Fin 1; Fin 2]); ([Fin 3; Fin 2], [Fin 3; Fin 2])] =
    Some ([ [[Fin 0; Fin 0]; [Fin 0; Fin 0]]; [[Fin 1; Fin 0]; [Fin 0; Fin 0]] ], sF).
Proof. exact ewmcov_example. Qed.

(** C25: the numba loop agrees with the jax module, column by column, on finite or missing data. *)
Theorem C25_numba_agrees_with_jax :
  forall fm cfg (table : list (list (option R))) p i0 res sF,
  initial_value cfg = of_option i0 ->
  Forall (fun row => length row = p) table ->
  numba_ewma cfg (map (map of_option) table) None = Some (res, sF) ->
  length res = length table /\ Forall (fun row => length row = p) res /\
  forall j, (j < p)%nat ->
  forall ys s, run (EWMA fm cfg) (map (fun row => of_option (nth j row None)) table) = Some (ys, s) ->
  map (fun row => nth j row NaN) res = ys.
Proof. exact @numba_agrees. Qed.
Print Assumptions C25_numba_agrees_with_jax.

Example C25_example :
  exists sF, numba_ewma (EwmaCfg 1 0 AdjTrue true NaN) [[Fin 3; NaN]; [NaN; Fin 1]; [Fin 6; Fin 1]] None =
    Some ([[Fin 3; NaN]; [Fin 3; Fin 1]; [Fin 5; Fin 1]], sF).
Proof. exact numba_example. Qed.

(** C26: resuming from the returned state. *)
Theorem C26_numba_resume :
  forall cfg v1 v2 st r1 s1 r2 s2,
  numba_ewma cfg v1 st = Some (r1, s1) -> numba_ewma cfg v2 (Some s1) = Some (r2, s2) ->
  numba_ewma cfg (v1 ++ v2) st = Some (r1 ++ r2, s2).
Proof. exact @numba_resume. Qed.
Print Assumptions C26_numba_resume.

Example C26_example :
  exists s1 s2,
    numba_ewma (EwmaCfg 1 0 AdjTrue true NaN) [[Fin 3]; [NaN]] None = Some ([[Fin 3]; [Fin 3]], s1) /\
    numba_ewma (EwmaCfg 1 0 AdjTrue true NaN) [[Fin 6]] (Some s1) = Some ([[Fin 5]], s2).
Proof. exact numba_resume_example. Qed.

(** C61: return_info.  [mean t] is the mean of the first t inputs ([None]: no observation yet): the
    output masks it by min_periods, com_eff is the weight of the previous mean against the new input. *)
Theorem C61_effective_center_of_mass :
  forall fm cfg xs ys sF,
  0 <= com cfg -> run (EWMA_info fm cfg) xs = Some (ys, sF) ->
  let os := map (observation fm) xs in
  length ys = length xs /\
  exists mean : nat -> option R, mean 0%nat = observation fm (initial_value cfg) /\
  forall t y c n, nth_error ys t = Some (y, (c, n)) ->
    n = Z.of_nat (count_obs (firstn (t + 1) os)) /\
    y = when_enough (min_periods cfg) (firstn (t + 1) os) (mean (t + 1)%nat) /\
    (nth_error os t = Some None -> mean (t + 1)%nat = mean t) /\
    forall x, nth_error os t = Some (Some x) ->
      exists cr, c = Fin cr /\ 0 <= cr <= com cfg /\
      match mean t with
      | Some m => mean (t + 1)%nat = Some ((cr * m + x) / (cr + 1))
      | None => cr = 0 /\ mean (t + 1)%nat = Some x
      end.
Proof. exact @ewma_info. Qed.
Print Assumptions C61_effective_center_of_mass.

Example C61_example : exists sF,
  run (EWMA_info 1000 (EwmaCfg 1 2 AdjTrue true NaN)) [NaN; Fin 3; Fin 6] =
  Some ([(NaN, (Fin 0, 0%Z)); (NaN, (Fin 0, 1%Z)); (Fin 5, (Fin (1/2), 2%Z))], sF).
Proof. exact ewma_info_example. Qed.

(** C62: EWMA is a weighted average whose weights only depend on the positions of the missing
    inputs ([pat]: which inputs are observed). *)
Theorem C62_ewma_weights_independent_of_values :
  forall fm cfg (pat : list bool) t,
  0 <= com cfg -> initial_value cfg = NaN -> (t < length pat)%nat ->
  exists w : nat -> R, (forall k, 0 <= w k) /\ (forall k, nth k pat false = false -> w k = 0) /\
    (existsb (fun b => b) (firstn (t + 1) pat) = true -> sum_n (t + 1) w = 1) /\
    forall os ys sF, map (fun o => match o with Some _ => true | None => false end) os = pat ->
      run (EWMA fm cfg) (map of_option os) = Some (ys, sF) ->
      nth_error ys t = Some (when_enough (min_periods cfg) (firstn (t + 1) os)
        (if existsb (fun b => b) (firstn (t + 1) pat)
         then Some (sum_n (t + 1) (fun k => w k * match nth k os None with Some x => x | None => 0 end))
         else None)).
Proof. exact @ewma_functional. Qed.
Print Assumptions C62_ewma_weights_independent_of_values.

(** C63: the numba EWMA overwrites the state it is given: calling it again with the same state
    object continues instead of replaying. *)
Theorem C63_numba_overwrites_given_state :
  forall cfg objs ref v1 v2 r1 objs1 ref1 r2 objs2 ref2 ss,
  nth_error objs ref = Some ss ->
  numba_call cfg objs v1 ref = Some (r1, objs1, ref1) ->
  numba_call cfg objs1 v2 ref = Some (r2, objs2, ref2) ->
  ref1 = ref /\ (forall k, k <> ref -> nth_error objs1 k = nth_error objs k) /\
  exists sF, numba_ewma cfg (v1 ++ v2) (Some ss) = Some (r1 ++ r2, sF) /\ nth_error objs2 ref = Some sF.
Proof. exact @numba_aliasing. Qed.
Print Assumptions C63_numba_overwrites_given_state.

(** C63: so replaying the same rows from the same saved state object gives other values. *)
Theorem C63_replay_refuted :
  exists cfg objs v r1 objs1 r2 objs2,
  numba_call cfg objs v 0 = Some (r1, objs1, 0%nat) /\
  numba_call cfg objs1 v 0 = Some (r2, objs2, 0%nat) /\ r1 <> r2.
Proof. exact numba_replay_refuted. Qed.
Print Assumptions C63_replay_refuted.
