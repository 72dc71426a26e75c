(** Property theorems C110-C113: floating point rounding.  [rounding u eta rd] (Spec/RoundSpec.v): a
    rounding mode of unit roundoff [u]; [round_to rd fm]: round, overflow to an infinity beyond [fm];
    [single], [double]: IEEE formats, to nearest even. *)
From Coq Require Import List ZArith Reals Lra Lia.
From Verif Require Import Model.Unroll Model.Float Model.Modules Model.Ewm Model.Rounded Spec.EwmSpec
  Spec.RoundSpec Proofs.RoundProofs3 Proofs.RoundProofs4 Proofs.RoundProofs5 Proofs.RoundProofs6 Proofs.RoundProofs7.
Import ListNotations.
Local Open Scope R_scope.

(** The two formats are rounding modes in this sense. *)
Theorem C110_single_is_a_rounding : rounding (/ 2 ^ 24) (/ 2 ^ 150) single.
Proof. exact single_rounding. Qed.
Print Assumptions C110_single_is_a_rounding.
Theorem C110_double_is_a_rounding : rounding (/ 2 ^ 53) (/ 2 ^ 1075) double.
Proof. exact double_rounding. Qed.
Print Assumptions C110_double_is_a_rounding.

(** C110: the error of EWMA (adjust=True) with respect to the exactly computed exponentially weighted
    average does not grow with the length of the series. *)
Theorem C110_error_adjust :
  forall u eta rd fm cfg X xs ys sF,
  rounding u eta rd -> 0 <= u -> 0 <= eta ->
  0 < com cfg -> adjust cfg = AdjTrue ->
  100 * u * (1 + com cfg) ^ 2 <= 1 -> 0 <= X ->
  eta * (1 + com cfg) <= u * Rmin 1 X -> 8 * (1 + com cfg) * Rmax 1 X <= fm ->
  Forall (bounded X) xs -> bounded X (initial_value cfg) ->
  run (EWMA_r (round_to rd fm) fm cfg) xs = Some (ys, sF) ->
  let os := map (observation fm) xs in
  length ys = length xs /\
  forall t y, nth_error ys t = Some y ->
    within (80 * u * (1 + com cfg) ^ 2 * X) y
      (when_enough (min_periods cfg) (firstn (t + 1) os)
        (exp_average (ignore_na cfg) (1 / (1 + com cfg))
          (observation fm (initial_value cfg) :: firstn (t + 1) os))).
Proof. exact @ewma_rounded_true. Qed.
Print Assumptions C110_error_adjust.

(** C110: the same with adjust=False. *)
Theorem C110_error_no_adjust :
  forall u eta rd fm cfg X xs ys sF,
  rounding u eta rd -> 0 <= u -> 0 <= eta ->
  0 <= com cfg -> adjust cfg = AdjFalse ->
  100 * u * (1 + com cfg) ^ 2 <= 1 -> 0 <= X ->
  eta * (1 + com cfg) <= u * Rmin 1 X -> 8 * (1 + com cfg) * Rmax 1 X <= fm ->
  Forall (bounded X) xs -> bounded X (initial_value cfg) ->
  run (EWMA_r (round_to rd fm) fm cfg) xs = Some (ys, sF) ->
  let os := map (observation fm) xs in
  length ys = length xs /\
  forall t y, nth_error ys t = Some y ->
    within (80 * u * (1 + com cfg) ^ 2 * X) y
      (when_enough (min_periods cfg) (firstn (t + 1) os)
        (exp_recursion (ignore_na cfg) (1 / (1 + com cfg))
          (observation fm (initial_value cfg) :: firstn (t + 1) os))).
Proof. exact @ewma_rounded_false. Qed.
Print Assumptions C110_error_no_adjust.

(** C110 in single precision: com < 256, observations between 2^-100 and 2^100 at most. *)
Theorem C110_single_adjust :
  forall cfg X xs ys sF,
  0 < com cfg -> 1 + com cfg <= 2 ^ 8 -> adjust cfg = AdjTrue -> / 2 ^ 100 <= X <= 2 ^ 100 ->
  Forall (bounded X) xs -> bounded X (initial_value cfg) ->
  run (EWMA_r (round_to single max_single) max_single cfg) xs = Some (ys, sF) ->
  let os := map (observation max_single) xs in
  length ys = length xs /\
  forall t y, nth_error ys t = Some y ->
    within (80 * / 2 ^ 24 * (1 + com cfg) ^ 2 * X) y
      (when_enough (min_periods cfg) (firstn (t + 1) os)
        (exp_average (ignore_na cfg) (1 / (1 + com cfg))
          (observation max_single (initial_value cfg) :: firstn (t + 1) os))).
Proof.
  intros cfg X xs ys sF Hc HC Ha HX.
  destruct (side_single (com cfg) X ltac:(lra) HC HX) as (A & B & C & D & _ & E & F & _).
  intros. exact (ewma_rounded_true _ _ _ _ cfg X xs ys sF single_rounding A B Hc Ha C D E F H H0 H1).
Qed.
Print Assumptions C110_single_adjust.

(** C110 in double precision: com < 2^23, observations between 2^-900 and 2^900 at most. *)
Theorem C110_double_adjust :
  forall cfg X xs ys sF,
  0 < com cfg -> 1 + com cfg <= 2 ^ 23 -> adjust cfg = AdjTrue -> / 2 ^ 900 <= X <= 2 ^ 900 ->
  Forall (bounded X) xs -> bounded X (initial_value cfg) ->
  run (EWMA_r (round_to double max_double) max_double cfg) xs = Some (ys, sF) ->
  let os := map (observation max_double) xs in
  length ys = length xs /\
  forall t y, nth_error ys t = Some y ->
    within (80 * / 2 ^ 53 * (1 + com cfg) ^ 2 * X) y
      (when_enough (min_periods cfg) (firstn (t + 1) os)
        (exp_average (ignore_na cfg) (1 / (1 + com cfg))
          (observation max_double (initial_value cfg) :: firstn (t + 1) os))).
Proof.
  intros cfg X xs ys sF Hc HC Ha HX.
  destruct (side_double (com cfg) X ltac:(lra) HC HX) as (A & B & C & D & _ & E & F & _).
  intros. exact (ewma_rounded_true _ _ _ _ cfg X xs ys sF double_rounding A B Hc Ha C D E F H H0 H1).
Qed.
Print Assumptions C110_double_adjust.

(** C110: with exact arithmetic, the rounded model is the model of C19-C22. *)
Theorem C110_exact_arithmetic : forall fm cfg, EWMA_r (fun v => v) fm cfg = EWMA fm cfg.
Proof. exact ewma_exact. Qed.
Print Assumptions C110_exact_arithmetic.

(** C110 fails as "the average stays between the extreme observations" (C21): in single precision,
    com = 4, the average of 3, 3 is 3 + 2^-22. *)
Theorem C110_in_range_refuted :
  forall fm, 100 <= fm -> exists sF,
  run (EWMA_r (round_to single fm) fm (EwmaCfg 4 0 AdjTrue false NaN)) [Fin 3; Fin 3] =
    Some ([Fin 3; Fin (12582913 / 4194304)], sF) /\ 3 < 12582913 / 4194304.
Proof. intros fm H. destruct (ex_constant fm H) as (sF & E). exists sF. split; [exact E|lra]. Qed.
Print Assumptions C110_in_range_refuted.

Example C110_example :
  let cfg := EwmaCfg 4 0 AdjTrue false NaN in
  0 < com cfg /\ 1 + com cfg <= 2 ^ 8 /\ adjust cfg = AdjTrue /\ / 2 ^ 100 <= 3 <= 2 ^ 100 /\
  Forall (bounded 3) [Fin 3; NaN; Fin (-2)] /\ bounded 3 (initial_value cfg).
Proof.
  cbn [com adjust initial_value].
  split; [lra|split; [lra|split; [reflexivity|split; [|split; [|exact I]]]]]; [split|].
  - apply Rle_trans with 1; [|lra]. rewrite <- Rinv_1. apply Rinv_le_contravar; [lra|]. apply pow_R1_Rle; lra.
  - apply Rle_trans with (2 ^ 2); [lra|]. apply Rle_pow; [lra|]. apply Nat.leb_le. reflexivity.
  - apply Forall_cons; [|apply Forall_cons; [exact I|apply Forall_cons; [|apply Forall_nil]]]; cbn [bounded]; apply Rabs_le; lra.
Qed.

(** C111: the variance of EWMVar is never negative, whatever the rounding errors, missing values,
    infinities and overflows.  [pw] is the power function; C111_power: a correctly rounded one meets
    the hypothesis. *)
Theorem C111_nonnegative_adjust :
  forall u eta rd fm pw c xs ys sF,
  rounding u eta rd -> 0 <= u -> 0 <= eta -> 0 <= c -> 100 * u * (1 + c) ^ 2 <= 1 ->
  8 * eta * (1 + c) <= u -> 8 * (1 + c) <= fm ->
  (forall b k, 0 <= b <= 1 -> 2 <= k -> 0 <= pw b k <= rd (b * b)) ->
  run (EWMVar_r (round_to rd fm) pw c AdjTrue) xs = Some (ys, sF) ->
  Forall (fun y => flt y (Fin 0) = false) ys.
Proof. exact @ewmvar_nonneg_true. Qed.
Print Assumptions C111_nonnegative_adjust.

Theorem C111_nonnegative :
  forall u eta rd fm pw c adj xs ys sF,
  rounding u eta rd -> 1 <= fm -> 0 <= c -> adj <> AdjTrue ->
  run (EWMVar_r (round_to rd fm) pw c adj) xs = Some (ys, sF) ->
  Forall (fun y => flt y (Fin 0) = false) ys.
Proof. exact @ewmvar_nonneg_simple. Qed.
Print Assumptions C111_nonnegative.

Theorem C111_power :
  forall u eta rd b k, rounding u eta rd -> 0 <= b <= 1 -> 2 <= k ->
  0 <= rounded_power rd b k <= rd (b * b).
Proof. exact @rounded_power_ok. Qed.
Print Assumptions C111_power.

(** C111 in single precision, every mode. *)
Theorem C111_single :
  forall c adj xs ys sF, 0 <= c -> 1 + c <= 2 ^ 8 ->
  run (EWMVar_r (round_to single max_single) (rounded_power single) c adj) xs = Some (ys, sF) ->
  Forall (fun y => flt y (Fin 0) = false) ys.
Proof.
  intros c adj xs ys sF Hc HC.
  assert (P : 1 <= 2 ^ 100) by (apply pow_R1_Rle; lra).
  destruct (side_single c 1 Hc HC) as (A & B & C & _ & D & _ & _ & E).
  { split; [rewrite <- Rinv_1; apply Rinv_le_contravar; lra|exact P]. }
  destruct adj.
  - apply (ewmvar_nonneg_true _ _ _ _ _ c xs ys sF single_rounding A B Hc C D E).
    intros b k Hb Hk. exact (rounded_power_ok _ _ _ b k single_rounding Hb Hk).
  - apply (ewmvar_nonneg_simple _ _ _ _ _ c AdjFalse xs ys sF single_rounding); auto; [lra|discriminate].
  - apply (ewmvar_nonneg_simple _ _ _ _ _ c AdjLinear xs ys sF single_rounding); auto; [lra|discriminate].
Qed.
Print Assumptions C111_single.

(** C111: with exact arithmetic, the rounded model gives the outputs of the model of C23. *)
Theorem C111_exact_arithmetic :
  forall pw c adj xs ys ys' s s', (forall b n, pw b (INR n) = b ^ n) ->
  run (EWMVar_r (fun v => v) pw c adj) xs = Some (ys, s) -> run (EWMVar c adj) xs = Some (ys', s') ->
  ys = ys'.
Proof. exact @ewmvar_exact. Qed.
Print Assumptions C111_exact_arithmetic.

Example C111_example : 0 <= 4 /\ 1 + 4 <= 2 ^ 8 /\
  exists ys sF, run (EWMVar_r (round_to single max_single) (rounded_power single) 4 AdjTrue)
    [Fin 3; NaN; Fin 3] = Some (ys, sF).
Proof. split; [lra|]. split; [lra|]. eexists. eexists. reflexivity. Qed.

(** C112: Diff gives the rounded difference. *)
Theorem C112_diff :
  forall rnd xs ys ys' s s' m,
  Diff 1 = Some m -> run (Diff_r rnd) xs = Some (ys, s) -> run m xs = Some (ys', s') ->
  ys = map rnd ys'.
Proof. exact @diff_rounded. Qed.
Print Assumptions C112_diff.

(** C112: PctChange: two rounding errors, relative to 1 + |change|; the same infinities and missing
    values. *)
Theorem C112_pct_change :
  forall u eta rd fm fz xs ys ys' s s' m fmeth,
  rounding u eta rd -> 0 <= u <= 1 -> 0 <= eta ->
  PctChange 1 fmeth fz = Some m ->
  run (PctChange_r (round_to rd fm) fz) xs = Some (ys, s) -> run m xs = Some (ys', s') ->
  (forall r, In (Fin r) ys' -> 8 * (Rabs r + 2 + eta) <= fm) ->
  Forall2 (pct_close u eta) ys ys'.
Proof. exact @pct_rounded. Qed.
Print Assumptions C112_pct_change.

(** C112: RollingMean: the error is at most 3 (horizon + 1) rounding errors of the largest
    observation, at every step of a series of any length; the same missing values. *)
Theorem C112_rolling_mean :
  forall u eta rd fm, rounding u eta rd -> 0 <= u <= 1 -> 0 <= eta ->
  forall X, 0 <= X -> forall h, 100 * INR h * u <= 1 -> 4 * eta <= X -> 8 * INR h * X + 8 * X <= fm ->
  forall mp xs ys ys' s s', (1 <= h)%nat -> Forall (bounded X) xs ->
  run (RollingMean_r (round_to rd fm) h mp) xs = Some (ys, s) ->
  run (RollingMean h mp) xs = Some (ys', s') ->
  Forall2 (within (3 * (INR h + 1) * u * X + 3 * eta)) ys ys'.
Proof. exact @rolling_rounded. Qed.
Print Assumptions C112_rolling_mean.

Theorem C112_exact_arithmetic :
  (forall h mp, RollingMean_r (fun v => v) h mp = RollingMean h mp) /\
  Some (Diff_r (fun v => v)) = Diff 1 /\
  forall fz, Some (PctChange_r (fun v => v) fz) = PctChange 1 Pad fz.
Proof. exact (conj rolling_exact (conj diff_exact pct_exact)). Qed.
Print Assumptions C112_exact_arithmetic.

Example C112_example :
  0 <= / 2 ^ 24 <= 1 /\ 0 <= / 2 ^ 150 /\ 100 * INR 20 * / 2 ^ 24 <= 1 /\ 4 * / 2 ^ 150 <= 1 /\
  8 * INR 20 * 1 + 8 * 1 <= max_single /\ Forall (bounded 1) [Fin 1; NaN; Fin (- (1 / 2))].
Proof.
  assert (P : 4 <= 2 ^ 150).
  { apply Rle_trans with (2 ^ 2); [lra|]. apply Rle_pow; [lra|]. apply Nat.leb_le. reflexivity. }
  assert (Q : 1000 <= max_single).
  { apply Rle_trans with (2 := max_single_ge). apply Rle_trans with (2 ^ 10); [lra|].
    apply Rle_pow; [lra|]. apply Nat.leb_le. reflexivity. }
  assert (I0 : 0 < / 2 ^ 150) by (apply Rinv_0_lt_compat; lra).
  assert (I1 : / 2 ^ 150 <= / 4) by (apply Rinv_le_contravar; lra).
  assert (E : INR 20 = 20) by (rewrite INR_IZR_INZ; reflexivity).
  rewrite E. repeat split; try lra.
  apply Forall_cons; [|apply Forall_cons; [exact I|apply Forall_cons; [|apply Forall_nil]]]; cbn [bounded]; apply Rabs_le; lra.
Qed.

(** C113: the diagonal of EWMCov, a variance, can be negative: in single precision, com = 4, the
    variance of the constant series 3, 3 is 0, then -2^-20 (EWMVar, C111, has no such defect). *)
Theorem C113_variance_nonnegative_refuted :
  forall fm, 100 <= fm -> exists sF,
  run (EWMCov_diag_r (round_to single fm) fm (EwmaCfg 4 0 AdjTrue false NaN)) [Fin 3; Fin 3] =
    Some ([Fin 0; Fin (- (1 / 1048576))], sF).
Proof. exact ex_variance. Qed.
Print Assumptions C113_variance_nonnegative_refuted.

(** C113: with exact arithmetic these are the diagonal entries of the model of C24. *)
Theorem C113_exact_arithmetic :
  forall fm cfg xs ys ys' s s',
  run (EWMCov_diag_r (fun v => v) fm cfg) xs = Some (ys, s) ->
  run (EWMCov fm cfg false) (map (fun x => ([x], [x])) xs) = Some (ys', s') ->
  ys' = map (fun y => [[y]]) ys.
Proof. exact @ewmcov_diag_exact. Qed.
Print Assumptions C113_exact_arithmetic.
