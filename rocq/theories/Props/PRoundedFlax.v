(** Property theorems C149: the flax modules and the haiku modules in floating point arithmetic.
    [same_outputs], [index_safe], [not_inf]: Spec/FlaxSpec.v; [rounding], [round_to], [single], [double], [bounded]:
    Spec/RoundSpec.v and Model/Rounded.v; [all_finite], [no_minimum]: Spec/RoundFlaxSpec.v.
    [rnd] is applied to the result of every operation: for any [rnd], equal outputs are equal bit for bit. *)
From Coq Require Import List ZArith Reals Lra Lia.
From Verif Require Import Model.Unroll Model.Float Model.Modules Model.Ewm Model.Rounded Model.FlaxModules Model.RoundedFlax
  Spec.FlaxSpec Spec.RoundSpec Spec.RoundFlaxSpec Proofs.RoundProofs7 Proofs.RoundFlaxProofs Proofs.RoundFlaxProofs2.
Import ListNotations.
Local Open Scope R_scope.

(** C149: the flax EWMA returns the result, com_eff and nobs of the haiku one bit for bit, as long as no input is
    missing just after an average which overflowed. *)
Theorem C149_ewma :
  forall rnd fm cfg xs means sF,
  xs <> [] -> run (EWMA_r rnd fm (no_minimum cfg)) xs = Some (means, sF) ->
  (forall t, nth_error xs t = Some NaN -> not_inf (nth t (initial_value cfg :: means) NaN)) ->
  same_outputs (FEWMA_r rnd fm cfg) (EWMA_info_r rnd fm cfg) xs.
Proof. exact @fewma_same_r. Qed.
Print Assumptions C149_ewma.

(** ... and only then, without a minimal number of observations. *)
Theorem C149_ewma_only_then :
  forall rnd fm cfg xs means sF,
  min_periods cfg = 0%Z -> run (EWMA_r rnd fm cfg) xs = Some (means, sF) ->
  same_outputs (FEWMA_r rnd fm cfg) (EWMA_info_r rnd fm cfg) xs ->
  forall t, nth_error xs t = Some NaN -> not_inf (nth t (initial_value cfg :: means) NaN).
Proof. exact @fewma_same_r_conv. Qed.
Print Assumptions C149_ewma_only_then.

(** C149 fails after an overflow: in single precision with com = 1, on the largest float twice then a missing value, the
    average is infinite at the second step; at the third, the haiku module returns the largest float and the flax one an
    infinity. *)
Theorem C149_ewma_overflow_refuted :
  let cfg := EwmaCfg 1 0 AdjTrue false NaN in
  let m := max_single in
  exists s,
  run (EWMA_r (round_to single m) m cfg) [Fin m; Fin m; NaN] = Some ([Fin m; PInf; Fin m], s) /\
  map fst (flax_from_scratch (FEWMA_r (round_to single m) m cfg) [Fin m; Fin m; NaN]) = [Fin m; PInf; PInf].
Proof.
  exact (overflow_differs _ _ single max_single RoundProofs3.single_rounding (proj1 small_units) (proj2 small_units)
    max_single_100 max_single_fixed).
Qed.
Print Assumptions C149_ewma_overflow_refuted.

(** C149 in single precision: com < 256, observations between 2^-100 and 2^100 at most: the errors of the flax EWMA are
    those of C110. *)
Theorem C149_ewma_single :
  forall cfg X xs,
  0 < com cfg -> 1 + com cfg <= 2 ^ 8 -> adjust cfg = AdjTrue -> / 2 ^ 100 <= X <= 2 ^ 100 ->
  xs <> [] -> Forall (bounded X) xs -> bounded X (initial_value cfg) ->
  same_outputs (FEWMA_r (round_to single max_single) max_single cfg)
    (EWMA_info_r (round_to single max_single) max_single cfg) xs.
Proof.
  intros cfg X xs Hc HC Ha HX.
  destruct (side_single (com cfg) X ltac:(lra) HC HX) as (A & B & C & D & _ & E & F & _).
  exact (fewma_rounded _ _ _ _ cfg X xs RoundProofs3.single_rounding A B Hc Ha C D E F).
Qed.
Print Assumptions C149_ewma_single.

(** C149 in double precision: com < 2^23, observations between 2^-900 and 2^900 at most. *)
Theorem C149_ewma_double :
  forall cfg X xs,
  0 < com cfg -> 1 + com cfg <= 2 ^ 23 -> adjust cfg = AdjTrue -> / 2 ^ 900 <= X <= 2 ^ 900 ->
  xs <> [] -> Forall (bounded X) xs -> bounded X (initial_value cfg) ->
  same_outputs (FEWMA_r (round_to double max_double) max_double cfg)
    (EWMA_info_r (round_to double max_double) max_double cfg) xs.
Proof.
  intros cfg X xs Hc HC Ha HX.
  destruct (side_double (com cfg) X ltac:(lra) HC HX) as (A & B & C & D & _ & E & F & _).
  exact (fewma_rounded _ _ _ _ cfg X xs RoundProofs3.double_rounding A B Hc Ha C D E F).
Qed.
Print Assumptions C149_ewma_double.

(** C149: EWMVar, always. *)
Theorem C149_ewmvar :
  forall rnd pw com_ adj xs, xs <> [] ->
  same_outputs (FEWMVar_r rnd pw com_ adj) (EWMVar_r rnd pw com_ adj) xs.
Proof. exact @fewmvar_same_r. Qed.
Print Assumptions C149_ewmvar.

(** C149: EWMCov with the same com, on finite inputs, whatever overflows. *)
Theorem C149_ewmcov :
  forall rd fm cfg assume_centered xs,
  xs <> [] -> Forall (fun xy => all_finite (fst xy) /\ all_finite (snd xy)) xs ->
  same_outputs (FEWMCov_r (round_to rd fm) fm cfg assume_centered) (EWMCov_r (round_to rd fm) fm cfg assume_centered) xs.
Proof. exact @fewmcov_same_r. Qed.
Print Assumptions C149_ewmcov.

(** The com used by the flax EWMCov is that given up to ten rounding errors of 1 + com (in Python floats) ... *)
Theorem C149_ewmcov_com :
  forall c, 0 <= c -> 1 + c <= 2 ^ 1000 ->
  exists c', fewmcov_com_r double (Some c) None = Some c' /\ Rabs (c' - c) <= 10 * / 2 ^ 53 * (1 + c).
Proof. exact again_double. Qed.
Print Assumptions C149_ewmcov_com.

(** ... not exactly (C50_ewmcov_com holds in exact arithmetic): 2^-60 becomes 0. *)
Theorem C149_ewmcov_com_refuted :
  fewmcov_com_r double (Some (/ 2 ^ 60)) None = Some 0 /\ 0 < / 2 ^ 60.
Proof. split; [exact again_tiny|]. apply Rinv_0_lt_compat, pow_lt. lra. Qed.
Print Assumptions C149_ewmcov_com_refuted.

(** C149: Diff, PctChange with forward filling, always. *)
Theorem C149_diff : forall rnd xs, xs <> [] -> same_outputs (FDiff_r rnd) (Diff_r rnd) xs.
Proof. exact @fdiff_same_r. Qed.
Print Assumptions C149_diff.

Theorem C149_pct_change :
  forall rnd fillna_zero xs, xs <> [] -> same_outputs (FPctChange_r rnd fillna_zero) (PctChange_r rnd fillna_zero) xs.
Proof. exact @fpct_same_r. Qed.
Print Assumptions C149_pct_change.

(** C149: RollingMean (within the limit of C49): the ring buffer is read in the order of arrival, so that even the
    rounded sums are the same. *)
Theorem C149_rolling_mean :
  forall rnd horizon min_periods_ xs,
  (0 < horizon)%nat -> xs <> [] -> index_safe horizon xs ->
  same_outputs (FRollingMean_r rnd horizon min_periods_) (RollingMean_r rnd horizon min_periods_) xs.
Proof. exact @frolling_same_r. Qed.
Print Assumptions C149_rolling_mean.

(** C149: with exact arithmetic the rounded flax models are those of C50. *)
Theorem C149_exact_arithmetic :
  (forall fm cfg, FEWMA_r (fun v => v) fm cfg = FEWMA fm cfg) /\
  (forall fm cfg ac, FEWMCov_r (fun v => v) fm cfg ac = FEWMCov fm cfg ac) /\
  Some (FDiff_r (fun v => v)) = FDiff 1 /\
  (forall z, Some (FPctChange_r (fun v => v) z) = FPctChange 1 true z) /\
  (forall h mp, FRollingMean_r (fun v => v) h mp = FRollingMean h mp) /\
  (forall c a, fewmcov_com_r (fun v => v) c a = fewmcov_com c a).
Proof.
  split; [reflexivity|split; [reflexivity|split; [reflexivity|split; [reflexivity|split; [reflexivity|]]]]].
  intros [c|] [a|]; reflexivity.
Qed.
Print Assumptions C149_exact_arithmetic.

(** The hypotheses hold on a series with a missing value, on a pair of vectors, for a window of 3. *)
Example C149_example :
  let cfg := EwmaCfg 4 2 AdjTrue false NaN in
  0 < com cfg /\ 1 + com cfg <= 2 ^ 8 /\ / 2 ^ 100 <= 3 <= 2 ^ 100 /\
  Forall (bounded 3) [Fin 3; NaN; Fin (-2)] /\ bounded 3 (initial_value cfg) /\
  Forall (fun xy => all_finite (fst xy) /\ all_finite (snd xy)) [([Fin 1; Fin 2], [Fin 3])] /\
  index_safe 3 [Fin 3; NaN; Fin (-2)] /\ 0 <= 4 /\ 1 + 4 <= 2 ^ 1000.
Proof.
  cbn [com initial_value bounded].
  split; [lra|split; [lra|split; [|split; [|split; [exact I|split; [|split; [left; reflexivity|split; [lra|]]]]]]]].
  - split.
    + apply Rle_trans with 1; [|lra]. rewrite <- Rinv_1. apply Rinv_le_contravar; [lra|]. apply pow_R1_Rle; lra.
    + apply Rle_trans with (2 ^ 2); [lra|]. apply Rle_pow; [lra|lia].
  - repeat (apply Forall_cons; [cbn [bounded]; try exact I; apply Rabs_le; lra|]). apply Forall_nil.
  - constructor; [|constructor]. cbn [fst snd]. unfold all_finite.
    split; repeat (apply Forall_cons; [eexists; reflexivity|]); apply Forall_nil.
  - apply Rle_trans with (2 ^ 3); [lra|]. apply Rle_pow; [lra|lia].
Qed.
