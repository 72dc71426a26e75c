(** Property theorems C143-C144: rounding errors of covariances and variances do not accumulate.
    [rounding u eta rd], [round_to rd fm], [single], [double], [within], [bounded], [counts_to],
    [power_within]: Spec/RoundSpec.v.  [EWMCov_r rnd], [EWMVar_r rnd]: every operation rounded by [rnd]. *)
From Coq Require Import List ZArith Reals Lra Lia.
From Verif Require Import Model.Unroll Model.Float Model.Modules Model.Ewm Model.Rounded Spec.EwmSpec Spec.CovSpec
  Spec.RoundSpec Proofs.RunFacts Proofs.RoundProofs3 Proofs.RoundProofs7 Proofs.RoundProofs8 Proofs.RoundProofs9
  Proofs.RoundProofs12 Proofs.RoundProofs13.
Import ListNotations.
Local Open Scope R_scope.

(** C143: at every time, each entry of the covariance is within 400 u (1 + com)^2 X^2 of the exactly
    computed one (same missing values), whatever the length of the series. *)
Theorem C143_error :
  forall u eta rd fm cfg X,
  rounding u eta rd -> 0 <= u -> 0 <= eta ->
  0 <= com cfg -> adjust cfg <> AdjLinear -> initial_value cfg = NaN ->
  100 * u * (1 + com cfg) ^ 2 <= 1 -> 0 <= X ->
  eta * (1 + com cfg) <= u * Rmin 1 (X * X) -> 16 * (1 + com cfg) * Rmax 1 (X * X) <= fm ->
  forall centered p q xs ys s ys' s',
  Forall (shaped p q) xs ->
  Forall (fun xy => Forall (bounded X) (fst xy) /\ Forall (bounded X) (snd xy)) xs ->
  run (EWMCov_r (round_to rd fm) fm cfg centered) xs = Some (ys, s) ->
  run (EWMCov fm cfg centered) xs = Some (ys', s') ->
  length ys = length xs /\ length ys' = length xs /\
  forall t M M' i j, nth_error ys t = Some M -> nth_error ys' t = Some M' -> (i < p)%nat -> (j < q)%nat ->
  exists v v', nth2 M i j = Some v /\ nth2 M' i j = Some v' /\
    within (400 * u * (1 + com cfg) ^ 2 * (X * X)) v v'.
Proof. exact @cov_rounded. Qed.
Print Assumptions C143_error.

(** C143: so a variance on the diagonal can be negative (C113), but not by more than that. *)
Theorem C143_variance_almost_nonnegative :
  forall u eta rd fm cfg X,
  rounding u eta rd -> 0 <= u -> 0 <= eta ->
  0 <= com cfg -> adjust cfg <> AdjLinear -> initial_value cfg = NaN ->
  100 * u * (1 + com cfg) ^ 2 <= 1 -> 0 <= X ->
  eta * (1 + com cfg) <= u * Rmin 1 (X * X) -> 16 * (1 + com cfg) * Rmax 1 (X * X) <= fm ->
  forall p xs ys s,
  Forall (fun x => length x = p /\ Forall (bounded X) x) xs ->
  run (EWMCov_r (round_to rd fm) fm cfg false) (map (fun x => (x, x)) xs) = Some (ys, s) ->
  forall t M i, nth_error ys t = Some M -> (i < p)%nat ->
  exists v, nth2 M i i = Some v /\
    (v = NaN \/ exists r, v = Fin r /\ - (400 * u * (1 + com cfg) ^ 2 * (X * X)) <= r).
Proof. exact @cov_almost_nonneg. Qed.
Print Assumptions C143_variance_almost_nonnegative.

(** C143 in single precision: com < 256, observations between 2^-48 and 2^48 at most. *)
Theorem C143_single :
  forall cfg X centered p q xs ys s ys' s',
  0 <= com cfg -> 1 + com cfg <= 2 ^ 8 -> adjust cfg <> AdjLinear -> initial_value cfg = NaN ->
  / 2 ^ 48 <= X <= 2 ^ 48 ->
  Forall (shaped p q) xs ->
  Forall (fun xy => Forall (bounded X) (fst xy) /\ Forall (bounded X) (snd xy)) xs ->
  run (EWMCov_r (round_to single max_single) max_single cfg centered) xs = Some (ys, s) ->
  run (EWMCov max_single cfg centered) xs = Some (ys', s') ->
  forall t M M' i j, nth_error ys t = Some M -> nth_error ys' t = Some M' -> (i < p)%nat -> (j < q)%nat ->
  exists v v', nth2 M i j = Some v /\ nth2 M' i j = Some v' /\
    within (400 * / 2 ^ 24 * (1 + com cfg) ^ 2 * (X * X)) v v'.
Proof.
  intros cfg X ce p q xs ys s ys' s' Hc HC Ha Hi HX Sh Bd R1 R2.
  destruct (side_single_sq (com cfg) X Hc HC HX) as (A & B & D & E & F & G).
  assert (G' : 16 * (1 + com cfg) * Rmax 1 (X * X) <= max_single).
  { assert (0 <= (1 + com cfg) * Rmax 1 (X * X)); [|lra]. apply Rmult_le_pos; [lra|]. pose proof (Rmax_l 1 (X * X)). lra. }
  exact (proj2 (proj2 (cov_rounded _ _ _ _ cfg X single_rounding A B Hc Ha Hi D E F G' ce p q xs ys s ys' s' Sh Bd R1 R2))).
Qed.
Print Assumptions C143_single.

(** C143 in double precision: com < 2^23, observations between 2^-448 and 2^448 at most. *)
Theorem C143_double :
  forall cfg X centered p q xs ys s ys' s',
  0 <= com cfg -> 1 + com cfg <= 2 ^ 23 -> adjust cfg <> AdjLinear -> initial_value cfg = NaN ->
  / 2 ^ 448 <= X <= 2 ^ 448 ->
  Forall (shaped p q) xs ->
  Forall (fun xy => Forall (bounded X) (fst xy) /\ Forall (bounded X) (snd xy)) xs ->
  run (EWMCov_r (round_to double max_double) max_double cfg centered) xs = Some (ys, s) ->
  run (EWMCov max_double cfg centered) xs = Some (ys', s') ->
  forall t M M' i j, nth_error ys t = Some M -> nth_error ys' t = Some M' -> (i < p)%nat -> (j < q)%nat ->
  exists v v', nth2 M i j = Some v /\ nth2 M' i j = Some v' /\
    within (400 * / 2 ^ 53 * (1 + com cfg) ^ 2 * (X * X)) v v'.
Proof.
  intros cfg X ce p q xs ys s ys' s' Hc HC Ha Hi HX Sh Bd R1 R2.
  destruct (side_double_sq (com cfg) X Hc HC HX) as (A & B & D & E & F & G).
  assert (G' : 16 * (1 + com cfg) * Rmax 1 (X * X) <= max_double).
  { assert (0 <= (1 + com cfg) * Rmax 1 (X * X)); [|lra]. apply Rmult_le_pos; [lra|]. pose proof (Rmax_l 1 (X * X)). lra. }
  exact (proj2 (proj2 (cov_rounded _ _ _ _ cfg X double_rounding A B Hc Ha Hi D E F G' ce p q xs ys s ys' s' Sh Bd R1 R2))).
Qed.
Print Assumptions C143_double.

(** C143: exchanging x and y transposes the computed matrix exactly, for every rounding function: with
    x = y the computed covariance is symmetric. *)
Theorem C143_transpose :
  forall rnd fm cfg centered p q xs ys sF ys' sF',
  Forall (shaped p q) xs -> run (EWMCov_r rnd fm cfg centered) xs = Some (ys, sF) ->
  run (EWMCov_r rnd fm cfg centered) (map (fun xy => (snd xy, fst xy)) xs) = Some (ys', sF') ->
  forall t M M', nth_error ys t = Some M -> nth_error ys' t = Some M' ->
  forall i j, (i < p)%nat -> (j < q)%nat ->
  exists v, nth2 M i j = Some v /\ nth2 M' j i = Some v.
Proof. exact @cov_r_transpose. Qed.
Print Assumptions C143_transpose.

(** C143: with exact arithmetic the rounded model is the model of C24; the scalar model of C113 is its
    diagonal. *)
Theorem C143_exact_arithmetic :
  (forall fm cfg centered, EWMCov_r (fun v => v) fm cfg centered = EWMCov fm cfg centered) /\
  (forall rnd fm cfg xs ys ys' s s',
    run (EWMCov_diag_r rnd fm cfg) xs = Some (ys, s) ->
    run (EWMCov_r rnd fm cfg false) (map (fun x => ([x], [x])) xs) = Some (ys', s') ->
    ys' = map (fun y => [[y]]) ys).
Proof. exact (conj ewmcov_exact (@ewmcov_diag_same)). Qed.
Print Assumptions C143_exact_arithmetic.

(** The hypotheses are met: com = 9, |values| at most 4, one missing value. *)
Example C143_example :
  let cfg := EwmaCfg 9 0 AdjTrue false NaN in
  let xs := [([Fin 3; Fin (-1)], [Fin 4]); ([Fin 2; NaN], [Fin 1]); ([Fin 1; Fin 4], [NaN])] in
  exists ys s ys' s',
  run (EWMCov_r (round_to single max_single) max_single cfg false) xs = Some (ys, s) /\
  run (EWMCov max_single cfg false) xs = Some (ys', s') /\
  forall t M M' i j, nth_error ys t = Some M -> nth_error ys' t = Some M' -> (i < 2)%nat -> (j < 1)%nat ->
  exists v v', nth2 M i j = Some v /\ nth2 M' i j = Some v' /\ within (640000 * / 2 ^ 24) v v'.
Proof.
  cbv zeta. set (cfg := EwmaCfg 9 0 AdjTrue false NaN).
  destruct (run_total (fun xy => ewmcov_init cfg (fst xy) (snd xy)) (ewmcov_step_r (round_to single max_single) max_single cfg false)
    ([Fin 3; Fin (-1)], [Fin 4]) [([Fin 2; NaN], [Fin 1]); ([Fin 1; Fin 4], [NaN])]) as (ys & s & R1).
  destruct (run_total (fun xy => ewmcov_init cfg (fst xy) (snd xy)) (ewmcov_step max_single cfg false)
    ([Fin 3; Fin (-1)], [Fin 4]) [([Fin 2; NaN], [Fin 1]); ([Fin 1; Fin 4], [NaN])]) as (ys' & s' & R2).
  exists ys, s, ys', s'. split; [exact R1|]. split; [exact R2|].
  replace (640000 * / 2 ^ 24) with (400 * / 2 ^ 24 * (1 + com cfg) ^ 2 * (4 * 4)) by (unfold cfg; cbn [com]; ring).
  assert (H1 : 0 <= com cfg) by (unfold cfg; cbn [com]; lra).
  assert (H2 : 1 + com cfg <= 2 ^ 8) by (unfold cfg; cbn [com]; lra).
  assert (H3 : / 2 ^ 48 <= 4 <= 2 ^ 48).
  { split; [|apply Rle_trans with (2 ^ 2); [lra|apply Rle_pow; [lra|lia]]].
    apply Rle_trans with 1; [|lra]. rewrite <- Rinv_1. apply Rinv_le_contravar; [lra|]. apply pow_R1_Rle; lra. }
  refine (C143_single cfg 4 false 2 1 _ _ _ _ _ H1 H2 _ eq_refl H3 _ _ R1 R2).
  - discriminate.
  - repeat (apply Forall_cons; [split; reflexivity|]). apply Forall_nil.
  - repeat (apply Forall_cons; [split; cbn [fst snd]; repeat (apply Forall_cons; [cbn [bounded]; try exact I; apply Rabs_le; lra|]); apply Forall_nil|]).
    apply Forall_nil.
Qed.

(** C144: at every time the computed EWMVar is within 1700 u (1 + com) X^2 of the exactly computed one,
    whatever the length of the series and the adjustment mode; the count is rounded too, and stops at
    [N]. *)
Theorem C144_error :
  forall u eta rd fm pw N c X adj,
  rounding u eta rd -> 0 <= u -> 0 <= eta ->
  0 <= c -> 100 * u * (1 + c) ^ 2 <= 1 -> 0 <= X ->
  eta * (1 + c) <= u * Rmin 1 (X * X) -> 64 * (1 + c) * Rmax 1 (X * X) <= fm ->
  power_within (2 * u) pw -> counts_to rd N -> 1 <= 2 * u * IZR N -> IZR N <= fm ->
  forall xs ys s ys' s',
  Forall (bounded X) xs ->
  run (EWMVar_r (round_to rd fm) pw c adj) xs = Some (ys, s) -> run (EWMVar c adj) xs = Some (ys', s') ->
  length ys = length xs /\
  forall t y y', nth_error ys t = Some y -> nth_error ys' t = Some y' ->
    within (1700 * u * (1 + c) * (X * X)) y y'.
Proof. exact @ewmvar_rounded. Qed.
Print Assumptions C144_error.

(** C144: counting in the two formats. *)
Theorem C144_counts : counts_to single (2 ^ 24) /\ counts_to double (2 ^ 53).
Proof. exact (conj single_counts double_counts). Qed.
Print Assumptions C144_counts.

(** C144 in single precision, with a correctly rounded power function. *)
Theorem C144_single :
  forall c X adj xs ys s ys' s',
  0 <= c -> 1 + c <= 2 ^ 8 -> / 2 ^ 48 <= X <= 2 ^ 48 -> Forall (bounded X) xs ->
  run (EWMVar_r (round_to single max_single) (rounded_power single) c adj) xs = Some (ys, s) ->
  run (EWMVar c adj) xs = Some (ys', s') ->
  forall t y y', nth_error ys t = Some y -> nth_error ys' t = Some y' ->
    within (1700 * / 2 ^ 24 * (1 + c) * (X * X)) y y'.
Proof.
  intros c X adj xs ys s ys' s' Hc HC HX Bd R1 R2.
  destruct (side_single_sq c X Hc HC HX) as (A & B & D & E & F & G).
  destruct (var_side (/ 2 ^ 24) (/ 2 ^ 150) max_single 127 24 150 eq_refl eq_refl ltac:(lia) ltac:(lia) max_single_ge ltac:(lia)) as (V1 & V2 & V3).
  exact (proj2 (ewmvar_rounded _ _ _ _ _ (2 ^ 24) c X adj single_rounding A B Hc D E F G
    (power_rounded _ _ _ single_rounding A V1) single_counts V2 V3 xs ys s ys' s' Bd R1 R2)).
Qed.
Print Assumptions C144_single.

(** C144 in double precision, with a correctly rounded power function. *)
Theorem C144_double :
  forall c X adj xs ys s ys' s',
  0 <= c -> 1 + c <= 2 ^ 23 -> / 2 ^ 448 <= X <= 2 ^ 448 -> Forall (bounded X) xs ->
  run (EWMVar_r (round_to double max_double) (rounded_power double) c adj) xs = Some (ys, s) ->
  run (EWMVar c adj) xs = Some (ys', s') ->
  forall t y y', nth_error ys t = Some y -> nth_error ys' t = Some y' ->
    within (1700 * / 2 ^ 53 * (1 + c) * (X * X)) y y'.
Proof.
  intros c X adj xs ys s ys' s' Hc HC HX Bd R1 R2.
  destruct (side_double_sq c X Hc HC HX) as (A & B & D & E & F & G).
  destruct (var_side (/ 2 ^ 53) (/ 2 ^ 1075) max_double 1023 53 1075 eq_refl eq_refl ltac:(lia) ltac:(lia) max_double_ge ltac:(lia)) as (V1 & V2 & V3).
  exact (proj2 (ewmvar_rounded _ _ _ _ _ (2 ^ 53) c X adj double_rounding A B Hc D E F G
    (power_rounded _ _ _ double_rounding A V1) double_counts V2 V3 xs ys s ys' s' Bd R1 R2)).
Qed.
Print Assumptions C144_double.

Example C144_example :
  let xs := [NaN; Fin 3; Fin (-2); NaN; Fin 4] in
  forall adj, exists ys s ys' s',
  run (EWMVar_r (round_to single max_single) (rounded_power single) 9 adj) xs = Some (ys, s) /\
  run (EWMVar 9 adj) xs = Some (ys', s') /\
  forall t y y', nth_error ys t = Some y -> nth_error ys' t = Some y' -> within (272000 * / 2 ^ 24) y y'.
Proof.
  cbv zeta. intros adj.
  destruct (run_total (fun _ : fl => EwmvarStateR NaN NaN (Fin 0)) (ewmvar_step_r (round_to single max_single) (rounded_power single) 9 adj)
    NaN [Fin 3; Fin (-2); NaN; Fin 4]) as (ys & s & R1).
  destruct (run_total (fun _ : fl => ewmvar_init) (ewmvar_step 9 adj) NaN [Fin 3; Fin (-2); NaN; Fin 4]) as (ys' & s' & R2).
  exists ys, s, ys', s'. split; [exact R1|]. split; [exact R2|].
  replace (272000 * / 2 ^ 24) with (1700 * / 2 ^ 24 * (1 + 9) * (4 * 4)) by ring.
  assert (H2 : 1 + 9 <= 2 ^ 8) by lra.
  assert (H3 : / 2 ^ 48 <= 4 <= 2 ^ 48).
  { split; [|apply Rle_trans with (2 ^ 2); [lra|apply Rle_pow; [lra|lia]]].
    apply Rle_trans with 1; [|lra]. rewrite <- Rinv_1. apply Rinv_le_contravar; [lra|]. apply pow_R1_Rle; lra. }
  refine (C144_single 9 4 adj _ _ _ _ _ ltac:(lra) H2 H3 _ R1 R2).
  repeat (apply Forall_cons; [cbn [bounded]; try exact I; apply Rabs_le; lra|]). apply Forall_nil.
Qed.
