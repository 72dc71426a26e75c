(** Property theorems C128, C129: EWMCov under affine maps, EWMVar forgets.  Vocabulary: Spec/CovSpec.v, Spec/PortfolioSpec.v. *)
From Coq Require Import ZArith List Bool Arith Reals Lra Lia.
From Verif Require Import Model.Unroll Model.Float Model.Modules Model.Ewm Spec.SeriesSpec Spec.EwmSpec Spec.CovSpec Spec.PortfolioSpec
  Proofs.EwmExamples Proofs.RunFacts Proofs.PortfolioProofs Proofs.PortfolioProofs2.
Import ListNotations.
Local Open Scope R_scope.

(** C128: on vectors entirely observed or entirely missing, the covariance of A x + a and B y + b is A EWMCov(x, y) B^T,
    and is defined at the same steps. *)
Theorem C128_affine :
  forall fm cfg p q p' q' A a B b vs Ms sF Ms' sF',
  0 <= com cfg -> initial_value cfg = NaN ->
  run (EWMCov fm cfg false) (map (pair_row p q) vs) = Some (Ms, sF) ->
  run (EWMCov fm cfg false) (map (pair_row p' q') (map (option_map (fun v => (affine p A a (fst v), affine q B b (snd v)))) vs)) = Some (Ms', sF') ->
  forall t M M', nth_error Ms t = Some M -> nth_error Ms' t = Some M' ->
  (entries p q M (fun _ _ => NaN) /\ entries p' q' M' (fun _ _ => NaN)) \/
  exists C, entries p q M (fun i j => Fin (C i j)) /\
    entries p' q' M' (fun k l => Fin (sum_n p (fun i => sum_n q (fun j => A k i * B l j * C i j)))).
Proof. exact ewmcov_affine. Qed.
Print Assumptions C128_affine.

(** C128: the variance of a portfolio is the quadratic form of the covariance matrix. *)
Theorem C128_portfolio_variance :
  forall fm cfg p c (vs : list (option (nat -> R))) Ms sF ws sV,
  0 <= com cfg -> initial_value cfg = NaN -> (0 < p)%nat ->
  run (EWMCov fm cfg false) (map (fun o => (row_of p o, row_of p o)) vs) = Some (Ms, sF) ->
  run (EWMVar (com cfg) (adjust cfg)) (map (fun o => of_option (option_map (portfolio p c) o)) vs) = Some (ws, sV) ->
  forall t M C, nth_error Ms t = Some M ->
  ignore_na cfg = true \/ complete_from_first (map (option_map (portfolio p c)) (firstn (t + 1) vs)) ->
  entries p p M (fun i j => Fin (C i j)) -> nth_error ws t = Some (Fin (quad p c C)).
Proof. exact ewmcov_portfolio. Qed.
Print Assumptions C128_portfolio_variance.

(** C128: correlations lie between -1 and 1. *)
Theorem C128_correlation :
  forall fm cfg p (vs : list (option (nat -> R))) Ms sF,
  0 <= com cfg -> initial_value cfg = NaN ->
  run (EWMCov fm cfg false) (map (fun o => (row_of p o, row_of p o)) vs) = Some (Ms, sF) ->
  forall t M C, nth_error Ms t = Some M -> entries p p M (fun i j => Fin (C i j)) ->
  forall i j, (i < p)%nat -> (j < p)%nat -> C i j * C i j <= C i i * C j j.
Proof. exact ewmcov_cauchy_schwarz. Qed.
Print Assumptions C128_correlation.

(** C128: not when one component is missing: a covariance of -1 between variances 0 and 1. *)
Theorem C128_pairwise_missing_refuted :
  exists cfg (xs : list (list (option R))) Ms sF M a b c, 0 <= com cfg /\ initial_value cfg = NaN /\
  Forall (fun x => length x = 2%nat) xs /\
  run (EWMCov 1000 cfg false) (map (fun x => (map of_option x, map of_option x)) xs) = Some (Ms, sF) /\
  nth_error Ms 1 = Some M /\ nth2 M 0 0 = Some (Fin a) /\ nth2 M 1 1 = Some (Fin b) /\ nth2 M 0 1 = Some (Fin c) /\
  a * b < c * c /\ exists u v, u * u * a + 2 * u * v * c + v * v * b < 0.
Proof.
  destruct ewmcov_pairwise as [sF E].
  exists (EwmaCfg 1 0 AdjFalse false NaN), [[Some 1; Some 1]; [None; Some 3]]. do 2 eexists. eexists _, 0, 1, (-1).
  split; [cbn; lra|]. split; [reflexivity|]. split; [repeat constructor|]. split; [exact E|].
  split; [reflexivity|]. split; [reflexivity|]. split; [reflexivity|]. split; [reflexivity|].
  split; [lra|]. exists 1, 1. lra.
Qed.
Print Assumptions C128_pairwise_missing_refuted.

Example C128_example :
  let v := fun a b : R => fun i : nat => match i with O => a | _ => b end in
  let vs := [Some (v 1 2); Some (v 3 2)] in
  exists ws sV, run (EWMVar 1 AdjFalse) (map (fun o => of_option (option_map (portfolio 2 (v 2 5)) o)) vs) = Some (ws, sV) /\
  nth_error ws 1 = Some (Fin 4).
Proof.
  intros v vs. destruct ewmcov_example as [sF E].
  assert (T : exists ws sV, run (EWMVar 1 AdjFalse) (map (fun o => of_option (option_map (portfolio 2 (v 2 5)) o)) vs) = Some (ws, sV)) by apply run_total.
  destruct T as (ws & sV & T). exists ws, sV. split; [exact T|].
  set (C := fun i j : nat => match i, j with O, O => 1 | _, _ => 0 end).
  replace 4 with (quad 2 (v 2 5) C) by (unfold quad, v, C; cbn; lra).
  eapply (C128_portfolio_variance 1000 (EwmaCfg 1 0 AdjFalse false NaN) 2 (v 2 5) vs); [cbn; lra|reflexivity|lia|exact E|exact T|reflexivity| |].
  - right. cbn. repeat constructor. discriminate.
  - intros [|[|i]] [|[|j]] Hi Hj; try lia; reflexivity.
Qed.

(** C129: EWMVar is the average squared distance to any point c minus the square of the distance of the average to c
    (the averages being EWMA with ignore_na). *)
Theorem C129_ewmvar_moments :
  forall fm com_ adj c os vs sV ms sM qs sQ,
  0 <= com_ ->
  run (EWMVar com_ adj) (map of_option os) = Some (vs, sV) ->
  run (EWMA fm (EwmaCfg com_ 0 adj true NaN)) (map of_option os) = Some (ms, sM) ->
  run (EWMA fm (EwmaCfg com_ 0 adj true NaN)) (map of_option (map (option_map (fun x => (x - c) ^ 2)) os)) = Some (qs, sQ) ->
  forall t m, (t < length os)%nat -> nth_error ms t = Some (Fin m) ->
  exists q, nth_error qs t = Some (Fin q) /\ nth_error vs t = Some (Fin (q - (m - c) ^ 2)).
Proof. exact ewmvar_moments. Qed.
Print Assumptions C129_ewmvar_moments.

(** C129: once the observations stay within r of c, EWMVar comes below r^2 up to a term which decays by com/(1+com) at
    each observation, whatever happened before. *)
Theorem C129_ewmvar_forgets :
  forall fm com_ adj c r os vs sV ms sM,
  0 <= com_ -> 0 <= r ->
  run (EWMVar com_ adj) (map of_option os) = Some (vs, sV) ->
  run (EWMA fm (EwmaCfg com_ 0 adj true NaN)) (map of_option os) = Some (ms, sM) ->
  forall s t v m, (s <= t < length os)%nat ->
  (forall k x, (s < k <= t)%nat -> nth_error os k = Some (Some x) -> Rabs (x - c) <= r) ->
  nth_error vs s = Some (Fin v) -> nth_error ms s = Some (Fin m) ->
  exists v', nth_error vs t = Some (Fin v') /\
    v' <= r ^ 2 + (com_ / (1 + com_)) ^ count_obs (firstn (t - s) (skipn (s + 1) os)) * Rmax 0 (v + (m - c) ^ 2 - r ^ 2).
Proof. exact ewmvar_forgets. Qed.
Print Assumptions C129_ewmvar_forgets.

(* after 0 and 4 (variance 4, mean 2) one observation 2 leaves a variance of at most 1/2 (4 + (2 - 2)^2) = 2 *)
Example C129_example :
  exists sV sM, run (EWMVar 1 AdjFalse) (map of_option [Some 0; Some 4; Some 2]) = Some ([Fin 0; Fin 4; Fin 2], sV) /\
  run (EWMA 1000 (EwmaCfg 1 0 AdjFalse true NaN)) (map of_option [Some 0; Some 4; Some 2]) = Some ([Fin 0; Fin 2; Fin 2], sM).
Proof.
  do 2 eexists. cbn [map of_option]. split.
  - unfold EWMVar. rewrite run_eq. unfold stepf, ewmvar_step. fl_eval.
    match goal with |- Some (?a, ?b) = Some (?c, _) => replace a with c; [reflexivity|] end. fin_eq.
  - unfold EWMA. rewrite run_eq. unfold stepf, ewma_step. fl_eval.
    match goal with |- Some (?a, ?b) = Some (?c, _) => replace a with c; [reflexivity|] end. fin_eq.
Qed.
