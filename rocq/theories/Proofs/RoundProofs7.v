(** The rounded models with exact arithmetic are the models of Model/Modules.v and Model/Ewm.v; the
    hypotheses of the rounding theorems for single and double precision. *)
From Coq Require Import List ZArith Reals Lra Lia Bool.
From Flocq Require Import Core.
From Verif Require Import Model.Unroll Model.Float Model.Modules Model.Ewm Model.Rounded
  Spec.EwmSpec Spec.RoundSpec Proofs.FloatFacts Proofs.RunFacts Proofs.EwmProofs Proofs.RoundProofs Proofs.RoundProofs2
  Proofs.RoundProofs3 Proofs.RoundProofs4 Proofs.RoundProofs5 Proofs.RoundProofs6.
Import ListNotations.
Local Open Scope R_scope.

Lemma run_sim {S S' X X' Y Y'} (init : X -> S) (f : S -> X -> Y * S) (init' : X' -> S') (g : S' -> X' -> Y' * S')
  (h : X -> X') (Rs : S -> S' -> Prop) (Ry : Y -> Y' -> Prop) :
  (forall x, Rs (init x) (init' (h x))) ->
  (forall s s' x, Rs s s' -> Rs (snd (f s x)) (snd (g s' (h x))) /\ Ry (fst (f s x)) (fst (g s' (h x)))) ->
  forall xs ys ys' s s',
    run (hk_module init f) xs = Some (ys, s) -> run (hk_module init' g) (map h xs) = Some (ys', s') ->
    Forall2 Ry ys ys'.
Proof.
  intros H0 Hs xs ys ys' s s' H1 H2.
  destruct (run_nonempty _ _ _ _ H1) as (x0 & r & ->). cbn [map] in H2.
  rewrite (run_eq init f) in H1. rewrite (run_eq init' g) in H2.
  apply some_pair_inj in H1. apply some_pair_inj in H2.
  destruct H1 as [<- <-], H2 as [<- <-].
  change (h x0 :: map h r) with (map h (x0 :: r)).
  specialize (H0 x0). revert H0. generalize (init x0), (init' (h x0)), (x0 :: r). clear x0 r.
  intros st st' l. revert st st'. induction l as [|x l IH]; intros st st' H0; cbn [map lax_scan].
  - constructor.
  - destruct (Hs st st' x H0) as (I1 & R1). unfold stepf at 1 3.
    specialize (IH _ _ I1).
    destruct (lax_scan (stepf f) _ l) as [c1 o1]. destruct (lax_scan (stepf g) _ (map h l)) as [c2 o2].
    cbn [fst snd] in *. constructor; auto.
Qed.

Lemma ewma_exact fm cfg : EWMA_r (fun v => v) fm cfg = EWMA fm cfg.
Proof. reflexivity. Qed.
Lemma rolling_exact h mp : RollingMean_r (fun v => v) h mp = RollingMean h mp.
Proof. reflexivity. Qed.
Lemma diff_exact : Some (Diff_r (fun v => v)) = Diff 1.
Proof. reflexivity. Qed.
Lemma pct_exact fz : Some (PctChange_r (fun v => v) fz) = PctChange 1 Pad fz.
Proof. reflexivity. Qed.

Lemma ewmvar_exact pw c adj xs ys ys' s s' :
  (forall b n, pw b (INR n) = b ^ n) ->
  run (EWMVar_r (fun v => v) pw c adj) xs = Some (ys, s) -> run (EWMVar c adj) xs = Some (ys', s') ->
  ys = ys'.
Proof.
  intros Hp H1 H2.
  assert (F : Forall2 eq ys ys').
  { rewrite <- (map_id xs) in H2.
    refine (run_sim _ _ _ _ (fun x => x)
      (fun a b => er_mean a = ev_mean b /\ er_var a = ev_var b /\ er_nobs a = Fin (INR (ev_nobs b))) eq _ _ xs ys ys' s s' H1 H2).
    - intros x. repeat split.
    - intros [m v n] [m' v' n'] x (E1 & E2 & E3). cbn [er_mean er_var er_nobs ev_mean ev_var ev_nobs] in *.
      subst m v n. unfold ewmvar_step_r, ewmvar_step. cbn [er_mean er_var er_nobs ev_mean ev_var ev_nobs].
      assert (En : (if negb (isnan x) then fadd (Fin (INR n')) (Fin 1) else Fin (INR n')) =
                   Fin (INR (if negb (isnan x) then Datatypes.S n' else n'))).
      { destruct (negb (isnan x)); auto. cbn [fadd]. rewrite S_INR. reflexivity. }
      rewrite En. set (k := if negb (isnan x) then Datatypes.S n' else n').
      match goal with |- context [match fsub (Fin 1) ?a with _ => _ end] => set (al := a) end.
      assert (Em : match fsub (Fin 1) al with
                   | Fin b => fdiv al (fsub (Fin 1) (Fin (pw b (INR k)))) | _ => NaN end =
                   match al with
                   | Fin a => fdiv al (fsub (Fin 1) (Fin ((1 - a) ^ k))) | _ => NaN end).
      { destruct al; cbn [fsub fadd fneg]; auto. rewrite Hp. reflexivity. }
      destruct adj; cbn [fst snd er_mean er_var er_nobs ev_mean ev_var ev_nobs]; auto.
      rewrite Em. auto. }
  clear -F. induction F; congruence.
Qed.

(** the diagonal entry of the covariance *)
Lemma ewmcov_diag_exact fm cfg xs ys ys' s s' :
  run (EWMCov_diag_r (fun v => v) fm cfg) xs = Some (ys, s) ->
  run (EWMCov fm cfg false) (map (fun x => ([x], [x])) xs) = Some (ys', s') ->
  ys' = map (fun y => [[y]]) ys.
Proof.
  intros H1 H2.
  assert (F : Forall2 (fun y m => m = [[y]]) ys ys').
  { refine (run_sim _ _ _ _ (fun x => ([x], [x]))
      (fun a b => cov_xy b = [[fst a]] /\ cov_x b = [snd a] /\ cov_y b = [snd a]) _ _ _ xs ys ys' s s' H1 H2).
    - intros x. repeat split.
    - intros [a1 a2] [b1 b2 b3] x (E1 & E2 & E3). cbn [cov_xy cov_x cov_y fst snd] in *. subst.
      unfold ewmcov_diag_step_r, ewmcov_step, ewma_mat, ewma_vec, outer.
      change (ewma_step_r (fun v : fl => v) fm cfg) with (ewma_step fm cfg). cbn [cov_xy cov_x cov_y map map2 fst snd].
      destruct (ewma_step fm cfg a1 (fmul x x)) as [[r1 i1] t1]. destruct (ewma_step fm cfg a2 x) as [[r2 i2] t2].
      cbn [cov_xy cov_x cov_y map map2 fst snd]. repeat split. }
  clear -F. induction F; cbn [map]; congruence.
Qed.

(** a correctly rounded power function meets the hypothesis on powers *)
Lemma rounded_power_ok u eta rd b k : rounding u eta rd -> 0 <= b <= 1 -> 2 <= k ->
  0 <= rounded_power rd b k <= rd (b * b).
Proof.
  intros HR Hb Hk. unfold rounded_power. destruct (Req_b_spec b 0) as [->|Hn].
  - rewrite Rmult_0_l, (rd_zero _ _ _ HR). lra.
  - assert (P : 0 < Rpower b k) by apply exp_pos.
    assert (L : Rpower b k <= b * b).
    { replace (b * b) with (Rpower b 2).
      - unfold Rpower. destruct (Rle_lt_or_eq_dec (k * ln b) (2 * ln b)) as [H|H].
        + assert (ln b <= 0). { destruct (Rle_lt_or_eq_dec b 1) as [H|H]; [lra| |].
          * left. rewrite <- ln_1. apply ln_increasing; lra.
          * rewrite H, ln_1. lra. }
          assert ((k - 2) * ln b <= 0); [|lra]. rewrite <- (Rmult_0_r (k - 2)). apply Rmult_le_compat_l; lra.
        + left. apply exp_increasing; auto.
        + rewrite H. lra.
      - replace 2 with (1 + 1) by lra. rewrite Rpower_plus, Rpower_1 by lra. reflexivity. }
    split; [rewrite <- (rd_zero _ _ _ HR); apply (rd_mono _ _ _ HR); lra|apply (rd_mono _ _ _ HR); auto].
Qed.

(** Single and double precision: the largest floats *)
Lemma max_single_ge : 2 ^ 127 <= max_single.
Proof.
  unfold max_single. assert (0 < 2 ^ 127) by (apply pow_lt; lra).
  assert (/ 2 ^ 23 <= 1). { rewrite <- Rinv_1. apply Rinv_le_contravar; [lra|]. apply pow_R1_Rle; lra. }
  rewrite <- (Rmult_1_l (2 ^ 127)) at 1. apply Rmult_le_compat_r; lra.
Qed.
Lemma max_double_ge : 2 ^ 1023 <= max_double.
Proof.
  unfold max_double. assert (0 < 2 ^ 1023) by (apply pow_lt; lra).
  assert (/ 2 ^ 52 <= 1). { rewrite <- Rinv_1. apply Rinv_le_contravar; [lra|]. apply pow_R1_Rle; lra. }
  rewrite <- (Rmult_1_l (2 ^ 1023)) at 1. apply Rmult_le_compat_r; lra.
Qed.

(** generic side conditions: c + 1 <= 2^m, 2^-e <= X <= 2^e *)
Lemma side u eta fm c X (m e p q r : nat) :
  u = / 2 ^ p -> eta = / 2 ^ q -> 2 ^ r <= fm ->
  (7 + 2 * m <= p)%nat -> (m + e + p + 3 <= q)%nat -> (3 + m + e <= r)%nat ->
  0 <= c -> 1 + c <= 2 ^ m -> / 2 ^ e <= X <= 2 ^ e ->
  0 <= u /\ 0 <= eta /\ 100 * u * (1 + c) ^ 2 <= 1 /\ 0 <= X /\ 8 * eta * (1 + c) <= u /\
  eta * (1 + c) <= u * Rmin 1 X /\ 8 * (1 + c) * Rmax 1 X <= fm /\ 8 * (1 + c) <= fm.
Proof.
  intros -> -> Hf Hp Hq Hr Hc HC HX.
  assert (P : forall n, 0 < 2 ^ n) by (intros; apply pow_lt; lra).
  assert (P1 : forall n, 1 <= 2 ^ n) by (intros; apply pow_R1_Rle; lra).
  assert (I : forall n, 0 < / 2 ^ n) by (intros; apply Rinv_0_lt_compat; auto).
  assert (M : forall a b, (a <= b)%nat -> 2 ^ a <= 2 ^ b) by (intros; apply Rle_pow; auto; lra).
  assert (IM : forall a b, (a <= b)%nat -> / 2 ^ b <= / 2 ^ a) by (intros; apply Rinv_le_contravar; auto).
  assert (X0 : 0 < X) by (pose proof (I e); lra).
  assert (C8 : forall n, 8 * / 2 ^ (n + 3) = / 2 ^ n).
  { intros n. rewrite pow_add. replace (2 ^ 3) with 8 by lra. field. apply Rgt_not_eq, P. }
  assert (Hu : 0 <= / 2 ^ p) by (apply Rlt_le, I).
  assert (He : 0 <= / 2 ^ q) by (apply Rlt_le, I).
  (* 8 eta (1 + c) <= u / 2^e *)
  assert (K : 8 * / 2 ^ q * (1 + c) <= / 2 ^ p * / 2 ^ e).
  { apply Rle_trans with (8 * / 2 ^ (m + (e + p) + 3) * 2 ^ m).
    - apply Rmult_le_compat; try lra. assert (H := IM (m + (e + p) + 3)%nat q ltac:(lia)). lra.
    - rewrite C8. rewrite pow_add, pow_add. right. field. split; [|split]; apply Rgt_not_eq, P. }
  assert (Ie : / 2 ^ e <= 1). { rewrite <- Rinv_1. apply Rinv_le_contravar; [lra|auto]. }
  assert (K2 : / 2 ^ p * / 2 ^ e <= / 2 ^ p * 1) by (apply Rmult_le_compat_l; auto).
  assert (K3 : / 2 ^ p * / 2 ^ e <= / 2 ^ p * Rmin 1 X).
  { apply Rmult_le_compat_l; auto. apply Rmin_glb; lra. }
  assert (E0 : 0 <= / 2 ^ q * (1 + c)) by (apply Rmult_le_pos; lra).
  repeat split; auto; try lra.
  - assert (S2 : (1 + c) ^ 2 <= 2 ^ (2 * m)).
    { rewrite Nat.mul_comm, pow_mult. apply pow_incr. lra. }
    apply Rle_trans with (100 * / 2 ^ (7 + 2 * m) * 2 ^ (2 * m)).
    + apply Rmult_le_compat; try lra. apply pow_le; lra.
      assert (H := IM (7 + 2 * m)%nat p Hp). lra.
    + rewrite pow_add. replace (100 * / (2 ^ 7 * 2 ^ (2 * m)) * 2 ^ (2 * m)) with (100 / 2 ^ 7); [lra|].
      field. apply Rgt_not_eq, P.
  - apply Rle_trans with (2 ^ r); auto. apply Rle_trans with (8 * 2 ^ m * 2 ^ e).
    + apply Rmult_le_compat; try lra. apply Rle_trans with 1; [lra|apply Rmax_l].
      apply Rmax_lub; [apply P1|lra].
    + apply Rle_trans with (2 ^ (3 + m + e)); [|apply M; auto]. rewrite !pow_add. lra.
  - apply Rle_trans with (2 ^ r); auto. apply Rle_trans with (8 * 2 ^ m); [lra|].
    apply Rle_trans with (2 ^ (3 + m)); [rewrite pow_add; lra|apply M; lia].
Qed.

Lemma side_single c X : 0 <= c -> 1 + c <= 2 ^ 8 -> / 2 ^ 100 <= X <= 2 ^ 100 ->
  let u := / 2 ^ 24 in let eta := / 2 ^ 150 in let fm := max_single in
  0 <= u /\ 0 <= eta /\ 100 * u * (1 + c) ^ 2 <= 1 /\ 0 <= X /\ 8 * eta * (1 + c) <= u /\
  eta * (1 + c) <= u * Rmin 1 X /\ 8 * (1 + c) * Rmax 1 X <= fm /\ 8 * (1 + c) <= fm.
Proof.
  intros Hc HC HX. cbv zeta.
  apply (side _ _ _ c X 8 100 24 150 127 eq_refl eq_refl max_single_ge); auto; lia.
Qed.
Lemma side_double c X : 0 <= c -> 1 + c <= 2 ^ 23 -> / 2 ^ 900 <= X <= 2 ^ 900 ->
  let u := / 2 ^ 53 in let eta := / 2 ^ 1075 in let fm := max_double in
  0 <= u /\ 0 <= eta /\ 100 * u * (1 + c) ^ 2 <= 1 /\ 0 <= X /\ 8 * eta * (1 + c) <= u /\
  eta * (1 + c) <= u * Rmin 1 X /\ 8 * (1 + c) * Rmax 1 X <= fm /\ 8 * (1 + c) <= fm.
Proof.
  intros Hc HC HX. cbv zeta.
  apply (side _ _ _ c X 23 900 53 1075 1023 eq_refl eq_refl max_double_ge); auto; lia.
Qed.
