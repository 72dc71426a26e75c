(** Covariances, overflows and the recomputed com of the rounded flax modules. *)
From Coq Require Import List ZArith Reals Lra Lia.
From Flocq Require Import Core.
From Verif Require Import Model.Unroll Model.Float Model.Modules Model.Ewm Model.Rounded Model.FlaxModules Model.RoundedFlax
  Spec.SeriesSpec Spec.EwmSpec Spec.FlaxSpec Spec.RoundSpec Spec.RoundFlaxSpec Proofs.FloatFacts Proofs.RunFacts Proofs.FlaxProofs
  Proofs.RoundProofs Proofs.RoundProofs2 Proofs.RoundProofs3 Proofs.RoundProofs4 Proofs.RoundProofs7 Proofs.RoundFlaxProofs.
Import ListNotations.
Local Open Scope R_scope.

Lemma same_on {S X Y} (m : flax_module S X Y) (init : X -> S) (step : S -> X -> Y * S) (P : X -> Prop) xs :
  xs <> [] -> (forall x, fx_vars m x = init x) -> (forall s x, P x -> fx_call m s x = step s x) -> Forall P xs ->
  same_outputs m (hk_module init step) xs.
Proof.
  intros Hne Hi Hs HF. destruct xs as [|x0 xs]; [congruence|]. eexists. rewrite run_eq. unfold flax_from_scratch.
  assert (G : forall l s, Forall P l -> snd (lax_scan (stepf step) s l) = fst (flax_calls m s l)).
  { induction l as [|x l IH]; intros s H; cbn [lax_scan flax_calls]; [reflexivity|]. unfold stepf at 1.
    rewrite (Hs s x (Forall_inv H)). destruct (step s x) as [y s1]. cbn [fst snd].
    specialize (IH s1 (Forall_inv_tail H)).
    destruct (lax_scan _ s1 l), (flax_calls m s1 l). cbn [fst snd] in *. f_equal. exact IH. }
  rewrite Hi. exact (f_equal (fun ys => Some (ys, _)) (G (x0 :: xs) (init x0) HF)).
Qed.

Section Cov.
  Variables (rd : R -> R) (fm : R).
  Let rnd := round_to rd fm.

  Lemma round_not_nan r : isnan (rnd (Fin r)) = false.
  Proof using. unfold rnd, round_to. destruct (Rlt_b _ _); [reflexivity|]. destruct (Rlt_b _ _); reflexivity. Qed.

  Definition seen_all (l : list fl) : Prop := Forall (fun v => isnan v = false) l.
  Lemma finite_seen l : all_finite l -> seen_all l.
  Proof using. intros H. eapply Forall_impl; [|exact H]. intros a [r ->]. reflexivity. Qed.

  Lemma fvec_eq cfg ss x : seen_all x -> fewma_vec_r rnd fm cfg ss x = ewma_vec_r rnd fm cfg ss x.
  Proof using.
    intros H. unfold fewma_vec_r, ewma_vec_r. cbv zeta.
    enough (E : map2 (fewma_call_r rnd fm cfg) ss x = map2 (ewma_step_r rnd fm cfg) ss x) by (rewrite E; reflexivity).
    revert x H. induction ss as [|s ss IH]; intros [|v x] H; cbn [map2]; try reflexivity.
    rewrite fewma_call_r_obs by exact (Forall_inv H). rewrite (IH x (Forall_inv_tail H)). reflexivity.
  Qed.
  Lemma fmat_eq cfg ss x : Forall seen_all x -> fewma_mat_r rnd fm cfg ss x = ewma_mat_r rnd fm cfg ss x.
  Proof using.
    intros H. unfold fewma_mat_r, ewma_mat_r. cbv zeta.
    enough (E : map2 (fewma_vec_r rnd fm cfg) ss x = map2 (ewma_vec_r rnd fm cfg) ss x) by (rewrite E; reflexivity).
    revert x H. induction ss as [|s ss IH]; intros [|v x] H; cbn [map2]; try reflexivity.
    rewrite fvec_eq by exact (Forall_inv H). rewrite (IH x (Forall_inv_tail H)). reflexivity.
  Qed.
  Lemma products_seen x y : all_finite x -> all_finite y -> Forall seen_all (outer (fun a b => rnd (fmul a b)) x y).
  Proof using.
    intros Hx Hy. unfold outer. apply Forall_forall. intros row Hr. apply in_map_iff in Hr. destruct Hr as (a & <- & Ha).
    apply Forall_forall. intros v Hv. apply in_map_iff in Hv. destruct Hv as (b & <- & Hb).
    destruct (proj1 (Forall_forall _ _) Hx a Ha) as [p ->]. destruct (proj1 (Forall_forall _ _) Hy b Hb) as [q ->].
    cbn [fmul]. apply round_not_nan.
  Qed.

  Lemma fewmcov_same_r cfg ac xs : xs <> [] -> Forall (fun xy => all_finite (fst xy) /\ all_finite (snd xy)) xs ->
    same_outputs (FEWMCov_r rnd fm cfg ac) (EWMCov_r rnd fm cfg ac) xs.
  Proof using.
    intros Hne HF.
    refine (same_on (FEWMCov_r rnd fm cfg ac) (fun xy => ewmcov_init cfg (fst xy) (snd xy)) (ewmcov_step_r rnd fm cfg ac)
      (fun xy => all_finite (fst xy) /\ all_finite (snd xy)) xs Hne (fun _ => eq_refl) _ HF).
    intros s [x y] [Hx Hy]. cbn [fst snd] in Hx, Hy. cbn [fx_call FEWMCov_r]. unfold fewmcov_call_r, ewmcov_step_r.
    rewrite (fmat_eq cfg (cov_xy s) _ (products_seen x y Hx Hy)).
    rewrite (fvec_eq cfg (cov_x s) x (finite_seen _ Hx)), (fvec_eq cfg (cov_y s) y (finite_seen _ Hy)). reflexivity.
  Qed.
End Cov.

Section Com.
  Variables (u eta : R) (rd : R -> R).
  Hypothesis HR : rounding u eta rd.

  Lemma near_rel x : 0 <= x -> x * (1 - u) - eta <= rd x <= x * (1 + u) + eta.
  Proof using HR. intros H. pose proof (rd_error _ _ _ HR x) as E. rewrite (Rabs_pos_eq x H) in E. apply abs_inv in E. lra. Qed.

  (** the recomputed com *)
  Lemma again_close c : 0 <= u <= / 100 -> 0 <= eta -> eta * (1 + c) <= u -> 0 <= c ->
    exists c', fewmcov_com_r rd (Some c) None = Some c' /\ Rabs (c' - c) <= 10 * u * (1 + c).
  Proof using HR.
    intros Hu He Hc1 Hc. eexists. split; [reflexivity|]. unfold fewmcov_com_r.
    set (s := rd (1 + c)). set (a := rd (1 / s)). set (b := rd (1 / a)).
    assert (He2 : eta <= u) by nra.
    pose proof (near_rel (1 + c) ltac:(lra)) as S1. fold s in S1.
    assert (S0 : 98 / 100 * (1 + c) <= s <= 102 / 100 * (1 + c)) by nra.
    assert (Is : 0 < / s) by (apply Rinv_0_lt_compat; lra).
    assert (Es : s * / s = 1) by (field; lra).
    pose proof (near_rel (1 / s) ltac:(unfold Rdiv; lra)) as A1. fold a in A1. unfold Rdiv in A1. rewrite Rmult_1_l in A1.
    (* a * s between (1-u) - eta s and (1+u) + eta s *)
    assert (A2 : 1 - u - eta * s <= a * s <= 1 + u + eta * s) by (split; nra).
    assert (E3 : eta * s <= 102 / 100 * u) by nra.
    assert (A3 : 1 - 203 / 100 * u <= a * s <= 1 + 203 / 100 * u) by lra.
    assert (A0 : 0 < a) by nra.
    assert (Ia : 0 < / a) by (apply Rinv_0_lt_compat; lra). assert (Ea : a * / a = 1) by (field; lra).
    assert (B0 : s * (1 - 22 / 10 * u) <= / a <= s * (1 + 22 / 10 * u)).
    { split; apply Rmult_le_reg_r with a; auto; rewrite (Rmult_comm (/ a)), Ea; nra. }
    pose proof (near_rel (1 / a) ltac:(unfold Rdiv; lra)) as B1. fold b in B1. unfold Rdiv in B1. rewrite Rmult_1_l in B1.
    set (i := / a) in *. clearbody i. set (k := 1 + c) in *. assert (K1 : 1 <= k) by (unfold k; lra).
    assert (Us : 0 <= s * u) by (apply Rmult_le_pos; lra).
    assert (Uss : s * u * u <= s * u * / 100) by (apply Rmult_le_compat_l; lra).
    assert (Ui : u * i <= u * (s * (1 + 22 / 10 * u))) by (apply Rmult_le_compat_l; lra).
    assert (B2 : s * (1 - 34 / 10 * u) - u <= b <= s * (1 + 34 / 10 * u) + u) by lra.
    assert (Ku : u * 1 <= u * k) by (apply Rmult_le_compat_l; lra).
    assert (Ku2 : u * k <= / 100 * k) by (apply Rmult_le_compat_r; lra).
    assert (Su : u * s <= u * (102 / 100 * k)) by (apply Rmult_le_compat_l; lra).
    assert (B3 : k * (1 - 66 / 10 * u) <= b <= k * (1 + 66 / 10 * u)) by lra.
    unfold k in *. clear Ui Uss.
    pose proof (rd_error _ _ _ HR (b - 1)) as E. apply abs_inv in E.
    assert (Q : Rabs (b - 1) <= 2 * (1 + c)) by (apply abs_le; lra).
    assert (Z1 : u * Rabs (b - 1) <= u * (2 * (1 + c))) by (apply Rmult_le_compat_l; lra).
    assert (Z2 : 0 <= u * c) by (apply Rmult_le_pos; lra).
    apply abs_le; lra.
  Qed.
End Com.

(** The recomputed com of a tiny com is 0 in double precision. *)
Lemma double_near_one x n : 1 <= x < 2 -> Rabs (x * IZR (2 ^ 52) - IZR n) < / 2 -> double x = IZR n / IZR (2 ^ 52).
Proof.
  intros Hx H. assert (M : mag radix2 x = 1%Z :> Z).
  { apply mag_unique_pos. cbn [Z.sub]. change (1 - 1)%Z with 0%Z. change (bpow radix2 0) with 1.
    change (bpow radix2 1) with 2. exact Hx. }
  unfold double, round, scaled_mantissa, cexp. rewrite M.
  replace (FLT_exp (-1074) 53 1) with (-52)%Z by reflexivity. change (- -52)%Z with 52%Z.
  assert (ET : bpow radix2 52 = IZR (2 ^ 52)) by reflexivity.
  assert (ETi : bpow radix2 (-52) = / IZR (2 ^ 52)) by (rewrite <- ET; apply (bpow_opp radix2 52)).
  rewrite ET. unfold F2R. cbn [Fnum Fexp]. rewrite ETi.
  rewrite (Znearest_imp _ _ n H). reflexivity.
Qed.

Lemma again_tiny : fewmcov_com_r double (Some (/ 2 ^ 60)) None = Some 0.
Proof.
  unfold fewmcov_com_r.
  assert (P : 2 ^ 60 = 2 ^ 8 * 2 ^ 52) by (rewrite <- pow_add; reflexivity).
  assert (Q : IZR (2 ^ 52) = 2 ^ 52) by (change (2 ^ 52)%Z with (2 ^ Z.of_nat 52)%Z; rewrite <- pow_IZR; reflexivity).
  assert (Q0 : 0 < 2 ^ 52) by (apply pow_lt; lra).
  assert (T : / 2 ^ 60 * 2 ^ 52 = / 2 ^ 8) by (rewrite P; field; lra).
  assert (T8 : / 2 ^ 8 < / 2) by (apply Rinv_lt_contravar; lra).
  assert (T80 : 0 < / 2 ^ 8) by (apply Rinv_0_lt_compat; lra).
  assert (B : 0 < / 2 ^ 60 < 1).
  { split; [apply Rinv_0_lt_compat, pow_lt; lra|]. rewrite <- Rinv_1. apply Rinv_lt_contravar; [rewrite Rmult_1_l; apply pow_lt; lra|].
    apply Rlt_pow_R1; [lra|lia]. }
  assert (E1 : double (1 + / 2 ^ 60) = 1).
  { rewrite (double_near_one _ (2 ^ 52)) by (try (rewrite Q); try lra; rewrite Rmult_plus_distr_r, T; apply Rabs_def1; lra).
    unfold Rdiv. apply Rinv_r. rewrite Q. lra. }
  pose proof (rd_one _ _ _ double_rounding) as O. pose proof (rd_zero _ _ _ double_rounding) as Z.
  assert (D : 1 / 1 = 1) by lra.
  rewrite E1, D, O, D, O. replace (1 - 1) with 0 by lra. rewrite Z. reflexivity.
Qed.

(** Overflow: the average of two largest floats is infinite; a missing input then separates the two modules. *)
Section Overflow.
  Variables (u eta : R) (rd : R -> R) (fm : R).
  Hypothesis HR : rounding u eta rd.
  Hypothesis (Hu : 0 <= u <= / 100) (He : 0 <= eta <= / 100) (Hfm : 100 <= fm) (Hmax : rd fm = fm).
  Let rnd := round_to rd fm.
  Let cfg := EwmaCfg 1 0 AdjTrue false NaN.

  Lemma rfin r : Rabs (rd r) <= fm -> rnd (Fin r) = Fin (rd r). Proof using. apply round_to_fin. Qed.
  Lemma r0 : rd 0 = 0. Proof using HR. exact (rd_zero _ _ _ HR). Qed.
  Lemma r1 : rd 1 = 1. Proof using HR. exact (rd_one _ _ _ HR). Qed.
  Lemma rinf r : fm < rd r -> rnd (Fin r) = PInf.
  Proof using. intros H. unfold rnd, round_to. rewrite Rlt_b_true by exact H. reflexivity. Qed.

  Lemma step_one : snd (ewma_step_r rnd fm cfg (ewma_init cfg) (Fin fm)) = EwmaState (Fin fm) (Fin 1) 1 /\
    fst (fst (ewma_step_r rnd fm cfg (ewma_init cfg) (Fin fm))) = Fin fm.
  Proof using HR Hfm Hmax.
    assert (A0 : rnd (Fin 0) = Fin 0) by (rewrite rfin; rewrite r0; [reflexivity|rewrite Rabs_R0; lra]).
    assert (A1 : rnd (Fin 1) = Fin 1) by (rewrite rfin; rewrite r1; [reflexivity|rewrite Rabs_R1; lra]).
    assert (AM : rnd (Fin fm) = Fin fm) by (rewrite rfin; rewrite Hmax; [reflexivity|rewrite Rabs_pos_eq; lra]).
    assert (M : rnd (fdiv (rnd (fadd (rnd (fmul (Fin 0) (Fin 0))) (rnd (fmul (Fin 1) (Fin fm))))) (rnd (fadd (Fin 0) (Fin 1)))) = Fin fm).
    { cbn [fmul fadd]. replace (0 * 0) with 0 by lra. replace (1 * fm) with fm by lra. rewrite A0, AM. cbn [fadd].
      replace (0 + fm) with fm by lra. replace (0 + 1) with 1 by lra. rewrite AM, A1. cbn [fdiv]. rewrite Req_b_neq by lra.
      replace (fm / 1) with fm by lra. exact AM. }
    assert (O : rnd (fadd (Fin 0) (Fin 1)) = Fin 1) by (cbn [fadd]; replace (0 + 1) with 1 by lra; exact A1).
    unfold ewma_step_r, cfg, ewma_init. cbn [com min_periods adjust ignore_na initial_value ew_mean old_wt nobs isnan negb truthy nan_to_num andb Z.eqb].
    cbv zeta. rewrite M, O. cbn [fst snd]. split; reflexivity.
  Qed.

  Lemma step_two : exists w,
    snd (ewma_step_r rnd fm cfg (EwmaState (Fin fm) (Fin 1) 1) (Fin fm)) = EwmaState PInf w 2 /\
    fst (fst (ewma_step_r rnd fm cfg (EwmaState (Fin fm) (Fin 1) 1) (Fin fm))) = PInf.
  Proof using HR Hu He Hfm Hmax.
    assert (AM : rnd (Fin fm) = Fin fm) by (rewrite rfin; rewrite Hmax; [reflexivity|rewrite Rabs_pos_eq; lra]).
    assert (A2 : rnd (Fin 2) = Fin 2).
    { rewrite rfin; rewrite (rd_two _ _ _ HR); [reflexivity|rewrite Rabs_pos_eq; lra]. }
    pose proof (near_rel u eta rd HR (1 / 2) ltac:(lra)) as Ha. set (a := rd (1 / 2)) in *.
    assert (Ba : 48 / 100 <= a <= 52 / 100) by nra.
    assert (Ea : rnd (fdiv (Fin 1) (rnd (fadd (Fin 1) (Fin 1)))) = Fin a).
    { cbn [fadd]. replace (1 + 1) with 2 by lra. rewrite A2. cbn [fdiv]. rewrite Req_b_neq by lra.
      apply rfin. fold a. rewrite Rabs_pos_eq; lra. }
    pose proof (near_rel u eta rd HR (1 - a) ltac:(lra)) as Hg. set (g := rd (1 - a)) in *.
    assert (Bg : 46 / 100 <= g <= 54 / 100) by nra.
    assert (Eg : rnd (fsub (Fin 1) (Fin a)) = Fin g).
    { cbn [fsub fadd fneg]. replace (1 + - a) with (1 - a) by lra. apply rfin. fold g. rewrite Rabs_pos_eq; lra. }
    assert (Ew : rnd (fmul (Fin 1) (Fin g)) = Fin g).
    { cbn [fmul]. replace (1 * g) with g by lra. unfold g at 1. rewrite rfin; rewrite (rd_idem _ _ _ HR); fold g; [reflexivity|].
      rewrite Rabs_pos_eq; lra. }
    pose proof (near_rel u eta rd HR (g * fm) ltac:(nra)) as Hp. set (p := rd (g * fm)) in *.
    assert (Bp : 44 / 100 * fm <= p <= 60 / 100 * fm) by nra.
    assert (Ep : rnd (fmul (Fin g) (Fin fm)) = Fin p).
    { cbn [fmul]. apply rfin. fold p. rewrite Rabs_pos_eq; lra. }
    assert (Ex : rnd (fmul (Fin 1) (Fin fm)) = Fin fm) by (cbn [fmul]; replace (1 * fm) with fm by lra; exact AM).
    assert (Es : rnd (fadd (Fin p) (Fin fm)) = PInf).
    { cbn [fadd]. apply rinf. pose proof (near_rel u eta rd HR (p + fm) ltac:(lra)) as H. nra. }
    pose proof (near_rel u eta rd HR (g + 1) ltac:(lra)) as Hd. set (d := rd (g + 1)) in *.
    assert (Bd : 1 <= d <= 2) by nra.
    assert (Ed : rnd (fadd (Fin g) (Fin 1)) = Fin d).
    { cbn [fadd]. apply rfin. fold d. rewrite Rabs_pos_eq; lra. }
    assert (Ei : rnd (fdiv PInf (Fin d)) = PInf) by (cbn [fdiv]; rewrite Rlt_b_false by lra; reflexivity).
    exists (Fin d). unfold ewma_step_r, cfg.
    cbn [com min_periods adjust ignore_na initial_value ew_mean old_wt nobs isnan negb truthy nan_to_num andb Z.eqb].
    cbv zeta. rewrite Ea, Eg, Ew, Ep, Ex, Es, Ed, Ei. cbn [fst snd]. split; reflexivity.
  Qed.

  Lemma overflow_differs : exists s,
    run (EWMA_r rnd fm cfg) [Fin fm; Fin fm; NaN] = Some ([Fin fm; PInf; Fin fm], s) /\
    map fst (flax_from_scratch (FEWMA_r rnd fm cfg) [Fin fm; Fin fm; NaN]) = [Fin fm; PInf; PInf].
  Proof using HR Hu He Hfm Hmax.
    destruct step_one as [A B]. destruct step_two as (w & C & D).
    unfold EWMA_r. rewrite run_eq. cbn [lax_scan]. unfold stepf.
    unfold flax_from_scratch. cbn [fx_vars FEWMA_r flax_calls fx_call].
    rewrite (fewma_call_r_obs rnd fm cfg (ewma_init cfg) (Fin fm) eq_refl).
    destruct (ewma_step_r rnd fm cfg (ewma_init cfg) (Fin fm)) as [[y1 i1] s1]. cbn [fst snd] in A, B. subst.
    cbn [fst snd]. rewrite (fewma_call_r_obs rnd fm cfg (EwmaState (Fin fm) (Fin 1) 1) (Fin fm) eq_refl).
    destruct (ewma_step_r rnd fm cfg (EwmaState (Fin fm) (Fin 1) 1) (Fin fm)) as [[y2 i2] s2]. cbn [fst snd] in C, D. subst.
    cbn [fst snd]. destruct (ewma_step_r rnd fm cfg (EwmaState PInf w 2) NaN) as [[y3 i3] s3] eqn:E3.
    destruct (fewma_call_r rnd fm cfg (EwmaState PInf w 2) NaN) as [[y4 i4] s4] eqn:E4.
    unfold ewma_step_r, cfg in E3. unfold fewma_call_r, cfg in E4.
    cbn [com min_periods adjust ignore_na initial_value ew_mean old_wt nobs isnan negb truthy nan_to_num andb Z.eqb] in E3, E4.
    cbv zeta in E3, E4. cbn [fst snd map].
    assert (y3 = Fin fm) by congruence. assert (y4 = PInf) by congruence. subst. eexists. split; reflexivity.
  Qed.
End Overflow.

Lemma max_single_fixed : single max_single = max_single.
Proof.
  unfold single. apply round_generic; [apply valid_rnd_N|]. apply generic_format_FLT.
  assert (E : max_single = F2R (Float radix2 (2 ^ 24 - 1) 104)).
  { unfold max_single, F2R. cbn [Fnum Fexp]. change (bpow radix2 104) with (IZR (2 ^ 104)).
    assert (P : forall n, IZR (2 ^ Z.of_nat n) = 2 ^ n) by (intros n; rewrite <- pow_IZR; reflexivity).
    pose proof (P 104%nat) as P1. change (Z.of_nat 104) with 104%Z in P1. rewrite P1.
    replace (2 ^ 127) with (2 ^ 23 * 2 ^ 104) by (rewrite <- pow_add; reflexivity).
    rewrite minus_IZR. pose proof (P 24%nat) as P2. change (Z.of_nat 24) with 24%Z in P2. rewrite P2.
    assert (0 < 2 ^ 23) by (apply pow_lt; lra). change (2 ^ 24) with (2 * 2 ^ 23).
    rewrite Rmult_minus_distr_r. rewrite Rmult_minus_distr_r. rewrite <- (Rmult_assoc (/ 2 ^ 23)), Rinv_l by lra. ring. }
  exists (Float radix2 (2 ^ 24 - 1) 104); [exact E|cbn; lia|cbn; lia].
Qed.

Lemma max_single_100 : 100 <= max_single.
Proof.
  pose proof max_single_ge as M. apply Rle_trans with (2 := M). apply Rle_trans with (2 ^ 7); [lra|]. apply Rle_pow; [lra|lia].
Qed.

Lemma small_units : 0 <= / 2 ^ 24 <= / 100 /\ 0 <= / 2 ^ 150 <= / 100.
Proof.
  assert (P : forall n, (7 <= n)%nat -> 0 <= / 2 ^ n <= / 100).
  { intros n Hn. split; [left; apply Rinv_0_lt_compat, pow_lt; lra|]. apply Rinv_le_contravar; [lra|].
    apply Rle_trans with (2 ^ 7); [lra|]. apply Rle_pow; [lra|lia]. }
  split; apply P; lia.
Qed.

(** In the domain of C110 no average overflows. *)
Lemma within_not_inf e a b : within e a b -> not_inf a.
Proof. destruct a; cbn; auto. Qed.
Lemma bounded_not_inf X a : bounded X a -> not_inf a.
Proof. destruct a; cbn; auto. Qed.

Lemma fewma_rounded u eta rd fm cfg X xs :
  rounding u eta rd -> 0 <= u -> 0 <= eta -> 0 < com cfg -> adjust cfg = AdjTrue ->
  100 * u * (1 + com cfg) ^ 2 <= 1 -> 0 <= X ->
  eta * (1 + com cfg) <= u * Rmin 1 X -> 8 * (1 + com cfg) * Rmax 1 X <= fm ->
  xs <> [] -> Forall (bounded X) xs -> bounded X (initial_value cfg) ->
  same_outputs (FEWMA_r (round_to rd fm) fm cfg) (EWMA_info_r (round_to rd fm) fm cfg) xs.
Proof.
  intros HR Hu He Hc Ha H1 HX H2 H3 Hne Hxs Hi. destruct xs as [|x0 xs]; [congruence|].
  destruct (run_total (fun _ : fl => ewma_init (no_minimum cfg))
    (fun s x => let '((r, _), s') := ewma_step_r (round_to rd fm) fm (no_minimum cfg) s x in (r, s')) x0 xs) as (ms & sF & E).
  fold (EWMA_r (round_to rd fm) fm (no_minimum cfg)) in E.
  apply (fewma_same_r (round_to rd fm) fm cfg _ ms sF Hne E).
  destruct (ewma_rounded_true u eta rd fm (no_minimum cfg) X (x0 :: xs) ms sF HR Hu He Hc Ha H1 HX H2 H3 Hxs Hi E) as [_ G].
  intros [|t] _; cbn [nth]; [exact (bounded_not_inf X _ Hi)|].
  destruct (nth_error ms t) as [y|] eqn:N.
  - rewrite (nth_error_nth _ _ NaN N). eapply within_not_inf. exact (G t y N).
  - apply nth_error_None in N. rewrite nth_overflow by exact N. exact I.
Qed.

Lemma again_double c : 0 <= c -> 1 + c <= 2 ^ 1000 ->
  exists c', fewmcov_com_r double (Some c) None = Some c' /\ Rabs (c' - c) <= 10 * / 2 ^ 53 * (1 + c).
Proof.
  intros Hc HC. apply (again_close (/ 2 ^ 53) (/ 2 ^ 1075) double double_rounding); auto.
  - split; [left; apply Rinv_0_lt_compat, pow_lt; lra|]. apply Rinv_le_contravar; [lra|].
    apply Rle_trans with (2 ^ 7); [lra|]. apply Rle_pow; [lra|lia].
  - left; apply Rinv_0_lt_compat, pow_lt; lra.
  - assert (P : 2 ^ 1075 = 2 ^ 75 * 2 ^ 1000) by (rewrite <- pow_add; reflexivity). rewrite P.
    assert (Q : 0 < 2 ^ 1000) by (apply pow_lt; lra). assert (Q2 : 0 < 2 ^ 75) by (apply pow_lt; lra).
    rewrite Rinv_mult. apply Rle_trans with (/ 2 ^ 75 * / 2 ^ 1000 * 2 ^ 1000).
    + apply Rmult_le_compat_l; [|exact HC]. apply Rmult_le_pos; left; apply Rinv_0_lt_compat; auto.
    + rewrite Rmult_assoc, Rinv_l, Rmult_1_r by lra. apply Rinv_le_contravar; [apply pow_lt; lra|]. apply Rle_pow; [lra|lia].
Qed.
