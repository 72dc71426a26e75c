(** EWMA with rounding: series, single and double precision. *)
From Coq Require Import List ZArith Reals Lra Lia Bool.
From Flocq Require Import Core Relative Sterbenz.
From Verif Require Import Model.Unroll Model.Float Model.Modules Model.Ewm Model.Rounded Spec.EwmSpec
  Spec.RoundSpec Proofs.FloatFacts Proofs.ListFacts Proofs.RunFacts Proofs.EwmFacts Proofs.EwmProofs
  Proofs.RoundProofs Proofs.RoundProofs2.
Import ListNotations.
Local Open Scope R_scope.

Section Series.
  Variables (u eta : R) (rd : R -> R) (fm : R) (cfg : ewma_cfg) (X : R).
  Hypothesis HR : rounding u eta rd.
  Hypothesis Hu : 0 <= u.
  Hypothesis He : 0 <= eta.
  Notation C := (1 + com cfg).
  Hypothesis Hc : 0 <= com cfg.
  Hypothesis Hadj : adjust cfg <> AdjLinear.
  Hypothesis Hs : 100 * u * C ^ 2 <= 1.
  Hypothesis HX : 0 <= X.
  Hypothesis Ht : eta * C <= u * Rmin 1 X.
  Hypothesis Hm1 : 8 * C * Rmax 1 X <= fm.

  Lemma ewma_r_run xs ys sF :
    Forall (bounded X) xs -> bounded X (initial_value cfg) ->
    run (EWMA_r (round_to rd fm) fm cfg) xs = Some (ys, sF) ->
    let os := map (observation fm) xs in
    let i := observation fm (initial_value cfg) in
    length ys = length xs /\
    forall t y, nth_error ys t = Some y ->
      within (80 * u * C ^ 2 * X) y
        (when_enough (min_periods cfg) (firstn (t + 1) os) (fst (rstate cfg i (firstn (t + 1) os)))).
  Proof using HR Hu He Hc Hadj Hs HX Ht Hm1.
    intros Hxs Hi Hr os i.
    assert (Hs' : 100 * u * (C * C) <= 1) by lra.
    assert (Cp : 0 < C) by lra.
    assert (Ht1 : eta * C <= u).
    { pose proof (Rmin_l 1 X). assert (u * Rmin 1 X <= u * 1) by (apply Rmult_le_compat_l; lra). lra. }
    assert (HtX : eta * C <= u * X).
    { pose proof (Rmin_r 1 X). assert (u * Rmin 1 X <= u * X) by (apply Rmult_le_compat_l; lra). lra. }
    assert (Hf1 : 8 * C <= fm).
    { pose proof (Rmax_l 1 X). assert (8 * C * 1 <= 8 * C * Rmax 1 X) by (apply Rmult_le_compat_l; lra). lra. }
    assert (HfX : 8 * (C * X) <= fm).
    { pose proof (Rmax_r 1 X). assert (8 * C * X <= 8 * C * Rmax 1 X) by (apply Rmult_le_compat_l; lra). lra. }
    destruct (run_nonempty _ _ _ _ Hr) as (x0 & r & ->).
    pose (Inv := fun (pre : list fl) (s : ewma_state) => Forall (bounded X) pre ->
       near u cfg X (rstate cfg i (map (observation fm) pre)) s /\
       nobs s = Z.of_nat (count_obs (map (observation fm) pre))).
    assert (I0 : Inv [] (ewma_init cfg)).
    { intros _. split; [|reflexivity]. unfold rstate; cbn [map fold_left]. unfold near; cbn [fst snd ewma_init ew_mean old_wt].
      split.
      - unfold i. destruct (initial_value cfg) as [| | |v]; cbn [observation bounded] in *; try contradiction; auto.
        exists v. split; auto. split; auto. replace (v - v) with 0 by lra. rewrite Rabs_R0. apply E_nonneg; auto.
      - exists 1. split; auto. split; [lra|]. replace (1 - 1) with 0 by lra. rewrite Rabs_R0.
        split; [apply D_nonneg; auto|]. pose proof (Wm_range cfg Hc). lra. }
    assert (St : forall pre s x, Inv pre s -> bounded X x -> Forall (bounded X) pre ->
       let rr := ewma_step_r (round_to rd fm) fm cfg s x in
       near u cfg X (rstate cfg i (map (observation fm) (pre ++ [x]))) (snd rr) /\
       nobs (snd rr) = Z.of_nat (count_obs (map (observation fm) (pre ++ [x]))) /\
       fst (fst rr) = (if Z.eqb (min_periods cfg) 0 then ew_mean (snd rr)
                   else if Z.geb (nobs (snd rr)) (min_periods cfg) then ew_mean (snd rr) else NaN)).
    { intros pre s x HI Hx Hpre. destruct (HI Hpre) as (Hn & Hb).
      destruct (near_step u eta rd fm cfg X HR Hu He Hc Hadj Hs' Ht1 HX HtX Hf1 HfX _ s x Hn Hx) as (N1 & N2 & N3).
      rewrite map_app. cbn [map]. rewrite rstate_snoc, count_obs_snoc. cbv zeta. split; [exact N1|]. split; [|exact N3].
      rewrite N2, Hb. destruct (isobs _); lia. }
    assert (Hs2 : forall pre s x, Inv pre s -> Inv (pre ++ [x])
            (snd (let '((r, _), s') := ewma_step_r (round_to rd fm) fm cfg s x in (r, s')))).
    { intros pre s x HI Hpre. apply Forall_app in Hpre. destruct Hpre as [Hpre Hx].
      destruct (St pre s x HI (Forall_inv Hx) Hpre) as (A & B & _).
      destruct (ewma_step_r _ fm cfg s x) as [[? ?] ?]; split; [exact A|exact B]. }
    destruct (run_inv _ _ Inv x0 r ys sF I0 Hs2 Hr) as (Hl & _ & Hn).
    split; auto. intros t y Hy.
    destruct (nth_error (x0 :: r) t) as [x|] eqn:Hx.
    2:{ apply nth_error_None in Hx. rewrite <- Hl in Hx. apply nth_error_None in Hx. congruence. }
    destruct (Hn t x Hx) as (s & HI & _ & Ey). rewrite Hy in Ey. apply (f_equal (fun o => match o with Some v => v | None => NaN end)) in Ey.
    cbn beta iota in Ey.
    assert (Hpre : Forall (bounded X) (firstn t (x0 :: r))).
    { apply Forall_forall. intros v Hv. rewrite Forall_forall in Hxs. apply Hxs. rewrite <- (firstn_skipn t). apply in_or_app. left. exact Hv. }
    assert (Hbx : bounded X x). { rewrite Forall_forall in Hxs. apply Hxs. apply nth_error_In with t; auto. }
    destruct (St _ s x HI Hbx Hpre) as ((Nm & _) & Nn & Nr). cbv zeta in *.
    unfold os. rewrite firstn_map, Nat.add_1_r, (firstn_snoc _ _ _ Hx).
    set (rr := ewma_step_r _ fm cfg s x) in *.
    set (L := map (observation fm) (firstn t (x0 :: r) ++ [x])) in *.
    assert (Ey' : y = fst (fst rr)) by (rewrite Ey; destruct rr as [[? ?] ?]; reflexivity).
    rewrite Ey', Nr, Nn, geb_ltb. unfold when_enough.
    destruct (fst (rstate cfg i L)) as [m|].
    - destruct Nm as (mh & -> & Hmh & _). destruct (_ <? _)%Z; cbn [within]; auto.
      unfold Em in Hmh. lra.
    - rewrite Nm. destruct (_ <? _)%Z; exact I.
  Qed.
End Series.

Lemma ewma_rounded_true : forall u eta rd fm cfg X xs ys sF,
  rounding u eta rd -> 0 <= u -> 0 <= eta ->
  0 < com cfg -> adjust cfg = AdjTrue ->
  100 * u * (1 + com cfg) ^ 2 <= 1 -> 0 <= X ->
  eta * (1 + com cfg) <= u * Rmin 1 X -> 8 * (1 + com cfg) * Rmax 1 X <= fm ->
  Forall (bounded X) xs -> bounded X (initial_value cfg) ->
  run (EWMA_r (round_to rd fm) fm cfg) xs = Some (ys, sF) ->
  let os := map (observation fm) xs in
  length ys = length xs /\
  forall t y, nth_error ys t = Some y ->
    within (80 * u * (1 + com cfg) ^ 2 * X) y
      (when_enough (min_periods cfg) (firstn (t + 1) os)
        (exp_average (ignore_na cfg) (1 / (1 + com cfg))
          (observation fm (initial_value cfg) :: firstn (t + 1) os))).
Proof.
  intros u eta rd fm cfg X xs ys sF HR Hu He Hc Ha Hs HX Ht Hm Hxs Hi Hr os.
  destruct (ewma_r_run u eta rd fm cfg X HR Hu He ltac:(lra) ltac:(congruence) Hs HX Ht Hm xs ys sF Hxs Hi Hr) as (Hl & Hn).
  split; auto. intros t y Hy. specialize (Hn t y Hy). fold os in Hn.
  destruct (run_nonempty _ _ _ _ Hr) as (x0 & r & E).
  destruct (run_total (fun _ : fl => ewma_init cfg) (fun s x => let '((r, _), s') := ewma_step fm cfg s x in (r, s')) x0 r)
    as (ys' & sF' & Hr').
  rewrite <- E in Hr'. fold (EWMA fm cfg) in Hr'.
  destruct (ewma_run fm cfg xs ys' sF' ltac:(lra) Hr') as (_ & A).
  destruct (ewma_adjust_true fm cfg xs ys' sF' Hc Ha Hr') as (_ & B).
  assert (Hlt : (t < length xs)%nat) by (rewrite <- Hl; apply nth_error_Some; congruence).
  specialize (A t Hlt). specialize (B t Hlt). cbv zeta in A, B. fold os in A, B. rewrite A in B.
  assert (B' : when_enough (min_periods cfg) (firstn (t + 1) os)
     (fst (rstate cfg (observation fm (initial_value cfg)) (firstn (t + 1) os))) =
     when_enough (min_periods cfg) (firstn (t + 1) os)
        (exp_average (ignore_na cfg) (1 / (1 + com cfg))
          (observation fm (initial_value cfg) :: firstn (t + 1) os))) by congruence.
  rewrite <- B'. exact Hn.
Qed.

Lemma ewma_rounded_false : forall u eta rd fm cfg X xs ys sF,
  rounding u eta rd -> 0 <= u -> 0 <= eta ->
  0 <= com cfg -> adjust cfg = AdjFalse ->
  100 * u * (1 + com cfg) ^ 2 <= 1 -> 0 <= X ->
  eta * (1 + com cfg) <= u * Rmin 1 X -> 8 * (1 + com cfg) * Rmax 1 X <= fm ->
  Forall (bounded X) xs -> bounded X (initial_value cfg) ->
  run (EWMA_r (round_to rd fm) fm cfg) xs = Some (ys, sF) ->
  let os := map (observation fm) xs in
  length ys = length xs /\
  forall t y, nth_error ys t = Some y ->
    within (80 * u * (1 + com cfg) ^ 2 * X) y
      (when_enough (min_periods cfg) (firstn (t + 1) os)
        (exp_recursion (ignore_na cfg) (1 / (1 + com cfg))
          (observation fm (initial_value cfg) :: firstn (t + 1) os))).
Proof.
  intros u eta rd fm cfg X xs ys sF HR Hu He Hc Ha Hs HX Ht Hm Hxs Hi Hr os.
  destruct (ewma_r_run u eta rd fm cfg X HR Hu He Hc ltac:(congruence) Hs HX Ht Hm xs ys sF Hxs Hi Hr) as (Hl & Hn).
  split; auto. intros t y Hy. specialize (Hn t y Hy). fold os in Hn.
  destruct (run_nonempty _ _ _ _ Hr) as (x0 & r & E).
  destruct (run_total (fun _ : fl => ewma_init cfg) (fun s x => let '((r, _), s') := ewma_step fm cfg s x in (r, s')) x0 r)
    as (ys' & sF' & Hr').
  rewrite <- E in Hr'. fold (EWMA fm cfg) in Hr'.
  destruct (ewma_run fm cfg xs ys' sF' Hc Hr') as (_ & A).
  destruct (ewma_adjust_false fm cfg xs ys' sF' Hc Ha Hr') as (_ & B).
  assert (Hlt : (t < length xs)%nat) by (rewrite <- Hl; apply nth_error_Some; congruence).
  specialize (A t Hlt). specialize (B t Hlt). cbv zeta in A, B. fold os in A, B. rewrite A in B.
  assert (B' : when_enough (min_periods cfg) (firstn (t + 1) os)
     (fst (rstate cfg (observation fm (initial_value cfg)) (firstn (t + 1) os))) =
     when_enough (min_periods cfg) (firstn (t + 1) os)
        (exp_recursion (ignore_na cfg) (1 / (1 + com cfg))
          (observation fm (initial_value cfg) :: firstn (t + 1) os))) by congruence.
  rewrite <- B'. exact Hn.
Qed.

(** *** IEEE formats *)
Lemma flt_rounding emin prec : (0 < prec)%Z -> (emin <= 0)%Z -> (emin <= 1 - prec)%Z ->
  rounding (/ 2 * bpow radix2 (- prec + 1)) (/ 2 * bpow radix2 emin)
    (fun x => round radix2 (FLT_exp emin prec) ZnearestE x).
Proof.
  intros Hp Hm Hm2.
  assert (PP : Prec_gt_0 prec) by exact Hp.
  assert (V : Valid_exp (FLT_exp emin prec)) by (apply FLT_exp_valid; exact PP).
  constructor.
  - intros x y H. apply round_le; auto. apply valid_rnd_N.
  - intros x. apply round_generic; [apply valid_rnd_N|]. apply generic_format_round; auto. apply valid_rnd_N.
  - apply round_0. apply valid_rnd_N.
  - apply round_generic; [apply valid_rnd_N|]. change 1 with (bpow radix2 0).
    apply generic_format_bpow. unfold FLT_exp. lia.
  - apply round_generic; [apply valid_rnd_N|]. change 2 with (bpow radix2 1).
    apply generic_format_bpow. unfold FLT_exp. lia.
  - intros x Hx Hr. apply round_generic; [apply valid_rnd_N|].
    apply sterbenz; auto.
    + apply FLT_exp_monotone.
    + change 1 with (bpow radix2 0). apply generic_format_bpow. unfold FLT_exp. lia.
    + rewrite <- Hx. apply generic_format_round; auto. apply valid_rnd_N.
    + lra.
  - intros x. destruct (error_N_FLT radix2 emin prec Hp (fun n => negb (Z.even n)) x)
      as (eps & et & H1 & H2 & _ & ->).
    replace (x * (1 + eps) + et - x) with (x * eps + et) by ring.
    apply Rle_trans with (1 := Rabs_triang _ _). apply Rplus_le_compat; auto.
    rewrite Rabs_mult, Rmult_comm. apply Rmult_le_compat_r; auto. apply Rabs_pos.
Qed.

Lemma single_rounding : rounding (/ 2 ^ 24) (/ 2 ^ 150) single.
Proof.
  assert (H := flt_rounding (-149) 24 eq_refl ltac:(lia) ltac:(lia)).
  replace (/ 2 ^ 24) with (/ 2 * bpow radix2 (- (24) + 1)).
  - replace (/ 2 ^ 150) with (/ 2 * bpow radix2 (-149)); [exact H|].
    change (bpow radix2 (-149)) with (/ IZR (Z.pow_pos 2 149)). rewrite <- Rinv_mult. f_equal.
    rewrite <- mult_IZR, pow_IZR. f_equal.
  - change (bpow radix2 (- (24) + 1)) with (/ IZR (Z.pow_pos 2 23)). rewrite <- Rinv_mult. f_equal.
    rewrite <- mult_IZR, pow_IZR. f_equal.
Qed.
Lemma double_rounding : rounding (/ 2 ^ 53) (/ 2 ^ 1075) double.
Proof.
  assert (H := flt_rounding (-1074) 53 eq_refl ltac:(lia) ltac:(lia)).
  replace (/ 2 ^ 53) with (/ 2 * bpow radix2 (- (53) + 1)).
  - replace (/ 2 ^ 1075) with (/ 2 * bpow radix2 (-1074)); [exact H|].
    change (bpow radix2 (-1074)) with (/ IZR (Z.pow_pos 2 1074)). rewrite <- Rinv_mult. f_equal.
    rewrite <- mult_IZR, pow_IZR. f_equal.
  - change (bpow radix2 (- (53) + 1)) with (/ IZR (Z.pow_pos 2 52)). rewrite <- Rinv_mult. f_equal.
    rewrite <- mult_IZR, pow_IZR. f_equal.
Qed.
