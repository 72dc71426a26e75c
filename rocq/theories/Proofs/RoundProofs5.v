(** Concrete single precision computations. *)
From Coq Require Import List ZArith Reals Lra Lia Bool.
From Flocq Require Import Core.
From Verif Require Import Model.Unroll Model.Float Model.Modules Model.Ewm Model.Rounded
  Spec.RoundSpec Proofs.FloatFacts Proofs.RunFacts Proofs.RoundProofs Proofs.RoundProofs2 Proofs.RoundProofs3.
Import ListNotations.
Local Open Scope R_scope.

Definition fits (p q k n : Z) : bool :=
  ((0 <? q) && (0 <=? k) && (k <=? 149) && (2 ^ 23 * q <=? p * 2 ^ k) && (p * 2 ^ k <? 2 ^ 24 * q) &&
   (- q <? 2 * (p * 2 ^ k - n * q)) && (2 * (p * 2 ^ k - n * q) <? q))%Z.

Lemma single_val x p q k n : x * IZR q = IZR p -> fits p q k n = true ->
  single x = IZR n / IZR (2 ^ k).
Proof.
  intros Hx H. unfold fits in H. repeat rewrite andb_true_iff in H.
  destruct H as ((((((H0 & H1) & H2) & H3) & H4) & H5) & H6).
  apply Z.ltb_lt in H0. apply Z.leb_le in H1. apply Z.leb_le in H2. apply Z.leb_le in H3.
  apply Z.ltb_lt in H4. apply Z.ltb_lt in H5. apply Z.ltb_lt in H6.
  assert (Q0 : 0 < IZR q) by (apply IZR_lt; auto).
  set (T := IZR (2 ^ k)). assert (T0 : 0 < T) by (apply IZR_lt; apply Z.pow_pos_nonneg; lia).
  assert (ET : bpow radix2 k = T) by (unfold T; rewrite <- IZR_Zpower by auto; reflexivity).
  assert (ETi : bpow radix2 (- k) = / T) by (rewrite bpow_opp, ET; reflexivity).
  assert (E3 : IZR (2 ^ 23) * IZR q <= IZR p * T) by (unfold T; rewrite <- !mult_IZR; apply IZR_le; auto).
  assert (E4 : IZR p * T < IZR (2 ^ 24) * IZR q) by (unfold T; rewrite <- !mult_IZR; apply IZR_lt; auto).
  assert (E5 : - IZR q < 2 * (IZR p * T - IZR n * IZR q)).
  { unfold T. rewrite <- !mult_IZR, <- minus_IZR, <- mult_IZR, <- opp_IZR. apply IZR_lt; auto. }
  assert (E6 : 2 * (IZR p * T - IZR n * IZR q) < IZR q).
  { unfold T. rewrite <- !mult_IZR, <- minus_IZR, <- mult_IZR. apply IZR_lt; auto. }
  rewrite <- Hx in *.
  assert (X3 : IZR (2 ^ 23) <= x * T) by (apply Rmult_le_reg_r with (IZR q); auto; lra).
  assert (X4 : x * T < IZR (2 ^ 24)) by (apply Rmult_lt_reg_r with (IZR q); auto; lra).
  assert (X5 : Rabs (x * T - IZR n) < / 2).
  { apply Rabs_def1; apply Rmult_lt_reg_r with (IZR q); auto; lra. }
  assert (M : mag radix2 x = (24 - k)%Z :> Z).
  { apply mag_unique_pos. replace (24 - k - 1)%Z with (23 + - k)%Z by lia. unfold Z.sub.
    rewrite !bpow_plus, ETi. rewrite <- !IZR_Zpower by lia. change (Zpower radix2 23) with (2 ^ 23)%Z.
    change (Zpower radix2 24) with (2 ^ 24)%Z. split.
    - apply Rmult_le_reg_r with T; auto. rewrite Rmult_assoc, Rinv_l by lra. lra.
    - apply Rmult_lt_reg_r with T; auto. rewrite Rmult_assoc, Rinv_l by lra. lra. }
  unfold single, round, scaled_mantissa, cexp. rewrite M.
  replace (FLT_exp (-149) 24 (24 - k)) with (- k)%Z by (unfold FLT_exp; lia).
  rewrite Z.opp_involutive, ET. unfold F2R. cbn [Fnum Fexp]. rewrite ETi.
  rewrite (Znearest_imp _ _ n X5). reflexivity.
Qed.

Definition fits_tie (p q k n : Z) : bool :=
  ((0 <? q) && (0 <=? k) && (k <=? 149) && (2 ^ 23 * q <=? p * 2 ^ k) && (p * 2 ^ k <? 2 ^ 24 * q) &&
   (2 * (p * 2 ^ k - n * q) =? q) && Z.even n)%Z.

Lemma single_tie x p q k n : x * IZR q = IZR p -> fits_tie p q k n = true ->
  single x = IZR n / IZR (2 ^ k).
Proof.
  intros Hx H. unfold fits_tie in H. repeat rewrite andb_true_iff in H.
  destruct H as ((((((H0 & H1) & H2) & H3) & H4) & H5) & H6).
  apply Z.ltb_lt in H0. apply Z.leb_le in H1. apply Z.leb_le in H2. apply Z.leb_le in H3.
  apply Z.ltb_lt in H4. apply Z.eqb_eq in H5.
  assert (Q0 : 0 < IZR q) by (apply IZR_lt; auto).
  set (T := IZR (2 ^ k)). assert (T0 : 0 < T) by (apply IZR_lt; apply Z.pow_pos_nonneg; lia).
  assert (ET : bpow radix2 k = T) by (unfold T; rewrite <- IZR_Zpower by auto; reflexivity).
  assert (ETi : bpow radix2 (- k) = / T) by (rewrite bpow_opp, ET; reflexivity).
  assert (E3 : IZR (2 ^ 23) * IZR q <= IZR p * T) by (unfold T; rewrite <- !mult_IZR; apply IZR_le; auto).
  assert (E4 : IZR p * T < IZR (2 ^ 24) * IZR q) by (unfold T; rewrite <- !mult_IZR; apply IZR_lt; auto).
  assert (E5 : 2 * (IZR p * T - IZR n * IZR q) = IZR q).
  { unfold T. rewrite <- !mult_IZR, <- minus_IZR, <- mult_IZR. f_equal. auto. }
  rewrite <- Hx in *.
  assert (X3 : IZR (2 ^ 23) <= x * T) by (apply Rmult_le_reg_r with (IZR q); auto; lra).
  assert (X4 : x * T < IZR (2 ^ 24)) by (apply Rmult_lt_reg_r with (IZR q); auto; lra).
  assert (X5 : x * T = IZR n + / 2) by (apply Rmult_eq_reg_r with (IZR q); lra).
  assert (M : mag radix2 x = (24 - k)%Z :> Z).
  { apply mag_unique_pos. replace (24 - k - 1)%Z with (23 + - k)%Z by lia. unfold Z.sub.
    rewrite !bpow_plus, ETi. rewrite <- !IZR_Zpower by lia. change (Zpower radix2 23) with (2 ^ 23)%Z.
    change (Zpower radix2 24) with (2 ^ 24)%Z. split.
    - apply Rmult_le_reg_r with T; auto. rewrite Rmult_assoc, Rinv_l by lra. lra.
    - apply Rmult_lt_reg_r with T; auto. rewrite Rmult_assoc, Rinv_l by lra. lra. }
  unfold single, round, scaled_mantissa, cexp. rewrite M.
  replace (FLT_exp (-149) 24 (24 - k)) with (- k)%Z by (unfold FLT_exp; lia).
  rewrite Z.opp_involutive, ET. unfold F2R. cbn [Fnum Fexp]. rewrite ETi, X5.
  assert (Fl : Zfloor (IZR n + / 2) = n) by (apply Zfloor_imp; rewrite plus_IZR; lra).
  unfold Znearest. rewrite Fl. replace (IZR n + / 2 - IZR n) with (/ 2) by lra.
  rewrite Rcompare_Eq by reflexivity. rewrite H6. reflexivity.
Qed.

Lemma single_0 : single 0 = 0. Proof. exact (rd_zero _ _ _ single_rounding). Qed.
Lemma single_1 : single 1 = 1. Proof. exact (rd_one _ _ _ single_rounding). Qed.

Lemma single_opp x : single (- x) = - single x.
Proof. unfold single. rewrite round_NE_opp. reflexivity. Qed.

(** the series 3, 3 with com = 4, adjust = True *)
Definition ex_cfg := EwmaCfg 4 0 AdjTrue false NaN.
Section Ex.
  Variable fm : R.
  Hypothesis Hfm : 100 <= fm.
  Notation rnd := (round_to single fm).
  Lemma rnd_val x v : single x = v -> Rabs v <= 100 -> rnd (Fin x) = Fin v.
  Proof using Hfm. intros <- H. apply round_to_fin. lra. Qed.

  Lemma val_by x p q k n v : x * IZR q = IZR p -> fits p q k n = true -> v = IZR n / IZR (2 ^ k) -> Rabs v <= 100 ->
    rnd (Fin x) = Fin v.
  Proof using Hfm. intros H1 H2 -> H. apply rnd_val; auto. apply (single_val x p q k n); auto. Qed.
  Ltac pos := rewrite Rabs_right; lra.
  Tactic Notation "vb" constr(p) constr(q) constr(k) constr(n) :=
    apply (val_by _ p q k n); [lra|reflexivity|cbv [Z.pow Z.pow_pos Pos.iter Z.mul Pos.mul]; lra|pos].

  Definition a5 := 13421773 / 67108864.
  Definition b5 := 13421773 / 16777216.

  Lemma ex_alpha : rnd (fdiv (Fin 1) (rnd (fadd (Fin 1) (Fin 4)))) = Fin a5.
  Proof using Hfm.
    unfold a5. cbn [fadd]. replace (rnd (Fin (1 + 4))) with (Fin 5) by (symmetry; vb 5%Z 1%Z 21%Z 10485760%Z).
    rewrite fdiv_Fin by lra. vb 1%Z 5%Z 26%Z 13421773%Z.
  Qed.
  Lemma ex_beta : rnd (fsub (Fin 1) (Fin a5)) = Fin b5.
  Proof using Hfm. unfold a5, b5. cbn [fsub fadd fneg]. vb 53687091%Z 67108864%Z 24%Z 13421773%Z. Qed.

  Lemma rnd_exact x : single x = x -> 0 <= x <= 100 -> rnd (Fin x) = Fin x.
  Proof using Hfm. intros H Hx. apply rnd_val; auto. pos. Qed.

  Lemma ex_first x : single x = x -> 0 <= x <= 100 ->
    exists i, ewma_step_r rnd fm ex_cfg (ewma_init ex_cfg) (Fin x) = ((Fin x, i), EwmaState (Fin x) (Fin 1) 1).
  Proof using Hfm.
    intros H Hx. unfold ewma_step_r, ex_cfg, ewma_init. cbn [ew_mean old_wt nobs initial_value com adjust ignore_na min_periods isnan negb andb truthy nan_to_num].
    cbn [fmul fadd Z.eqb].
    rewrite Rmult_0_l, Rmult_1_l. rewrite (rnd_exact 0) by (try exact single_0; lra).
    rewrite (rnd_exact x) by auto. cbn [fadd]. rewrite !Rplus_0_l.
    rewrite (rnd_exact x) by auto. rewrite (rnd_exact 1) by (try exact single_1; lra).
    rewrite fdiv_Fin by lra. replace (x / 1) with x by lra. rewrite (rnd_exact x) by auto.
    eexists. reflexivity.
  Qed.

  Lemma ex_second x p s q d :
    single x = x -> 0 <= x <= 100 ->
    rnd (Fin (b5 * x)) = Fin p -> rnd (Fin (p + x)) = Fin s -> rnd (Fin (b5 + 1)) = Fin d -> d <> 0 ->
    rnd (Fin (s / d)) = Fin q ->
    exists i st, ewma_step_r rnd fm ex_cfg (EwmaState (Fin x) (Fin 1) 1) (Fin x) = ((Fin q, i), st).
  Proof using Hfm.
    intros Hx Hx1 Hp Hs Hd Hd0 Hq. unfold ewma_step_r, ex_cfg.
    cbn [ew_mean old_wt nobs initial_value com adjust ignore_na min_periods isnan negb andb truthy nan_to_num].
    rewrite ex_alpha, ex_beta. cbn [fmul fadd Z.eqb].
    rewrite !Rmult_1_l.
    replace (rnd (Fin b5)) with (Fin b5).
    2:{ symmetry. unfold b5. vb 13421773%Z 16777216%Z 24%Z 13421773%Z. }
    cbn [fmul fadd]. rewrite Hp, (rnd_exact x) by auto. cbn [fadd]. rewrite Hs, Hd, fdiv_Fin by auto. rewrite Hq.
    eexists. eexists. reflexivity.
  Qed.

  Lemma s3 : single 3 = 3. Proof. rewrite (single_val 3 3 1 22 12582912); [cbv [Z.pow Z.pow_pos Pos.iter Z.mul Pos.mul]; lra|lra|reflexivity]. Qed.
  Lemma s9 : single 9 = 9. Proof. rewrite (single_val 9 9 1 20 9437184); [cbv [Z.pow Z.pow_pos Pos.iter Z.mul Pos.mul]; lra|lra|reflexivity]. Qed.

  Lemma ex_den : rnd (Fin (b5 + 1)) = Fin (7549747 / 4194304).
  Proof using Hfm.
    apply rnd_val; [|pos]. unfold b5.
    rewrite (single_tie _ 30198989 16777216 23 15099494); [cbv [Z.pow Z.pow_pos Pos.iter Z.mul Pos.mul]; lra|lra|reflexivity].
  Qed.
  Lemma ex_run3 : exists i st,
    ewma_step_r rnd fm ex_cfg (EwmaState (Fin 3) (Fin 1) 1) (Fin 3) = ((Fin (12582913 / 4194304), i), st).
  Proof using Hfm.
    apply (ex_second 3 (5033165 / 2097152) (11324621 / 2097152) _ (7549747 / 4194304)).
    - exact s3.
    - lra.
    - unfold b5. vb 40265319%Z 16777216%Z 22%Z 10066330%Z.
    - vb 11324621%Z 2097152%Z 21%Z 11324621%Z.
    - exact ex_den.
    - lra.
    - vb 22649242%Z 7549747%Z 22%Z 12582913%Z.
  Qed.
  Lemma ex_run9 : exists i st,
    ewma_step_r rnd fm ex_cfg (EwmaState (Fin 9) (Fin 1) 1) (Fin 9) = ((Fin (9437185 / 1048576), i), st).
  Proof using Hfm.
    apply (ex_second 9 (15099495 / 2097152) (4246733 / 262144) _ (7549747 / 4194304)).
    - exact s9.
    - lra.
    - unfold b5. vb 120795957%Z 16777216%Z 21%Z 15099495%Z.
    - vb 33973863%Z 2097152%Z 19%Z 8493466%Z.
    - exact ex_den.
    - lra.
    - vb 67947728%Z 7549747%Z 20%Z 9437185%Z.
  Qed.

  (** EWMA of the constant series 3, 3 is 3, then 12582913 / 2^22 > 3. *)
  Lemma ex_constant : exists sF,
    run (EWMA_r rnd fm ex_cfg) [Fin 3; Fin 3] = Some ([Fin 3; Fin (12582913 / 4194304)], sF).
  Proof using Hfm.
    unfold EWMA_r. rewrite run_eq. cbn [lax_scan].
    destruct (ex_first 3 s3 ltac:(lra)) as (i & E1). destruct ex_run3 as (i2 & st & E2).
    unfold stepf. rewrite E1. cbn [fst snd]. rewrite E2. cbn [fst snd]. eexists. reflexivity.
  Qed.

  (** The variance of the constant series 3, 3 given by EWMCov is 0, then -2^-20. *)
  Lemma ex_variance : exists sF,
    run (EWMCov_diag_r rnd fm ex_cfg) [Fin 3; Fin 3] = Some ([Fin 0; Fin (- (1 / 1048576))], sF).
  Proof using Hfm.
    unfold EWMCov_diag_r. rewrite run_eq. cbn [lax_scan].
    destruct (ex_first 3 s3 ltac:(lra)) as (i & E1). destruct ex_run3 as (i2 & st & E2).
    destruct (ex_first 9 s9 ltac:(lra)) as (i9 & E19). destruct ex_run9 as (i92 & st9 & E29).
    assert (E9 : rnd (fmul (Fin 3) (Fin 3)) = Fin 9).
    { cbn [fmul]. replace (3 * 3) with 9 by lra. apply rnd_exact; [exact s9|lra]. }
    assert (Sq : rnd (fmul (Fin (12582913 / 4194304)) (Fin (12582913 / 4194304))) = Fin (4718593 / 524288)).
    { cbn [fmul]. vb 158329699565569%Z 17592186044416%Z 20%Z 9437186%Z. }
    unfold stepf, ewmcov_diag_step_r. cbn [fst snd]. rewrite E9, E19, E1. cbn [fst snd]. rewrite E29, E2. cbn [fst snd].
    rewrite Sq, E9. cbn [fsub fadd fneg].
    replace (rnd (Fin (9 + - (9)))) with (Fin 0).
    2:{ replace (9 + - (9)) with 0 by lra. symmetry. apply rnd_exact; [exact single_0|lra]. }
    replace (rnd (Fin (9437185 / 1048576 + - (4718593 / 524288)))) with (Fin (- (1 / 1048576))).
    2:{ replace (9437185 / 1048576 + - (4718593 / 524288)) with (- (1 / 1048576)) by lra.
        symmetry. apply rnd_val.
        - rewrite single_opp. f_equal. rewrite (single_val (1 / 1048576) 1 1048576 43 8388608);
            [cbv [Z.pow Z.pow_pos Pos.iter Z.mul Pos.mul]; lra|lra|reflexivity].
        - rewrite Rabs_Ropp. pos. }
    eexists. reflexivity.
  Qed.
End Ex.
