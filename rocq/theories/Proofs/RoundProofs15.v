(** Rounding error of the exponential averages: adjust = "linear", and the compiled loop. *)
From Coq Require Import List ZArith Reals Lra Lia Bool.
From Verif Require Import Model.Unroll Model.Float Model.Modules Model.Ewm Model.Rounded Model.RoundedNumba Spec.EwmSpec
  Spec.RoundSpec Proofs.FloatFacts Proofs.ListFacts Proofs.RunFacts Proofs.EwmFacts Proofs.EwmProofs Proofs.EwmExtra
  Proofs.RoundProofs Proofs.RoundProofs2 Proofs.RoundProofs3 Proofs.RoundProofs14.
Import ListNotations.
Local Open Scope R_scope.

Section Err.
  Variables (u eta : R) (rd : R -> R) (fm : R) (cfg : ewma_cfg) (X : R).
  Hypothesis HR : rounding u eta rd.
  Hypothesis Hu : 0 <= u.
  Hypothesis He : 0 <= eta.
  Notation C := (1 + com cfg).
  Hypothesis Hc : 0 <= com cfg.
  Hypothesis Hs : 100 * u * (C * C) <= 1.
  Hypothesis Ht : eta * C <= u.
  Hypothesis HX : 0 <= X.
  Hypothesis HtX : eta * C <= u * X.
  Hypothesis Hm1 : 8 * C <= fm.
  Hypothesis HmX : 8 * (C * X) <= fm.
  Notation rnd := (round_to rd fm).
  Notation E := (Em u cfg X).

  Definition nearM (m : option R) (s : ewma_state) : Prop :=
    match m with
    | None => ew_mean s = NaN
    | Some m => exists mh, ew_mean s = Fin mh /\ Rabs (mh - m) <= E /\ Rabs m <= X
    end.
  Definition nearW (P : R -> R -> Prop) (p : option R * R) (s : ewma_state) : Prop :=
    nearM (fst p) s /\ exists wh, old_wt s = Fin wh /\ P wh (snd p).

  (** *** adjust = "linear": the weights are counted exactly *)
  Definition Plin (wh w : R) : Prop :=
    0 <= w /\ Rmin wh (com cfg) = Rmin w (com cfg) /\
    (Rmin w (com cfg) = com cfg \/ exists n, (0 <= n)%Z /\ Rmin w (com cfg) = IZR n).

  Hypothesis Hrep : rd (com cfg) = com cfg.
  Variable N : Z.
  Hypothesis HN : counts_to rd N.
  Hypothesis HNc : C <= IZR N.

  Lemma Rmin_com_idem w : Rmin (Rmin w (com cfg)) (com cfg) = Rmin w (com cfg).
  Proof. apply Rmin_left, Rmin_r. Qed.

  Lemma lin_rep w : (Rmin w (com cfg) = com cfg \/ exists n, (0 <= n)%Z /\ Rmin w (com cfg) = IZR n) ->
    rd (Rmin w (com cfg)) = Rmin w (com cfg).
  Proof using Hrep HN HNc Hc.
    intros [->|(n & Hn & En)]; auto. rewrite En. apply HN. split; auto. apply le_IZR.
    pose proof (Rmin_r w (com cfg)). lra.
  Qed.
  Lemma lin_next w : 0 <= w -> (Rmin w (com cfg) = com cfg \/ exists n, (0 <= n)%Z /\ Rmin w (com cfg) = IZR n) ->
    Plin (rd (Rmin w (com cfg) + 1)) (Rmin w (com cfg) + 1) /\
    Rabs (rd (Rmin w (com cfg) + 1)) <= 2 * C.
  Proof using HR Hrep HN HNc Hc Hu He Hs Ht.
    intros Hw H. assert (V0 : 0 <= Rmin w (com cfg)) by (apply Rmin_glb; auto).
    pose proof (Rmin_r w (com cfg)) as V1. set (v := Rmin w (com cfg)) in *.
    split.
    - split; [lra|]. destruct H as [->|(n & Hn & En)].
      + assert (com cfg <= rd (com cfg + 1)) by (rewrite <- Hrep at 1; apply (rd_mono _ _ _ HR); lra).
        rewrite !Rmin_right by lra. auto.
      + assert (Er : rd (v + 1) = v + 1).
        { rewrite En, <- plus_IZR. apply HN. split; [lia|]. apply le_IZR. rewrite plus_IZR. lra. }
        rewrite Er. split; auto. unfold Rmin. destruct (Rle_dec (v + 1) (com cfg)); auto. right.
        exists (n + 1)%Z. split; [lia|]. rewrite En, plus_IZR. reflexivity.
    - assert (Ha : Rabs (v + 1) <= C) by (rewrite Rabs_right; lra).
      pose proof (abs_inv _ _ (rd_err_le u eta rd HR Hu _ _ Ha)).
      pose proof (eta_u u eta He _ Hc Ht). pose proof (uC u Hu _ Hc Hs). pose proof (ule u Hu _ Hc).
      apply abs_inv in Ha. apply abs_le; lra.
  Qed.

  Lemma lin_step p s x : adjust cfg = AdjLinear -> nearW Plin p s -> bounded X x ->
    (fst p <> None -> x = NaN -> ignore_na cfg = true) ->
    nearW Plin (rstep cfg p (observation fm x)) (snd (ewma_step_r rnd fm cfg s x)).
  Proof using HR Hu He Hc Hs Ht HX HtX Hm1 HmX Hrep HN HNc.
    intros Ha (Hm & wh & Ew & Hw0 & Hmin & Hv) Hx Hmiss. unfold nearM in Hm.
    pose proof (C1 (com cfg) Hc). destruct p as [m w]. cbn [fst snd] in *.
    pose proof (lin_rep w Hv) as Vr. assert (V0 : 0 <= Rmin w (com cfg)) by (apply Rmin_glb; auto).
    pose proof (Rmin_r w (com cfg)) as V1.
    assert (Zm : Plin 0 0).
    { split; [lra|]. rewrite Rmin_left by lra. split; auto. right. exists 0%Z. split; [lia|reflexivity]. }
    unfold ewma_step_r. rewrite Ha, Ew. cbn [truthy]. rewrite fmin_Fin, Hmin.
    assert (NW : nwt cfg = 1) by (unfold nwt; rewrite Ha; reflexivity).
    assert (NH : nh rd cfg = 1) by (unfold nh; rewrite Ha; reflexivity).
    assert (D0 : forall z, Rabs (z - z) <= Dm u cfg).
    { intros z. replace (z - z) with 0 by lra. rewrite Rabs_R0. apply D_nonneg; auto. }
    unfold nearW, nearM, rstep. cbn [fst snd ew_mean old_wt].
    destruct x as [| | |x]; try contradiction; cbn [isnan negb nan_to_num observation bounded] in *.
    - destruct m as [m|].
      + rewrite (Hmiss ltac:(discriminate) eq_refl). destruct Hm as (mh & Em_ & Hmh & HmX').
        rewrite Em_. cbn [isnan andb nan_to_num r_mean r_wt]. split; [exists mh; auto|].
        unfold w_old. rewrite Ha, (Hmiss ltac:(discriminate) eq_refl).
        eexists; split; [reflexivity|]. split; [auto|]. rewrite Rmin_com_idem. auto.
      + rewrite Hm. cbn [isnan andb r_mean r_wt w_old]. split; [reflexivity|]. exists 0. auto.
    - set (old2 := if ignore_na cfg then rnd (fmul (Fin (Rmin w (com cfg))) (Fin 1)) else rnd (fmul (Fin (Rmin w (com cfg))) (Fin 1))).
      assert (E2 : old2 = Fin (Rmin w (com cfg))).
      { unfold old2. cbn [fmul]. rewrite Rmult_1_r. rewrite round_to_fin; rewrite Vr.
        - destruct (ignore_na cfg); reflexivity.
        - rewrite Rabs_right; lra. }
      rewrite E2. clear old2 E2.
      destruct m as [m|].
      + destruct Hm as (mh & Em_ & Hmh & HmX'). rewrite Em_. cbn [isnan andb nan_to_num dfl r_mean r_wt].
        unfold w_old. rewrite ?Ha, ?NW. cbn [truthy].
        destruct (mean_obs u eta rd fm cfg X HR Hu He Hc Hs Ht HX HtX Hm1 HmX (Rmin w (com cfg)) (Rmin w (com cfg)) m mh x)
          as (q & Eq & Hq & HqX); auto; try (rewrite NW; lra); try lra.
        { right. rewrite Ha. reflexivity. }
        rewrite NW, NH in *. rewrite Eq. split; [exists q; auto|].
        destruct (lin_next w Hw0 Hv) as (L1 & L2).
        cbn [fadd]. rewrite round_to_fin by lra. eexists; split; [reflexivity|exact L1].
      + rewrite Hm. cbn [isnan andb nan_to_num dfl r_mean r_wt w_old]. rewrite ?Ha, ?NW. cbn [truthy].
        destruct (mean_obs u eta rd fm cfg X HR Hu He Hc Hs Ht HX HtX Hm1 HmX 0 0 0 0 x)
          as (q & Eq & Hq & HqX); auto; try (rewrite NW; lra); try lra.
        { rewrite Rabs_R0; auto. }
        { replace (0 - 0) with 0 by lra. rewrite Rabs_R0. apply E_nonneg; auto. }
        rewrite NW, NH in *. rewrite Eq. split; [exists q; auto|].
        cbn [fadd]. rewrite Rplus_0_l. rewrite round_to_fin; rewrite (rd_one _ _ _ HR).
        * exists 1. split; [reflexivity|]. split; [lra|]. split; auto.
          unfold Rmin. destruct (Rle_dec 1 (com cfg)); auto. right. exists 1%Z. split; [lia|reflexivity].
        * rewrite Rabs_R1. lra.
  Qed.
  Lemma lin_start : Plin 1 1.
  Proof.
    split; [lra|]. split; auto. unfold Rmin. destruct (Rle_dec 1 (com cfg)); auto. right. exists 1%Z. split; [lia|reflexivity].
  Qed.
End Err.

(** *** the compiled loop is the module except for the shortcut on equal values *)
Lemma numba_like fm rnd cfg s x mh :
  ew_mean s = Fin mh -> (adjust cfg = AdjLinear -> x = NaN -> ignore_na cfg = true) ->
  x = NaN \/ (exists v, x = Fin v) ->
  let h := snd (ewma_step_r rnd fm cfg s x) in
  let n := snd (numba_cell_r rnd cfg s x) in
  old_wt n = old_wt h /\ nobs n = nobs h /\
  (ew_mean n = ew_mean h \/ x = Fin mh /\ ew_mean n = Fin mh).
Proof.
  intros Em_ Hl Hx. cbv zeta. unfold ewma_step_r, numba_cell_r. rewrite Em_.
  destruct Hx as [->|(v & ->)]; cbn [isnan negb nan_to_num orb andb].
  - destruct (adjust cfg) eqn:Ea.
    + destruct (ignore_na cfg); cbn; repeat split; auto; lia.
    + destruct (ignore_na cfg); cbn; repeat split; auto; lia.
    + rewrite (Hl eq_refl eq_refl). cbn. repeat split; auto. lia.
  - destruct (fne (Fin mh) (Fin v)) eqn:En.
    + destruct (adjust cfg) eqn:Ea; destruct (ignore_na cfg); cbn [orb truthy snd ew_mean old_wt nobs]; repeat split; auto; lia.
    + assert (Ev : v = mh).
      { unfold fne, feq in En. destruct (Req_b_spec mh v) as [Q|Q]; [auto|discriminate]. }
      subst v. destruct (adjust cfg) eqn:Ea; destruct (ignore_na cfg); cbn [orb truthy snd ew_mean old_wt nobs]; repeat split; auto; lia.
Qed.

Section Numba.
  Variables (u eta : R) (rd : R -> R) (fm : R) (cfg : ewma_cfg) (X : R).
  Hypothesis Hu : 0 <= u.
  Hypothesis Hc : 0 <= com cfg.
  Hypothesis HX : 0 <= X.
  Variable P : R -> R -> Prop.
  Hypothesis P1 : P 1 1.
  Hypothesis P0 : forall wh w, P wh w -> 0 <= w.
  Notation rnd := (round_to rd fm).
  Notation E := (Em u cfg X).

  Definition nearN (p : option R * R) (s : ewma_state) : Prop :=
    match fst p with
    | None => ew_mean s = NaN /\ old_wt s = Fin 1
    | Some _ => nearW u cfg X P p s
    end.

  Lemma numba_step p s x :
    (nearW u cfg X P p s -> nearW u cfg X P (rstep cfg p (observation fm x)) (snd (ewma_step_r rnd fm cfg s x))) ->
    nearN p s -> bounded X x ->
    (adjust cfg = AdjLinear -> fst p <> None -> x = NaN -> ignore_na cfg = true) ->
    nearN (rstep cfg p (observation fm x)) (snd (numba_cell_r rnd cfg s x)).
  Proof using Hu Hc HX P1 P0.
    intros Hh Hn Hx Hmiss. destruct p as [m w]. unfold nearN in Hn. cbn [fst] in *.
    assert (Hxx : x = NaN \/ (exists v, x = Fin v)).
    { destruct x; cbn [bounded] in Hx; try contradiction; eauto. }
    pose proof (nwt_pos cfg Hc) as Np.
    destruct m as [m|].
    - specialize (Hh Hn). pose proof Hn as ((mh & Em_ & Hmh & HmX') & wh & Ew & HP).
      destruct (numba_like fm rnd cfg s x mh Em_ ltac:(intros; apply Hmiss; auto; discriminate) Hxx) as (A & B & D).
      unfold nearN. destruct Hxx as [->|(v & ->)]; cbn [observation] in *.
      + unfold rstep in *. cbn [fst r_mean] in *. destruct Hh as (H1 & wh' & H2 & H3).
        split; [|exists wh'; split; [congruence|exact H3]].
        unfold nearM in *. cbn [fst] in *. destruct H1 as (m' & E1 & H1). exists m'. split; auto.
        destruct D as [D|[D _]]; [congruence|discriminate].
      + unfold rstep in *. cbn [fst r_mean] in *. destruct Hh as (H1 & wh' & H2 & H3).
        split; [|exists wh'; split; [congruence|exact H3]].
        unfold nearM in *. cbn [fst] in *. destruct H1 as (m' & E1 & H1 & HB).
        destruct D as [D|[D D']].
        * exists m'. split; [congruence|auto].
        * exists mh. split; auto. split; [|exact HB]. assert (v = mh) by congruence. subst v. cbn [dfl].
          pose proof (w_old_nonneg cfg true (Some m) w Hc (P0 _ _ HP)) as Ho. cbn [snd] in *. set (w1 := w_old cfg true (Some m) w) in *.
          replace (mh - (w1 * m + nwt cfg * mh) / (w1 + nwt cfg)) with (w1 / (w1 + nwt cfg) * (mh - m)) by (field; lra).
          rewrite Rabs_mult. rewrite (Rabs_right (w1 / (w1 + nwt cfg))).
          2:{ apply Rle_ge. apply Rmult_le_pos; auto. apply Rlt_le, Rinv_0_lt_compat. lra. }
          apply Rle_trans with (1 * Rabs (mh - m)); [|lra].
          apply Rmult_le_compat_r; [apply Rabs_pos|].
          apply Rmult_le_reg_r with (w1 + nwt cfg); [lra|]. unfold Rdiv. rewrite Rmult_assoc, Rinv_l by lra. lra.
    - destruct Hn as (Em_ & Ew). unfold nearN, rstep, numba_cell_r. rewrite Em_, Ew.
      destruct Hxx as [->|(v & ->)]; cbn [observation isnan negb fst snd r_mean r_wt w_old dfl ew_mean old_wt].
      + auto.
      + split.
        * unfold nearM; cbn [fst ew_mean]. exists v. split; auto. rewrite Rmult_0_l, !Rplus_0_l.
          replace (nwt cfg * v / nwt cfg) with v by (field; lra).
          replace (v - v) with 0 by lra. rewrite Rabs_R0. split; [apply E_nonneg; auto|exact Hx].
        * exists 1. split; auto. cbn [snd]. destruct (truthy _); [rewrite Rplus_0_l|]; exact P1.
  Qed.
  Lemma numba_nobs s x : nobs (snd (numba_cell_r rnd cfg s x)) = (nobs s + (if isnan x then 0 else 1))%Z /\
    fst (numba_cell_r rnd cfg s x) =
    if Z.geb (nobs (snd (numba_cell_r rnd cfg s x))) (min_periods cfg) then ew_mean (snd (numba_cell_r rnd cfg s x)) else NaN.
  Proof.
    unfold numba_cell_r. match goal with |- context [let '(_, _) := ?q in _] => destruct q as [a b] end.
    cbn [fst snd nobs ew_mean]. split; [destruct x; reflexivity|reflexivity].
  Qed.
End Numba.
