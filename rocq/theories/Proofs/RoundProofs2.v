(** Rounding error of EWMA over a whole series. *)
From Coq Require Import List ZArith Reals Lra Lia Bool.
From Verif Require Import Model.Unroll Model.Float Model.Modules Model.Ewm Model.Rounded Spec.EwmSpec
  Spec.RoundSpec Proofs.FloatFacts Proofs.ListFacts Proofs.RunFacts Proofs.EwmFacts Proofs.EwmProofs
  Proofs.RoundProofs.
Import ListNotations.
Local Open Scope R_scope.

Lemma round_to_fin rd fm r : Rabs (rd r) <= fm -> round_to rd fm (Fin r) = Fin (rd r).
Proof.
  intros H. apply abs_inv in H. unfold round_to.
  rewrite Rlt_b_false by lra. rewrite Rlt_b_false by lra. reflexivity.
Qed.

(** tie with the exact model *)
Lemma ewma_step_exact fm cfg s x : ewma_step_r (fun v => v) fm cfg s x = ewma_step fm cfg s x.
Proof. reflexivity. Qed.

Section EwmaErr.
  Variables (u eta : R) (rd : R -> R) (fm : R) (cfg : ewma_cfg) (X : R).
  Hypothesis HR : rounding u eta rd.
  Hypothesis Hu : 0 <= u.
  Hypothesis He : 0 <= eta.
  Notation C := (1 + com cfg).
  Hypothesis Hc : 0 <= com cfg.
  Hypothesis Hadj : adjust cfg <> AdjLinear.
  Hypothesis Hs : 100 * u * (C * C) <= 1.
  Hypothesis Ht : eta * C <= u.
  Hypothesis HX : 0 <= X.
  Hypothesis HtX : eta * C <= u * X.
  Hypothesis Hm1 : 8 * C <= fm.
  Hypothesis HmX : 8 * (C * X) <= fm.

  Notation rnd := (round_to rd fm).
  Notation k := (u * (C * C)).
  Definition Wm := if truthy (adjust cfg) then C else 1.
  Definition Dm := if truthy (adjust cfg) then 20 * k else 11 * (u * C).
  Definition Em := 80 * k * X.
  Definition nh := if truthy (adjust cfg) then 1 else ah rd (com cfg).

  Lemma al_inv : al cfg = / C. Proof. unfold al, Rdiv. lra. Qed.

  Lemma CC : C * / C = 1. Proof using Hc. exact (CinvC _ Hc). Qed.
  Lemma D_decay : 8 * u * (Wm + Dm) + u <= Dm * / C.
  Proof using Hu Hc Hs.
    pose proof (C1 (com cfg) Hc). pose proof (uCC u (com cfg) Hs). pose proof (uCle u Hu _ Hc).
    pose proof (ule u Hu _ Hc). pose proof (invC _ Hc). pose proof CC.
    unfold Wm, Dm. destruct (truthy _).
    - replace (20 * k * / C) with (20 * (u * C)) by (field; lra).
      assert (u * (20 * k) <= u * (1 / 5)) by (apply Rmult_le_compat_l; lra). lra.
    - replace (11 * (u * C) * / C) with (11 * u) by (field; lra).
      assert (u * (11 * (u * C)) <= u * (11 / 100)) by (apply Rmult_le_compat_l; lra). lra.
  Qed.
  Lemma D_nonneg : 0 <= Dm.
  Proof using Hu Hc.
    pose proof (C1 (com cfg) Hc). unfold Dm. pose proof (uCle u Hu _ Hc). pose proof (ule u Hu _ Hc).
    destruct (truthy _); lra.
  Qed.
  Lemma Dm_small : Dm <= 1 / 5.
  Proof using Hu Hc Hs.
    pose proof (uCC u (com cfg) Hs). pose proof (uC u Hu _ Hc Hs). unfold Dm. destruct (truthy _); lra.
  Qed.
  Lemma Wm_range : 1 <= Wm <= C.
  Proof using Hc. unfold Wm. destruct (truthy _); lra. Qed.
  Lemma E_nonneg : 0 <= Em.
  Proof using Hu Hc HX.
    unfold Em. pose proof (uCle u Hu _ Hc). pose proof (ule u Hu _ Hc). apply Rmult_le_pos; lra.
  Qed.

  Lemma alpha_r : rnd (fdiv (Fin 1) (rnd (fadd (Fin 1) (Fin (com cfg))))) = Fin (ah rd (com cfg)).
  Proof using HR Hu He Hc Hs Ht Hm1.
    pose proof (C1 (com cfg) Hc). cbn [fadd].
    pose proof (abs_inv _ _ (Ch_err u eta rd HR Hu He _ Hc Ht)) as G. unfold Ch in G.
    pose proof (Ch_ge1 u eta rd HR _ Hc) as G1. unfold Ch in G1. pose proof (uC u Hu _ Hc Hs).
    rewrite round_to_fin by (rewrite Rabs_right; lra).
    rewrite fdiv_Fin by lra. pose proof (ah_range u eta rd HR _ Hc) as G2. unfold ah, Ch in G2.
    rewrite round_to_fin; [reflexivity|]. rewrite Rabs_right; lra.
  Qed.
  Lemma beta_r : rnd (fsub (Fin 1) (Fin (ah rd (com cfg)))) = Fin (bh rd (com cfg)).
  Proof using HR Hc Hm1.
    pose proof (C1 (com cfg) Hc). pose proof (bh_range u eta rd HR _ Hc) as G. unfold bh in G.
    cbn [fsub fadd fneg]. fold (1 - ah rd (com cfg)). rewrite round_to_fin; [reflexivity|].
    rewrite Rabs_right; lra.
  Qed.
  Lemma newwt_r : (if truthy (adjust cfg) then Fin 1 else Fin (ah rd (com cfg))) = Fin nh.
  Proof. unfold nh. destruct (truthy _); reflexivity. Qed.

  Lemma nh_facts : 95 / 100 * / C <= nh /\ nh <= 1 /\ Rabs (nh - nwt cfg) <= 5 * (u * nwt cfg).
  Proof using HR Hu He Hc Hs Ht.
    pose proof (invC _ Hc). unfold nh, nwt. destruct (truthy _).
    - replace (1 - 1) with 0 by lra. rewrite Rabs_R0. lra.
    - rewrite al_inv. split; [exact (ah_low u eta rd HR Hu He _ Hc Hs Ht)|].
      split; [apply (ah_range u eta rd HR _ Hc)|]. exact (ah_err u eta rd HR Hu He _ Hc Hs Ht).
  Qed.

  (** the relation between the exact and the rounded state *)
  Definition near (p : option R * R) (s : ewma_state) : Prop :=
    match fst p with
    | None => ew_mean s = NaN
    | Some m => exists mh, ew_mean s = Fin mh /\ Rabs (mh - m) <= Em /\ Rabs m <= X
    end /\
    exists wh, old_wt s = Fin wh /\ 0 <= wh /\ Rabs (wh - snd p) <= Dm /\ 0 <= snd p <= Wm.

  Lemma em_ratio w wh : 0 <= w -> 0 <= wh -> Rabs (wh - w) <= Dm -> w <= 1 \/ truthy (adjust cfg) = true ->
    Rabs (wh - w) + w * Rabs (nh - nwt cfg) / nwt cfg <= 20 * k * (wh + nh).
  Proof using HR Hu He Hc Hs Ht.
    intros Hw Hwh Hd Hw1. pose proof nh_facts as (N1 & N2 & N3). pose proof (nwt_pos cfg Hc) as Np.
    pose proof (C1 (com cfg) Hc). pose proof (uCle u Hu _ Hc). pose proof (ule u Hu _ Hc).
    pose proof (invC _ Hc). assert (k0 : 0 <= k) by lra.
    revert N1 N2 N3 Hd Hw1 Np. unfold nh, nwt, Dm. destruct (truthy _); intros.
    - replace (1 - 1) with 0 by lra. rewrite Rabs_R0.
      assert (0 <= 20 * k * wh) by (apply Rmult_le_pos; lra).
      assert (w * 0 / 1 = 0) by field. lra.
    - assert (T : w * Rabs (ah rd (com cfg) - al cfg) / al cfg <= 5 * u).
      { apply div_le; [rewrite al_inv; lra|].
        apply Rle_trans with (1 * (5 * (u * al cfg))); [|lra].
        apply Rmult_le_compat; auto; [apply Rabs_pos|]. destruct Hw1 as [|E]; [auto|discriminate]. }
      assert (0 <= 20 * k * wh) by (apply Rmult_le_pos; lra).
      assert (20 * k * (95 / 100 * / C) <= 20 * k * ah rd (com cfg)) by (apply Rmult_le_compat_l; lra).
      replace (20 * k * (95 / 100 * / C)) with (19 * (u * C)) in * by (field; lra). lra.
  Qed.

  Lemma w_old_eq b m w : w_old cfg b (Some m) w =
    if b then w * (1 - / C) else if ignore_na cfg then w else w * (1 - / C).
  Proof using Hadj. unfold w_old. rewrite al_inv. destruct (adjust cfg); try contradiction; reflexivity. Qed.

  Lemma decay_r w wh : 0 <= wh -> Rabs (wh - w) <= Dm -> 0 <= w <= Wm ->
    rnd (fmul (Fin wh) (Fin (bh rd (com cfg)))) = Fin (rd (wh * bh rd (com cfg))) /\
    Rabs (rd (wh * bh rd (com cfg)) - w * (1 - / C)) <= Dm /\
    0 <= rd (wh * bh rd (com cfg)) <= C - 1 + 1 / 5 /\ 0 <= w * (1 - / C) /\ w * (1 - / C) <= Wm - Wm * / C.
  Proof using HR Hu He Hc Hs Ht Hm1.
    intros H0 Hd Hw. pose proof (C1 (com cfg) Hc). pose proof (invC _ Hc) as Hi. pose proof Wm_range as HW.
    destruct (decay_err u eta rd HR Hu He _ Hc Hs Ht w wh Wm Dm H0 Hd Hw D_decay) as (A & B & B').
    assert (W0 : 0 <= w * (1 - / C)) by (apply Rmult_le_pos; lra).
    assert (W1 : w * (1 - / C) <= Wm * (1 - / C)) by (apply Rmult_le_compat_r; lra).
    assert (W2 : Wm * (1 - / C) <= C * (1 - / C)) by (apply Rmult_le_compat_r; lra).
    replace (C * (1 - / C)) with (C - 1) in W2 by (field; lra). pose proof Dm_small.
    pose proof (abs_inv _ _ A).
    cbn [fmul]. rewrite round_to_fin by (rewrite Rabs_right; lra).
    repeat split; auto; try lra.
  Qed.

  Lemma mean_obs w wh m mh x :
    0 <= w -> 0 <= wh <= C - 1 + 1 / 5 -> w + nwt cfg <= nwt cfg * C ->
    Rabs (wh - w) <= Dm -> w <= 1 \/ truthy (adjust cfg) = true ->
    Rabs m <= X -> Rabs x <= X -> Rabs (mh - m) <= Em ->
    exists q, rnd (fdiv (rnd (fadd (rnd (fmul (Fin wh) (Fin mh))) (rnd (fmul (Fin nh) (Fin x)))))
                (rnd (fadd (Fin wh) (Fin nh)))) = Fin q /\
      Rabs (q - (w * m + nwt cfg * x) / (w + nwt cfg)) <= Em /\
      Rabs ((w * m + nwt cfg * x) / (w + nwt cfg)) <= X.
  Proof using HR Hu He Hc Hs Ht HX HtX Hm1 HmX.
    intros Hw Hwh HwC Hd Hw1 Hm Hx Hmh. pose proof nh_facts as (N1 & N2 & _).
    pose proof (C1 (com cfg) Hc). pose proof (uCC u (com cfg) Hs) as Hk. pose proof (invC _ Hc).
    pose proof (uCle u Hu _ Hc). pose proof (ule u Hu _ Hc).
    destruct (obs_err u eta rd HR Hu He _ Hc Hs Ht w wh (nwt cfg) nh m mh x X Em Hw ltac:(lra)
      (nwt_pos cfg Hc) N1 HwC (em_ratio w wh Hw ltac:(lra) Hd Hw1) Hm Hx Hmh (Rle_refl _) HtX) as (Q & B).
    assert (HE : Em <= 8 / 10 * X).
    { unfold Em. apply Rmult_le_compat_r; lra. }
    assert (Hmh' : Rabs mh <= 18 / 10 * X).
    { apply abs_inv in Hm. apply abs_inv in Hmh. apply abs_le; lra. }
    destruct (eval_err u eta rd HR Hu He _ Hc Hs Ht wh nh mh x (18 / 10 * X) X ltac:(lra) N1 Hmh'
      ltac:(lra) HX ltac:(lra) HtX) as (Q0 & B1 & B2 & B3 & B4 & B5).
    assert (BS : (wh + nh) * (18 / 10 * X) <= (C + 1 / 5) * (18 / 10 * X)) by (apply Rmult_le_compat_r; lra).
    assert (HXC : X <= C * X) by (rewrite <- (Rmult_1_l X) at 1; apply Rmult_le_compat_r; lra).
    cbn [fmul]. rewrite (round_to_fin _ _ (wh * mh)) by lra. rewrite (round_to_fin _ _ (nh * x)) by lra.
    cbn [fadd]. rewrite (round_to_fin _ _ (_ + _)) by lra.
    rewrite (round_to_fin _ _ (wh + nh)) by (rewrite Rabs_right; lra).
    rewrite fdiv_Fin by lra. eexists. split; [apply round_to_fin|split; [exact Q|exact B]].
    unfold Em in HE. apply abs_inv in Q. apply abs_inv in B. apply abs_le; lra.
  Qed.

  Lemma near_step p s x : near p s -> bounded X x ->
    let r := ewma_step_r rnd fm cfg s x in
    let o := observation fm x in
    near (rstep cfg p o) (snd r) /\
    nobs (snd r) = (if isobs o then (nobs s + 1)%Z else nobs s) /\
    fst (fst r) = (if Z.eqb (min_periods cfg) 0 then ew_mean (snd r)
                   else if Z.geb (nobs (snd r)) (min_periods cfg) then ew_mean (snd r) else NaN).
  Proof using HR Hu He Hc Hadj Hs Ht HX HtX Hm1 HmX.
    intros (Hm & wh & Ew & Hw0 & Hd & Hw) Hx r o.
    pose proof (C1 (com cfg) Hc). pose proof (invC _ Hc). pose proof Wm_range. pose proof D_nonneg.
    pose proof Dm_small. pose proof (nwt_pos cfg Hc) as Np.
    destruct p as [m w]. cbn [fst snd] in *.
    assert (Hr : r = ewma_step_r rnd fm cfg s x) by reflexivity. clearbody r. revert Hr.
    unfold ewma_step_r. rewrite alpha_r, newwt_r, Ew.
    replace (match adjust cfg with AdjLinear => _ | _ => (rnd (fsub (Fin 1) _), Fin wh) end)
      with (Fin (bh rd (com cfg)), Fin wh)
      by (rewrite beta_r; destruct (adjust cfg); [reflexivity|reflexivity|contradiction]).
    cbv beta iota zeta. intros ->. cbn [fst snd nobs ew_mean old_wt].
    split; [|split; [destruct x; reflexivity|reflexivity]].
    destruct (decay_r w wh Hw0 Hd Hw) as (R1 & R2 & R3 & R4 & R5). rewrite R1.
    set (wh2 := rd (wh * bh rd (com cfg))) in *.
    assert (HwC : w * (1 - / C) + nwt cfg <= nwt cfg * C).
    { unfold nwt, Wm in *. rewrite al_inv. destruct (truthy _).
      - rewrite CC in R5. lra.
      - rewrite Rinv_l by lra. lra. }
    assert (Hw1 : w * (1 - / C) <= 1 \/ truthy (adjust cfg) = true).
    { unfold Wm in *. destruct (truthy _); auto. left. lra. }
    assert (Wp : 0 <= Wm * / C) by (apply Rmult_le_pos; lra).
    unfold near, rstep. cbn [fst snd].
    destruct x as [| | |x]; try contradiction; cbn [isnan negb nan_to_num observation bounded] in *; subst o.
    - (* missing *)
      cbn [r_mean r_wt]. destruct m as [m|].
      + destruct Hm as (mh & Em_ & Hmh & HmX'). rewrite Em_. cbn [isnan andb nan_to_num].
        split; [exists mh; auto|]. rewrite w_old_eq.
        destruct (ignore_na cfg), (truthy (adjust cfg)); (eexists; split; [reflexivity|]; repeat split; auto; try lra).
      + rewrite Hm. cbn [isnan andb]. split; [reflexivity|]. cbn [w_old]. exists 0.
        split; [destruct (truthy _); reflexivity|]. replace (0 - 0) with 0 by lra. rewrite Rabs_R0. lra.
    - (* observation *)
      destruct m as [m|].
      + destruct Hm as (mh & Em_ & Hmh & HmX'). rewrite Em_. cbn [isnan andb nan_to_num dfl r_mean r_wt].
        rewrite w_old_eq.
        replace (if ignore_na cfg then Fin wh2 else Fin wh2) with (Fin wh2) by (destruct (ignore_na cfg); reflexivity).
        destruct (mean_obs (w * (1 - / C)) wh2 m mh x R4 R3 HwC R2 Hw1 HmX' Hx Hmh) as (q & Eq & Hq & HqX).
        rewrite Eq. split; [exists q; auto|].
        unfold Wm, Dm, nwt, nh in *. destruct (truthy (adjust cfg)) eqn:Etr.
        * cbn [fadd].
          assert (Rabs (wh2 + 1) <= 6 / 5 * C) as Ha by (rewrite Rabs_right; lra).
          pose proof (abs_inv _ _ (rd_err_le u eta rd HR Hu _ _ Ha)).
          pose proof (eta_u u eta He _ Hc Ht). pose proof (ule u Hu _ Hc). pose proof (u1 u Hu _ Hc Hs).
          assert (HuC : u * C <= 1 / 100 * C) by (apply Rmult_le_compat_r; lra).
          rewrite round_to_fin by (apply abs_le; lra).
          eexists; split; [reflexivity|].
          (* finer bound of the decayed weight *)
          split; [apply (rd_nonneg u eta rd HR); lra|].
          rewrite CC in R5. split; [|lra].
          pose proof (bh_range u eta rd HR _ Hc) as Hb. pose proof (bh_err u eta rd HR Hu He _ Hc Hs Ht) as Hbe.
          apply abs_inv in Hd.
          assert (P0 : 0 <= wh * bh rd (com cfg)) by (apply Rmult_le_pos; lra).
          assert (P1 : wh * bh rd (com cfg) <= wh * 1) by (apply Rmult_le_compat_l; lra).
          assert (A1 : Rabs (wh * (bh rd (com cfg) - (1 - / C))) <= wh * (7 * u))
            by (apply abs_mul; [rewrite Rabs_right; lra|exact Hbe]).
          assert (A2 : Rabs ((wh - w) * (1 - / C)) <= 20 * k * (1 - / C))
            by (apply abs_mul; [apply abs_le; lra|rewrite Rabs_right; lra]).
          assert (A3 : Rabs (wh2 - wh * bh rd (com cfg)) <= u * wh + eta)
            by (apply (rd_err_le u eta rd HR Hu); rewrite Rabs_right; lra).
          assert (A4 : u * wh <= u * (6 / 5 * C)) by (apply Rmult_le_compat_l; lra).
          assert (A5 : 20 * k * (1 - / C) = 20 * k - 20 * (u * C)) by (field; lra).
          rewrite A5 in A2.
          apply abs_inv in A1. apply abs_inv in A2. apply abs_inv in A3. apply abs_le; lra.
        * exists 1. split; [reflexivity|]. replace (1 - 1) with 0 by lra. rewrite Rabs_R0. lra.
      + rewrite Hm. cbn [isnan andb nan_to_num dfl r_mean r_wt w_old].
        assert (Z0 : Rabs (0 - 0) <= Dm) by (replace (0 - 0) with 0 by lra; rewrite Rabs_R0; lra).
        assert (Z1 : Rabs (0 - 0) <= Em) by (replace (0 - 0) with 0 by lra; rewrite Rabs_R0; apply E_nonneg).
        assert (Z2 : Rabs 0 <= X) by (rewrite Rabs_R0; auto).
        assert (Z3 : 0 + nwt cfg <= nwt cfg * C).
        { rewrite Rplus_0_l. rewrite <- (Rmult_1_r (nwt cfg)) at 1. apply Rmult_le_compat_l; lra. }
        destruct (mean_obs 0 0 0 0 x ltac:(lra) ltac:(lra) Z3 Z0 ltac:(left; lra) Z2 Hx Z1) as (q & Eq & Hq & HqX).
        replace (if ignore_na cfg then Fin wh2 else Fin wh2) with (Fin wh2) by (destruct (ignore_na cfg); reflexivity).
        rewrite Eq. split; [exists q; auto|].
        unfold Wm, Dm, nwt, nh in *. destruct (truthy (adjust cfg)) eqn:Etr.
        * cbn [fadd]. rewrite Rplus_0_l. rewrite round_to_fin; rewrite (rd_one _ _ _ HR).
          -- exists 1. split; [reflexivity|]. replace (1 - 1) with 0 by lra. rewrite Rabs_R0. lra.
          -- rewrite Rabs_R1. lra.
        * exists 1. split; [reflexivity|]. replace (1 - 1) with 0 by lra. rewrite Rabs_R0. lra.
  Qed.
End EwmaErr.
