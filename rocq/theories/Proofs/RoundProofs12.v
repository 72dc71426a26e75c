(** EWMVar in rounded arithmetic: series. *)
From Coq Require Import List ZArith Reals Lra Lia Bool.
From Verif Require Import Model.Unroll Model.Float Model.Modules Model.Ewm Model.Rounded
  Spec.EwmSpec Spec.RoundSpec Proofs.FloatFacts Proofs.ListFacts Proofs.RunFacts
  Proofs.RoundProofs Proofs.RoundProofs2 Proofs.RoundProofs7 Proofs.AlgebraProofs3 Proofs.RoundProofs10 Proofs.RoundProofs11.
Import ListNotations.
Local Open Scope R_scope.

Section Series.
  Variables (u eta : R) (rd : R -> R) (fm : R) (pw : R -> R -> R) (N : Z) (c X : R) (adj : adjust_mode).
  Hypothesis HR : rounding u eta rd.
  Hypothesis Hu : 0 <= u.
  Hypothesis He : 0 <= eta.
  Notation C := (1 + c).
  Hypothesis Hc : 0 <= c.
  Hypothesis Hs : 100 * u * C ^ 2 <= 1.
  Hypothesis HX : 0 <= X.
  Hypothesis Ht : eta * C <= u * Rmin 1 (X * X).
  Hypothesis Hm1 : 64 * C * Rmax 1 (X * X) <= fm.
  Hypothesis Hpw : power_within (2 * u) pw.
  Hypothesis HN : counts_to rd N.
  Hypothesis HN1 : 1 <= 2 * u * IZR N.
  Hypothesis HN2 : IZR N <= fm.
  Notation rnd := (round_to rd fm).

  Lemma Hs' : 100 * u * (C * C) <= 1. Proof using Hs. lra. Qed.
  Lemma Ht' : eta * C <= u.
  Proof using Ht Hu. pose proof (Rmin_l 1 (X * X)). assert (u * Rmin 1 (X * X) <= u * 1) by (apply Rmult_le_compat_l; lra). lra. Qed.
  Lemma fmC : 64 * C <= fm /\ 64 * X <= fm /\ 64 * (X * X) <= fm /\ 64 <= fm.
  Proof using Hc Hm1 HX.
    pose proof (Rmax_l 1 (X * X)) as A. pose proof (Rmax_r 1 (X * X)) as B.
    assert (D : 64 * C * 1 <= 64 * C * Rmax 1 (X * X)) by (apply Rmult_le_compat_l; lra).
    assert (E : 64 * 1 * Rmax 1 (X * X) <= 64 * C * Rmax 1 (X * X)) by (apply Rmult_le_compat_r; lra).
    assert (X <= Rmax 1 (X * X)). { destruct (Rle_lt_dec X 1); [lra|]. apply Rle_trans with (2 := B). nra. }
    repeat split; lra.
  Qed.

  Definition alpha_x (n : nat) : fl :=
    let alpha := fdiv (Fin 1) (fadd (Fin 1) (Fin c)) in
    match adj with
    | AdjLinear =>
        let tscale := fdiv (Fin 1) alpha in
        let tscale := if flt (Fin (INR n)) tscale then Fin (INR n) else tscale in
        if flt (Fin 0) tscale then fdiv (Fin 1) tscale else NaN
    | AdjTrue =>
        match alpha with
        | Fin a => fdiv alpha (fsub (Fin 1) (Fin ((1 - a) ^ n)))
        | _ => NaN
        end
    | AdjFalse => alpha
    end.
  Definition alpha_r (n : fl) : fl :=
    let alpha := rnd (fdiv (Fin 1) (rnd (fadd (Fin 1) (Fin c)))) in
    match adj with
    | AdjLinear =>
        let tscale := rnd (fdiv (Fin 1) alpha) in
        let tscale := if flt n tscale then n else tscale in
        if flt (Fin 0) tscale then rnd (fdiv (Fin 1) tscale) else NaN
    | AdjTrue =>
        match rnd (fsub (Fin 1) alpha), n with
        | Fin b, Fin k => rnd (fdiv alpha (rnd (fsub (Fin 1) (Fin (pw b k)))))
        | _, _ => NaN
        end
    | AdjFalse => alpha
    end.

  Lemma step_x s x : ewmvar_step c adj s x =
    let mean := if isnan (ev_mean s) then x else ev_mean s in
    let variance := if isnan (ev_var s) then Fin 0 else ev_var s in
    let mask := negb (isnan x) in
    let n := if mask then S (ev_nobs s) else ev_nobs s in
    let alpha := alpha_x n in
    let diff := fsub x mean in
    let incr := fmul alpha diff in
    let mean' := if mask then fadd mean incr else mean in
    let variance' := if mask then fmul (fsub (Fin 1) alpha) (fadd variance (fmul diff incr)) else variance in
    (variance', EwmvarState mean' variance' n).
  Proof using. reflexivity. Qed.
  Lemma step_r s x : ewmvar_step_r rnd pw c adj s x =
    let mean := if isnan (er_mean s) then x else er_mean s in
    let variance := if isnan (er_var s) then Fin 0 else er_var s in
    let mask := negb (isnan x) in
    let n := if mask then rnd (fadd (er_nobs s) (Fin 1)) else er_nobs s in
    let alpha := alpha_r n in
    let diff := rnd (fsub x mean) in
    let incr := rnd (fmul alpha diff) in
    let mean' := if mask then rnd (fadd mean incr) else mean in
    let variance' := if mask then rnd (fmul (rnd (fsub (Fin 1) alpha)) (rnd (fadd variance (rnd (fmul diff incr))))) else variance in
    (variance', EwmvarStateR mean' variance' n).
  Proof using. reflexivity. Qed.

  Lemma alphas n : (1 <= n)%nat -> exists al a,
    alpha_x n = Fin al /\ alpha_r (Fin (IZR (Z.min (Z.of_nat n) N))) = Fin a /\
    / C <= al <= 1 /\ Rabs (a - al) <= 25 * (u * C) * al.
  Proof using HR Hu He Hc Hs HX Ht Hm1 Hpw HN1.
    intros Hn. destruct fmC as (F1 & F2 & F3 & F4). pose proof Hs' as S'. pose proof Ht' as T'.
    assert (E0 : fdiv (Fin 1) (fadd (Fin 1) (Fin c)) = Fin (/ C)).
    { cbn [fadd]. rewrite fdiv_Fin by lra. f_equal. unfold Rdiv. ring. }
    pose proof (Ch_ge1 u eta rd HR c Hc) as CH. pose proof (abs_inv _ _ (Ch_err u eta rd HR Hu He c Hc T')) as CE.
    pose proof (k_small u c Hu Hc S') as K.
    pose proof (ah_range u eta rd HR c Hc) as AR. pose proof (bh_range u eta rd HR c Hc) as BR.
    assert (E1 : rnd (fdiv (Fin 1) (rnd (fadd (Fin 1) (Fin c)))) = Fin (RoundProofs.ah rd c)).
    { cbn [fadd]. fold (Ch rd c) in *. change (rd (1 + c)) with (Ch rd c) in *.
      rewrite round_to_fin by (change (rd (1 + c)) with (Ch rd c); rewrite Rabs_pos_eq; lra).
      change (rd (1 + c)) with (Ch rd c). rewrite fdiv_Fin by lra.
      rewrite round_to_fin; [reflexivity|]. change (rd (1 / Ch rd c)) with (RoundProofs.ah rd c). rewrite Rabs_pos_eq; lra. }
    pose proof (invC c Hc) as IC.
    unfold alpha_x, alpha_r. rewrite E0, E1. cbv zeta. destruct adj.
    - (* true *)
      pose proof (coef_true u eta rd pw N c HR Hu He Hc S' T' Hpw HN1 n Hn) as (A & B & D).
      cbv zeta in *.
      set (g1 := 1 - (1 - / C) ^ n) in *.
      assert (G1 : g1 <> 0).
      { pose proof (g1_ge c Hc n Hn) as G. fold g1 in G. lra. }
      exists (/ C / g1). 
      set (n' := Z.to_nat (Z.min (Z.of_nat n) N)) in *.
      assert (En : IZR (Z.min (Z.of_nat n) N) = INR n').
      { unfold n'. rewrite INR_IZR_INZ, Z2Nat.id; auto. pose proof (N_pos u N c Hu Hc S' HN1). lia. }
      rewrite En.
      set (h := rd (1 - pw (RoundProofs.bh rd c) (INR n'))) in *.
      exists (rd (RoundProofs.ah rd c / h)).
      split; [|split; [|split; [exact A|exact B]]].
      + cbn [fsub fadd fneg]. rewrite fdiv_Fin; [reflexivity|]. exact G1.
      + assert (Eb : rnd (fsub (Fin 1) (Fin (RoundProofs.ah rd c))) = Fin (RoundProofs.bh rd c)).
        { cbn [fsub fadd fneg]. change (1 + - RoundProofs.ah rd c) with (1 - RoundProofs.ah rd c).
          rewrite round_to_fin; [reflexivity|]. change (rd (1 - RoundProofs.ah rd c)) with (RoundProofs.bh rd c). rewrite Rabs_pos_eq; lra. }
        rewrite Eb.
        assert (Eh : rnd (fsub (Fin 1) (Fin (pw (RoundProofs.bh rd c) (INR n')))) = Fin h).
        { cbn [fsub fadd fneg]. change (1 + - pw (RoundProofs.bh rd c) (INR n')) with (1 - pw (RoundProofs.bh rd c) (INR n')).
          rewrite round_to_fin; [reflexivity|]. fold h. rewrite Rabs_pos_eq; lra. }
        rewrite Eh. rewrite fdiv_Fin by lra. rewrite round_to_fin; [reflexivity|].
        pose proof (invC c Hc). assert (HC1 : 1 <= C) by lra.
        pose proof (a_hi u C (/ C / g1) (rd (RoundProofs.ah rd c / h)) HC1 K A B) as AH. lra.
    - (* false *)
      exists (/ C), (RoundProofs.ah rd c). destruct (coef_false u eta rd c HR Hu He Hc S' T') as (A & B). auto.
    - (* linear *)
      pose proof (coef_linear u eta rd N c HR Hu He Hc S' T' HN1 n Hn) as (A & B & D & D').
      pose proof (abs_inv _ _ (T_err u eta rd c HR Hu He Hc S' T')) as TE.
      assert (P0 : 0 < RoundProofs.ah rd c).
      { pose proof (ah_low u eta rd HR Hu He c Hc S' T'). lra. }
      cbv zeta in *. set (nu := IZR (Z.min (Z.of_nat n) N)) in *. set (T := rd (1 / RoundProofs.ah rd c)) in *.
      set (th := if Rlt_b nu T then nu else T) in *. set (t := if Rlt_b (INR n) C then INR n else C) in *.
      exists (1 / t), (rd (1 / th)). split; [|split; [|split; [exact A|exact B]]].
      + rewrite fdiv_Fin by lra. replace (1 / / C) with C by (field; lra). cbn [flt].
        replace (if Rlt_b (INR n) C then Fin (INR n) else Fin C) with (Fin t) by (unfold t; destruct (Rlt_b (INR n) C); reflexivity).
        cbn [flt]. rewrite Rlt_b_true by auto. rewrite fdiv_Fin by lra. reflexivity.
      + rewrite fdiv_Fin by lra.
        assert (uC' : u * C <= / 100 * C) by (pose proof (u_100 u c Hu Hc S'); apply Rmult_le_compat_r; lra).
        rewrite round_to_fin by (fold T; apply abs_le; lra). fold T. cbn [flt].
        replace (if Rlt_b nu T then Fin nu else Fin T) with (Fin th) by (unfold th; destruct (Rlt_b nu T); reflexivity).
        cbn [flt]. rewrite Rlt_b_true by auto. rewrite fdiv_Fin by lra. rewrite round_to_fin; [reflexivity|].
        assert (HC1 : 1 <= C) by lra.
        pose proof (a_hi u C (1 / t) (rd (1 / th)) HC1 K A B) as AH. lra.
  Qed.

  (** states *)
  Definition srel (s : ewmvar_state_r) (s' : ewmvar_state) : Prop :=
    (er_mean s = NaN /\ ev_mean s' = NaN /\ er_var s = ev_var s' /\ (ev_var s' = NaN \/ ev_var s' = Fin 0) /\
     er_nobs s = Fin 0 /\ ev_nobs s' = 0%nat) \/
    (exists m mh V Vh, er_mean s = Fin mh /\ ev_mean s' = Fin m /\ er_var s = Fin Vh /\ ev_var s' = Fin V /\
     (1 <= ev_nobs s')%nat /\ er_nobs s = Fin (IZR (Z.min (Z.of_nat (ev_nobs s')) N)) /\
     Rabs m <= X /\ Rabs (mh - m) <= 90 * (u * C) * X /\ 0 <= V <= 4 * (X * X) /\
     Rabs (Vh - V) <= 1700 * (u * C) * (X * X)).

  Lemma next_count j : (0 <= j)%Z -> rnd (fadd (Fin (IZR (Z.min j N))) (Fin 1)) = Fin (IZR (Z.min (j + 1) N)).
  Proof using HN HN2 HN1 Hu Hc Hs HX Hm1.
    intros Hj. destruct HN as (A & B). cbn [fadd].
    pose proof (N_pos u N c Hu Hc Hs' HN1) as NP. destruct fmC as (F1 & F2 & F3 & F4).
    destruct (Z_le_gt_dec (j + 1) N) as [L|L].
    - rewrite !Z.min_l by lia. rewrite <- plus_IZR.
      assert (IZR (j + 1) <= fm) by (apply Rle_trans with (2 := HN2); apply IZR_le; lia).
      assert (0 <= IZR (j + 1)) by (apply IZR_le; lia).
      rewrite round_to_fin; rewrite A by lia; auto. rewrite Rabs_pos_eq; auto.
    - rewrite !Z.min_r by lia. assert (0 <= IZR N) by (apply IZR_le; lia).
      rewrite round_to_fin; rewrite B; auto. rewrite Rabs_pos_eq; auto.
  Qed.

  Lemma one_step n nu x m mh V Vh :
    (1 <= n)%nat -> nu = Fin (IZR (Z.min (Z.of_nat n) N)) ->
    Rabs x <= X -> Rabs m <= X -> Rabs (mh - m) <= 90 * (u * C) * X -> 0 <= V <= 4 * (X * X) ->
    Rabs (Vh - V) <= 1700 * (u * C) * (X * X) ->
    let diff := rnd (fsub (Fin x) (Fin mh)) in let incr := rnd (fmul (alpha_r nu) diff) in
    let diff' := fsub (Fin x) (Fin m) in let incr' := fmul (alpha_x n) diff' in
    exists m1 mh1 V1 Vh1, rnd (fadd (Fin mh) incr) = Fin mh1 /\ fadd (Fin m) incr' = Fin m1 /\
      rnd (fmul (rnd (fsub (Fin 1) (alpha_r nu))) (rnd (fadd (Fin Vh) (rnd (fmul diff incr))))) = Fin Vh1 /\
      fmul (fsub (Fin 1) (alpha_x n)) (fadd (Fin V) (fmul diff' incr')) = Fin V1 /\
      Rabs m1 <= X /\ Rabs (mh1 - m1) <= 90 * (u * C) * X /\ 0 <= V1 <= 4 * (X * X) /\
      Rabs (Vh1 - V1) <= 1700 * (u * C) * (X * X).
  Proof using HR Hu He Hc Hs HX Ht Hm1 Hpw HN1.
    intros Hn -> Hx Hm Hmh HV HVh. destruct (alphas n Hn) as (al & a & Ex & Er & Hal & Ha). rewrite Ex, Er.
    destruct fmC as (F1 & F2 & F3 & F4).
    assert (HC1 : 1 <= C) by lra. pose proof (k_small u c Hu Hc Hs') as K.
    destruct (var_step u eta rd HR Hu He C X al a HC1 K HX Hal Ht Ha x m mh V Vh Hx Hm Hmh HV HVh)
      as ((B1 & B2 & B3 & B4 & B5 & B6 & B7) & R1 & R2 & R3 & R4).
    cbv zeta in *. cbn [fsub fadd fneg fmul].
    change (x + - mh) with (x - mh). change (x + - m) with (x - m). change (1 + - a) with (1 - a). change (1 + - al) with (1 - al).
    assert (0 <= X * X) by nra.
    rewrite (round_to_fin rd fm (x - mh)) by lra. cbn [fmul].
    rewrite (round_to_fin rd fm (a * rd (x - mh))) by lra. cbn [fadd fmul].
    rewrite (round_to_fin rd fm (mh + rd (a * rd (x - mh)))) by lra.
    rewrite (round_to_fin rd fm (rd (x - mh) * rd (a * rd (x - mh)))) by lra. cbn [fadd].
    rewrite (round_to_fin rd fm (1 - a)) by lra.
    rewrite (round_to_fin rd fm (Vh + _)) by lra. cbn [fmul].
    rewrite (round_to_fin rd fm (rd (1 - a) * _)) by lra.
    do 4 eexists. do 4 (split; [reflexivity|]). auto.
  Qed.

  Lemma ewmvar_sim s s' x : bounded X x -> srel s s' ->
    srel (snd (ewmvar_step_r rnd pw c adj s x)) (snd (ewmvar_step c adj s' x)) /\
    within (1700 * u * C * (X * X)) (fst (ewmvar_step_r rnd pw c adj s x)) (fst (ewmvar_step c adj s' x)).
  Proof using HR Hu He Hc Hs HX Ht Hm1 Hpw HN HN1 HN2.
    intros Hx H. rewrite step_r, step_x. cbv zeta.
    assert (PB : 0 <= 1700 * u * C * (X * X)).
    { apply Rmult_le_pos; [|nra]. apply Rmult_le_pos; lra. }
    destruct x as [| | |x]; cbn [bounded] in Hx; try tauto; cbn [isnan negb fst snd].
    - (* missing *)
      destruct H as [(E1 & E2 & E3 & E4 & E5 & E6)|(m & mh & V & Vh & E1 & E2 & E3 & E4 & E5 & E6 & B1 & B2 & B3 & B4)].
      + rewrite E1, E2, E3. cbn [isnan]. split.
        * left. cbn [er_mean ev_mean er_var ev_var er_nobs ev_nobs]. 
          split; [reflexivity|]. split; [reflexivity|]. split; [reflexivity|]. split; [|auto].
          destruct E4 as [->| ->]; cbn [isnan]; auto.
        * destruct E4 as [->| ->]; cbn [isnan within]; rewrite Rminus_0_r, Rabs_R0; auto.
      + rewrite E1, E2, E3, E4. cbn [isnan]. split.
        * right. exists m, mh, V, Vh. cbn [er_mean ev_mean er_var ev_var er_nobs ev_nobs].
          split; [reflexivity|]. split; [reflexivity|]. split; [reflexivity|]. split; [reflexivity|]. auto 10.
        * cbn [within]. apply Rle_trans with (1 := B4). lra.
    - (* an observation *)
      assert (HS : exists m mh V Vh, (if isnan (er_mean s) then Fin x else er_mean s) = Fin mh /\
         (if isnan (ev_mean s') then Fin x else ev_mean s') = Fin m /\
         (if isnan (er_var s) then Fin 0 else er_var s) = Fin Vh /\ (if isnan (ev_var s') then Fin 0 else ev_var s') = Fin V /\
         rnd (fadd (er_nobs s) (Fin 1)) = Fin (IZR (Z.min (Z.of_nat (S (ev_nobs s'))) N)) /\
         Rabs m <= X /\ Rabs (mh - m) <= 90 * (u * C) * X /\ 0 <= V <= 4 * (X * X) /\
         Rabs (Vh - V) <= 1700 * (u * C) * (X * X)).
      { pose proof (N_pos u N c Hu Hc Hs' HN1) as NP.
        destruct H as [(E1 & E2 & E3 & E4 & E5 & E6)|(m & mh & V & Vh & E1 & E2 & E3 & E4 & E5 & E6 & B1 & B2 & B3 & B4)].
        - exists x, x, 0, 0. rewrite E1, E2, E3, E5, E6. cbn [isnan].
          split; [reflexivity|]. split; [reflexivity|].
          split; [destruct E4 as [->| ->]; reflexivity|]. split; [destruct E4 as [->| ->]; reflexivity|].
          split. { pose proof (next_count 0 ltac:(lia)) as Q. rewrite Z.min_l in Q by lia. exact Q. }
          split; [auto|]. rewrite !Rminus_0_r. replace (x - x) with 0 by ring. rewrite Rabs_R0.
          assert (0 <= u * C) by (apply Rmult_le_pos; lra). assert (0 <= X * X) by nra.
          split; [apply Rmult_le_pos; lra|]. split; [lra|]. apply Rmult_le_pos; lra.
        - exists m, mh, V, Vh. rewrite E1, E2, E3, E4, E6. cbn [isnan].
          split; [reflexivity|]. split; [reflexivity|]. split; [reflexivity|]. split; [reflexivity|].
          split; [|auto]. rewrite Nat2Z.inj_succ. unfold Z.succ. apply next_count. lia. }
      destruct HS as (m & mh & V & Vh & -> & -> & -> & -> & -> & B1 & B2 & B3 & B4).
      destruct (one_step (S (ev_nobs s')) _ x m mh V Vh ltac:(lia) eq_refl Hx B1 B2 B3 B4)
        as (m1 & mh1 & V1 & Vh1 & Q1 & Q2 & Q3 & Q4 & D1 & D2 & D3 & D4).
      cbv zeta in Q1, Q2, Q3, Q4. rewrite Q1, Q2, Q3, Q4. split.
      + right. exists m1, mh1, V1, Vh1. cbn [er_mean ev_mean er_var ev_var er_nobs ev_nobs].
        do 4 (split; [reflexivity|]). split; [lia|]. split; [reflexivity|]. auto.
      + cbn [within]. apply Rle_trans with (1 := D4). lra.
  Qed.

  Lemma ewmvar_rounded xs ys s ys' s' :
    Forall (bounded X) xs ->
    run (EWMVar_r rnd pw c adj) xs = Some (ys, s) -> run (EWMVar c adj) xs = Some (ys', s') ->
    length ys = length xs /\
    forall t y y', nth_error ys t = Some y -> nth_error ys' t = Some y' -> within (1700 * u * (1 + c) * (X * X)) y y'.
  Proof using HR Hu He Hc Hs HX Ht Hm1 Hpw HN HN1 HN2.
    intros Hx H1 H2.
    assert (F : Forall2 (within (1700 * u * C * (X * X))) ys ys').
    { refine (run_sim_on _ _ _ _ (bounded X) srel _ _ _ xs ys ys' s s' Hx H1 H2).
      - intros x _. left. cbn. repeat split; auto.
      - intros a b x Hb Hr. apply ewmvar_sim; auto. }
    split.
    - destruct (run_nonempty _ _ _ _ H1) as (x0 & r & E). rewrite E in H1. destruct (run_nth _ _ _ _ _ _ H1) as (L & _). rewrite E. exact L.
    - clear -F. induction F as [|a b l l' H F IH]; intros [|t] y y' E1 E2; cbn [nth_error] in *; try discriminate.
      + injection E1 as <-. injection E2 as <-. exact H.
      + eauto.
  Qed.
End Series.
