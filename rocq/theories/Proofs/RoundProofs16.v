(** Whole series: adjust = "linear" with rounding, and the compiled loop with rounding. *)
From Coq Require Import List ZArith Reals Lra Lia Bool.
From Verif Require Import Model.Unroll Model.Float Model.Modules Model.Ewm Model.Rounded Model.RoundedNumba Spec.EwmSpec
  Spec.RoundSpec Proofs.FloatFacts Proofs.ListFacts Proofs.RunFacts Proofs.EwmFacts Proofs.EwmProofs Proofs.EwmExtra
  Proofs.RoundProofs Proofs.RoundProofs2 Proofs.RoundProofs3 Proofs.RoundProofs14 Proofs.RoundProofs15.
Import ListNotations.
Local Open Scope R_scope.

Section Generic.
  Variables (fm : R) (cfg : ewma_cfg) (X eps : R).
  Variable step : ewma_state -> fl -> fl * ewma_state.
  Variable Rel : option R * R -> ewma_state -> Prop.
  Variable ok : list (option R) -> Prop.
  Notation i := (observation fm (initial_value cfg)).
  Hypothesis H0 : Rel (i, 1) (ewma_init cfg).
  Hypothesis Hok : forall pre o, ok (pre ++ [o]) -> ok pre.
  Hypothesis Hstep : forall pre s x, ok (pre ++ [observation fm x]) -> Rel (rstate cfg i pre) s -> bounded X x ->
    Rel (rstep cfg (rstate cfg i pre) (observation fm x)) (snd (step s x)).
  Hypothesis Hn : forall s x, nobs (snd (step s x)) = (nobs s + (if isnan x then 0 else 1))%Z.
  Hypothesis Hout : forall s x, (0 <= nobs (snd (step s x)))%Z -> fst (step s x) =
    if Z.geb (nobs (snd (step s x))) (min_periods cfg) then ew_mean (snd (step s x)) else NaN.
  Hypothesis Hrel : forall p s, Rel p s ->
    match fst p with None => ew_mean s = NaN | Some m => exists mh, ew_mean s = Fin mh /\ Rabs (mh - m) <= eps end.

  Lemma isobs_nan x : isobs (observation fm x) = negb (isnan x).
  Proof. destruct x; reflexivity. Qed.

  Lemma generic_run xs ys sF :
    Forall (bounded X) xs ->
    run (hk_module (fun _ : fl => ewma_init cfg) step) xs = Some (ys, sF) ->
    let os := map (observation fm) xs in
    length ys = length xs /\
    forall t y, nth_error ys t = Some y -> ok (firstn (t + 1) os) ->
      within eps y
        (when_enough (min_periods cfg) (firstn (t + 1) os) (fst (rstate cfg i (firstn (t + 1) os)))).
  Proof using H0 Hok Hstep Hn Hout Hrel.
    intros Hxs Hr os. destruct (run_nonempty _ _ _ _ Hr) as (x0 & r & ->).
    pose (Inv := fun (pre : list fl) (s : ewma_state) =>
       nobs s = Z.of_nat (count_obs (map (observation fm) pre)) /\
       (Forall (bounded X) pre -> ok (map (observation fm) pre) -> Rel (rstate cfg i (map (observation fm) pre)) s)).
    assert (I0 : Inv [] (ewma_init cfg)) by (split; [reflexivity|intros _ _; exact H0]).
    assert (Hs2 : forall pre s x, Inv pre s -> Inv (pre ++ [x]) (snd (step s x))).
    { intros pre st x (HN & HI). unfold Inv. rewrite map_app. cbn [map]. rewrite count_obs_snoc, rstate_snoc, Hn, HN, isobs_nan.
      split; [destruct (isnan x); cbn [negb]; lia|].
      intros Hpre Ho. apply Forall_app in Hpre. destruct Hpre as [Hpre Hx].
      apply Hstep; [exact Ho| |exact (Forall_inv Hx)]. apply HI; auto. exact (Hok _ _ Ho). }
    destruct (run_inv (fun _ : fl => ewma_init cfg) step Inv x0 r ys sF I0 Hs2 Hr) as (Hl & _ & Hnn).
    split; auto. intros t y Hy Ho.
    destruct (nth_error (x0 :: r) t) as [x|] eqn:Hx.
    2:{ apply nth_error_None in Hx. rewrite <- Hl in Hx. apply nth_error_None in Hx. congruence. }
    destruct (Hnn t x Hx) as (st & _ & HI & Ey). rewrite Hy in Ey.
    apply (f_equal (fun o => match o with Some v => v | None => NaN end)) in Ey. cbn beta iota in Ey.
    destruct HI as (HN & HI).
    assert (Hpre : Forall (bounded X) (firstn (t + 1) (x0 :: r))).
    { apply Forall_forall. intros v Hv. rewrite Forall_forall in Hxs. apply Hxs. rewrite <- (firstn_skipn (t + 1)). apply in_or_app. left. exact Hv. }
    unfold os in *. rewrite firstn_map in *. specialize (HI Hpre Ho). apply Hrel in HI.
    set (L := map (observation fm) (firstn (t + 1) (x0 :: r))) in *.
    rewrite Ey, Hout by (rewrite HN; lia). rewrite HN. unfold when_enough.
    destruct (fst (rstate cfg i L)) as [m|].
    - destruct HI as (mh & -> & Hmh).
      destruct (Z.geb_spec (Z.of_nat (count_obs L)) (min_periods cfg)), (Z.ltb_spec (Z.of_nat (count_obs L)) (min_periods cfg)); try lia; cbn [within]; auto.
    - rewrite HI. destruct (Z.geb _ _); exact I.
  Qed.
End Generic.

Lemma out_eqb mp n (y : fl) : (0 <= n)%Z ->
  (if Z.eqb mp 0 then y else if Z.geb n mp then y else NaN) = if Z.geb n mp then y else NaN.
Proof.
  intros H. destruct (Z.eqb_spec mp 0) as [->|]; auto. destruct (Z.geb_spec n 0); auto; lia.
Qed.
Lemma haiku_out rnd fm cfg s x :
  let st := fun s x => let '((r, _), s') := ewma_step_r rnd fm cfg s x in (r, s') in
  snd (st s x) = snd (ewma_step_r rnd fm cfg s x) /\
  nobs (snd (st s x)) = (nobs s + (if isnan x then 0 else 1))%Z /\
  ((0 <= nobs (snd (st s x)))%Z -> fst (st s x) =
    if Z.geb (nobs (snd (st s x))) (min_periods cfg) then ew_mean (snd (st s x)) else NaN).
Proof.
  cbv zeta. unfold ewma_step_r.
  destruct (adjust cfg); cbn [fst snd nobs ew_mean]; (split; [reflexivity|]; split; [destruct x; cbn [isnan negb]; lia|];
  intros H; apply out_eqb; exact H).
Qed.

(** nothing missing after the first observation: no missing value once there is an average *)
Lemma rstate_some cfg i os : fst (rstate cfg i os) <> None -> exists v, In (Some v) (i :: os).
Proof.
  induction os as [|o os IH] using rev_ind.
  - cbn. destruct i as [v|]; [exists v; left; auto|contradiction].
  - rewrite rstate_snoc. unfold rstep. cbn [fst]. destruct o as [v|]; cbn [r_mean]; intros H.
    + exists v. right. apply in_or_app. right. left. auto.
    + destruct (IH H) as (v & Hv). exists v. destruct Hv; [left; auto|right; apply in_or_app; auto].
Qed.
Lemma complete_missing os : forall v, In (Some v) os -> complete_from_first (os ++ [None]) -> False.
Proof.
  induction os as [|[w|] os IH]; intros v Hv H; cbn [app complete_from_first] in H.
  - contradiction.
  - apply Forall_app in H. destruct H as [_ H]. exact (Forall_inv H eq_refl).
  - destruct Hv as [Hv|Hv]; [discriminate|]. exact (IH v Hv H).
Qed.

Section Series.
  Variables (u eta : R) (rd : R -> R) (fm : R) (cfg : ewma_cfg) (X : R).
  Hypothesis HR : rounding u eta rd.
  Hypothesis Hu : 0 <= u.
  Hypothesis He : 0 <= eta.
  Notation C := (1 + com cfg).
  Hypothesis Hc : 0 <= com cfg.
  Hypothesis Hs : 100 * u * C ^ 2 <= 1.
  Hypothesis HX : 0 <= X.
  Hypothesis Ht : eta * C <= u * Rmin 1 X.
  Hypothesis Hm1 : 8 * C * Rmax 1 X <= fm.
  Hypothesis Hi : bounded X (initial_value cfg).
  Notation i := (observation fm (initial_value cfg)).
  Notation eps := (80 * u * C ^ 2 * X).

  Lemma start_near (P : R -> R -> Prop) : P 1 1 -> nearW u cfg X P (i, 1) (ewma_init cfg) /\ nearN u cfg X P (i, 1) (ewma_init cfg).
  Proof using Hu Hc HX Hi.
    intros HP. assert (A : nearW u cfg X P (i, 1) (ewma_init cfg)).
    { split; [|exists 1; auto]. unfold nearM. cbn [fst ewma_init ew_mean].
      destruct (initial_value cfg) as [| | |v]; cbn [observation bounded] in *; try contradiction; auto.
      exists v. split; auto. split; auto. replace (v - v) with 0 by lra. rewrite Rabs_R0. apply E_nonneg; auto. }
    split; auto. unfold nearN. cbn [fst]. destruct i eqn:Ei; auto.
    destruct A as (A & _). cbn [fst] in A. unfold nearM in A. split; auto.
  Qed.
  Lemma near_eps P p s : nearW u cfg X P p s \/ nearN u cfg X P p s ->
    match fst p with None => ew_mean s = NaN | Some m => exists mh, ew_mean s = Fin mh /\ Rabs (mh - m) <= eps end.
  Proof.
    intros [H|H].
    - destruct H as (H & _). unfold nearM in H. destruct (fst p); auto. destruct H as (mh & A & B & _).
      exists mh. split; auto. unfold Em in B. lra.
    - unfold nearN in H. destruct (fst p) eqn:Ep; [|exact (proj1 H)].
      destruct H as (H & _). unfold nearM in H. rewrite Ep in H. destruct H as (mh & A & B & _).
      exists mh. split; auto. unfold Em in B. lra.
  Qed.

  Lemma sides : 100 * u * (C * C) <= 1 /\ eta * C <= u /\ eta * C <= u * X /\ 8 * C <= fm /\ 8 * (C * X) <= fm.
  Proof using Hu Hc Hs Ht Hm1.
    assert (Cp : 0 < C) by lra.
    pose proof (Rmin_l 1 X). assert (u * Rmin 1 X <= u * 1) by (apply Rmult_le_compat_l; lra).
    pose proof (Rmin_r 1 X). assert (u * Rmin 1 X <= u * X) by (apply Rmult_le_compat_l; lra).
    pose proof (Rmax_l 1 X). assert (8 * C * 1 <= 8 * C * Rmax 1 X) by (apply Rmult_le_compat_l; lra).
    pose proof (Rmax_r 1 X). assert (8 * C * X <= 8 * C * Rmax 1 X) by (apply Rmult_le_compat_l; lra).
    repeat split; lra.
  Qed.

  Definition exactly (o : list (option R)) : Prop := ignore_na cfg = true \/ complete_from_first (i :: o).
  Lemma exactly_pre pre o : exactly (pre ++ [o]) -> exactly pre.
  Proof. intros [H|H]; [left; auto|right]. eapply complete_snoc; exact H. Qed.
  Lemma exactly_miss pre x : exactly (pre ++ [observation fm x]) ->
    fst (rstate cfg i pre) <> None -> x = NaN -> ignore_na cfg = true.
  Proof.
    intros [H|H] Hp ->; auto. exfalso. destruct (rstate_some _ _ _ Hp) as (v & Hv).
    exact (complete_missing (i :: pre) v Hv H).
  Qed.

  (** the compiled loop, adjust = True or False *)
  Lemma numba_run xs ys sF : adjust cfg <> AdjLinear -> Forall (bounded X) xs ->
    run (numba_mod (round_to rd fm) cfg) xs = Some (ys, sF) ->
    let os := map (observation fm) xs in
    length ys = length xs /\
    forall t y, nth_error ys t = Some y ->
      within eps y (when_enough (min_periods cfg) (firstn (t + 1) os) (fst (rstate cfg i (firstn (t + 1) os)))).
  Proof using HR Hu He Hc Hs HX Ht Hm1 Hi.
    intros Ha Hxs Hr os. destruct sides as (S1 & S2 & S3 & S4 & S5).
    set (P := fun wh w => 0 <= wh /\ Rabs (wh - w) <= Dm u cfg /\ 0 <= w <= Wm cfg).
    assert (P1 : P 1 1).
    { split; [lra|]. replace (1 - 1) with 0 by lra. rewrite Rabs_R0.
      split; [apply D_nonneg; auto|]. pose proof (Wm_range cfg Hc). lra. }
    assert (P0 : forall wh w, P wh w -> 0 <= w) by (intros wh w (_ & _ & H); lra).
    destruct (generic_run fm cfg X eps (numba_cell_r (round_to rd fm) cfg) (nearN u cfg X P) (fun _ => True)) with (xs := xs) (ys := ys) (sF := sF)
      as (Hl & G); auto.
    - apply start_near; auto.
    - intros pre s x _ Hn Hx. apply numba_step; auto.
      + intros Hw. destruct (near_step u eta rd fm cfg X HR Hu He Hc Ha S1 S2 HX S3 S4 S5 _ s x Hw Hx) as (N1 & _). exact N1.
    - intros s x. apply numba_nobs.
    - intros s x _. apply numba_nobs.
    - intros p s H. apply (near_eps P). right. exact H.
  Qed.

  (** both, adjust = "linear" *)
  Variable N : Z.
  Hypothesis Hrep : rd (com cfg) = com cfg.
  Hypothesis HN : counts_to rd N.
  Hypothesis HNc : C <= IZR N.

  Lemma haiku_linear_run xs ys sF : adjust cfg = AdjLinear -> Forall (bounded X) xs ->
    run (EWMA_r (round_to rd fm) fm cfg) xs = Some (ys, sF) ->
    let os := map (observation fm) xs in
    length ys = length xs /\
    forall t y, nth_error ys t = Some y -> exactly (firstn (t + 1) os) ->
      within eps y (when_enough (min_periods cfg) (firstn (t + 1) os) (fst (rstate cfg i (firstn (t + 1) os)))).
  Proof using HR Hu He Hc Hs HX Ht Hm1 Hi Hrep HN HNc.
    intros Ha Hxs Hr os. destruct sides as (S1 & S2 & S3 & S4 & S5).
    assert (St := haiku_out (round_to rd fm) fm cfg). cbv zeta in St.
    apply (generic_run fm cfg X eps (fun s x => let '((r, _), s') := ewma_step_r (round_to rd fm) fm cfg s x in (r, s'))
      (nearW u cfg X (Plin cfg)) exactly) with (sF := sF); auto.
    - apply start_near. apply lin_start.
    - apply exactly_pre.
    - intros pre s x Ho Hn Hx. rewrite (proj1 (St s x)).
      apply (lin_step u eta rd fm cfg X HR Hu He Hc S1 S2 HX S3 S4 S5 Hrep N HN HNc); auto.
      apply exactly_miss; auto.
    - intros s x. apply St.
    - intros s x. apply St.
    - intros p s H. apply (near_eps (Plin cfg)). left. exact H.
  Qed.
  Lemma numba_linear_run xs ys sF : adjust cfg = AdjLinear -> Forall (bounded X) xs ->
    run (numba_mod (round_to rd fm) cfg) xs = Some (ys, sF) ->
    let os := map (observation fm) xs in
    length ys = length xs /\
    forall t y, nth_error ys t = Some y -> exactly (firstn (t + 1) os) ->
      within eps y (when_enough (min_periods cfg) (firstn (t + 1) os) (fst (rstate cfg i (firstn (t + 1) os)))).
  Proof using HR Hu He Hc Hs HX Ht Hm1 Hi Hrep HN HNc.
    intros Ha Hxs Hr os. destruct sides as (S1 & S2 & S3 & S4 & S5).
    apply (generic_run fm cfg X eps (numba_cell_r (round_to rd fm) cfg)
      (nearN u cfg X (Plin cfg)) exactly) with (sF := sF); auto.
    - apply start_near. apply lin_start.
    - apply exactly_pre.
    - intros pre s x Ho Hn Hx. apply numba_step; auto.
      + apply lin_start.
      + intros wh w (H & _). exact H.
      + intros Hw. apply (lin_step u eta rd fm cfg X HR Hu He Hc S1 S2 HX S3 S4 S5 Hrep N HN HNc); auto.
        apply exactly_miss; auto.
      + intros _. apply exactly_miss; auto.
    - intros s x. apply numba_nobs.
    - intros s x _. apply numba_nobs.
    - intros p s H. apply (near_eps (Plin cfg)). right. exact H.
  Qed.
End Series.
