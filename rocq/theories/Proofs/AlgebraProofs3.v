(** Proofs for C133: degenerate parameters. *)
From Coq Require Import List Arith ZArith Lia Reals Lra Bool.
From Verif Require Import Model.Unroll Model.Float Model.Modules Model.Ewm Model.Dynamics Spec.SeriesSpec Spec.EwmSpec
  Spec.AlgebraSpec Proofs.FloatFacts Proofs.ListFacts Proofs.UnrollProofs Proofs.RunFacts Proofs.BufferProofs Proofs.SmallProofs
  Proofs.SmallExtra Proofs.AlgebraProofs.
From Verif Require Import Proofs.EwmExamples.
Import ListNotations.
Local Open Scope R_scope.

Lemma run_sim_on {S S' X Y Y'} (init : X -> S) (f : S -> X -> Y * S) (init' : X -> S') (g : S' -> X -> Y' * S')
  (P : X -> Prop) (Rs : S -> S' -> Prop) (Ry : Y -> Y' -> Prop) :
  (forall x, P x -> Rs (init x) (init' x)) ->
  (forall s s' x, P x -> Rs s s' -> Rs (snd (f s x)) (snd (g s' x)) /\ Ry (fst (f s x)) (fst (g s' x))) ->
  forall xs ys ys' s s', Forall P xs ->
    run (hk_module init f) xs = Some (ys, s) -> run (hk_module init' g) xs = Some (ys', s') ->
    Forall2 Ry ys ys'.
Proof.
  intros H0 Hs xs ys ys' s s' HP H1 H2.
  destruct (run_nonempty _ _ _ _ H1) as (x0 & r & ->).
  rewrite (run_eq init f) in H1. rewrite (run_eq init' g) in H2.
  apply some_pair_inj in H1. apply some_pair_inj in H2.
  destruct H1 as [<- <-], H2 as [<- <-].
  specialize (H0 x0 (Forall_inv HP)). revert H0 HP. generalize (init x0), (init' x0), (x0 :: r). clear x0 r.
  intros st st' l. revert st st'. induction l as [|x l IH]; intros st st' H0 HP; cbn [lax_scan].
  - constructor.
  - destruct (Hs st st' x (Forall_inv HP) H0) as (I1 & R1). unfold stepf at 1 3.
    specialize (IH _ _ I1 (Forall_inv_tail HP)).
    destruct (lax_scan (stepf f) _ l) as [c1 o1]. destruct (lax_scan (stepf g) _ l) as [c2 o2].
    cbn [fst snd] in *. constructor; auto.
Qed.
Lemma F2_eq {A} (l l' : list A) : Forall2 eq l l' -> l = l'.
Proof. induction 1; congruence. Qed.
Lemma plain_forall os : Forall (fun x => exists o, x = of_option o) (map of_option os).
Proof. apply Forall_forall. intros x H. apply in_map_iff in H as (o & <- & _). eauto. Qed.

Lemma inv1 : 1 / (1 + 0) = 1. Proof. lra. Qed.
Lemma ewma0_step fm adj ig st x o : x = of_option o ->
  (exists p w, st = EwmaState (of_option p) (Fin w) (nobs st) /\ 0 <= w) ->
  let r := ewma_step fm (EwmaCfg 0 0 adj ig NaN) st x in
  fst (fst r) = ew_mean (snd r) /\
  ew_mean (snd r) = (if isnan x then ew_mean st else x) /\
  (exists p w, snd r = EwmaState (of_option p) (Fin w) (nobs (snd r)) /\ 0 <= w).
Proof.
  intros -> (p & w & E & Hw). rewrite E. cbv zeta. unfold ewma_step. cbn [com adjust ignore_na min_periods initial_value].
  cbn [ew_mean old_wt nobs].
  assert (A : fdiv (Fin 1) (fadd (Fin 1) (Fin 0)) = Fin 1).
  { cbn [fadd]. rewrite fdiv_Fin by lra. f_equal. lra. }
  rewrite A.
  assert (M : fmin (Fin w) (Fin 0) = Fin 0).
  { unfold fmin. cbn [isnan flt]. destruct (Rlt_b_spec 0 w); [reflexivity|]. f_equal. lra. }
  rewrite M.
  assert (Q : forall m r, fdiv (fadd (fmul (Fin 0) (Fin m)) (fmul (Fin 1) (Fin r))) (fadd (Fin 0) (Fin 1)) = Fin r).
  { intros m r. cbn [fmul fadd]. rewrite fdiv_Fin by lra. f_equal. field. }
  assert (Z : fsub (Fin 1) (Fin 1) = Fin 0) by (cbn; f_equal; lra).
  destruct adj; cbn [truthy]; rewrite ?Z.
  - destruct o as [r|]; cbn [of_option isnan negb].
    + assert (K : (if isnan (of_option p) then Fin 0 else if ig then fmul (Fin w) (Fin 0) else fmul (Fin w) (Fin 0)) = Fin 0).
      { destruct (isnan _); [reflexivity|]. assert (fmul (Fin w) (Fin 0) = Fin 0) by (cbn; f_equal; lra). destruct ig; assumption. }
      rewrite K. cbn [andb negb]. cbn [fst snd Z.eqb ew_mean nobs nan_to_num].
      assert (N : nan_to_num (Fin 0) (Fin fm) (Fin (- fm)) (of_option p) = Fin (match p with Some q => q | None => 0 end)) by (destruct p; reflexivity).
      rewrite N, Q. split; [reflexivity|]. split; [reflexivity|]. exists (Some r), 1. split; [|lra]. cbn. f_equal. f_equal. lra.
    + destruct p as [p|]; cbn [of_option isnan andb nan_to_num fst snd Z.eqb ew_mean nobs].
      * split; [reflexivity|]. split; [reflexivity|]. exists (Some p). destruct ig; [exists w|exists (w * 0)]; (split; [reflexivity|lra]).
      * split; [reflexivity|]. split; [reflexivity|]. exists None, 0. split; [reflexivity|lra].
  - destruct o as [r|]; cbn [of_option isnan negb].
    + assert (K : (if isnan (of_option p) then Fin 0 else if ig then fmul (Fin w) (Fin 0) else fmul (Fin w) (Fin 0)) = Fin 0).
      { destruct (isnan _); [reflexivity|]. assert (fmul (Fin w) (Fin 0) = Fin 0) by (cbn; f_equal; lra). destruct ig; assumption. }
      rewrite K. cbn [andb negb]. cbn [fst snd Z.eqb ew_mean nobs nan_to_num].
      assert (N : nan_to_num (Fin 0) (Fin fm) (Fin (- fm)) (of_option p) = Fin (match p with Some q => q | None => 0 end)) by (destruct p; reflexivity).
      rewrite N, Q. split; [reflexivity|]. split; [reflexivity|]. exists (Some r), 1. split; [reflexivity|lra].
    + destruct p as [p|]; cbn [of_option isnan andb nan_to_num fst snd Z.eqb ew_mean nobs].
      * split; [reflexivity|]. split; [reflexivity|]. exists (Some p). destruct ig; [exists w|exists (w * 0)]; (split; [reflexivity|lra]).
      * split; [reflexivity|]. split; [reflexivity|]. exists None, 0. split; [reflexivity|lra].
  - destruct o as [r|]; cbn [of_option isnan negb].
    + assert (K : (if isnan (of_option p) then Fin 0 else if ig then fmul (Fin 0) (Fin 1) else fmul (Fin 0) (Fin 1)) = Fin 0).
      { destruct (isnan _); [reflexivity|]. assert (fmul (Fin 0) (Fin 1) = Fin 0) by (cbn; f_equal; lra). destruct ig; assumption. }
      rewrite K. cbn [andb negb]. cbn [fst snd Z.eqb ew_mean nobs nan_to_num].
      assert (N : nan_to_num (Fin 0) (Fin fm) (Fin (- fm)) (of_option p) = Fin (match p with Some q => q | None => 0 end)) by (destruct p; reflexivity).
      rewrite N, Q. split; [reflexivity|]. split; [reflexivity|]. exists (Some r), 1. split; [|lra]. cbn. f_equal. f_equal. lra.
    + assert (F : exists f, fmax (Fin 0) (fdiv (fsub (Fin w) (Fin 1)) (Fin w)) = Fin f).
      { destruct (Req_EM_T w 0) as [->|W].
        - exists 0. cbn. destruct (Req_b_spec 0 0); [|lra]. unfold signed_inf.
          destruct (Req_b_spec (0 + Ropp 1) 0); [lra|]. destruct (Rlt_b_spec 0 (0 + Ropp 1)); [lra|]. reflexivity.
        - cbn [fsub fadd fneg]. rewrite fdiv_Fin by exact W. unfold fmax. cbn. destruct (Rlt_b _ _); eauto. }
      destruct F as (f & ->).
      assert (Z0 : fmul (Fin 0) (Fin f) = Fin 0) by (cbn; f_equal; lra). rewrite Z0.
      destruct p as [p|]; cbn [of_option isnan andb nan_to_num fst snd Z.eqb ew_mean nobs].
      * split; [reflexivity|]. split; [reflexivity|]. exists (Some p), 0. split; [destruct ig; reflexivity|lra].
      * split; [reflexivity|]. split; [reflexivity|]. exists None, 0. split; [reflexivity|lra].
Qed.

Lemma ewma0_ffill fm adj ig os ys sF zs sG :
  run (EWMA fm (EwmaCfg 0 0 adj ig NaN)) (map of_option os) = Some (ys, sF) ->
  run Ffill (map of_option os) = Some (zs, sG) -> ys = zs.
Proof.
  intros E E'. apply F2_eq. unfold EWMA in E. unfold Ffill in E'.
  refine (run_sim_on _ _ _ _ (fun x => exists o, x = of_option o)
    (fun st v => ew_mean st = v /\ exists p w, st = EwmaState (of_option p) (Fin w) (nobs st) /\ 0 <= w) eq _ _ _ _ _ _ _ (plain_forall os) E E').
  - intros x _. split; [reflexivity|]. exists None, 1. split; [reflexivity|lra].
  - intros st v x (o & Hx) [Hv Hst]. pose proof (ewma0_step fm adj ig st x o Hx Hst) as H. cbv zeta in H.
    destruct (ewma_step fm (EwmaCfg 0 0 adj ig NaN) st x) as [[r i] st']. cbn [fst snd] in *.
    destruct H as (H1 & H2 & H3). unfold ffill_step. cbn [fst snd].
    rewrite <- Hv. split; [split; [exact H2|exact H3]|congruence].
Qed.

Lemma rolling_one mp os ys sF : (mp <= 1)%Z ->
  run (RollingMean 1 mp) (map of_option os) = Some (ys, sF) -> ys = map of_option os.
Proof.
  intros Hm E. destruct (rolling_avg 1 mp os ys sF ltac:(lia) E) as (L & H).
  apply nth_ext_eq; [rewrite map_length; exact L|]. intros t Ht. rewrite L in Ht. rewrite (H t Ht).
  destruct (nth_error os t) as [o|] eqn:Eo; [|apply nth_error_None in Eo; lia].
  rewrite (map_nth_error of_option t os Eo). f_equal.
  assert (W : window 1 t os = [o]).
  { unfold window. replace (t + 1 - 1)%nat with t by lia. apply nth_ext_eq.
    - rewrite skipn_length, firstn_length. cbn [length]. lia.
    - intros k Hk. rewrite skipn_length, firstn_length in Hk. replace k with 0%nat by lia.
      rewrite nth_error_skipn_eq, nth_error_firstn_eq by lia. replace (t + 0)%nat with t by lia. exact Eo. }
  rewrite W. destruct o as [r|]; cbn [observed]; unfold avg; cbn [length].
  - destruct (Z.leb_spec 1 (Z.of_nat 1)); [|lia]. destruct (Z.leb_spec mp (Z.of_nat 1)); [|lia]. cbn [andb rsum fold_right of_option].
    f_equal. cbn. lra.
  - reflexivity.
Qed.

Lemma lag_zero {A} (full : A -> A) xs ys sF : run (Lag 0 full) xs = Some (ys, sF) -> ys = map Some xs.
Proof.
  intros E. destruct (run_nonempty _ _ _ _ E) as (x0 & r & ->). destruct (lag_run _ _ _ _ _ _ E) as (L & H).
  apply nth_ext_eq; [rewrite map_length; exact L|]. intros t Ht. rewrite L in Ht. rewrite (H t Ht).
  destruct (nth_error (x0 :: r) t) as [o|] eqn:Eo; [|apply nth_error_None in Eo; lia].
  rewrite (map_nth_error Some t _ Eo). f_equal. destruct (Nat.ltb_spec t 0); [lia|]. rewrite Nat.sub_0_r. exact Eo.
Qed.
Lemma buffer_one {A} (full : A -> A) xs ys sF : run (Buffer 1 full) xs = Some (ys, sF) -> ys = map (fun x => [x]) xs.
Proof.
  intros E. destruct (run_nonempty _ _ _ _ E) as (x0 & r & ->). pose proof E as E0. apply (buffer_run_plain 1) in E0; [|lia]. destruct E0 as (L & H).
  apply nth_ext_eq; [rewrite map_length; exact L|]. intros t Ht. rewrite L in Ht. destruct (H t Ht) as (b & Hb & Lb & Hj). rewrite Hb.
  destruct (nth_error (x0 :: r) t) as [o|] eqn:Eo; [|apply nth_error_None in Eo; lia].
  rewrite (map_nth_error (fun x => [x]) t _ Eo). f_equal. specialize (Hj 0%nat ltac:(lia)).
  destruct b as [|y [|z b]]; cbn in Lb; try lia. cbn in Hj. rewrite Nat.sub_0_r in Hj. congruence.
Qed.

Lemma ewmvar0 adj os ys sF : run (EWMVar 0 adj) (map of_option os) = Some (ys, sF) -> Forall (fun y => y = Fin 0) ys.
Proof.
  intros E. unfold EWMVar in E. destruct (run_nonempty _ _ _ _ E) as (x0 & r & Q).
  assert (H : Forall2 (fun y (z : unit) => y = Fin 0) ys (map (fun _ => tt) (map of_option os))).
  { assert (E2 : run (hk_module (fun _ : fl => tt) (fun s _ => (tt, tt))) (map of_option os) = Some (map (fun _ => tt) (map of_option os), tt)).
    { rewrite Q, run_eq. generalize (x0 :: r). intros l. clear. 
      assert (G : lax_scan (stepf (fun (s : unit) (_ : fl) => (tt, tt))) tt l = (tt, map (fun _ => tt) l)).
      { induction l as [|x l IH]; [reflexivity|]. cbn [lax_scan]. unfold stepf at 1. cbn [fst snd]. rewrite IH. reflexivity. }
      rewrite G. reflexivity. }
    refine (run_sim_on _ _ _ _ (fun x => exists o, x = of_option o)
      (fun st (_ : unit) => (exists p, ev_mean st = of_option p) /\ (ev_var st = NaN \/ ev_var st = Fin 0)) _ _ _ _ _ _ _ _ (plain_forall os) E E2).
    - intros x _. split; [exists None; reflexivity|left; reflexivity].
    - intros st [] x (o & ->) ((p & Hm) & Hv). cbn [snd fst]. unfold ewmvar_step. rewrite Hm.
      assert (A : fdiv (Fin 1) (fadd (Fin 1) (Fin 0)) = Fin 1).
      { cbn [fadd]. rewrite fdiv_Fin by lra. f_equal. lra. }
      rewrite A.
      assert (V : (if isnan (ev_var st) then Fin 0 else ev_var st) = Fin 0) by (destruct Hv as [->| ->]; reflexivity).
      rewrite V.
      destruct o as [r0|]; cbn [of_option isnan negb].
      + set (n := Datatypes.S (ev_nobs st)).
        assert (B : match adj with
          | AdjLinear =>
              let tscale := fdiv (Fin 1) (Fin 1) in
              let tscale := if flt (Fin (INR n)) tscale then Fin (INR n) else tscale in
              if flt (Fin 0) tscale then fdiv (Fin 1) tscale else NaN
          | AdjTrue => fdiv (Fin 1) (fsub (Fin 1) (Fin ((1 - 1) ^ n)))
          | AdjFalse => Fin 1
          end = Fin 1).
        { assert (D : fdiv (Fin 1) (Fin 1) = Fin 1) by (rewrite fdiv_Fin by lra; f_equal; lra).
          destruct adj; [|reflexivity|].
          - replace ((1 - 1) ^ n) with 0 by (unfold n; cbn; lra).
            assert (Z : fsub (Fin 1) (Fin 0) = Fin 1) by (cbn; f_equal; lra). rewrite Z. exact D.
          - rewrite D. cbv zeta. cbn [flt].
            destruct (Rlt_b_spec (INR n) 1) as [C|C].
            { exfalso. unfold n in C. rewrite S_INR in C. pose proof (pos_INR (ev_nobs st)). lra. }
            cbn [flt]. destruct (Rlt_b_spec 0 1); [exact D|lra]. }
        cbv zeta in B |- *. rewrite B.
        assert (Z : fsub (Fin 1) (Fin 1) = Fin 0) by (cbn; f_equal; lra). rewrite Z.
        assert (M : (if isnan (of_option p) then Fin r0 else of_option p) = Fin (match p with Some q => q | None => r0 end)) by (destruct p; reflexivity).
        rewrite M. cbn [fst snd ev_mean ev_var].
        assert (W : forall a, fmul (Fin 0) (Fin a) = Fin 0) by (intros a; cbn; f_equal; lra).
        cbn [fsub fadd fneg fmul].
        split; [split; [eexists (Some _); reflexivity|right; f_equal; lra]|f_equal; lra].
      + cbn [fst snd ev_mean ev_var ev_nobs]. split; [|reflexivity]. split; [|right; reflexivity].
        destruct p as [p|]; cbn [of_option isnan]; [exists (Some p)|exists None]; reflexivity. }
  clear - H. remember (map (fun _ => tt) (map of_option os)) as l. clear Heql. induction H; constructor; assumption.
Qed.

Lemma always_event {K P S X Y} (split : K -> K * K) (full : Y -> Y) (tf : transformed K P S X Y) rng p prev s xs :
  fst (unroll_apply split (update_on_event full tf) false p (prev, s) rng (map (pair true) xs)) =
  fst (unroll_apply split tf false p s rng xs).
Proof.
  unfold unroll_apply. cbn [tl].
  assert (G : forall xs prev s rng, snd (lax_scan (scan_f split (update_on_event full tf) p) ((prev, s), rng) (map (pair true) xs)) =
                               snd (lax_scan (scan_f split tf p) (s, rng) xs)).
  { clear. induction xs as [|x xs IH]; intros prev s rng; [reflexivity|]. cbn [map lax_scan].
    unfold scan_f at 1 3. cbn [update_on_event t_apply fst snd].
    destruct rng as [k|].
    - destruct (split k) as [k1 k2]. destruct (t_apply tf p s (Some k2) x) as [y s']. cbn [fst snd].
      specialize (IH y s' (Some k1)).
      destruct (lax_scan (scan_f split (update_on_event full tf) p) _ (map (pair true) xs)) as [c1 o1].
      destruct (lax_scan (scan_f split tf p) _ xs) as [c2 o2]. cbn [snd] in *. congruence.
    - destruct (t_apply tf p s None x) as [y s']. cbn [fst snd]. specialize (IH y s' None).
      destruct (lax_scan (scan_f split (update_on_event full tf) p) _ (map (pair true) xs)) as [c1 o1].
      destruct (lax_scan (scan_f split tf p) _ xs) as [c2 o2]. cbn [snd] in *. congruence. }
  specialize (G xs prev s rng).
  destruct (lax_scan (scan_f split (update_on_event full tf) p) _ (map (pair true) xs)) as [[a1 b1] o1].
  destruct (lax_scan (scan_f split tf p) _ xs) as [[a2 b2] o2]. cbn [fst snd] in *. exact G.
Qed.
