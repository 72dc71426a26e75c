(** EWMA forgets its past exponentially. *)
From Coq Require Import List ZArith Reals Lra Lia Bool.
From Verif Require Import Model.Unroll Model.Float Model.Modules Model.Ewm Spec.EwmSpec Spec.AnalysisSpec
  Proofs.FloatFacts Proofs.ListFacts Proofs.RunFacts Proofs.EwmFacts Proofs.EwmProofs
  Proofs.EwmExtra Proofs.EwmcovProofs.
Import ListNotations.
Local Open Scope R_scope.

Lemma rate_le cfg w1 : 0 <= com cfg -> 0 <= w1 <= com cfg * nwt cfg ->
  0 <= w1 / (w1 + nwt cfg) <= 1 - al cfg.
Proof.
  intros Hc [H0 H1]. pose proof (nwt_pos cfg Hc) as Hn.
  assert (Hal : al cfg * (1 + com cfg) = 1) by (unfold al; field; lra). pose proof (al_pos cfg Hc).
  assert (Hi : 0 < / (w1 + nwt cfg)) by (apply Rinv_0_lt_compat; lra).
  split; [apply Rmult_le_pos; lra|].
  apply Rmult_le_reg_r with (w1 + nwt cfg); [lra|]. unfold Rdiv. rewrite Rmult_assoc, Rinv_l by lra. nra.
Qed.

(** one observation: the new mean is a convex combination, the old mean weighing at most 1 - al *)
Lemma rstep_obs cfg w x : 0 <= com cfg -> 0 <= w <= wt_max cfg ->
  exists k w', 0 <= k <= 1 - al cfg /\ 0 <= w' <= wt_max cfg /\
    forall a, rstep cfg (Some (a : R), w) (Some x) = (Some (k * a + (1 - k) * x), w').
Proof.
  intros Hc Hw. pose proof (nwt_pos cfg Hc) as Hn.
  destruct (w_old_le cfg true (Some 0) w Hc Hw) as (_ & Hle & _). specialize (Hle eq_refl).
  pose proof (w_old_nonneg cfg true (Some 0) w Hc (proj1 Hw)) as H0.
  set (w1 := w_old cfg true (Some 0) w) in *.
  exists (w1 / (w1 + nwt cfg)), (if truthy (adjust cfg) then w1 + 1 else 1).
  split; [apply rate_le; auto|]. split.
  { unfold wt_max, nwt in *. destruct (truthy _); lra. }
  intros a. unfold rstep; cbn [fst snd r_mean r_wt]. cbv zeta.
  change (w_old cfg true (Some a) w) with w1. cbn [dfl]. apply (f_equal2 pair); [|reflexivity].
  apply f_equal. field. lra.
Qed.

Lemma rstep_none cfg w : 0 <= com cfg -> 0 <= w <= wt_max cfg ->
  exists w', 0 <= w' <= wt_max cfg /\ forall a, rstep cfg (Some (a : R), w) None = (Some a, w').
Proof.
  intros Hc Hw. exists (w_old cfg false (Some 0) w). split.
  - split; [apply w_old_nonneg; lra|]. apply (w_old_le cfg false (Some 0) w Hc Hw).
  - intros a. reflexivity.
Qed.

Lemma fold_contract cfg suf : 0 <= com cfg -> forall w a b, 0 <= w <= wt_max cfg ->
  exists a' b' w', fold_left (rstep cfg) suf (Some a, w) = (Some a', w') /\
    fold_left (rstep cfg) suf (Some b, w) = (Some b', w') /\
    Rabs (a' - b') <= (1 - al cfg) ^ count_obs suf * Rabs (a - b).
Proof.
  intros Hc. pose proof (al_pos cfg Hc) as Ha.
  induction suf as [|[x|] suf IH]; intros w a b Hw; cbn [fold_left count_obs pow].
  - exists a, b, w. repeat split; auto. rewrite Rmult_1_l. lra.
  - destruct (rstep_obs cfg w x Hc Hw) as (k & w' & Hk & Hw' & H).
    rewrite (H a), (H b).
    destruct (IH w' (k * a + (1 - k) * x) (k * b + (1 - k) * x) Hw') as (a' & b' & w'' & E1 & E2 & Hle).
    exists a', b', w''. repeat split; auto. eapply Rle_trans; [exact Hle|].
    replace (k * a + (1 - k) * x - (k * b + (1 - k) * x)) with (k * (a - b)) by ring.
    rewrite Rabs_mult, (Rabs_pos_eq k) by lra.
    assert (0 <= (1 - al cfg) ^ count_obs suf) by (apply pow_le; lra).
    rewrite (Rmult_comm (1 - al cfg)), Rmult_assoc. apply Rmult_le_compat_l; auto.
    apply Rmult_le_compat_r; [apply Rabs_pos|lra].
  - destruct (rstep_none cfg w Hc Hw) as (w' & Hw' & H). rewrite (H a), (H b). apply IH; auto.
Qed.

(** distance to a range of values *)
Lemma fold_range cfg suf lo hi : 0 <= com cfg -> lo <= hi -> Forall (opt_all (fun x => lo <= x <= hi)) suf ->
  forall w a, 0 <= w <= wt_max cfg ->
  exists a' w', fold_left (rstep cfg) suf (Some a, w) = (Some a', w') /\
    lo - (1 - al cfg) ^ count_obs suf * Rmax 0 (lo - a) <= a' <=
    hi + (1 - al cfg) ^ count_obs suf * Rmax 0 (a - hi).
Proof.
  intros Hc Hlh Hf. pose proof (al_pos cfg Hc) as Ha.
  induction Hf as [|o suf Ho Hf IH]; intros w a Hw; cbn [fold_left count_obs pow].
  - exists a, w. repeat split; auto.
    + pose proof (Rmax_r 0 (lo - a)). lra.
    + pose proof (Rmax_r 0 (a - hi)). lra.
  - destruct o as [x|]; cbn [count_obs pow].
    + destruct (rstep_obs cfg w x Hc Hw) as (k & w' & Hk & Hw' & H). rewrite (H a).
      destruct (IH w' (k * a + (1 - k) * x) Hw') as (a' & w'' & E & Hle). exists a', w''. split; auto.
      cbn [opt_all] in Ho. assert (0 <= (1 - al cfg) ^ count_obs suf) by (apply pow_le; lra).
      set (P := (1 - al cfg) ^ count_obs suf) in *.
      assert (H1 : Rmax 0 (lo - (k * a + (1 - k) * x)) <= (1 - al cfg) * Rmax 0 (lo - a)).
      { pose proof (Rmax_l 0 (lo - a)). pose proof (Rmax_r 0 (lo - a)).
        apply Rmax_lub; [nra|]. assert (k * (lo - a) <= k * Rmax 0 (lo - a)) by (apply Rmult_le_compat_l; lra).
        assert (k * Rmax 0 (lo - a) <= (1 - al cfg) * Rmax 0 (lo - a)) by (apply Rmult_le_compat_r; lra).
        assert (0 <= (1 - k) * (x - lo)) by (apply Rmult_le_pos; lra). lra. }
      assert (H2 : Rmax 0 (k * a + (1 - k) * x - hi) <= (1 - al cfg) * Rmax 0 (a - hi)).
      { pose proof (Rmax_l 0 (a - hi)). pose proof (Rmax_r 0 (a - hi)).
        apply Rmax_lub; [nra|]. assert (k * (a - hi) <= k * Rmax 0 (a - hi)) by (apply Rmult_le_compat_l; lra).
        assert (k * Rmax 0 (a - hi) <= (1 - al cfg) * Rmax 0 (a - hi)) by (apply Rmult_le_compat_r; lra).
        assert (0 <= (1 - k) * (hi - x)) by (apply Rmult_le_pos; lra). lra. }
      apply (Rmult_le_compat_l P) in H1; auto. apply (Rmult_le_compat_l P) in H2; auto. lra.
    + destruct (rstep_none cfg w Hc Hw) as (w' & Hw' & H). rewrite (H a). apply IH; auto.
Qed.

Lemma rstate_app cfg i os os' : rstate cfg i (os ++ os') = fold_left (rstep cfg) os' (rstate cfg i os).
Proof. unfold rstate. apply fold_left_app. Qed.

Lemma firstn_split {A} (l : list A) s t : (s <= t)%nat -> firstn (t + 1) l = firstn (s + 1) l ++ firstn (t - s) (skipn (s + 1) l).
Proof.
  intros H. replace (t + 1)%nat with ((s + 1) + (t - s))%nat by lia.
  revert l; induction (s + 1)%nat as [|n IH]; intros l; [reflexivity|].
  destruct l; simpl; [rewrite firstn_nil; auto|]. rewrite IH; auto.
Qed.
Lemma firstn_skipn_slice {A} (l : list A) s t : firstn t (skipn s l) = skipn s (firstn (s + t) l).
Proof.
  revert l; induction s as [|n IH]; intros l; [reflexivity|]. destruct l; simpl; [apply firstn_nil|auto].
Qed.

Lemma count_obs_app os os' : count_obs (os ++ os') = (count_obs os + count_obs os')%nat.
Proof. induction os as [|[x|] os IH]; simpl; auto. Qed.

(** value at s as seen in the state *)
Lemma out_state fm cfg xs ys sF s a : 0 <= com cfg -> run (EWMA fm cfg) xs = Some (ys, sF) ->
  nth_error ys s = Some (Fin a) ->
  let os := map (observation fm) xs in
  (s < length xs)%nat /\
  (min_periods cfg <= Z.of_nat (count_obs (firstn (s + 1) os)))%Z /\
  fst (rstate cfg (observation fm (initial_value cfg)) (firstn (s + 1) os)) = Some a.
Proof.
  intros Hc Hr Hy os. destruct (ewma_run fm cfg xs ys sF Hc Hr) as [Hl Ht].
  assert (Hs : (s < length xs)%nat) by (rewrite <- Hl; eapply nth_lt; eauto).
  specialize (Ht s Hs). rewrite Hy in Ht. fold os in Ht. unfold when_enough in Ht.
  destruct (fst _) as [r|]; [|discriminate].
  destruct (Z.ltb_spec (Z.of_nat (count_obs (firstn (s + 1) os))) (min_periods cfg)); [discriminate|].
  injection Ht as ->. auto.
Qed.

Lemma isobs_obs fm x : isobs (observation fm x) = negb (isnan x).
Proof. destruct x; reflexivity. Qed.

Lemma later_state fm cfg xs ys sF s t a : 0 <= com cfg -> run (EWMA fm cfg) xs = Some (ys, sF) ->
  nth_error ys s = Some (Fin a) -> (s <= t < length xs)%nat ->
  exists w, 0 <= w <= wt_max cfg /\
  rstate cfg (observation fm (initial_value cfg)) (firstn (s + 1) (map (observation fm) xs)) = (Some a, w) /\
  forall a' w', fold_left (rstep cfg) (between fm s t xs) (Some a, w) = (Some a', w') ->
    nth_error ys t = Some (Fin a').
Proof.
  intros Hc Hr Hy [Hst Ht]. destruct (out_state fm cfg xs ys sF s a Hc Hr Hy) as (Hs & Hmp & Hm).
  set (i := observation fm (initial_value cfg)) in *. set (os := map (observation fm) xs) in *.
  exists (snd (rstate cfg i (firstn (s + 1) os))). split; [apply rstate_wt_max; auto|].
  split; [rewrite <- Hm; destruct (rstate cfg i _); reflexivity|].
  intros a' w' E. destruct (ewma_run fm cfg xs ys sF Hc Hr) as [Hl H]. rewrite (H t Ht). fold os i.
  assert (Eb : between fm s t xs = firstn (t - s) (skipn (s + 1) os)).
  { unfold between, os. rewrite <- firstn_map. f_equal. clear. revert xs; induction (s + 1)%nat; intros [|]; simpl; auto. }
  rewrite (firstn_split os s t Hst), <- Eb, rstate_app.
  rewrite <- Hm in E. rewrite <- surjective_pairing in E. rewrite E. cbn [fst when_enough].
  rewrite count_obs_app. destruct (Z.ltb_spec (Z.of_nat (count_obs (firstn (s + 1) os) + count_obs (between fm s t xs))) (min_periods cfg)); [lia|].
  reflexivity.
Qed.

Lemma ewma_forgets fm cfg xs ys sF xs' ys' sF' :
  0 <= com cfg ->
  run (EWMA fm cfg) xs = Some (ys, sF) -> run (EWMA fm cfg) xs' = Some (ys', sF') ->
  map isnan xs = map isnan xs' ->
  forall s t a b, (s <= t < length xs)%nat ->
  (forall k, (s < k <= t)%nat -> nth_error xs k = nth_error xs' k) ->
  nth_error ys s = Some (Fin a) -> nth_error ys' s = Some (Fin b) ->
  exists a' b', nth_error ys t = Some (Fin a') /\ nth_error ys' t = Some (Fin b') /\
    Rabs (a' - b') <= (com cfg / (1 + com cfg)) ^ count_obs (between fm s t xs) * Rabs (a - b).
Proof.
  intros Hc Hr Hr' Hpat s t a b Hst Hag Ha Hb.
  assert (Hl : length xs = length xs') by (rewrite <- (map_length isnan xs), Hpat; apply map_length).
  destruct (later_state fm cfg xs ys sF s t a Hc Hr Ha Hst) as (w & Hw & E & H).
  destruct (later_state fm cfg xs' ys' sF' s t b Hc Hr' Hb ltac:(lia)) as (w' & Hw' & E' & H').
  assert (Epat : map isobs (firstn (s + 1) (map (observation fm) xs)) = map isobs (firstn (s + 1) (map (observation fm) xs'))).
  { rewrite <- !firstn_map, !map_map. f_equal.
    rewrite (map_ext _ (fun x => negb (isnan x)) (isobs_obs fm)), <- (map_map isnan negb), Hpat, map_map.
    apply map_ext. intros; symmetry; apply isobs_obs. }
  destruct (rstate_weight cfg (observation fm (initial_value cfg)) (observation fm (initial_value cfg)) _ _ eq_refl Epat) as [Ew _].
  rewrite E, E' in Ew. cbn [snd] in Ew. subst w'.
  assert (Eb : between fm s t xs' = between fm s t xs).
  { unfold between. f_equal. apply nth_error_ext. intros k.
    destruct (Nat.lt_ge_cases k (t - s)) as [Hk|Hk].
    - rewrite !nth_error_firstn by auto. rewrite !nth_error_skipn. symmetry. apply Hag. lia.
    - transitivity (@None fl); [|symmetry]; apply nth_error_None; rewrite firstn_length; lia. }
  rewrite Eb in H'.
  destruct (fold_contract cfg (between fm s t xs) Hc w a b Hw) as (a' & b' & w'' & F1 & F2 & Hle).
  exists a', b'. split; [eapply H; eauto|]. split; [eapply H'; eauto|].
  replace (com cfg / (1 + com cfg)) with (1 - al cfg) by (unfold al; field; lra). exact Hle.
Qed.

Lemma ewma_range_forgets fm cfg xs ys sF lo hi :
  0 <= com cfg -> lo <= hi -> run (EWMA fm cfg) xs = Some (ys, sF) ->
  forall s t a, (s <= t < length xs)%nat ->
  (forall k x v, (s < k <= t)%nat -> nth_error xs k = Some x -> observation fm x = Some v -> lo <= v <= hi) ->
  nth_error ys s = Some (Fin a) ->
  exists a', nth_error ys t = Some (Fin a') /\
    lo - (com cfg / (1 + com cfg)) ^ count_obs (between fm s t xs) * Rmax 0 (lo - a) <= a' <=
    hi + (com cfg / (1 + com cfg)) ^ count_obs (between fm s t xs) * Rmax 0 (a - hi).
Proof.
  intros Hc Hlh Hr s t a Hst Hin Ha.
  destruct (later_state fm cfg xs ys sF s t a Hc Hr Ha Hst) as (w & Hw & E & H).
  assert (Hf : Forall (opt_all (fun x => lo <= x <= hi)) (between fm s t xs)).
  { apply Forall_forall. intros o Ho. unfold between in Ho. apply in_map_iff in Ho. destruct Ho as (x & <- & Hx).
    apply In_nth_error in Hx. destruct Hx as [k Hk]. pose proof (nth_lt _ _ _ Hk) as Hkl. rewrite firstn_length in Hkl.
    rewrite nth_error_firstn, nth_error_skipn in Hk by lia.
    destruct (observation fm x) as [v|] eqn:Ex; cbn [opt_all]; auto. eapply Hin; eauto. lia. }
  destruct (fold_range cfg (between fm s t xs) lo hi Hc Hlh Hf w a Hw) as (a' & w' & F & Hle).
  exists a'. split; [eapply H; eauto|].
  replace (com cfg / (1 + com cfg)) with (1 - al cfg) by (unfold al; field; lra). exact Hle.
Qed.

(** a constant level is reached: the error after n observations *)
Lemma ewma_converges fm cfg c : 0 <= com cfg -> forall D eps, 0 <= D -> 0 < eps ->
  exists n0, forall xs ys sF, run (EWMA fm cfg) xs = Some (ys, sF) ->
  forall s t a, (s <= t < length xs)%nat ->
  (forall k x, (s < k <= t)%nat -> nth_error xs k = Some x -> x = NaN \/ x = Fin c) ->
  nth_error ys s = Some (Fin a) -> Rabs (a - c) <= D ->
  (n0 <= count_obs (between fm s t xs))%nat ->
  exists a', nth_error ys t = Some (Fin a') /\ Rabs (a' - c) <= eps.
Proof.
  intros Hc D eps HD Heps. pose proof (al_pos cfg Hc) as Hal.
  assert (Er : com cfg / (1 + com cfg) = 1 - al cfg) by (unfold al; field; lra).
  assert (Hr01 : 0 <= 1 - al cfg < 1) by lra.
  destruct (pow_lt_1_zero (1 - al cfg) ltac:(rewrite Rabs_pos_eq; lra) (eps / (D + 1))) as [n0 Hn0].
  { apply Rdiv_lt_0_compat; lra. }
  exists n0. intros xs ys sF Hr s t a Hst Hin Ha HaD Hn.
  destruct (ewma_range_forgets fm cfg xs ys sF c c Hc ltac:(lra) Hr s t a Hst) as (a' & Hy & Hb); auto.
  { intros k x v Hk Hx Hv. destruct (Hin k x Hk Hx) as [-> | ->]; cbn in Hv; [discriminate|].
    injection Hv as <-. lra. }
  exists a'. split; auto. rewrite Er in Hb. specialize (Hn0 _ Hn).
  rewrite Rabs_pos_eq in Hn0 by (apply pow_le; lra).
  set (P := (1 - al cfg) ^ count_obs (between fm s t xs)) in *.
  assert (0 <= P) by (apply pow_le; lra).
  assert (HP : P * (D + 1) <= eps).
  { apply Rmult_le_reg_r with (/ (D + 1)); [apply Rinv_0_lt_compat; lra|].
    rewrite Rmult_assoc, Rinv_r by lra. unfold Rdiv in Hn0. lra. }
  assert (Rmax 0 (c - a) <= D). { apply Rmax_lub; [lra|]. pose proof (Rle_abs (- (a - c))). rewrite Rabs_Ropp in H0. lra. }
  assert (Rmax 0 (a - c) <= D). { apply Rmax_lub; [lra|]. pose proof (Rle_abs (a - c)). lra. }
  assert (P * Rmax 0 (c - a) <= P * D) by (apply Rmult_le_compat_l; auto).
  assert (P * Rmax 0 (a - c) <= P * D) by (apply Rmult_le_compat_l; auto).
  apply Rabs_le. lra.
Qed.
