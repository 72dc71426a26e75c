From Coq Require Import List ZArith Reals Lra Lia Bool.
From Verif Require Import Model.Unroll Model.Float Model.Modules Model.Ewm Spec.EwmSpec
  Spec.SeriesSpec Proofs.FloatFacts Proofs.ListFacts Proofs.RunFacts Proofs.EwmFacts Proofs.EwmProofs
  Proofs.EwmExtra.
Import ListNotations.
Local Open Scope R_scope.


Definition W0 (W : list (R * R)) := sum_over fst W.
Definition W1 (W : list (R * R)) := sum_over (fun p => fst p * snd p) W.
Definition W2 (W : list (R * R)) := sum_over (fun p => fst p * snd p ^ 2) W.

Lemma wvar_alt W : W0 W <> 0 -> weighted_variance W = W2 W / W0 W - (W1 W / W0 W) ^ 2.
Proof.
  intros H. unfold weighted_variance. fold (W0 W). unfold weighted_mean. fold (W1 W). fold (W0 W).
  set (m := W1 W / W0 W).
  assert (E : sum_over (fun p : R * R => fst p * (snd p - m) ^ 2) W = W2 W - 2 * m * W1 W + m ^ 2 * W0 W).
  { clearbody m. clear H. unfold W2, W1, W0, sum_over.
    induction W as [|[w x] W IH]; simpl in *; [lra|]. rewrite IH. ring. }
  rewrite E. unfold m. field. auto.
Qed.

Lemma W0_snoc c W u x : W0 (map (scale_weight c) W ++ [(u, x)]) = c * W0 W + u.
Proof.
  unfold W0. rewrite sum_over_app, sum_over_map. unfold scale_weight; cbn [fst].
  rewrite sum_over_scal. unfold sum_over at 2; simpl. lra.
Qed.
Lemma W1_snoc c W u x : W1 (map (scale_weight c) W ++ [(u, x)]) = c * W1 W + u * x.
Proof.
  unfold W1. rewrite sum_over_app, sum_over_map. unfold scale_weight; cbn [fst snd].
  rewrite <- sum_over_scal. unfold sum_over at 2; simpl. rewrite Rplus_0_r. f_equal.
  apply sum_over_ext. intros; ring.
Qed.
Lemma W2_snoc c W u x : W2 (map (scale_weight c) W ++ [(u, x)]) = c * W2 W + u * x ^ 2.
Proof.
  unfold W2. rewrite sum_over_app, sum_over_map. unfold scale_weight; cbn [fst snd].
  rewrite <- sum_over_scal. unfold sum_over at 2; simpl. rewrite Rplus_0_r. f_equal.
  apply sum_over_ext. intros; ring.
Qed.

(** the update formulas for any weights *)
Lemma wmean_update c W u x : W0 W <> 0 -> c * W0 W + u <> 0 ->
  let e := u / (c * W0 W + u) in
  weighted_mean (map (scale_weight c) W ++ [(u, x)]) =
  weighted_mean W + e * (x - weighted_mean W).
Proof.
  intros H H' e. unfold weighted_mean at 1.
  fold (W1 (map (scale_weight c) W ++ [(u, x)])). fold (W0 (map (scale_weight c) W ++ [(u, x)])).
  rewrite W0_snoc, W1_snoc. unfold weighted_mean. fold (W0 W) (W1 W). unfold e. field. auto.
Qed.
Lemma wvar_update c W u x : W0 W <> 0 -> c * W0 W + u <> 0 ->
  let e := u / (c * W0 W + u) in let d := x - weighted_mean W in
  weighted_variance (map (scale_weight c) W ++ [(u, x)]) = (1 - e) * (weighted_variance W + d * (e * d)).
Proof.
  intros H H' e d. rewrite !wvar_alt; rewrite ?W0_snoc; auto.
  rewrite W1_snoc, W2_snoc. unfold d, weighted_mean. fold (W0 W) (W1 W). unfold e. field. auto.
Qed.

Definition eff (adj : adjust_mode) (a : R) (n : nat) : R :=
  match adj with
  | AdjTrue => a / (1 - (1 - a) ^ n)
  | AdjFalse => a
  | AdjLinear => Rmax (/ INR n) a
  end.

Lemma pow_le_base b n : 0 <= b <= 1 -> b ^ S n <= b.
Proof.
  intros H. simpl. assert (b ^ n <= 1). { rewrite <- (pow1 n). apply pow_incr; lra. }
  assert (0 <= b ^ n) by (apply pow_le; lra). nra.
Qed.

Lemma eff_range adj a n : 0 < a <= 1 -> 0 < eff adj a (S n) <= 1.
Proof.
  intros Ha. destruct adj; cbn [eff]; [| lra |].
  - pose proof (pow_le_base (1 - a) n ltac:(lra)).
    split; [apply Rdiv_lt_0_compat; lra|].
    apply Rmult_le_reg_r with (1 - (1 - a) ^ S n); [lra|]. unfold Rdiv. rewrite Rmult_assoc, Rinv_l; lra.
  - assert (1 <= INR (S n)) by (rewrite S_INR; pose proof (pos_INR n); lra).
    split; [eapply Rlt_le_trans; [|apply Rmax_r]; lra|]. apply Rmax_lub; [|lra].
    rewrite <- Rinv_1. apply Rinv_le_contravar; lra.
Qed.

(** total weight after n >= 1 observations, by mode *)
Lemma count_valid os : count_obs os = length (valid_obs os).
Proof. induction os as [|[x|] os IH]; simpl; auto. Qed.

Lemma weights_true_snoc a os x :
  weights_true a (os ++ [Some x]) = map (scale_weight (1 - a)) (weights_true a os) ++ [(1, x)].
Proof.
  unfold weights_true. rewrite aged_snoc. cbn [isobs]. rewrite map_app, !map_map. cbn [map fst snd pow].
  f_equal.
Qed.
Lemma weights_false_snoc a os x : count_obs os <> 0%nat ->
  weights_false a (os ++ [Some x]) = map (scale_weight (1 - a)) (weights_false a os) ++ [(a, x)].
Proof.
  intros H. unfold weights_false. rewrite aged_snoc. cbn [isobs].
  destruct (aged true os) as [|[k0 x0] r] eqn:E; [apply aged_nil in E; congruence|].
  cbn [map app older fst snd]. unfold scale_weight at 1; cbn [fst snd]. f_equal.
  rewrite map_app, !map_map. cbn [map fst snd pow]. rewrite Rmult_1_r. f_equal.
  apply map_ext. intros [k y]. unfold scale_weight, older; cbn [fst snd]. f_equal. simpl. ring.
Qed.
Lemma weights_linear_length a l : forall W, length (fold_left (fun W x => let e := Rmax (/ INR (S (length W))) a in
    map (scale_weight (1 - e)) W ++ [(e, x)]) l W) = (length l + length W)%nat.
Proof.
  induction l as [|x l IH]; intros W; simpl; auto. rewrite IH, app_length, map_length. simpl. lia.
Qed.
Lemma weights_linear_snoc a os x :
  let e := Rmax (/ INR (S (count_obs os))) a in
  weights_linear a (os ++ [Some x]) = map (scale_weight (1 - e)) (weights_linear a os) ++ [(e, x)].
Proof.
  cbv zeta. unfold weights_linear. rewrite valid_obs_snoc, fold_left_app. cbn [fold_left].
  rewrite weights_linear_length. cbn [length]. rewrite Nat.add_0_r, count_valid. reflexivity.
Qed.
Lemma valid_snoc_none os : weights_true 0 (os ++ [None]) = weights_true 0 os.
Proof.
  unfold weights_true. rewrite aged_snoc. cbn [isobs]. rewrite app_nil_r, !map_map.
  apply map_ext. intros [k x]; reflexivity.
Qed.
Lemma aged_true_none os : aged true (os ++ [None]) = aged true os.
Proof.
  rewrite aged_snoc. cbn [isobs]. rewrite app_nil_r. rewrite <- (map_id (aged true os)) at 2.
  apply map_ext. intros [k x]; reflexivity.
Qed.
Lemma weights_none adj a os : weights adj a (os ++ [None]) = weights adj a os.
Proof.
  destruct adj; cbn [weights]; unfold weights_true, weights_false, weights_linear;
    rewrite ?aged_true_none, ?valid_obs_snoc, ?app_nil_r; reflexivity.
Qed.

Lemma weights_empty adj a os : count_obs os = 0%nat -> weights adj a os = [].
Proof.
  intros H. destruct adj; cbn [weights]; unfold weights_true, weights_false, weights_linear.
  - apply (aged_nil true) in H. rewrite H. auto.
  - apply (aged_nil true) in H. rewrite H. auto.
  - rewrite count_valid in H. destruct (valid_obs os); auto; discriminate.
Qed.

(** coefficients (c, u) of the update and total weight *)
Lemma weights_update adj a os x : 0 < a <= 1 ->
  exists c u, 0 <= c /\ 0 < u /\
    (count_obs os <> 0%nat -> 0 < W0 (weights adj a os) /\ u / (c * W0 (weights adj a os) + u) = eff adj a (S (count_obs os))) /\
    (count_obs os = 0%nat -> weights adj a (os ++ [Some x]) = [(1, x)]) /\
    (count_obs os <> 0%nat -> weights adj a (os ++ [Some x]) = map (scale_weight c) (weights adj a os) ++ [(u, x)]).
Proof.
  intros Ha.
  assert (Hpow : forall n, (1 - a) ^ S n <= 1 - a) by (intros; apply pow_le_base; lra).
  destruct adj; cbn [weights eff].
  - exists (1 - a), 1. split; [lra|]; split; [lra|]; split; [intros Hn|split; intros Hn].
    + assert (G : W0 (weights_true a os) = (1 - (1 - a) ^ count_obs os) / a).
      { clear -Ha. induction os as [|[y|] os IH] using rev_ind.
        - unfold W0, sum_over; simpl. field; lra.
        - rewrite weights_true_snoc, W0_snoc, IH, count_obs_snoc. cbn [isobs]. rewrite Nat.add_1_r. simpl. field; lra.
        - fold (weights AdjTrue a (os ++ [None])). rewrite weights_none. cbn [weights]. rewrite IH, count_obs_snoc. cbn [isobs]. rewrite Nat.add_0_r. reflexivity. }
      rewrite G. destruct (count_obs os) as [|n]; [congruence|]. specialize (Hpow n).
      split; [apply Rdiv_lt_0_compat; lra|]. pose proof (Hpow) as H1.
      specialize (pow_le_base (1 - a) (S n) ltac:(lra)) as H2. simpl in *. field. repeat split; try lra.
    + apply (aged_nil true) in Hn. unfold weights_true. rewrite aged_snoc, Hn. reflexivity.
    + apply weights_true_snoc.
  - exists (1 - a), a. split; [lra|]; split; [lra|]; split; [intros Hn|split; intros Hn].
    + assert (G : count_obs os <> 0%nat -> W0 (weights_false a os) = 1).
      { clear -Ha. induction os as [|[y|] os IH] using rev_ind; intros Hn.
        - simpl in Hn; congruence.
        - destruct (Nat.eq_dec (count_obs os) 0) as [E|E].
          + apply (aged_nil true) in E. unfold weights_false. rewrite aged_snoc, E.
            unfold W0, sum_over; simpl. lra.
          + rewrite weights_false_snoc, W0_snoc, IH; auto. lra.
        - fold (weights AdjFalse a (os ++ [None])). rewrite weights_none. cbn [weights]. apply IH.
          rewrite count_obs_snoc in Hn. simpl in Hn. lia. }
      rewrite (G Hn). split; [lra|]. field. lra.
    + apply (aged_nil true) in Hn. unfold weights_false. rewrite aged_snoc, Hn. reflexivity.
    + apply weights_false_snoc; auto.
  - set (e := Rmax (/ INR (S (count_obs os))) a). exists (1 - e), e.
    pose proof (eff_range AdjLinear a (count_obs os) Ha) as He. cbn [eff] in He. fold e in He.
    split; [lra|]; split; [lra|]; split; [intros Hn|split; intros Hn].
    + assert (G : count_obs os <> 0%nat -> W0 (weights_linear a os) = 1).
      { clear -Ha. induction os as [|[y|] os IH] using rev_ind; intros Hn.
        - simpl in Hn; congruence.
        - rewrite weights_linear_snoc, W0_snoc.
          destruct (Nat.eq_dec (count_obs os) 0) as [E|E].
          + rewrite E. fold (weights AdjLinear a os). rewrite weights_empty by auto. unfold W0, sum_over; simpl. rewrite Rinv_1, Rmax_left by lra. lra.
          + rewrite IH; auto. lra.
        - fold (weights AdjLinear a (os ++ [None])). rewrite weights_none. cbn [weights]. apply IH.
          rewrite count_obs_snoc in Hn. simpl in Hn. lia. }
      rewrite (G Hn). split; [lra|]. fold e. field. lra.
    + rewrite weights_linear_snoc, Hn. fold (weights AdjLinear a os). rewrite weights_empty by auto.
      cbn [map app INR]. rewrite Rinv_1, Rmax_left by lra. reflexivity.
    + apply weights_linear_snoc.
Qed.

(** *** the module *)
Definition vinv (adj : adjust_mode) (a : R) (pre : list fl) (s : ewmvar_state) : Prop :=
  forall os, pre = map of_option os ->
  ev_nobs s = count_obs os /\
  if (count_obs os =? 0)%nat then ev_mean s = NaN /\ (ev_var s = NaN \/ ev_var s = Fin 0)
  else W0 (weights adj a os) <> 0 /\ ev_mean s = Fin (weighted_mean (weights adj a os)) /\
       ev_var s = Fin (weighted_variance (weights adj a os)).


Definition alpha_n (com_ : R) (adj : adjust_mode) (n : nat) : fl :=
  match adj with
  | AdjLinear =>
      let tscale := fdiv (Fin 1) (fdiv (Fin 1) (fadd (Fin 1) (Fin com_))) in
      let tscale := if flt (Fin (INR n)) tscale then Fin (INR n) else tscale in
      if flt (Fin 0) tscale then fdiv (Fin 1) tscale else NaN
  | AdjTrue =>
      match fdiv (Fin 1) (fadd (Fin 1) (Fin com_)) with
      | Fin a => fdiv (fdiv (Fin 1) (fadd (Fin 1) (Fin com_))) (fsub (Fin 1) (Fin ((1 - a) ^ n)))
      | _ => NaN
      end
  | AdjFalse => fdiv (Fin 1) (fadd (Fin 1) (Fin com_))
  end.

Lemma alpha_n_eq com_ adj n : 0 <= com_ -> alpha_n com_ adj (S n) = Fin (eff adj (1 / (1 + com_)) (S n)).
Proof.
  intros Hc. unfold alpha_n. cbn [fadd]. rewrite fdiv_Fin by lra.
  assert (Ha : 0 < 1 / (1 + com_) <= 1) by (apply (al_pos (EwmaCfg com_ 0 AdjTrue false NaN)); auto).
  set (a := 1 / (1 + com_)) in *. destruct adj; auto.
  - cbn [fsub fneg fadd eff]. pose proof (pow_le_base (1 - a) n ltac:(lra)).
    rewrite fdiv_Fin; [reflexivity|]. lra.
  - rewrite fdiv_Fin by lra. cbn [eff flt].
    assert (Hn : 0 < INR (S n)) by (apply lt_0_INR; lia).
    assert (E : 1 / a = 1 + com_) by (unfold a; field; lra). rewrite E.
    destruct (Rlt_b_spec (INR (S n)) (1 + com_)); rewrite Rlt_b_true by lra; rewrite fdiv_Fin by lra;
      f_equal; unfold Rdiv; rewrite Rmult_1_l.
    + rewrite Rmax_left; auto. unfold a, Rdiv. rewrite Rmult_1_l. apply Rinv_le_contravar; lra.
    + rewrite Rmax_right; [unfold a, Rdiv; rewrite Rmult_1_l; auto|].
      unfold a, Rdiv. rewrite Rmult_1_l. apply Rinv_le_contravar; lra.
Qed.

Lemma step_obs com_ adj st x : 0 <= com_ ->
  let e := eff adj (1 / (1 + com_)) (S (ev_nobs st)) in
  let m := match ev_mean st with Fin r => r | _ => x end in
  let v := match ev_var st with Fin r => r | _ => 0 end in
  (ev_mean st = NaN \/ exists r, ev_mean st = Fin r) -> (ev_var st = NaN \/ exists r, ev_var st = Fin r) ->
  ewmvar_step com_ adj st (Fin x) =
  (Fin ((1 - e) * (v + (x - m) * (e * (x - m)))),
   EwmvarState (Fin (m + e * (x - m))) (Fin ((1 - e) * (v + (x - m) * (e * (x - m))))) (S (ev_nobs st))).
Proof.
  intros Hc e m v Hm Hv. unfold ewmvar_step. cbn [isnan negb].
  change (match adj with AdjTrue => _ | AdjFalse => _ | AdjLinear => _ end)
    with (alpha_n com_ adj (S (ev_nobs st))).
  rewrite alpha_n_eq by auto. fold e.
  destruct Hm as [Hm|[mr Hm]], Hv as [Hv|[vr Hv]]; unfold m, v; rewrite Hm, Hv; cbn; reflexivity.
Qed.

Lemma step_missing com_ adj st :
  (ev_mean st = NaN \/ exists r, ev_mean st = Fin r) -> (ev_var st = NaN \/ exists r, ev_var st = Fin r) ->
  let v := Fin (match ev_var st with Fin r => r | _ => 0 end) in
  ewmvar_step com_ adj st NaN = (v, EwmvarState (ev_mean st) v (ev_nobs st)).
Proof.
  intros Hm Hv. unfold ewmvar_step. cbn [isnan negb].
  destruct Hm as [Hm|[mr Hm]], Hv as [Hv|[vr Hv]]; rewrite Hm, Hv; reflexivity.
Qed.

Lemma map_of_option_inj l l' : map of_option l = map of_option l' -> l = l'.
Proof.
  revert l'; induction l as [|o l IH]; intros [|o' l'] H; try discriminate; auto.
  injection H as H1 H2. f_equal; auto. destruct o, o'; simpl in H1; congruence.
Qed.

Lemma vinv_step com_ adj os s o : 0 <= com_ ->
  vinv adj (1 / (1 + com_)) (map of_option os) s ->
  vinv adj (1 / (1 + com_)) (map of_option (os ++ [o])) (snd (ewmvar_step com_ adj s (of_option o))) /\
  fst (ewmvar_step com_ adj s (of_option o)) = Fin (ewm_variance adj (1 / (1 + com_)) (os ++ [o])).
Proof.
  intros Hc H. destruct (H os eq_refl) as [Hn Hs]. clear H.
  assert (Ha : 0 < 1 / (1 + com_) <= 1) by (apply (al_pos (EwmaCfg com_ 0 AdjTrue false NaN)); auto).
  set (a := 1 / (1 + com_)) in *.
  assert (Hm : ev_mean s = NaN \/ exists r, ev_mean s = Fin r)
    by (destruct (_ =? _)%nat; [tauto|destruct Hs as (_ & -> & _); eauto]).
  assert (Hv : ev_var s = NaN \/ exists r, ev_var s = Fin r)
    by (destruct (_ =? _)%nat; [destruct Hs as (_ & [->| ->]); eauto|destruct Hs as (_ & _ & ->); eauto]).
  assert (Hvo : forall l, (count_obs l =? 0)%nat = false -> ewm_variance adj a l = weighted_variance (weights adj a l)).
  { intros l Hl. unfold ewm_variance. rewrite count_valid in Hl. destruct (valid_obs l); [discriminate|auto]. }
  destruct o as [x|]; cbn [of_option].
  - destruct (weights_update adj a os x Ha) as (c & u & Hcc & Hu & Heff & Hw0 & Hw1).
    rewrite step_obs by auto. cbn [snd fst]. fold a.
    assert (Hcnt : (count_obs (os ++ [Some x]) =? 0)%nat = false)
      by (rewrite count_obs_snoc; cbn [isobs]; rewrite Nat.add_1_r; auto).
    rewrite Hn in *. rewrite (Hvo _ Hcnt).
    assert (K : W0 (weights adj a (os ++ [Some x])) <> 0 /\
       (let m := match ev_mean s with Fin r => r | _ => x end in m + eff adj a (S (count_obs os)) * (x - m))
        = weighted_mean (weights adj a (os ++ [Some x])) /\
       (let m := match ev_mean s with Fin r => r | _ => x end in
        let v := match ev_var s with Fin r => r | _ => 0 end in
        (1 - eff adj a (S (count_obs os))) * (v + (x - m) * (eff adj a (S (count_obs os)) * (x - m))))
        = weighted_variance (weights adj a (os ++ [Some x]))).
    { destruct (Nat.eqb_spec (count_obs os) 0) as [E|E].
      - destruct Hs as [-> Hs]. rewrite (Hw0 E). unfold W0, weighted_variance, weighted_mean, sum_over; simpl.
        split; [lra|]. split; [field|].
        destruct Hs as [->| ->]; field.
      - destruct Hs as (H0 & -> & ->). destruct (Heff E) as [Hp He].
        assert (Hd : c * W0 (weights adj a os) + u <> 0)
          by (pose proof (Rmult_le_pos c _ Hcc (Rlt_le _ _ Hp)); lra).
        rewrite (Hw1 E). cbv zeta. rewrite <- He. split; [rewrite W0_snoc; auto|].
        split; [symmetry; apply wmean_update; auto|symmetry; apply wvar_update; auto]. }
    cbv zeta in K. destruct K as (K0 & K1 & K2). rewrite K1, K2. split; [|reflexivity].
    intros os' E. apply map_of_option_inj in E. subst os'. cbn [ev_nobs ev_mean ev_var].
    rewrite Hcnt. split; [rewrite count_obs_snoc; cbn [isobs]; lia|]. auto.
  - rewrite step_missing by auto. cbn [snd fst].
    assert (Hc0 : count_obs (os ++ [None]) = count_obs os) by (rewrite count_obs_snoc; simpl; lia).
    split.
    + intros os' E. apply map_of_option_inj in E. subst os'. cbn [ev_nobs ev_mean ev_var].
      rewrite Hc0. split; auto. rewrite weights_none.
      destruct (count_obs os =? 0)%nat.
      * destruct Hs as [? [->| ->]]; auto.
      * destruct Hs as (? & ? & ->); auto.
    + f_equal. destruct (count_obs os =? 0)%nat eqn:E.
      * assert (E' : valid_obs (os ++ [None]) = []).
        { apply length_zero_iff_nil. rewrite <- count_valid, Hc0. apply Nat.eqb_eq; auto. }
        unfold ewm_variance. rewrite E'. destruct Hs as [_ [->| ->]]; auto.
      * rewrite Hvo by (rewrite Hc0; auto). rewrite weights_none. destruct Hs as (_ & _ & ->). auto.
Qed.

Lemma ewmvar_run com_ adj os ys sF :
  0 <= com_ -> run (EWMVar com_ adj) (map of_option os) = Some (ys, sF) ->
  length ys = length os /\
  forall t, (t < length os)%nat -> nth_error ys t = Some (Fin (ewm_variance adj (1 / (1 + com_)) (firstn (t + 1) os))).
Proof.
  intros Hc Hr. destruct (run_nonempty _ _ _ _ Hr) as (x0 & r & E).
  destruct os as [|o0 os']; [discriminate|]. cbn [map] in Hr.
  destruct (run_nth _ _ _ _ _ _ Hr) as (Hl & _ & Hn).
  split. { rewrite Hl. simpl. rewrite map_length. auto. }
  change (of_option o0 :: map of_option os') with (map of_option (o0 :: os')) in *.
  set (os := o0 :: os') in *.
  assert (G : forall t, (t <= length os)%nat ->
     vinv adj (1 / (1 + com_)) (map of_option (firstn t os))
       (steps (ewmvar_step com_ adj) ewmvar_init (firstn t (map of_option os)))).
  { induction t as [|t IH]; intros Ht.
    - intros l El. destruct l; [|discriminate]. simpl. auto.
    - destruct (nth_error os t) as [o|] eqn:Eo; [|apply nth_error_None in Eo; lia].
      assert (Em : nth_error (map of_option os) t = Some (of_option o)) by (apply map_nth_error; auto).
      rewrite (firstn_snoc _ _ _ Eo), (firstn_snoc _ _ _ Em), steps_app. cbn [steps].
      apply vinv_step; auto. apply IH; lia. }
  intros t Ht. destruct (nth_error os t) as [o|] eqn:Eo; [|apply nth_error_None in Eo; lia].
  assert (Em : nth_error (map of_option os) t = Some (of_option o)) by (apply map_nth_error; auto).
  rewrite (Hn t _ Em). f_equal. rewrite Nat.add_1_r, (firstn_snoc _ _ _ Eo).
  apply vinv_step; auto. apply G. lia.
Qed.

(** *** consequences *)
Lemma weights_nonneg adj a os : 0 < a <= 1 -> Forall (fun p => 0 <= fst p) (weights adj a os).
Proof.
  intros Ha. induction os as [|o os IH] using rev_ind.
  - rewrite weights_empty; auto.
  - destruct o as [x|]; [|rewrite weights_none; auto].
    destruct (weights_update adj a os x Ha) as (c & u & Hc & Hu & _ & H0 & H1).
    destruct (Nat.eq_dec (count_obs os) 0) as [E|E].
    + rewrite (H0 E). constructor; simpl; auto; lra.
    + rewrite (H1 E). apply Forall_app. split; [|constructor; simpl; auto; lra].
      rewrite Forall_forall in *. intros p Hp. apply in_map_iff in Hp. destruct Hp as (q & <- & Hq).
      unfold scale_weight; cbn [fst]. apply Rmult_le_pos; auto.
Qed.
Lemma weights_total adj a os : 0 < a <= 1 -> count_obs os <> 0%nat -> 0 < W0 (weights adj a os).
Proof. intros Ha Hn. destruct (weights_update adj a os 0 Ha) as (c & u & _ & _ & H & _). apply H; auto. Qed.

Lemma sum_over_nonneg {A} (f : A -> R) l : Forall (fun x => 0 <= f x) l -> 0 <= sum_over f l.
Proof. induction 1; unfold sum_over in *; simpl; lra. Qed.

Lemma ewm_variance_nonneg adj a os : 0 < a <= 1 -> 0 <= ewm_variance adj a os.
Proof.
  intros Ha. unfold ewm_variance. destruct (valid_obs os) eqn:E; [lra|].
  assert (Hn : count_obs os <> 0%nat) by (rewrite count_valid, E; discriminate).
  pose proof (weights_total adj a os Ha Hn) as Hp. pose proof (weights_nonneg adj a os Ha) as Hw.
  unfold weighted_variance. apply Rmult_le_pos; [|left; apply Rinv_0_lt_compat; exact Hp].
  apply sum_over_nonneg. rewrite Forall_forall in *. intros p Hin. apply Rmult_le_pos; auto.
  apply pow2_ge_0.
Qed.

(** affine maps *)
Definition onval (f : R -> R) (p : R * R) : R * R := (fst p, f (snd p)).
Lemma aged_map ig f os : aged ig (map (option_map f) os) = map (fun p => (fst p, f (snd p))) (aged ig os).
Proof.
  assert (Ec : forall l, count_obs (map (option_map f) l) = count_obs l)
    by (induction l as [|[x|] l IH]; simpl; auto).
  induction os as [|[x|] os IH]; simpl; auto. rewrite IH, Ec, map_length. reflexivity.
Qed.
Lemma valid_map f os : valid_obs (map (option_map f) os) = map f (valid_obs os).
Proof. induction os as [|[x|] os IH]; simpl; auto. rewrite IH; auto. Qed.

Lemma weights_map adj a f os : weights adj a (map (option_map f) os) = map (onval f) (weights adj a os).
Proof.
  destruct adj; cbn [weights].
  - unfold weights_true. rewrite aged_map, !map_map. apply map_ext. intros [k x]; reflexivity.
  - unfold weights_false. rewrite aged_map. destruct (aged true os) as [|[k x] r]; auto.
    cbn [map fst snd]. f_equal. rewrite !map_map. apply map_ext. intros [k' x']; reflexivity.
  - unfold weights_linear. rewrite valid_map.
    assert (G : forall l W, fold_left (fun W x => let e := Rmax (/ INR (S (length W))) a in
         map (scale_weight (1 - e)) W ++ [(e, x)]) (map f l) (map (onval f) W) =
       map (onval f) (fold_left (fun W x => let e := Rmax (/ INR (S (length W))) a in
         map (scale_weight (1 - e)) W ++ [(e, x)]) l W)).
    { induction l as [|x l IH]; intros W; cbn [map fold_left]; auto. rewrite <- IH. f_equal.
      rewrite map_length, map_app, !map_map. reflexivity. }
    apply (G _ []).
Qed.

Lemma ewm_variance_affine adj a c b os : 0 < a <= 1 ->
  ewm_variance adj a (map (option_map (fun x => c * x + b)) os) = c ^ 2 * ewm_variance adj a os.
Proof.
  intros Ha. unfold ewm_variance. rewrite valid_map. destruct (valid_obs os) eqn:E; cbn [map]; [ring|].
  assert (Hn : count_obs os <> 0%nat) by (rewrite count_valid, E; discriminate).
  pose proof (weights_total adj a os Ha Hn) as Hp. rewrite weights_map.
  set (W := weights adj a os) in *. set (f := fun x => c * x + b).
  assert (E0 : W0 (map (onval f) W) = W0 W) by (unfold W0; rewrite sum_over_map; reflexivity).
  assert (E1 : W1 (map (onval f) W) = c * W1 W + b * W0 W).
  { unfold W1, W0, sum_over, f, onval. clear. induction W as [|[w x] W IH]; simpl in *; [lra|]. rewrite IH; ring. }
  assert (E2 : W2 (map (onval f) W) = c ^ 2 * W2 W + 2 * c * b * W1 W + b ^ 2 * W0 W).
  { unfold W2, W1, W0, sum_over, f, onval. clear. induction W as [|[w x] W IH]; simpl in *; [lra|]. rewrite IH; ring. }
  rewrite !wvar_alt by (rewrite ?E0; lra). rewrite E0, E1, E2. field. lra.
Qed.

Lemma ewm_variance_constant adj a b os : 0 < a <= 1 ->
  Forall (fun o => o = None \/ o = Some b) os -> ewm_variance adj a os = 0.
Proof.
  intros Ha H. assert (E : os = map (option_map (fun x => 0 * x + b)) os).
  { induction H as [|o os [->| ->] H IH]; simpl; auto; rewrite IH at 1; auto. do 2 f_equal. ring. }
  rewrite E, ewm_variance_affine by auto. ring.
Qed.

Lemma ewmvar_nonneg com_ adj os ys sF : 0 <= com_ ->
  run (EWMVar com_ adj) (map of_option os) = Some (ys, sF) ->
  forall t y, nth_error ys t = Some y -> exists v, y = Fin v /\ 0 <= v.
Proof.
  intros Hc Hr t y Hy. destruct (ewmvar_run com_ adj os ys sF Hc Hr) as [Hl Ht].
  assert (Hlt : (t < length os)%nat) by (rewrite <- Hl; eapply nth_lt; eauto).
  rewrite (Ht t Hlt) in Hy. injection Hy as <-. eexists; split; [reflexivity|]. apply ewm_variance_nonneg.
  apply (al_pos (EwmaCfg com_ 0 AdjTrue false NaN)); auto.
Qed.

Lemma ewmvar_constant com_ adj b os ys sF : 0 <= com_ ->
  Forall (fun o => o = None \/ o = Some b) os ->
  run (EWMVar com_ adj) (map of_option os) = Some (ys, sF) -> ys = repeat (Fin 0) (length os).
Proof.
  intros Hc Hf Hr. destruct (ewmvar_run com_ adj os ys sF Hc Hr) as [Hl Ht].
  apply nth_error_ext. intros t. rewrite nth_error_repeat'. destruct (Nat.ltb_spec t (length os)) as [Hlt|Hge].
  - rewrite (Ht t Hlt). do 2 f_equal. apply (ewm_variance_constant _ _ b).
    + apply (al_pos (EwmaCfg com_ 0 AdjTrue false NaN)); auto.
    + rewrite Forall_forall in *. intros o Ho. apply Hf. rewrite <- (firstn_skipn (t + 1) os). apply in_or_app; auto.
  - apply nth_error_None. lia.
Qed.

Lemma ewmvar_affine com_ adj c b os ys sF ys' sF' : 0 <= com_ ->
  run (EWMVar com_ adj) (map of_option os) = Some (ys, sF) ->
  run (EWMVar com_ adj) (map of_option (map (option_map (fun x => c * x + b)) os)) = Some (ys', sF') ->
  length ys' = length ys /\
  forall t v, nth_error ys t = Some (Fin v) -> nth_error ys' t = Some (Fin (c ^ 2 * v)).
Proof.
  intros Hc Hr Hr'. destruct (ewmvar_run com_ adj os ys sF Hc Hr) as [Hl Ht].
  destruct (ewmvar_run com_ adj _ ys' sF' Hc Hr') as [Hl' Ht']. rewrite map_length in Hl', Ht'.
  split; [congruence|]. intros t v Hv.
  assert (Hlt : (t < length os)%nat) by (rewrite <- Hl; eapply nth_lt; eauto).
  rewrite (Ht t Hlt) in Hv. injection Hv as <-. rewrite (Ht' t Hlt), firstn_map, ewm_variance_affine; auto.
  apply (al_pos (EwmaCfg com_ 0 AdjTrue false NaN)); auto.
Qed.
