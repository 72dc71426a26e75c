(** EWMVar against the diagonal of EWMCov. *)
From Coq Require Import List ZArith Reals Lra Lia Bool.
From Verif Require Import Model.Unroll Model.Float Model.Modules Model.Ewm Spec.EwmSpec Spec.CovSpec
  Spec.SeriesSpec Proofs.FloatFacts Proofs.ListFacts Proofs.RunFacts Proofs.EwmFacts Proofs.EwmProofs
  Proofs.EwmExtra Proofs.EwmvarProofs Proofs.EwmcovProofs.
Import ListNotations.
Local Open Scope R_scope.

Definition wt_closed (cfg : ewma_cfg) (n : nat) : R :=
  match adjust cfg with
  | AdjTrue => (1 - (1 - al cfg) ^ n) / al cfg
  | AdjFalse => 1
  | AdjLinear => Rmin (INR n) (1 + com cfg)
  end.

Lemma w_old_closed cfg n y : 0 <= com cfg -> (n <> 0)%nat ->
  nwt cfg / (w_old cfg true (Some y) (wt_closed cfg n) + nwt cfg) = eff (adjust cfg) (al cfg) (S n) /\
  (if truthy (adjust cfg) then w_old cfg true (Some y) (wt_closed cfg n) + 1 else 1) = wt_closed cfg (S n).
Proof.
  intros Hc Hn. pose proof (al_pos cfg Hc) as Ha.
  assert (Hal : al cfg * (1 + com cfg) = 1) by (unfold al; field; lra).
  unfold wt_closed, w_old, nwt, eff. destruct (adjust cfg); cbn [truthy].
  - pose proof (pow_le_base (1 - al cfg) n ltac:(lra)) as H. simpl in *. split; field; repeat split; lra.
  - split; [|reflexivity]. field. lra.
  - assert (1 <= INR n). { replace 1 with (INR 1) by reflexivity. apply le_INR; lia. }
    assert (E : Rmin (Rmin (INR n) (1 + com cfg)) (com cfg) = Rmin (INR n) (com cfg)).
    { destruct (Rle_dec (INR n) (com cfg)).
      - rewrite (Rmin_left (INR n) (1 + com cfg)) by lra. reflexivity.
      - rewrite (Rmin_right (INR n) (com cfg)) by lra. apply Rmin_right. apply Rmin_glb; lra. }
    rewrite E. split.
    + rewrite S_INR. unfold al. rewrite <- inv_min by lra. unfold Rdiv; ring.
    + rewrite S_INR. unfold Rmin. repeat match goal with |- context [Rle_dec ?a ?b] => destruct (Rle_dec a b) end; lra.
Qed.

Lemma rstate_weighted cfg os : 0 <= com cfg -> ignore_na cfg = true \/ complete_from_first os ->
  if (count_obs os =? 0)%nat then fst (rstate cfg None os) = None
  else fst (rstate cfg None os) = Some (weighted_mean (weights (adjust cfg) (al cfg) os)) /\
       w_old cfg true (Some 0) (snd (rstate cfg None os)) = w_old cfg true (Some 0) (wt_closed cfg (count_obs os)).
Proof.
  intros Hc. pose proof (al_pos cfg Hc) as Ha. pose proof (nwt_pos cfg Hc) as Hw.
  induction os as [|o os IH] using rev_ind; intros Hi; [reflexivity|].
  assert (Hi' : ignore_na cfg = true \/ complete_from_first os)
    by (destruct Hi as [Hi|Hi]; [auto|right; eapply complete_snoc; eauto]).
  specialize (IH Hi'). rewrite rstate_snoc, count_obs_snoc. unfold rstep. cbn [fst snd].
  destruct (rstate cfg None os) as [m w]. cbn [fst snd] in *.
  destruct o as [x|]; cbn [isobs r_mean r_wt].
  - rewrite Nat.add_1_r. cbn [Nat.eqb].
    destruct (weights_update (adjust cfg) (al cfg) os x Ha) as (c & u & Hc0 & Hu & H1 & H2 & H3).
    destruct (Nat.eqb_spec (count_obs os) 0) as [E|E].
    + subst m. rewrite (H2 E), E. split.
      * apply f_equal. cbn [w_old dfl]. unfold weighted_mean, sum_over; simpl. field. lra.
      * apply (f_equal (w_old cfg true (Some 0))). cbn [w_old]. unfold wt_closed, truthy. destruct (adjust cfg); simpl; [field; lra|reflexivity|].
        rewrite Rmin_left; lra.
    + destruct IH as [-> Ew]. destruct (H1 E) as [Hp He]. rewrite (H3 E).
      destruct (w_old_closed cfg (count_obs os) (weighted_mean (weights (adjust cfg) (al cfg) os)) Hc E) as [E1 E2].
      set (mu := weighted_mean (weights (adjust cfg) (al cfg) os)) in *.
      change (w_old cfg true (Some mu) w) with (w_old cfg true (Some 0) w). rewrite Ew.
      change (w_old cfg true (Some mu)) with (w_old cfg true (Some 0)) in E1, E2. unfold mu in *; clear mu.
      split; [|apply (f_equal (w_old cfg true (Some 0))); exact E2]. apply f_equal. cbn [dfl].
      rewrite wmean_update.
      2: lra.
      2:{ assert (0 <= c * W0 (weights (adjust cfg) (al cfg) os)) by (apply Rmult_le_pos; lra). lra. }
      cbv zeta. rewrite He, <- E1.
      match goal with |- context [w_old cfg true ?a ?b] => set (w1 := w_old cfg true a b) in * end.
      assert (0 <= w1).
      { apply w_old_nonneg; auto. unfold wt_closed. destruct (adjust cfg); [|lra|].
        - apply Rmult_le_pos; [|left; apply Rinv_0_lt_compat; lra].
          pose proof (pow_incr (1 - al cfg) 1 (count_obs os) ltac:(lra)) as Hpi. rewrite pow1 in Hpi. lra.
        - apply Rmin_glb; [apply pos_INR|lra]. }
      field. lra.
  - rewrite Nat.add_0_r, weights_none.
    destruct (Nat.eqb_spec (count_obs os) 0) as [E|E]; [auto|]. destruct IH as [-> Ew]. split; [auto|].
    destruct Hi as [Hi|Hi].
    + rewrite <- Ew. unfold w_old. rewrite Hi. destruct (adjust cfg); auto.
      apply Rmin_left. apply Rmin_r.
    + exfalso. apply complete_snoc_none in Hi. rewrite count_valid, Hi in E. apply E; reflexivity.
Qed.

Lemma W1_sq os adj a : 0 < a <= 1 ->
  weighted_mean (weights adj a (map (option_map (fun r => r * r)) os)) =
  W2 (weights adj a os) / W0 (weights adj a os).
Proof.
  intros Ha. rewrite weights_map. unfold weighted_mean, W2, W0. rewrite !sum_over_map.
  unfold onval; cbn [fst snd]. f_equal. apply sum_over_ext. intros; ring.
Qed.

Lemma count_obs_map f os : count_obs (map (option_map f) os) = count_obs os.
Proof. induction os as [|[x|] os IH]; simpl; auto. Qed.
Lemma complete_map f os : complete_from_first os -> complete_from_first (map (option_map f) os).
Proof.
  induction os as [|[x|] os IH]; simpl; auto. intros H. apply Forall_map.
  eapply Forall_impl; [|exact H]. intros [y|]; simpl; congruence.
Qed.

Lemma ewmvar_ewmcov fm cfg p (xs : list (list (option R))) Ms sF i vs sV :
  0 <= com cfg -> initial_value cfg = NaN ->
  Forall (fun x => length x = p) xs -> (i < p)%nat ->
  run (EWMCov fm cfg false) (map (fun x => (map of_option x, map of_option x)) xs) = Some (Ms, sF) ->
  run (EWMVar (com cfg) (adjust cfg)) (map (fun x => of_option (nth i x None)) xs) = Some (vs, sV) ->
  forall t M, nth_error Ms t = Some M ->
  let seen := map (fun x => nth i x None) (firstn (t + 1) xs) in
  ignore_na cfg = true \/ complete_from_first seen ->
  (valid_obs seen <> [] /\ (min_periods cfg <= Z.of_nat (length (valid_obs seen)))%Z ->
     nth2 M i i = nth_error vs t) /\
  (~ (valid_obs seen <> [] /\ (min_periods cfg <= Z.of_nat (length (valid_obs seen)))%Z) ->
     nth2 M i i = Some NaN).
Proof.
  intros Hc Hi Hlen Hip Hr Hv t M HM seen Hcmp.
  set (zs := map (fun x => (map of_option x, map of_option x)) xs) in *.
  assert (Hs : Forall (shaped p p) zs).
  { apply Forall_forall. intros v Hv'. apply in_map_iff in Hv'. destruct Hv' as (o & <- & Ho).
    rewrite Forall_forall in Hlen. split; cbn [fst snd]; rewrite map_length; auto. }
  destruct (cov_run fm cfg p p zs Ms sF Hs Hr) as [Hl H].
  assert (Ht : (t < length zs)%nat) by (rewrite <- Hl; eapply nth_lt; eauto).
  destruct xs as [|x0 xr]; [simpl in Ht; lia|].
  set (g := fun x : list (option R) => (map of_option x, map of_option x)) in *.
  destruct (ewma_total fm cfg (comp_xy i i) (g x0) (map g xr)) as (e1 & s1 & E1).
  destruct (ewma_total fm cfg (comp_x i) (g x0) (map g xr)) as (e2 & s2 & E2).
  destruct (ewma_total fm cfg (comp_y i) (g x0) (map g xr)) as (e3 & s3 & E3).
  destruct (H i i Hip Hip _ _ _ _ _ _ E1 E2 E3 t Ht) as (M' & a & b & c' & HM' & Ha & Hb & Hc' & Hv').
  assert (M' = M) by congruence. subst M'. rewrite Hv'.
  change (g x0 :: map g xr) with (map g (x0 :: xr)) in *. set (xs := x0 :: xr) in *.
  assert (E32 : map (comp_y i) (map g xs) = map (comp_x i) (map g xs)) by (rewrite !map_map; reflexivity).
  rewrite E32, E2 in E3. injection E3 as <- <-.
  assert (c' = b) by congruence. subst c'.
  destruct (ewma_run fm cfg _ _ _ Hc E1) as [_ F1]. destruct (ewma_run fm cfg _ _ _ Hc E2) as [_ F2].
  rewrite map_length in F1, F2.
  rewrite (F1 t Ht) in Ha. rewrite (F2 t Ht) in Hb. rewrite Hi in Ha, Hb. cbn [observation] in Ha, Hb.
  assert (Ob : forall x : list (option R), observation fm (comp_x i (g x)) = nth i x None).
  { intros x. unfold comp_x, g; cbn [fst]. change NaN with (of_option None). rewrite map_nth, obs_of_option. auto. }
  assert (Ox : map (observation fm) (map (comp_x i) (map g xs)) = map (fun x => nth i x None) xs)
    by (rewrite !map_map; apply map_ext; apply Ob).
  assert (Oxy : map (observation fm) (map (comp_xy i i) (map g xs)) = map (fun x => option_map (fun r => r * r) (nth i x None)) xs).
  { rewrite !map_map; apply map_ext. intros x. unfold comp_xy, comp_x, comp_y, g; cbn [fst snd].
    change NaN with (of_option None). rewrite map_nth. destruct (nth i x None); reflexivity. }
  rewrite Ox in Hb. rewrite Oxy in Ha. rewrite firstn_map in Hb. fold seen in Hb.
  assert (Eos2 : firstn (t + 1) (map (fun x => option_map (fun r => r * r) (nth i x None)) xs) = map (option_map (fun r => r * r)) seen).
  { unfold seen. rewrite !firstn_map, map_map. reflexivity. }
  rewrite Eos2 in Ha. set (os2 := map (option_map (fun r => r * r)) seen) in *.
  pose proof (al_pos cfg Hc) as Hal.
  assert (Ec : count_obs os2 = count_obs seen) by apply count_obs_map.
  pose proof (rstate_weighted cfg seen Hc Hcmp) as R1.
  assert (Hcmp2 : ignore_na cfg = true \/ complete_from_first os2)
    by (destruct Hcmp; [auto|right; apply complete_map; auto]).
  pose proof (rstate_weighted cfg os2 Hc Hcmp2) as R2. rewrite Ec in R2.
  destruct (ewmvar_run (com cfg) (adjust cfg) (map (fun x => nth i x None) xs) vs sV Hc) as [_ V].
  { rewrite map_map. exact Hv. }
  assert (Ht' : (t < length xs)%nat) by (unfold zs in Ht; rewrite map_length in Ht; exact Ht).
  rewrite map_length in V. rewrite (V t Ht'), firstn_map. fold seen. fold (al cfg).
  rewrite <- count_valid.
  assert (Nn : forall u, fsub u NaN = NaN) by (intros []; reflexivity).
  destruct (Nat.eqb_spec (count_obs seen) 0) as [E|E].
  - rewrite R1 in Hb. cbn [when_enough] in Hb. injection Hb as <-.
    assert (valid_obs seen = []) by (rewrite count_valid in E; destruct (valid_obs seen); [auto|discriminate]).
    split; [intros [? _]; congruence|intros _]. rewrite Nn. reflexivity.
  - destruct R1 as [R1 _], R2 as [R2 _]. rewrite R1 in Hb. rewrite R2 in Ha. cbn [when_enough] in Ha, Hb.
    rewrite Ec in Ha. injection Ha as <-. injection Hb as <-.
    destruct (valid_obs seen) as [|v0 vr] eqn:Ev; [exfalso; apply E; rewrite count_valid, Ev; reflexivity|].
    destruct (Z.ltb_spec (Z.of_nat (count_obs seen)) (min_periods cfg)) as [Hlt|Hge].
    + split; [intros [_ ?]; lia|intros _]. reflexivity.
    + split; [intros _|intros Hn; exfalso; apply Hn; split; [discriminate|auto]].
      cbn [fmul fsub fneg fadd]. apply f_equal. apply f_equal. unfold ewm_variance. rewrite Ev.
      pose proof (weights_total (adjust cfg) (al cfg) seen Hal E) as Hp.
      unfold os2. rewrite W1_sq by auto. rewrite wvar_alt by lra.
      unfold weighted_mean. fold (W1 (weights (adjust cfg) (al cfg) seen)). fold (W0 (weights (adjust cfg) (al cfg) seen)).
      ring.
Qed.
