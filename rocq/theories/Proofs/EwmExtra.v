From Coq Require Import List ZArith Reals Lra Lia Bool.
From Verif Require Import Model.Unroll Model.Float Model.Modules Model.Ewm Spec.EwmSpec
  Spec.SeriesSpec Proofs.FloatFacts Proofs.ListFacts Proofs.RunFacts Proofs.EwmFacts Proofs.EwmProofs.
Import ListNotations.
Local Open Scope R_scope.

Lemma nth_lt {A} (l : list A) n x : nth_error l n = Some x -> (n < length l)%nat.
Proof. intros H. apply nth_error_Some. congruence. Qed.

Definition opt_all (P : R -> Prop) (o : option R) : Prop := match o with Some x => P x | None => True end.

Lemma rstate_nonneg cfg i os : 0 <= com cfg -> 0 <= snd (rstate cfg i os).
Proof.
  intros Hc. induction os as [|o os IH] using rev_ind; [unfold rstate; simpl; lra|].
  rewrite rstate_snoc. unfold rstep; cbn [snd]. apply r_wt_nonneg; auto.
Qed.

Lemma rstate_range cfg i os lo hi :
  0 <= com cfg -> Forall (opt_all (fun x => lo <= x <= hi)) (i :: os) ->
  opt_all (fun y => lo <= y <= hi) (fst (rstate cfg i os)).
Proof.
  intros Hc. induction os as [|o os IH] using rev_ind; intros H.
  - inversion H; auto.
  - change (i :: os ++ [o]) with ((i :: os) ++ [o]) in H. apply Forall_app in H. destruct H as [H1 H2].
    specialize (IH H1). inversion H2 as [|? ? Ho _]; subst.
    pose proof (rstate_nonneg cfg i os Hc) as Hw.
    rewrite rstate_snoc. unfold rstep, r_mean. cbn [fst].
    destruct o as [x|]; auto. cbn [opt_all] in *.
    pose proof (nwt_pos cfg Hc) as Hn.
    pose proof (w_old_nonneg cfg true (fst (rstate cfg i os)) _ Hc Hw) as Hw1.
    destruct (fst (rstate cfg i os)) as [y|] eqn:Em; cbn [dfl opt_all] in *.
    + set (w1 := w_old _ _ _ _) in *.
      split; (apply Rmult_le_reg_r with (w1 + nwt cfg); [lra|]);
        unfold Rdiv; rewrite Rmult_assoc, Rinv_l by lra; nra.
    + unfold w_old. replace ((0 * 0 + nwt cfg * x) / (0 + nwt cfg)) with x by (field; lra). lra.
Qed.

Lemma nth_error_firstn_in {A} (l : list A) t x : In x (firstn (t + 1) l) ->
  exists s, (s <= t)%nat /\ nth_error l s = Some x.
Proof.
  intros H. apply In_nth_error in H. destruct H as [s Hs].
  assert (Hlt : (s < t + 1)%nat).
  { apply nth_lt in Hs. rewrite firstn_length in Hs. lia. }
  exists s. split; [lia|]. rewrite nth_error_firstn in Hs; auto.
Qed.

Lemma ewma_range fm cfg xs ys sF lo hi :
  0 <= com cfg -> run (EWMA fm cfg) xs = Some (ys, sF) ->
  (forall v, observation fm (initial_value cfg) = Some v -> lo <= v <= hi) ->
  forall t y,
  (forall s x v, (s <= t)%nat -> nth_error xs s = Some x -> observation fm x = Some v -> lo <= v <= hi) ->
  nth_error ys t = Some y ->
  y = NaN \/ exists r, y = Fin r /\ lo <= r <= hi.
Proof.
  intros Hc Hr Hi t y Hx Hy. destruct (ewma_run fm cfg xs ys sF Hc Hr) as [Hl Ht].
  assert (Hlt : (t < length xs)%nat) by (rewrite <- Hl; eapply nth_lt; eauto).
  rewrite (Ht t Hlt) in Hy. injection Hy as <-.
  set (os := firstn (t + 1) (map (observation fm) xs)).
  pose proof (rstate_range cfg (observation fm (initial_value cfg)) os lo hi Hc) as H.
  unfold when_enough. destruct (fst (rstate _ _ os)) as [r|]; [|left; reflexivity].
  destruct (_ <? _)%Z; [left; reflexivity|]. right. exists r. split; auto. apply H.
  constructor.
  - destruct (observation fm (initial_value cfg)); simpl; auto.
  - apply Forall_forall. intros o Ho. destruct (nth_error_firstn_in _ _ _ Ho) as (s & Hs & Hs').
    rewrite nth_error_map in Hs'. destruct (nth_error xs s) as [x|] eqn:Ex; [|discriminate].
    injection Hs' as Hs'. destruct o as [v|]; simpl; auto. apply (Hx s x v Hs Ex Hs').
Qed.

Lemma ewma_missing fm cfg xs ys sF t :
  0 <= com cfg -> run (EWMA fm cfg) xs = Some (ys, sF) ->
  nth_error xs (S t) = Some NaN -> nth_error ys (S t) = nth_error ys t.
Proof.
  intros Hc Hr Hx. destruct (ewma_run fm cfg xs ys sF Hc Hr) as [Hl Ht].
  pose proof (nth_lt _ _ _ Hx) as Hlt.
  rewrite (Ht (S t) Hlt), (Ht t ltac:(lia)).
  replace (S t + 1)%nat with (S (S t)) by lia. replace (t + 1)%nat with (S t) by lia.
  rewrite (firstn_snoc _ _ _ (nth_error_map_obs fm _ _ _ Hx)). cbn [observation].
  rewrite rstate_snoc. unfold rstep, r_mean. cbn [fst]. unfold when_enough.
  rewrite count_obs_snoc. cbn [isobs]. rewrite Nat.add_0_r. reflexivity.
Qed.

(** *** linear *)
Lemma complete_snoc l o : complete_from_first (l ++ [o]) -> complete_from_first l.
Proof.
  induction l as [|[x|] l IH]; simpl; auto. intros H. apply Forall_app in H; tauto.
Qed.
Lemma complete_snoc_none l : complete_from_first (l ++ [None]) -> valid_obs l = [].
Proof.
  induction l as [|[x|] l IH]; simpl; auto. intros H. apply Forall_app in H. destruct H as [_ H].
  inversion H; congruence.
Qed.
Lemma valid_obs_snoc l o : valid_obs (l ++ [o]) = valid_obs l ++ match o with Some x => [x] | None => [] end.
Proof. induction l as [|[x|] l IH]; simpl; [destruct o; auto|f_equal; auto|auto]. Qed.

Lemma linear_fold_count a l : fst (fold_left (linear_recursion_step a) l (0%nat, 0)) = length l.
Proof.
  induction l as [|x l IH] using rev_ind; auto. rewrite fold_left_app, app_length; simpl.
  destruct (fold_left _ l _) as [n y]. simpl in *. lia.
Qed.
Lemma linear_snoc a l x : linear_recursion a (l ++ [x]) =
  (1 - Rmax (/ INR (S (length l))) a) * linear_recursion a l + Rmax (/ INR (S (length l))) a * x.
Proof.
  unfold linear_recursion. rewrite fold_left_app. pose proof (linear_fold_count a l) as H.
  destruct (fold_left (linear_recursion_step a) l (0%nat, 0)) as [n y]. simpl in H; subst n. reflexivity.
Qed.

Lemma inv_min n c : 0 <= c -> (0 <= n) -> / (Rmin n c + 1) = Rmax (/ (n + 1)) (1 / (1 + c)).
Proof.
  intros Hc Hn. unfold Rmin, Rmax. destruct (Rle_dec n c) as [H|H], (Rle_dec (/ (n + 1)) (1 / (1 + c))) as [H'|H'];
    auto.
  - apply Rle_antisym.
    + unfold Rdiv in *. lra.
    + unfold Rdiv. rewrite Rmult_1_l. apply Rinv_le_contravar; lra.
  - unfold Rdiv. rewrite Rmult_1_l. f_equal; lra.
  - exfalso. apply H'. unfold Rdiv. rewrite Rmult_1_l. apply Rinv_le_contravar; lra.
Qed.

Lemma linear_state cfg i os :
  0 <= com cfg -> adjust cfg = AdjLinear ->
  ignore_na cfg = true \/ complete_from_first (i :: os) ->
  let l := valid_obs (i :: os) in
  let p := rstate cfg i os in
  match fst p with
  | None => l = []
  | Some y => l <> [] /\ y = linear_recursion (al cfg) l /\ Rmin (snd p) (com cfg) = Rmin (INR (length l)) (com cfg)
  end.
Proof.
  intros Hc Ha. induction os as [|o os IH] using rev_ind; intros Hcm.
  - unfold rstate; cbn [fold_left fst snd]. destruct i as [v|]; [|reflexivity].
    cbn [valid_obs]. split; [discriminate|]. split; [|reflexivity].
    unfold linear_recursion; simpl. pose proof (al_pos cfg Hc).
    rewrite Rinv_1. rewrite Rmax_left by lra. lra.
  - cbv zeta in *. rewrite rstate_snoc. change (i :: os ++ [o]) with ((i :: os) ++ [o]) in *.
    rewrite valid_obs_snoc. set (l := valid_obs (i :: os)) in *.
    assert (Hc' : ignore_na cfg = true \/ complete_from_first (i :: os))
      by (destruct Hcm as [|Hcm]; auto; right; eapply complete_snoc; eauto).
    specialize (IH Hc'). destruct (rstate cfg i os) as [m w]. cbn [fst snd] in IH.
    unfold rstep, r_mean, r_wt, w_old, nwt. cbn [fst snd]. rewrite Ha. cbn [truthy].
    destruct o as [x|].
    + assert (Hne : l ++ [x] <> []) by (intros E; apply app_eq_nil in E; destruct E; discriminate).
      split; auto. rewrite linear_snoc, app_length. cbn [length]. rewrite Nat.add_1_r.
      destruct m as [y|].
      * destruct IH as (Hl & Hy & Hw). cbn [dfl]. rewrite Hw, S_INR. unfold al in *.
        pose proof (pos_INR (length l)) as Hp.
        rewrite <- (inv_min (INR (length l)) (com cfg) Hc Hp). rewrite <- Hy.
        assert (0 <= Rmin (INR (length l)) (com cfg)) by (apply Rmin_glb; lra).
        split; [field; lra|].
        unfold Rmin. destruct (Rle_dec (INR (length l)) (com cfg));
          repeat match goal with |- context [Rle_dec ?a ?b] => destruct (Rle_dec a b) end; lra.
      * rewrite IH. cbn [length dfl]. split.
        { unfold linear_recursion; simpl. pose proof (al_pos cfg Hc).
          rewrite Rinv_1. rewrite Rmax_left by lra. field. }
        simpl. f_equal. lra.
    + rewrite app_nil_r. destruct m as [y|]; auto. destruct IH as (Hl & Hy & Hw). repeat split; auto.
      destruct Hcm as [E|Hcm].
      * rewrite E. rewrite <- Hw. unfold Rmin.
        repeat match goal with |- context [Rle_dec ?a ?b] => destruct (Rle_dec a b) end; lra.
      * exfalso. apply Hl. apply complete_snoc_none; auto.
Qed.

Lemma ewma_linear fm cfg xs ys sF :
  0 <= com cfg -> adjust cfg = AdjLinear -> run (EWMA fm cfg) xs = Some (ys, sF) ->
  let os := map (observation fm) xs in
  let i := observation fm (initial_value cfg) in
  forall t, (t < length xs)%nat ->
  let seen := i :: firstn (t + 1) os in
  ignore_na cfg = true \/ complete_from_first seen ->
  nth_error ys t = Some
    (when_enough (min_periods cfg) (firstn (t + 1) os)
       match valid_obs seen with
       | [] => None | l => Some (linear_recursion (1 / (1 + com cfg)) l) end).
Proof.
  intros Hc Ha Hr os i t Hlt seen Hs. destruct (ewma_run fm cfg xs ys sF Hc Hr) as [Hl Ht].
  rewrite (Ht t Hlt). do 2 f_equal.
  pose proof (linear_state cfg i (firstn (t + 1) os) Hc Ha Hs) as H. cbv zeta in H.
  fold os. fold i. fold seen in H. destruct (fst (rstate cfg i _)) as [y|].
  - destruct H as (Hne & -> & _). fold (al cfg). destruct (valid_obs seen); [congruence|]. reflexivity.
  - rewrite H. reflexivity.
Qed.

Lemma linear_plain_mean a l :
  0 < a -> l <> [] -> INR (length l) <= 1 / a -> linear_recursion a l = rsum l / INR (length l).
Proof.
  intros Ha. induction l as [|x l IH] using rev_ind; [congruence|]. intros _.
  rewrite linear_snoc, app_length; cbn [length]. rewrite Nat.add_1_r. intros Hn.
  assert (Hp : 0 < INR (S (length l))) by (apply lt_0_INR; lia).
  rewrite Rmax_left.
  2:{ apply Rmult_le_reg_r with (INR (S (length l))); auto. rewrite Rinv_l by lra.
      apply Rmult_le_compat_l with (r := a) in Hn; [|lra].
      replace (a * (1 / a)) with 1 in Hn by (field; lra). lra. }
  assert (Er : rsum (l ++ [x]) = rsum l + x).
  { clear. unfold rsum. induction l as [|y l IH]; simpl; [lra|]. rewrite IH; lra. }
  rewrite Er. destruct l as [|y l].
  - simpl. unfold linear_recursion; simpl. field.
  - rewrite IH; [|discriminate|].
    + set (n := length (y :: l)) in *. rewrite S_INR in *.
      assert (0 < INR n) by (apply lt_0_INR; unfold n; simpl; lia). field. lra.
    + rewrite S_INR in Hn. lra.
Qed.

(** *** effective center of mass *)
Lemma zf_le1 w : 0 <= w -> zf w <= 1.
Proof.
  intros Hw. unfold zf. destruct (Req_b_spec w 0); [lra|]. apply Rmax_lub; [lra|].
  apply Rmult_le_reg_r with w; [lra|]. unfold Rdiv. rewrite Rmult_assoc, Rinv_l; lra.
Qed.

Definition wt_max (cfg : ewma_cfg) : R := if truthy (adjust cfg) then 1 + com cfg else 1.

Lemma w_old_le cfg b m w : 0 <= com cfg -> 0 <= w <= wt_max cfg ->
  w_old cfg b m w <= wt_max cfg /\ (b = true -> w_old cfg b m w <= com cfg * nwt cfg) /\
  (b = false -> m <> None -> w_old cfg b m w <= w).
Proof.
  intros Hc [Hw Hm]. pose proof (al_pos cfg Hc) as Ha. unfold w_old, wt_max, nwt in *.
  assert (Hal : al cfg * (1 + com cfg) = 1) by (unfold al; field; lra).
  pose proof (zf_nonneg w). pose proof (zf_le1 w Hw).
  assert (Hmin : 0 <= Rmin w (com cfg)) by (apply Rmin_glb; lra).
  pose proof (Rmin_l w (com cfg)). pose proof (Rmin_r w (com cfg)).
  destruct m; [|destruct (adjust cfg); cbn [truthy] in *; repeat split; intros; try congruence; nra].
  destruct (adjust cfg); cbn [truthy] in *; destruct b, (ignore_na cfg); repeat split;
    intros; try discriminate; try nra.
Qed.

Lemma rstate_wt_max cfg i os : 0 <= com cfg -> 0 <= snd (rstate cfg i os) <= wt_max cfg.
Proof.
  intros Hc. split; [apply rstate_nonneg; auto|].
  induction os as [|o os IH] using rev_ind.
  - unfold rstate, wt_max; simpl. destruct (truthy _); lra.
  - rewrite rstate_snoc. unfold rstep; cbn [snd]. pose proof (rstate_nonneg cfg i os Hc) as H0.
    destruct (rstate cfg i os) as [m w]. cbn [fst snd] in *. unfold r_wt.
    destruct o as [x|].
    + destruct (w_old_le cfg true m w Hc (conj H0 IH)) as (_ & H & _). specialize (H eq_refl).
      unfold wt_max, nwt in *. destruct (truthy _); lra.
    + apply w_old_le; auto.
Qed.

Lemma ewma_info fm cfg xs ys sF :
  0 <= com cfg -> run (EWMA_info fm cfg) xs = Some (ys, sF) ->
  let os := map (observation fm) xs in
  length ys = length xs /\
  exists mean : nat -> option R, mean 0%nat = observation fm (initial_value cfg) /\
  forall t y c n, nth_error ys t = Some (y, (c, n)) ->
    n = Z.of_nat (count_obs (firstn (t + 1) os)) /\
    y = when_enough (min_periods cfg) (firstn (t + 1) os) (mean (t + 1)%nat) /\
    (nth_error os t = Some None -> mean (t + 1)%nat = mean t) /\
    forall x, nth_error os t = Some (Some x) ->
      exists cr, c = Fin cr /\ 0 <= cr <= com cfg /\
      match mean t with
      | Some m => mean (t + 1)%nat = Some ((cr * m + x) / (cr + 1))
      | None => cr = 0 /\ mean (t + 1)%nat = Some x
      end.
Proof.
  intros Hc Hr os. destruct (ewma_info_run fm cfg xs ys sF Hc Hr) as [Hl Ht]. split; auto.
  fold os in Ht. set (i := observation fm (initial_value cfg)) in *.
  exists (fun t => fst (rstate cfg i (firstn t os))). split; [reflexivity|].
  intros t y c n Hy. assert (Hlt : (t < length xs)%nat) by (rewrite <- Hl; eapply nth_lt; eauto).
  destruct (nth_error xs t) as [x'|] eqn:Hx; [|apply nth_error_None in Hx; lia].
  rewrite (Ht t x' Hx) in Hy. apply some_pair_inj in Hy. destruct Hy as [<- Hy].
  injection Hy as <- <-. split; auto. split; auto.
  assert (Ho : nth_error os t = Some (observation fm x')) by (apply nth_error_map_obs; auto).
  rewrite Ho. rewrite Nat.add_1_r, (firstn_snoc _ _ _ Ho), rstate_snoc.
  set (p := rstate cfg i (firstn t os)) in *. split.
  { intros E. injection E as E. rewrite E. reflexivity. }
  intros x Ex. injection Ex as Ex. rewrite Ex in *. cbn [isobs].
  pose proof (rstate_wt_max cfg i (firstn t os) Hc) as Hwm. fold p in Hwm.
  pose proof (w_old_nonneg cfg true (fst p) (snd p) Hc (proj1 Hwm)) as Hw1.
  destruct (w_old_le cfg true (fst p) (snd p) Hc Hwm) as (_ & Hle & _). specialize (Hle eq_refl).
  pose proof (nwt_pos cfg Hc) as Hn.
  exists (w_old cfg true (fst p) (snd p) / nwt cfg). split; auto.
  assert (Hb : 0 <= w_old cfg true (fst p) (snd p) / nwt cfg <= com cfg).
  { split; apply Rmult_le_reg_r with (nwt cfg); auto; unfold Rdiv; rewrite ?Rmult_assoc, ?Rinv_l by lra; lra. }
  split; auto.
  assert (E1 : fst (rstep cfg p (Some x)) =
     Some ((w_old cfg true (fst p) (snd p) * dfl (fst p) + nwt cfg * x) / (w_old cfg true (fst p) (snd p) + nwt cfg)))
    by reflexivity.
  rewrite E1. clear E1. destruct (fst p) as [m|]; cbn [dfl].
  - apply f_equal. field. lra.
  - cbn [w_old]. split; [field; lra|apply f_equal; field; lra].
Qed.
