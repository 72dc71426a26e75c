(** Proofs for C131 (sums of differences), C132 (invariances), C133 (degenerate parameters), C134 (merged bars). *)
From Coq Require Import List Arith ZArith Lia Reals Lra Bool.
From Verif Require Import Model.Unroll Model.Float Model.Modules Model.Ewm Model.Dynamics Spec.SeriesSpec Spec.EwmSpec Spec.DynSpec
  Spec.AlgebraSpec Proofs.FloatFacts Proofs.RunFacts Proofs.SmallProofs Proofs.SmallExtra Proofs.DynProofs Proofs.AlgebraProofs.
From Verif Require Import Proofs.AnalysisProofs3.
Import ListNotations.
Local Open Scope R_scope.

(** *** C131 *)
Lemma rsum_app a b : rsum (a ++ b) = rsum a + rsum b.
Proof.
  unfold rsum in *. induction a as [|x a IH]; cbn [app fold_right]; [lra|]. rewrite IH. lra.
Qed.
Lemma observed_some l : observed (map Some l) = l.
Proof. induction l; cbn; congruence. Qed.

Lemma rolling_diff h r0 rs d ds sD ys sF t : (0 < h)%nat ->
  Diff 1 = Some d -> run d (map Fin (r0 :: rs)) = Some (ds, sD) ->
  run (RollingMean h 1) ds = Some (ys, sF) -> (h <= t)%nat -> (t <= length rs)%nat ->
  nth_error ys t = Some (Fin ((nth t (r0 :: rs) 0 - nth (t - h) (r0 :: rs) 0) / INR h)).
Proof.
  intros Hh Hd E E' H1 H2.
  destruct (diff_telescopes d r0 rs ds sD Hd E) as (l & -> & HL & Hsum).
  assert (Q : NaN :: map Fin l = map of_option (None :: map Some l)).
  { cbn [map of_option]. f_equal. rewrite map_map. reflexivity. }
  rewrite Q in E'. destruct (rolling_avg _ _ _ _ _ Hh E') as (_ & H).
  rewrite H by (cbn [length]; rewrite map_length; lia). f_equal.
  assert (W : observed (window h t (None :: map Some l)) = skipn (t - h) (firstn t l)).
  { unfold window. replace (t + 1)%nat with (S t) by lia. cbn [firstn].
    replace (S t - h)%nat with (S (t - h)) by lia. cbn [skipn]. rewrite firstn_map, skipn_map. apply observed_some. }
  assert (LW : length (skipn (t - h) (firstn t l)) = h) by (rewrite skipn_length, firstn_length; lia).
  rewrite W. unfold avg. rewrite LW.
  destruct (Z.leb_spec 1 (Z.of_nat h)); [|lia]. cbn [andb]. f_equal. f_equal.
  rewrite (Hsum t ltac:(lia)), (Hsum (t - h)%nat ltac:(lia)).
  assert (S1 : rsum (firstn t l) = rsum (firstn (t - h) l) + rsum (skipn (t - h) (firstn t l))).
  { rewrite <- (firstn_skipn (t - h) (firstn t l)) at 1. rewrite rsum_app, firstn_firstn.
    replace (Nat.min (t - h) t) with (t - h)%nat by lia. reflexivity. }
  rewrite S1. lra.
Qed.

(** *** C132 *)
Lemma fsub_affine a b (o p : option R) :
  fsub (of_option (affine a b o)) (of_option (affine a b p)) = affine_fl a 0 (fsub (of_option o) (of_option p)).
Proof. destruct o as [x|], p as [y|]; cbn; try reflexivity. f_equal. lra. Qed.

Lemma diff_affine d a b os ys sF ys' sF' : Diff 1 = Some d ->
  run d (map of_option os) = Some (ys, sF) -> run d (map of_option (map (affine a b) os)) = Some (ys', sF') ->
  ys' = map (affine_fl a 0) ys.
Proof.
  intros Hd. destruct os as [|o0 os]; [discriminate|]. cbn [map]. intros E E'.
  destruct (diff_run _ _ _ _ _ Hd E) as (L & H0 & H). destruct (diff_run _ _ _ _ _ Hd E') as (L' & H0' & H').
  cbn [length] in L, L'. rewrite ?map_length in L. rewrite ?map_length in L'.
  apply nth_ext_eq; [rewrite map_length; lia|]. intros t Ht. rewrite L' in Ht.
  destruct t as [|t].
  - rewrite H0', (map_nth_error (affine_fl a 0) 0 ys H0). reflexivity.
  - destruct (nth_error (o0 :: os) t) as [p|] eqn:Ep; [|apply nth_error_None in Ep; cbn in Ep; lia].
    destruct (nth_error (o0 :: os) (t + 1)) as [q|] eqn:Eq; [|apply nth_error_None in Eq; cbn in Eq; lia].
    replace (S t) with (t + 1)%nat by lia.
    assert (A : nth_error ys (t + 1) = Some (fsub (of_option q) (of_option p))).
    { apply H; [exact (map_nth_error of_option t (o0 :: os) Ep)|exact (map_nth_error of_option (t + 1) (o0 :: os) Eq)]. }
    rewrite (map_nth_error (affine_fl a 0) _ ys A), <- fsub_affine with (b := b).
    apply H'.
    + exact (map_nth_error of_option t _ (map_nth_error (affine a b) t (o0 :: os) Ep)).
    + exact (map_nth_error of_option (t + 1) _ (map_nth_error (affine a b) (t + 1) (o0 :: os) Eq)).
Qed.

Lemma last_valid_exists pre : exists v, last_valid_is pre v.
Proof.
  induction pre as [|x pre (v & IH)] using rev_ind; [exists NaN; left; split; [reflexivity|constructor]|].
  destruct (isnan x) eqn:E.
  - apply isnan_true in E. subst x. exists v. destruct IH as [[-> H]|[Hv (b & a & -> & H)]].
    + left. split; [reflexivity|]. apply Forall_app. split; [exact H|repeat constructor].
    + right. split; [exact Hv|]. exists b, (a ++ [NaN]). rewrite <- app_assoc. split; [reflexivity|].
      apply Forall_app. split; [exact H|repeat constructor].
  - exists x. right. split; [intros ->; discriminate|]. exists pre, []. split; [reflexivity|constructor].
Qed.
Lemma scaled_of c o : of_option (affine c 0 o) = affine_fl c 0 (of_option o).
Proof. destruct o; reflexivity. Qed.
Lemma last_valid_scaled c pre v : last_valid_is pre v -> last_valid_is (map (affine_fl c 0) pre) (affine_fl c 0 v).
Proof.
  assert (N : forall l, Forall (fun x => x = NaN) l -> Forall (fun x => x = NaN) (map (affine_fl c 0) l)).
  { intros l. induction 1 as [|x l -> _ IH]; constructor; [reflexivity|exact IH]. }
  intros [[-> H]|[Hv (b & a & -> & H)]].
  - left. split; [reflexivity|]. apply N, H.
  - right. split; [destruct v; cbn; congruence|]. exists (map (affine_fl c 0) b), (map (affine_fl c 0) a).
    split; [rewrite map_app; reflexivity|apply N, H].
Qed.
Lemma fdiv_scaled c x p : 0 < c -> x <> PInf -> x <> NInf -> p <> PInf -> p <> NInf ->
  fdiv (affine_fl c 0 x) (affine_fl c 0 p) = fdiv x p.
Proof.
  intros Hc. destruct x as [| | |x], p as [| | |p]; try congruence; intros _ _ _ _; cbn; try reflexivity.
  destruct (Req_b_spec p 0) as [->|Hp].
  - destruct (Req_b_spec (c * 0 + 0) 0); [|lra]. unfold signed_inf.
    destruct (Req_b_spec x 0) as [->|Hx]; [destruct (Req_b_spec (c * 0 + 0) 0); [reflexivity|lra]|].
    destruct (Req_b_spec (c * x + 0) 0) as [Q|_].
    { exfalso. apply Hx. apply Rmult_eq_reg_l with c; lra. }
    destruct (Rlt_b_spec 0 x) as [P|P], (Rlt_b_spec 0 (c * x + 0)) as [P'|P']; try reflexivity; exfalso.
    + apply P'. rewrite Rplus_0_r. apply Rmult_lt_0_compat; lra.
    + assert (c * x <= 0); [|lra]. replace 0 with (c * 0) by lra. apply Rmult_le_compat_l; lra.
  - destruct (Req_b_spec (c * p + 0) 0) as [Q|_].
    { exfalso. apply Hp. apply Rmult_eq_reg_l with c; lra. }
    f_equal. rewrite !Rplus_0_r. field. split; lra.
Qed.

Lemma not_inf_opt o : of_option o <> PInf /\ of_option o <> NInf.
Proof. destruct o; split; discriminate. Qed.
Lemma pct_scaled m meth fz c os ys sF ys' sF' : 0 < c -> PctChange 1 meth fz = Some m ->
  run m (map of_option os) = Some (ys, sF) -> run m (map of_option (map (affine c 0) os)) = Some (ys', sF') ->
  ys' = ys.
Proof.
  intros Hc Hm. destruct os as [|o0 os]; [discriminate|]. cbn [map]. intros E E'.
  destruct (pct_change_run _ _ _ _ _ _ _ Hm E) as (L & H). destruct (pct_change_run _ _ _ _ _ _ _ Hm E') as (L' & H').
  cbn [length] in L, L'. rewrite ?map_length in L. rewrite ?map_length in L'.
  change (of_option o0 :: map of_option os) with (map of_option (o0 :: os)) in H.
  change (of_option (affine c 0 o0) :: map of_option (map (affine c 0) os)) with (map of_option (map (affine c 0) (o0 :: os))) in H'.
  assert (M : map of_option (map (affine c 0) (o0 :: os)) = map (affine_fl c 0) (map of_option (o0 :: os))).
  { rewrite !map_map. apply map_ext. apply scaled_of. }
  rewrite M in H'.
  apply nth_ext_eq; [lia|]. intros t Ht. rewrite L' in Ht.
  destruct (nth_error (o0 :: os) t) as [o|] eqn:Eo; [|apply nth_error_None in Eo; cbn in Eo; lia].
  pose proof (map_nth_error of_option t _ Eo) as Ex. pose proof (map_nth_error (affine_fl c 0) t _ Ex) as Ex'.
  destruct (last_valid_exists (firstn t (map of_option (o0 :: os)))) as (p & Hp).
  rewrite (H t _ p Ex Hp). rewrite (H' t _ (affine_fl c 0 p) Ex').
  2:{ rewrite firstn_map. apply last_valid_scaled, Hp. }
  f_equal.
  assert (Pi : p <> PInf /\ p <> NInf).
  { destruct Hp as [[-> _]|[_ (b & a & Q & _)]]; [split; discriminate|].
    assert (In p (map of_option (o0 :: os))).
    { rewrite <- (firstn_skipn t (map of_option (o0 :: os))), Q. apply in_or_app. left. apply in_or_app. right. left. reflexivity. }
    apply in_map_iff in H0 as (q & <- & _). apply not_inf_opt. }
  destruct Pi as [P1 P2]. destruct (not_inf_opt o) as [O1 O2].
  assert (N : forall v, isnan (affine_fl c 0 v) = isnan v) by (intros []; reflexivity).
  rewrite !N, fdiv_scaled by assumption. reflexivity.
Qed.

(** *** C134 *)
Lemma fle_antisym a b : fle a b = true -> fle b a = true -> a = b.
Proof.
  unfold fle. destruct a as [| | |x], b as [| | |y]; cbn; try congruence; auto.
  intros H1 H2. apply orb_true_iff in H1. apply orb_true_iff in H2. f_equal.
  destruct (Rlt_b_spec x y), (Req_b_spec x y), (Rlt_b_spec y x), (Req_b_spec y x); try lra; intuition congruence.
Qed.
Lemma bar_unique vs o o' : bar vs o -> bar vs o' -> o = o'.
Proof.
  unfold bar. destruct vs as [|a vs]; [congruence|].
  intros (A & B & [C C'] & [D D']) (A' & B' & [E E'] & [F F']).
  destruct o as [op hi lo cl], o' as [op' hi' lo' cl']. cbn [o_open o_high o_low o_close] in *.
  rewrite A in A'. injection A' as ->. rewrite <- B, <- B'.
  f_equal; [apply fle_antisym; auto|apply fle_antisym; auto].
Qed.
Lemma larger_greatest a b vs ws : a <> NaN -> b <> NaN -> greatest a vs -> greatest b ws -> greatest (larger a b) (vs ++ ws).
Proof.
  intros Ha Hb [A A'] [B B']. unfold larger. rewrite !(proj2 (isnan_false _)) by assumption.
  split.
  - apply in_or_app. destruct (flt a b); tauto.
  - intros v Hv. apply in_app_or in Hv. destruct (flt a b) eqn:F.
    + destruct Hv as [Hv|Hv]; [|auto]. apply fle_trans with a; [auto|apply flt_fle, F].
    + destruct Hv as [Hv|Hv]; [auto|]. apply fle_trans with b; [auto|apply not_flt_fle; assumption].
Qed.
Lemma smaller_least a b vs ws : a <> NaN -> b <> NaN -> least a vs -> least b ws -> least (smaller a b) (vs ++ ws).
Proof.
  intros Ha Hb [A A'] [B B']. unfold smaller. rewrite !(proj2 (isnan_false _)) by assumption.
  split.
  - apply in_or_app. destruct (flt b a); tauto.
  - intros v Hv. apply in_app_or in Hv. destruct (flt b a) eqn:F.
    + destruct Hv as [Hv|Hv]; [|auto]. apply fle_trans with a; [apply flt_fle, F|auto].
    + destruct Hv as [Hv|Hv]; [auto|]. apply fle_trans with b; [apply not_flt_fle; assumption|auto].
Qed.
Lemma last_in (a : fl) vs d : In (last (a :: vs) d) (a :: vs).
Proof. revert a. induction vs as [|b vs IH]; intros a; [left; reflexivity|]. right. exact (IH b). Qed.
Lemma last_app_ne (l : list fl) a vs d : last (l ++ a :: vs) d = last (a :: vs) d.
Proof.
  induction l as [|x l IH]; [reflexivity|]. cbn [app]. rewrite <- IH. destruct (l ++ a :: vs) eqn:E; [destruct l; discriminate|reflexivity].
Qed.
Lemma bar_merge vs ws o1 o2 : Forall (fun v => v <> NaN) vs -> Forall (fun v => v <> NaN) ws ->
  bar vs o1 -> bar ws o2 -> bar (vs ++ ws) (merged o1 o2).
Proof.
  intros Nv Nw. destruct vs as [|a vs].
  - cbn [app]. intros -> H. unfold merged, ohlc_nan. cbn [o_open o_high o_low o_close isnan larger smaller].
    destruct ws as [|b ws].
    + cbn in H. subst o2. reflexivity.
    + destruct H as (A & B & C & D). destruct o2 as [op hi lo cl]. cbn [o_open o_high o_low o_close] in *.
      rewrite Forall_forall in Nw.
      assert (cl <> NaN) by (rewrite <- B; apply Nw, last_in).
      rewrite (proj2 (isnan_false cl)) by assumption. repeat split; try assumption; try apply C; apply D.
  - destruct ws as [|b ws].
    + intros H ->. rewrite app_nil_r. destruct H as (A & B & C & D). destruct o1 as [op hi lo cl].
      unfold merged, ohlc_nan. cbn [o_open o_high o_low o_close isnan] in *. rewrite Forall_forall in Nv.
      assert (op <> NaN) by (cbn in A; injection A as <-; apply Nv; left; reflexivity).
      assert (hi <> NaN) by (apply Nv, C). assert (lo <> NaN) by (apply Nv, D).
      unfold larger, smaller. cbn [isnan]. rewrite (proj2 (isnan_false op)), (proj2 (isnan_false hi)), (proj2 (isnan_false lo)) by assumption.
      split; [exact A|]. split; [exact B|]. split; assumption.
    + intros (A & B & C & D) (A' & B' & C' & D'). rewrite Forall_forall in Nv, Nw.
      assert (o_open o1 <> NaN) by (cbn in A; injection A as <-; apply Nv; left; reflexivity).
      assert (o_close o2 <> NaN) by (rewrite <- B'; apply Nw, last_in).
      unfold merged. rewrite !(proj2 (isnan_false _)) by assumption.
      cbn [app]. unfold bar. cbn [o_open o_high o_low o_close].
      split; [exact A|]. split; [rewrite <- B'; exact (last_app_ne (a :: vs) b ws NaN)|].
      split.
      * apply (larger_greatest _ _ (a :: vs) (b :: ws)); [apply Nv, C|apply Nw, C'|exact C|exact C'].
      * apply (smaller_least _ _ (a :: vs) (b :: ws)); [apply Nv, D|apply Nw, D'|exact D|exact D'].
Qed.

Lemma valid_forall l : Forall (fun v => v <> NaN) (valid_values l).
Proof. apply Forall_forall. intros v H. exact (valid_not_nan l v H). Qed.
Lemma ohlc_merge pre v1 b1 v2 b2 ys sF ys' sF' :
  Forall (fun p => snd p = false) b1 -> Forall (fun p => snd p = false) b2 ->
  run OHLC (pre ++ (v1, true) :: b1 ++ (v2, true) :: b2) = Some (ys, sF) ->
  run OHLC (pre ++ (v1, true) :: b1 ++ (v2, false) :: b2) = Some (ys', sF') ->
  exists o1 o2, nth_error ys (length pre + length b1) = Some o1 /\ last ys ohlc_nan = o2 /\
    last ys' ohlc_nan = merged o1 o2.
Proof.
  intros F1 F2 E E'. destruct (ohlc_run _ _ _ E) as (L & H). destruct (ohlc_run _ _ _ E') as (L' & H').
  set (n := (length pre + length b1)%nat). set (m := (n + 1 + length b2)%nat).
  assert (Len : forall b, length (pre ++ (v1, true) :: b1 ++ (v2, b) :: b2) = (m + 1)%nat).
  { intros b. rewrite app_length. cbn [length]. rewrite app_length. cbn [length]. unfold m, n. lia. }
  rewrite Len in L, L', H, H'.
  assert (Fs : forall b, firstn (n + 1) (pre ++ (v1, true) :: b1 ++ (v2, b) :: b2) = pre ++ (v1, true) :: b1).
  { intros b. rewrite app_comm_cons, app_assoc. rewrite firstn_app.
    assert (Q : length (pre ++ (v1, true) :: b1) = (n + 1)%nat) by (rewrite app_length; cbn [length]; unfold n; lia).
    rewrite Q, Nat.sub_diag. cbn [firstn]. rewrite app_nil_r, <- Q. apply firstn_all. }
  assert (Fm : forall b, firstn (m + 1) (pre ++ (v1, true) :: b1 ++ (v2, b) :: b2) = pre ++ (v1, true) :: b1 ++ (v2, b) :: b2).
  { intros b. rewrite <- (Len b). apply firstn_all. }
  destruct (H n (v1 :: map fst b1)) as (o1 & A1 & B1); [unfold m; lia| |].
  { rewrite Fs. left. exists pre, v1, b1. auto. }
  destruct (H m (v2 :: map fst b2)) as (o2 & A2 & B2); [lia| |].
  { rewrite Fm. left. exists (pre ++ (v1, true) :: b1), v2, b2. rewrite <- app_assoc. auto. }
  destruct (H' m (v1 :: map fst (b1 ++ (v2, false) :: b2))) as (o3 & A3 & B3); [lia| |].
  { rewrite Fm. left. exists pre, v1, (b1 ++ (v2, false) :: b2). split; [reflexivity|]. split; [|reflexivity].
    apply Forall_app. split; [exact F1|]. constructor; [reflexivity|exact F2]. }
  assert (LA : forall l o, length l = (m + 1)%nat -> nth_error l m = Some o -> last l ohlc_nan = o).
  { intros l o Ll Hl. destruct (exists_last (l := l)) as (l0 & z & ->); [destruct l; [cbn in Ll; lia|discriminate]|].
    rewrite app_length in Ll. cbn in Ll. rewrite last_last. rewrite nth_error_app2 in Hl by lia.
    replace (m - length l0)%nat with 0%nat in Hl by lia. cbn in Hl. congruence. }
  exists o1, o2. split; [exact A1|]. split; [exact (LA _ _ L A2)|]. rewrite (LA _ _ L' A3).
  apply (bar_unique _ _ _ B3).
  replace (v1 :: map fst (b1 ++ (v2, false) :: b2)) with ((v1 :: map fst b1) ++ v2 :: map fst b2) by (cbn; rewrite map_app; reflexivity).
  rewrite valid_app. apply bar_merge; try assumption; apply valid_forall.
Qed.
