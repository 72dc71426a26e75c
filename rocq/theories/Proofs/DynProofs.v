From Coq Require Import List Arith Lia Reals Lra Bool.
From Verif Require Import Model.Unroll Model.Float Model.Modules Model.Ewm Model.Dynamics
  Spec.SeriesSpec Spec.DynSpec Spec.EwmSpec Proofs.FloatFacts Proofs.ListFacts Proofs.UnrollProofs
  Proofs.RunFacts Proofs.BufferProofs Proofs.EwmcovProofs.
Import ListNotations.

(** *** Order on floats *)
Lemma fle_refl v : v <> NaN -> fle v v = true.
Proof. destruct v; try congruence; intros _; cbn; auto. unfold fle; cbn. rewrite Req_b_refl, orb_true_r; auto. Qed.
Lemma flt_fle a b : flt a b = true -> fle a b = true.
Proof. unfold fle. intros ->; auto. Qed.
Lemma not_flt_fle a b : a <> NaN -> b <> NaN -> flt a b = false -> fle b a = true.
Proof.
  intros Ha Hb. unfold fle. destruct a as [| | |x], b as [| | |y]; cbn; try congruence; auto.
  intros H. destruct (Rlt_b_spec x y); try discriminate.
  destruct (Rlt_b_spec y x); auto. cbn. destruct (Req_b_spec y x); auto. exfalso; lra.
Qed.
Lemma fle_trans a b c : fle a b = true -> fle b c = true -> fle a c = true.
Proof.
  unfold fle. destruct a as [| | |x], b as [| | |y], c as [| | |z]; cbn; try congruence; auto.
  intros H1 H2. destruct (Rlt_b_spec x z); auto. cbn.
  destruct (Req_b_spec x z); auto. exfalso.
  apply orb_true_iff in H1. apply orb_true_iff in H2.
  destruct (Rlt_b_spec x y), (Req_b_spec x y), (Rlt_b_spec y z), (Req_b_spec y z); try lra;
    intuition congruence.
Qed.

(** *** OHLC *)
Lemma valid_app a b : valid_values (a ++ b) = valid_values a ++ valid_values b.
Proof. apply filter_app. Qed.

Lemma valid_not_nan l v : In v (valid_values l) -> v <> NaN.
Proof. unfold valid_values. intros H; apply filter_In in H. destruct H as [_ H]. destruct v; cbn in H; congruence. Qed.

Lemma bar_step bin o v : bar (valid_values bin) o ->
  bar (valid_values (bin ++ [v])) (snd (ohlc_step o (v, false))).
Proof.
  intros H. rewrite valid_app. unfold ohlc_step. cbn [snd].
  destruct (isnan v) eqn:Hv.
  - apply isnan_true in Hv; subst v. cbn [valid_values filter isnan negb]. rewrite app_nil_r.
    destruct (valid_values bin) as [|a vs] eqn:E.
    + cbn in H. subst o. reflexivity.
    + destruct H as (Ho & Hc & [Hh1 Hh2] & [Hl1 Hl2]).
      assert (NN : forall w, In w (a :: vs) -> w <> NaN) by (intros w Hw; rewrite <- E in Hw; eapply valid_not_nan; eauto).
      assert (o_open o <> NaN) by (cbn in Ho; injection Ho as <-; apply NN; left; auto).
      assert (Hcl : In (o_close o) (a :: vs)).
      { rewrite <- Hc. clear. revert a; induction vs as [|b vs IH]; intros a; cbn; auto.
        right. apply (IH b). }
      rewrite !(proj2 (isnan_false _)) by auto.
      assert (flt (o_high o) (o_close o) = false) as ->.
      { destruct (flt _ _) eqn:F; auto. specialize (Hh2 _ Hcl). exfalso.
        destruct (o_high o) as [| | |x], (o_close o) as [| | |y]; cbn in *; try congruence.
        unfold fle in Hh2; cbn in Hh2. apply orb_true_iff in Hh2.
        destruct (Rlt_b_spec x y), (Rlt_b_spec y x), (Req_b_spec y x); try lra; intuition congruence. }
      assert (flt (o_close o) (o_low o) = false) as ->.
      { destruct (flt _ _) eqn:F; auto. specialize (Hl2 _ Hcl). exfalso.
        destruct (o_low o) as [| | |x], (o_close o) as [| | |y]; cbn in *; try congruence.
        unfold fle in Hl2; cbn in Hl2. apply orb_true_iff in Hl2.
        destruct (Rlt_b_spec x y), (Rlt_b_spec y x), (Req_b_spec x y); try lra; intuition congruence. }
      cbn. repeat split; auto.
  - assert (valid_values [v] = [v]) as -> by (unfold valid_values; cbn; rewrite Hv; auto).
    cbn [negb]. pose proof (proj1 (isnan_false v) Hv) as NV.
    destruct (valid_values bin) as [|a vs] eqn:E.
    + cbn in H. subst o. cbn [o_open o_high o_low o_close ohlc_nan isnan app bar hd_error last].
      assert (flt v v = false) as F by (destruct v; cbn; auto; apply Rlt_b_false; lra). rewrite F.
      split; auto. split; auto. split; (split; [left; auto|]); intros w [<-|[]]; apply fle_refl; auto.
    + destruct H as (Ho & Hc & [Hh1 Hh2] & [Hl1 Hl2]).
      assert (NN : forall w, In w (a :: vs) -> w <> NaN) by (intros w Hw; rewrite <- E in Hw; eapply valid_not_nan; eauto).
      assert (o_open o <> NaN) by (cbn in Ho; injection Ho as <-; apply NN; left; auto).
      rewrite !(proj2 (isnan_false _)) by auto.
      change (bar ((a :: vs) ++ [v])) with (fun o' => hd_error ((a :: vs) ++ [v]) = Some (o_open o') /\
         last ((a :: vs) ++ [v]) NaN = o_close o' /\ greatest (o_high o') ((a :: vs) ++ [v]) /\
         least (o_low o') ((a :: vs) ++ [v])).
      cbv beta. cbn [o_open o_high o_low o_close]. split; [exact Ho|]. split; [apply last_last|].
      split.
      * destruct (flt (o_high o) v) eqn:F; split.
        -- apply in_or_app; right; left; auto.
        -- intros w Hw. apply in_app_or in Hw. destruct Hw as [Hw|[<-|[]]]; [|apply fle_refl; auto].
           eapply fle_trans; [apply Hh2; auto|apply flt_fle; auto].
        -- apply in_or_app; auto.
        -- intros w Hw. apply in_app_or in Hw. destruct Hw as [Hw|[<-|[]]]; [auto|].
           apply not_flt_fle; auto.
      * destruct (flt v (o_low o)) eqn:F; split.
        -- apply in_or_app; right; left; auto.
        -- intros w Hw. apply in_app_or in Hw. destruct Hw as [Hw|[<-|[]]]; [|apply fle_refl; auto].
           eapply fle_trans; [apply flt_fle; eauto|apply Hl2; auto].
        -- apply in_or_app; auto.
        -- intros w Hw. apply in_app_or in Hw. destruct Hw as [Hw|[<-|[]]]; [auto|].
           apply not_flt_fle; auto.
Qed.

(** values since the last reset, computed *)
Definition bin_of (pre : list (fl * bool)) : list fl :=
  fold_left (fun acc (p : fl * bool) => if snd p then [fst p] else acc ++ [fst p]) pre [].

Lemma bin_of_snoc pre v (r : bool) : bin_of (pre ++ [(v, r)]) = if r then [v] else bin_of pre ++ [v].
Proof. unfold bin_of. rewrite fold_left_app. reflexivity. Qed.

Lemma bin_of_no_reset pre after : Forall (fun p : fl * bool => snd p = false) after ->
  bin_of (pre ++ after) = bin_of pre ++ map fst after.
Proof.
  induction after as [|[v r] after IH] using rev_ind; intros H.
  - rewrite !app_nil_r; auto.
  - apply Forall_app in H. destruct H as [H1 H2]. inversion H2; subst. cbn in *. subst r.
    rewrite app_assoc, bin_of_snoc, IH, map_app, app_assoc by auto. auto.
Qed.

Lemma is_bin_bin_of pre bin : is_bin pre bin -> bin = bin_of pre.
Proof.
  intros [(b & v & a & -> & H & ->)|[H ->]].
  - change (b ++ (v, true) :: a) with (b ++ [(v, true)] ++ a). rewrite app_assoc, bin_of_no_reset, bin_of_snoc by auto.
    reflexivity.
  - rewrite <- (app_nil_l pre) at 2. rewrite bin_of_no_reset by auto. reflexivity.
Qed.

Lemma ohlc_run (xs : list (fl * bool)) ys sF : run OHLC xs = Some (ys, sF) ->
  length ys = length xs /\
  forall t bin, t < length xs -> is_bin (firstn (t + 1) xs) bin ->
  exists o, nth_error ys t = Some o /\ bar (valid_values bin) o.
Proof.
  intros Hr. destruct (run_nonempty _ _ _ _ Hr) as (x0 & r & ->).
  destruct (run_inv (fun _ => ohlc_nan) ohlc_step (fun pre o => bar (valid_values (bin_of pre)) o) x0 r ys sF) with (3 := Hr)
    as (Hl & _ & Hn).
  - reflexivity.
  - intros pre s [v rs] H. rewrite bin_of_snoc. destruct rs.
    + change (snd (ohlc_step s (v, true))) with (snd (ohlc_step ohlc_nan (v, false))).
      change [v] with ([] ++ [v]). apply bar_step. reflexivity.
    + apply bar_step; auto.
  - split; auto. intros t bin Ht Hb. apply is_bin_bin_of in Hb. subst bin.
    destruct (nth_error_lt (x0 :: r) t Ht) as [x Hx].
    destruct (Hn t x Hx) as (s & _ & H2 & H3). eexists; split; [exact H3|].
    replace (fst (ohlc_step s x)) with (snd (ohlc_step s x)) by (destruct x; reflexivity). exact H2.
Qed.

Lemma bar_order vs o : bar vs o -> vs <> [] -> Forall (fun v => v <> NaN) vs ->
  fle (o_low o) (o_open o) = true /\ fle (o_open o) (o_high o) = true /\
  fle (o_low o) (o_close o) = true /\ fle (o_close o) (o_high o) = true.
Proof.
  destruct vs as [|a vs]; [congruence|]. intros (Ho & Hc & [H1 H2] & [H3 H4]) _ _.
  assert (In (o_open o) (a :: vs)) by (cbn in Ho; injection Ho as <-; left; auto).
  assert (In (o_close o) (a :: vs)).
  { rewrite <- Hc. clear. revert a; induction vs as [|b vs IH]; intros a; cbn; auto. right. apply (IH b). }
  auto.
Qed.

Lemma ohlc_total x0 r : exists ys sF, run OHLC (x0 :: r) = Some (ys, sF).
Proof. apply run_total. Qed.

(** A reset forgets the past. *)
Lemma ohlc_reset pre v post ys sF ys' sF' :
  run OHLC (pre ++ (v, true) :: post) = Some (ys, sF) ->
  run OHLC ((v, true) :: post) = Some (ys', sF') ->
  skipn (length pre) ys = ys' /\ sF = sF'.
Proof.
  intros H H'.
  assert (G : forall s s' l, lax_scan (stepf ohlc_step) s ((v, true) :: l) = lax_scan (stepf ohlc_step) s' ((v, true) :: l))
    by (intros; reflexivity).
  destruct pre as [|p0 pre].
  - cbn [app length skipn] in *. rewrite H in H'. apply some_pair_inj in H'. auto.
  - cbn [app] in H. unfold OHLC in H, H'. rewrite run_eq in H. rewrite run_eq in H'.
    apply some_pair_inj in H. apply some_pair_inj in H'. destruct H as [<- <-], H' as [<- <-].
    rewrite app_comm_cons. set (P0 := p0 :: pre).
    assert (A : forall l s, lax_scan (stepf ohlc_step) s (l ++ (v, true) :: post) =
      (fst (lax_scan (stepf ohlc_step) ohlc_nan ((v, true) :: post)),
       snd (lax_scan (stepf ohlc_step) s l) ++ snd (lax_scan (stepf ohlc_step) ohlc_nan ((v, true) :: post)))).
    { induction l as [|x l IH]; intros s.
      - cbn [app]. rewrite (G s ohlc_nan). change (snd (lax_scan (stepf ohlc_step) s [])) with (@nil ohlc). rewrite app_nil_l.
        apply surjective_pairing.
      - cbn [app lax_scan]. destruct (stepf ohlc_step s x) as [s1 y]. rewrite IH.
        destruct (lax_scan (stepf ohlc_step) s1 l). reflexivity. }
    rewrite A. cbn [fst snd]. split; auto.
    rewrite skipn_app.
    rewrite <- (lax_scan_length (stepf ohlc_step) ohlc_nan P0) at 1. rewrite skipn_all.
    rewrite (lax_scan_length (stepf ohlc_step) ohlc_nan P0), Nat.sub_diag. reflexivity.
Qed.
