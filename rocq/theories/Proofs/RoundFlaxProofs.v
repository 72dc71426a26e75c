(** The rounded flax modules give the outputs of the rounded haiku modules. *)
From Coq Require Import List ZArith Reals Lra Lia.
From Verif Require Import Model.Unroll Model.Float Model.Modules Model.Ewm Model.Rounded Model.FlaxModules Model.RoundedFlax
  Spec.SeriesSpec Spec.FlaxSpec Spec.RoundSpec Spec.RoundFlaxSpec Proofs.RunFacts Proofs.FlaxProofs.
Import ListNotations.
Local Open Scope R_scope.

Section S.
  Variable rnd : fl -> fl.

  Lemma fdiff_same_r xs : xs <> [] -> same_outputs (FDiff_r rnd) (Diff_r rnd) xs.
  Proof using.
    intros Hne. destruct xs as [|x0 xs]; [congruence|].
    apply (simulation _ _ _ (ring_rel 2) (safe_call 2)).
    - apply (ring_rel_init 2); lia.
    - intros n s1 s2 x Hn HR. cbn [fx_call FDiff_r]. unfold fdiff_call_r, diff_step_r.
      destruct (ring_call_sim 2 n s1 s2 x ltac:(lia) Hn HR) as [E R'].
      destruct (ring_call _ _ _), (buffer_apply _ _ _). cbn [fst snd] in *. subst. auto.
    - intros n _. right. exists (2 ^ 31)%Z. reflexivity.
  Qed.

  Lemma fpct_same_r z xs : xs <> [] -> same_outputs (FPctChange_r rnd z) (PctChange_r rnd z) xs.
  Proof using.
    intros Hne. destruct xs as [|x0 xs]; [congruence|].
    apply (simulation _ _ _ (fun n (a : fpct_state) (b : pct_state) =>
      fpct_ffill a = pct_ffill b /\ ring_rel 2 n (fpct_lag a) (pct_lag b)) (safe_call 2)).
    - split; [reflexivity|]. apply (ring_rel_init 2); lia.
    - intros n s1 s2 x Hn [HF HR]. cbn [fx_call FPctChange_r]. unfold fpct_call_r, pct_change_step_r.
      rewrite HF. change (fffill_call (pct_ffill s2) x) with (ffill_step (pct_ffill s2) x).
      destruct (ffill_step (pct_ffill s2) x) as [v ff].
      destruct (ring_call_sim 2 n (fpct_lag s1) (pct_lag s2) v ltac:(lia) Hn HR) as [E R'].
      destruct (ring_call _ _ _), (buffer_apply _ _ _). cbn [fst snd] in *. subst. auto.
    - intros n _. right. exists (2 ^ 31)%Z. reflexivity.
  Qed.

  Lemma frolling_same_r horizon mp xs : (0 < horizon)%nat -> xs <> [] -> index_safe horizon xs ->
    same_outputs (FRollingMean_r rnd horizon mp) (RollingMean_r rnd horizon mp) xs.
  Proof using.
    intros Hm Hne Hs. destruct xs as [|x0 xs]; [congruence|].
    apply (simulation _ _ _ (ring_rel horizon) (safe_call horizon)).
    - apply ring_rel_init; auto.
    - intros n s1 s2 x Hn HR. cbn [fx_call FRollingMean_r]. unfold frolling_call_r, rolling_mean_step_r, rolling_mean_of_r.
      destruct (ring_call_sim horizon n s1 s2 x ltac:(lia) Hn HR) as [E R'].
      destruct (ring_call _ _ _), (buffer_apply _ _ _). cbn [fst snd] in *. subst. auto.
    - intros n Hn. eapply index_safe_call; eauto.
  Qed.

  Lemma fewmvar_same_r pw com_ adj xs : xs <> [] ->
    same_outputs (FEWMVar_r rnd pw com_ adj) (EWMVar_r rnd pw com_ adj) xs.
  Proof using.
    intros Hne. destruct xs as [|x0 xs]; [congruence|].
    apply (simulation _ _ _ (fun _ a b => a = b) (fun _ => True)); auto.
    intros n s1 s2 x _ ->. split; reflexivity.
  Qed.

  (** EWMA *)
  Lemma fewma_call_r_obs fm cfg st x : isnan x = false -> fewma_call_r rnd fm cfg st x = ewma_step_r rnd fm cfg st x.
  Proof using. intros H. unfold fewma_call_r, ewma_step_r. rewrite H. reflexivity. Qed.
  Lemma fewma_call_r_fin fm cfg st x : not_inf (ew_mean st) -> fewma_call_r rnd fm cfg st x = ewma_step_r rnd fm cfg st x.
  Proof using.
    intros H. unfold fewma_call_r, ewma_step_r. destruct (ew_mean st) eqn:E; try contradiction; destruct x; reflexivity.
  Qed.
  Lemma fewma_call_r_eq fm cfg st x : (x = NaN -> not_inf (ew_mean st)) ->
    fewma_call_r rnd fm cfg st x = ewma_step_r rnd fm cfg st x.
  Proof using.
    intros H. destruct x; try (apply fewma_call_r_obs; reflexivity). apply fewma_call_r_fin; auto.
  Qed.

  Lemma plain_step fm cfg st x :
    snd (ewma_step_r rnd fm (no_minimum cfg) st x) = snd (ewma_step_r rnd fm cfg st x) /\
    fst (fst (ewma_step_r rnd fm (no_minimum cfg) st x)) = ew_mean (snd (ewma_step_r rnd fm cfg st x)).
  Proof using. unfold ewma_step_r, no_minimum; cbn [com adjust ignore_na min_periods]. destruct (adjust cfg); split; reflexivity. Qed.

  Fixpoint ok (fm : R) (cfg : ewma_cfg) (st : ewma_state) (xs : list fl) : Prop :=
    match xs with
    | [] => True
    | x :: r => (x = NaN -> not_inf (ew_mean st)) /\ ok fm cfg (snd (ewma_step_r rnd fm cfg st x)) r
    end.

  Lemma ok_calls fm cfg xs : forall st, ok fm cfg st xs ->
    fst (flax_calls (FEWMA_r rnd fm cfg) st xs) = snd (lax_scan (stepf (ewma_step_r rnd fm cfg)) st xs).
  Proof using.
    induction xs as [|x xs IH]; intros st; cbn [ok flax_calls lax_scan]; [reflexivity|]. intros [H O].
    change (fx_call (FEWMA_r rnd fm cfg) st x) with (fewma_call_r rnd fm cfg st x).
    rewrite (fewma_call_r_eq fm cfg st x H). unfold stepf at 1.
    destruct (ewma_step_r rnd fm cfg st x) as [y s1]. cbn [fst snd] in *. specialize (IH s1 O).
    destruct (flax_calls _ s1 xs), (lax_scan _ s1 xs). cbn [fst snd] in *. f_equal. exact IH.
  Qed.

  Lemma calls_ok fm cfg xs : min_periods cfg = 0%Z -> forall st,
    fst (flax_calls (FEWMA_r rnd fm cfg) st xs) = snd (lax_scan (stepf (ewma_step_r rnd fm cfg)) st xs) ->
    ok fm cfg st xs.
  Proof using.
    intros Hp. induction xs as [|x xs IH]; intros st; cbn [ok flax_calls lax_scan]; [trivial|].
    change (fx_call (FEWMA_r rnd fm cfg) st x) with (fewma_call_r rnd fm cfg st x).
    unfold stepf at 1. intros E.
    assert (H : x = NaN -> not_inf (ew_mean st)).
    { intros ->. destruct (ew_mean st) eqn:M; try exact I; exfalso; revert E;
        unfold fewma_call_r, ewma_step_r; rewrite M, Hp; destruct (adjust cfg); cbn;
        repeat match goal with |- context [let '(_, _) := ?t in _] => destruct t; cbn [fst snd] end; discriminate. }
    split; [exact H|]. revert E. rewrite (fewma_call_r_eq fm cfg st x H).
    destruct (ewma_step_r rnd fm cfg st x) as [y s1]. cbn [fst snd] in *. intros E. apply IH.
    destruct (flax_calls _ s1 xs), (lax_scan _ s1 xs). cbn [fst snd] in *. congruence.
  Qed.

  Lemma ok_iff fm cfg xs : forall st ms sF,
    lax_scan (stepf (fun s x => let '((r, _), s') := ewma_step_r rnd fm (no_minimum cfg) s x in (r, s'))) st xs = (sF, ms) ->
    ok fm cfg st xs <-> (forall t, nth_error xs t = Some NaN -> not_inf (nth t (ew_mean st :: ms) NaN)).
  Proof using.
    induction xs as [|x xs IH]; intros st ms sF; cbn [ok lax_scan].
    - intros _. split; [intros _ [|t]; discriminate|trivial].
    - unfold stepf at 1. destruct (plain_step fm cfg st x) as [E1 E2].
      destruct (ewma_step_r rnd fm (no_minimum cfg) st x) as [[r i] s1]. cbn [fst snd] in *. subst.
      destruct (lax_scan _ _ xs) as [s2 l] eqn:L. intros [= <- <-].
      rewrite (IH _ _ _ L). split.
      + intros [A B] [|t]; cbn [nth_error nth]; [intros [= ->]; auto|apply B].
      + intros A. split; [intros ->; apply (A 0%nat); reflexivity|]. intros t. apply (A (S t)).
  Qed.

  Lemma fewma_same_r fm cfg xs means sF : xs <> [] ->
    run (EWMA_r rnd fm (no_minimum cfg)) xs = Some (means, sF) ->
    (forall t, nth_error xs t = Some NaN -> not_inf (nth t (initial_value cfg :: means) NaN)) ->
    same_outputs (FEWMA_r rnd fm cfg) (EWMA_info_r rnd fm cfg) xs.
  Proof using.
    intros Hne Hr H. destruct xs as [|x0 xs]; [congruence|]. unfold EWMA_r in Hr. rewrite run_eq in Hr.
    destruct (lax_scan _ _ _) as [s2 l] eqn:L in Hr. injection Hr as -> ->.
    pose proof (proj2 (ok_iff fm cfg (x0 :: xs) (ewma_init cfg) _ _ L) H) as O.
    eexists. unfold EWMA_info_r. rewrite run_eq. unfold flax_from_scratch.
    pose proof (ok_calls fm cfg (x0 :: xs) _ O) as E. change (fx_vars (FEWMA_r rnd fm cfg) x0) with (ewma_init cfg).
    exact (f_equal (fun ys => Some (ys, _)) (eq_sym E)).
  Qed.

  Lemma fewma_same_r_conv fm cfg xs means sF : min_periods cfg = 0%Z ->
    run (EWMA_r rnd fm cfg) xs = Some (means, sF) ->
    same_outputs (FEWMA_r rnd fm cfg) (EWMA_info_r rnd fm cfg) xs ->
    (forall t, nth_error xs t = Some NaN -> not_inf (nth t (initial_value cfg :: means) NaN)).
  Proof using.
    intros Hp Hr [s' Hs]. destruct xs as [|x0 xs]; [intros [|t]; discriminate|].
    assert (P : no_minimum cfg = cfg) by (destruct cfg; cbn in *; subst; reflexivity). rewrite <- P in Hr.
    unfold EWMA_r in Hr. rewrite run_eq in Hr. unfold EWMA_info_r in Hs. rewrite run_eq in Hs.
    destruct (lax_scan _ _ _) as [s2 l] eqn:L in Hr. injection Hr as -> ->.
    apply (proj1 (ok_iff fm cfg (x0 :: xs) (ewma_init cfg) _ _ L)).
    apply calls_ok; [exact Hp|]. apply some_pair_inj' in Hs. symmetry. exact (proj1 Hs).
  Qed.
End S.
