(** C106: the breakout detector and the regime-aware processor. *)
From Coq Require Import List Arith ZArith Reals Lra Lia Bool Sorted.
From Verif Require Import Model.Unroll Model.Float Model.Modules Model.Ewm Model.FlaxModules Model.FlaxCore Model.Compositions
  Spec.EwmSpec Spec.FlaxSpec Spec.MaskSpec Spec.CompositionSpec
  Proofs.ListFacts Proofs.FloatFacts Proofs.RunFacts Proofs.EwmFacts Proofs.EwmProofs Proofs.FlaxProofs Proofs.CompositionProofs.
Import ListNotations.
Local Open Scope R_scope.

Lemma map_repeat' {A B} (f : A -> B) x n : map f (repeat x n) = repeat (f x) n.
Proof. induction n; cbn; congruence. Qed.
Lemma padded_map {A B} (f : A -> B) m x l : padded_window m (f x) (map f l) = map f (padded_window m x l).
Proof. unfold padded_window. rewrite map_app, map_repeat', map_length, skipn_map. reflexivity. Qed.
Lemma padded_length {A} m (x : A) l : length (padded_window m x l) = m.
Proof. unfold padded_window. rewrite app_length, repeat_length, skipn_length. lia. Qed.

Lemma fdiff_from_Fin l : forall p, fdiff_from (Fin p) (map Fin l) = map Fin (changes_from p l).
Proof. induction l as [|x l IH]; intros p; cbn; [reflexivity|]. rewrite IH. reflexivity. Qed.
Lemma fdiff_Fin l : fdiff_prepend (map Fin l) = map Fin (changes l).
Proof. destruct l as [|x l]; [reflexivity|]. unfold fdiff_prepend, changes. cbn [map hd]. exact (fdiff_from_Fin (x :: l) x). Qed.
Lemma changes_from_length l : forall p, length (changes_from p l) = length l.
Proof. induction l as [|x l IH]; intros p; cbn; auto. Qed.
Lemma changes_length l : length (changes l) = length l.
Proof. destruct l as [|x l]; [reflexivity|]. unfold changes. apply changes_from_length. Qed.

Lemma eps_pos : 0 < 1 / 10 ^ 8.
Proof. apply Rdiv_lt_0_compat; [lra|apply pow_lt; lra]. Qed.

(** *** the breakout detector *)
Lemma breakout_steps h : forall r,
  steps breakout_call r (map fpair h) = steps (ring_call 20) r (map Fin (map fst h)).
Proof.
  induction h as [|[p v] h IH]; intros r; [reflexivity|]. cbn [map steps]. exact (IH _).
Qed.

Lemma breakout_report first h p v : index_safe 20 (h ++ [(p, v)]) ->
  fst (breakout_call (steps breakout_call (ring_init 20 (Fin first)) (map fpair h)) (fpair (p, v))) =
  report first (h ++ [(p, v)]) p v.
Proof.
  intros Hs. rewrite breakout_steps. unfold breakout_call, fpair. cbn [fst snd].
  pose proof (ring_window 20 (Fin first) (map Fin (map fst h)) (Fin p) ltac:(lia)) as Hr.
  assert (Hs' : index_safe 20 (map Fin (map fst h) ++ [Fin p])).
  { destruct Hs as [Hs|Hs]; [left|right; exact Hs]. rewrite app_length, !map_length in *. exact Hs. }
  specialize (Hr Hs'). destruct (ring_call 20 _ (Fin p)) as [w rs]. cbn [fst] in Hr. subst w.
  change (map Fin (map fst h) ++ [Fin p]) with (map Fin (map fst h) ++ map Fin (map fst [(p, v)])).
  rewrite <- !map_app. rewrite padded_map. fold (breakout_window first (map fst (h ++ [(p, v)]))).
  set (ps := map fst (h ++ [(p, v)])). set (w := breakout_window first ps).
  assert (Hw : w <> []). { intros E. pose proof (padded_length 20 first ps) as L. fold (breakout_window first ps) in L. fold w in L. rewrite E in L. discriminate. }
  assert (Hcw : changes w <> []). { intros E. apply Hw. apply length_zero_iff_nil. rewrite <- changes_length, E. reflexivity. }
  rewrite fdiff_Fin, (fstd_Fin _ Hcw), (fmean_Fin _ Hw). cbn [fst].
  unfold report. fold ps. unfold fsub. cbn [fneg fadd fabs].
  assert (Hd : deviation (changes w) + 1 / 10 ^ 8 <> 0).
  { pose proof (deviation_nonneg (changes w)). pose proof eps_pos. lra. }
  rewrite fdiv_Fin by exact Hd. cbn [flt]. reflexivity.
Qed.

Definition brk := ConditionalComputation nan_breakout
  (FlaxModule (fun inp : fl * fl => ring_init 20 (fst inp)) breakout_call) (Some (fun inp : fl * fl => flt (Fin 1000) (snd inp))).

Lemma held_step first h p v y : held first h y \/ h = [] /\ y = Breakout NaN NaN NaN NaN NaN true ->
  held first (h ++ [(p, v)]) (if Rlt_b 1000 v then report first (h ++ [(p, v)]) p v else y).
Proof.
  intros H. destruct (Rlt_b_spec 1000 v) as [Hv|Hv].
  - left. exists h, p, v, []. split; [reflexivity|]. split; [exact Hv|]. split; [constructor|reflexivity].
  - destruct H as [[(h1 & p1 & v1 & h2 & -> & H1 & H2 & H3)|[H1 H2]]|[-> H2]].
    + left. exists h1, p1, v1, (h2 ++ [(p, v)]). split; [rewrite <- app_assoc; reflexivity|]. split; [exact H1|].
      split; [|exact H3]. apply Forall_app. split; [exact H2|]. constructor; [cbn; lra|constructor].
    + right. split; [|exact H2]. apply Forall_app. split; [exact H1|]. constructor; [cbn; lra|constructor].
    + right. split; [|exact H2]. cbn [app]. constructor; [cbn; lra|constructor].
Qed.

Lemma breakout_state first h : index_safe 20 h ->
  exists c, steps (fx_call brk) (ring_init 20 (Fin first), None) (map fpair h) =
    (steps breakout_call (ring_init 20 (Fin first)) (map fpair h), c) /\
    match c with Some y => held first h y | None => h = [] end.
Proof.
  induction h as [|[p v] h IH] using rev_ind; intros Hs.
  - exists None. split; reflexivity.
  - destruct IH as (c & E & Hc).
    { destruct Hs as [Hs|Hs]; [left|right; exact Hs]. rewrite app_length in Hs. cbn in Hs. lia. }
    rewrite map_app, !steps_app. cbn [map steps]. rewrite E. unfold brk at 1. cbn [fx_call ConditionalComputation].
    unfold conditional_call. cbn [fx_call].
    pose proof (breakout_report first h p v Hs) as Hrep.
    destruct (breakout_call _ (fpair (p, v))) as [new s']. cbn [fst snd] in *. subst new.
    eexists. split; [reflexivity|]. cbn [fpair snd flt].
    destruct c as [y|].
    + apply held_step. left. exact Hc.
    + subst h. apply held_step. right. split; reflexivity.
Qed.

Lemma breakout_ok x0 xs t y : index_safe 20 (x0 :: xs) ->
  nth_error (session volume_breakout_detector (fpair x0) (map fpair xs)) t = Some y -> (t < length xs)%nat ->
  held (fst x0) (seen x0 xs t) y.
Proof.
  intros Hs H Hlt. destruct (nth_error xs t) as [[p v]|] eqn:Ho; [|apply nth_error_None in Ho; lia].
  unfold volume_breakout_detector in H. fold brk in H.
  rewrite (session_nth brk _ _ t (fpair (p, v))) in H.
  2:{ rewrite nth_error_map, Ho. reflexivity. }
  rewrite firstn_map in H. change (fpair x0 :: map fpair (firstn t xs)) with (map fpair (x0 :: firstn t xs)) in H.
  rewrite (seen_snoc _ _ _ _ Ho). set (h := x0 :: firstn t xs) in *.
  assert (Hs' : index_safe 20 (h ++ [(p, v)])).
  { destruct Hs as [Hs|Hs]; [left|right; exact Hs]. rewrite app_length. unfold h. cbn [length] in *.
    rewrite firstn_length_le by lia. lia. }
  assert (Hs2 : index_safe 20 h).
  { destruct Hs' as [Hs'|Hs']; [left|right; exact Hs']. rewrite app_length in Hs'. cbn [length] in Hs'. lia. }
  apply some_eq in H. subst y.
  change (fx_vars brk (fpair x0)) with (ring_init 20 (Fin (fst x0)), @None breakout).
  destruct (breakout_state (fst x0) h Hs2) as (c & E & Hc). rewrite E.
  unfold brk at 1. cbn [fx_call ConditionalComputation]. unfold conditional_call. cbn [fx_call].
  pose proof (breakout_report (fst x0) h p v Hs') as Hrep.
  destruct (breakout_call _ (fpair (p, v))) as [new s']. cbn [fst snd] in *. subst new.
  cbn [fpair snd flt]. destruct c as [y|]; [apply held_step; left; exact Hc|discriminate Hc].
Qed.

(** flat prices *)
Lemma mean_const l p : l <> [] -> Forall (fun x => x = p) l -> mean_of l = p.
Proof.
  intros Hne H. unfold mean_of. assert (E : MaskSpec.total l = p * INR (length l)).
  { clear Hne. unfold MaskSpec.total. induction H as [|x l Hx Hl IH]; [cbn; lra|].
    cbn [fold_right]. rewrite IH, Hx. cbn [length]. rewrite S_INR. lra. }
  rewrite E. pose proof (INR_len l Hne). field. lra.
Qed.
Lemma deviation_const l p : Forall (fun x => x = p) l -> deviation l = 0.
Proof.
  intros H. destruct l as [|x l]; [apply deviation_short; cbn; lia|].
  unfold deviation, var_of. rewrite (mean_const (x :: l) p ltac:(discriminate) H).
  rewrite (mean_const _ 0); [apply sqrt_0|discriminate|].
  apply Forall_map. eapply Forall_impl; [|exact H]. intros y ->. cbn. ring.
Qed.

(** *** the regime-aware processor *)
Lemma fold_nan l : fold_left fadd l NaN = NaN.
Proof. induction l as [|x l IH]; [reflexivity|exact IH]. Qed.
Lemma fadd_nan_r x : fadd x NaN = NaN.
Proof. destruct x; reflexivity. Qed.
Lemma fsum_nan l : In NaN l -> forall a, fold_left fadd l a = NaN.
Proof.
  induction l as [|x l IH]; intros H a; [destruct H|]. cbn [fold_left]. destruct H as [->|H].
  - rewrite fadd_nan_r. apply fold_nan.
  - apply IH; auto.
Qed.
Lemma fstd_nan l : In NaN l -> fstd l = NaN.
Proof.
  intros H. unfold fstd.
  assert (E : fmean l = NaN) by (unfold fmean, fsum; rewrite (fsum_nan l H); reflexivity).
  rewrite E. unfold fmean, fsum. rewrite (fsum_nan (map _ l)); [reflexivity|].
  destruct l as [|x l]; [destruct H|]. left. destruct x; reflexivity.
Qed.
Lemma all_known_some l r : all_known l = Some r -> l = map Some r.
Proof.
  revert r; induction l as [|[x|] l IH]; intros r H; cbn in H; try discriminate.
  - injection H as <-. reflexivity.
  - destruct (all_known l) as [y|]; [|discriminate]. injection H as <-. cbn. f_equal. apply IH. reflexivity.
Qed.
Lemma all_known_none l : all_known l = None -> In None l.
Proof.
  induction l as [|[x|] l IH]; cbn; intros H; [discriminate| |left; reflexivity].
  right. apply IH. destruct (all_known l); [discriminate|reflexivity].
Qed.
Lemma fstd_volatility l : l <> [] -> fstd (map of_option l) = volatility_of l.
Proof.
  intros Hne. unfold volatility_of. destruct (all_known l) as [r|] eqn:E.
  - apply all_known_some in E. subst l. rewrite map_map. change (fun x => of_option (Some x)) with Fin.
    apply fstd_Fin. intros ->. apply Hne. reflexivity.
  - apply all_known_none in E. apply fstd_nan. apply in_map_iff. exists None. auto.
Qed.

Lemma regime_signal fm thr p s x :
  regime_call fm thr (Some p) s x =
  let '(w, rs) := ring_call 50 (fst s) x in
  let '(g, es) := ema_call fm p (snd s) x in
  (RegimeOut x g (fstd w) (flt (Fin thr) (fstd w)), (p, (rs, es))).
Proof.
  unfold regime_call. destruct (ring_call 50 (fst s) x) as [w rs]. cbn [flax_param].
  destruct (flt (Fin thr) (fstd w)), (ema_call fm p (snd s) x); reflexivity.
Qed.

Definition regime_applied fm thr p := fun (s : ring_state fl * ewma_state) x =>
  let '(y, (_, s')) := regime_call fm thr (Some p) s x in (y, s').
Lemma regime_steps fm thr p l : forall r e,
  steps (regime_applied fm thr p) (r, e) l = (steps (ring_call 50) r l, steps (ema_call fm p) e l).
Proof.
  induction l as [|x l IH]; intros r e; [reflexivity|]. cbn [steps]. rewrite <- IH. f_equal.
  unfold regime_applied. rewrite regime_signal. cbn [fst snd].
  destruct (ring_call 50 r x), (ema_call fm p e x). reflexivity.
Qed.
Lemma applied_regime fm thr p : forall xs s t x, nth_error xs t = Some x ->
  nth_error (applied (regime_aware_processor fm thr) p s xs) t =
  Some (fst (regime_applied fm thr p (steps (regime_applied fm thr p) s (firstn t xs)) x)).
Proof.
  induction xs as [|a xs IH]; intros s t x H; [destruct t; discriminate|].
  cbn [applied regime_aware_processor t_apply]. fold (regime_applied fm thr p s a).
  destruct (regime_applied fm thr p s a) as [y s1] eqn:E. destruct t as [|t]; cbn [nth_error firstn steps] in *.
  - injection H as <-. rewrite E. reflexivity.
  - rewrite E. cbn [snd]. apply IH; auto.
Qed.

Lemma skipn_repeat' {A} (x : A) n k : skipn k (repeat x n) = repeat x (n - k).
Proof. revert k; induction n as [|n IH]; intros [|k]; cbn; auto. Qed.
Lemma regime_init fm thr o0 :
  exists s, t_init (regime_aware_processor fm thr) None (of_option o0) = (com_of_alpha (regime_alpha thr o0), s) /\
    s = (snd (ring_call 50 (ring_init 50 (of_option o0)) (of_option o0)),
         snd (ema_call fm (com_of_alpha (regime_alpha thr o0)) ema_vars (of_option o0))).
Proof.
  eexists. split; [|reflexivity].
  cbn [t_init regime_aware_processor]. unfold regime_call. cbn [fst snd].
  pose proof (ring_window 50 (of_option o0) [] (of_option o0) ltac:(lia) ltac:(left; cbn; lia)) as Hr.
  cbn [steps app] in Hr.
  destruct (ring_call 50 (ring_init 50 (of_option o0)) (of_option o0)) as [w rs]. cbn [fst snd] in *. subst w.
  change [of_option o0] with (map of_option [o0]). rewrite padded_map.
  rewrite fstd_volatility by (intros E; apply (f_equal (@length _)) in E; rewrite padded_length in E; discriminate).
  assert (Ev : flt (Fin thr) (volatility_of (padded_window 50 o0 [o0])) =
          match o0 with Some _ => Rlt_b thr 0 | None => false end).
  { unfold volatility_of. destruct o0 as [p|].
    - assert (E : padded_window 50 (Some p) [Some p] = map Some (repeat p 50)) by reflexivity.
      rewrite E. assert (K : forall l, all_known (map Some l) = Some l).
      { induction l as [|a l IH]; cbn; [reflexivity|rewrite IH; reflexivity]. }
      rewrite K. rewrite (deviation_const _ p). 2:{ apply Forall_forall. intros y Hy. exact (repeat_spec _ _ _ Hy). }
      reflexivity.
    - reflexivity. }
  rewrite Ev. cbn [flax_param]. unfold regime_alpha.
  destruct o0 as [p|].
  - destruct (Rlt_b thr 0), (ema_call fm _ ema_vars (of_option (Some p))); reflexivity.
  - destruct (ema_call fm _ ema_vars (of_option None)); reflexivity.
Qed.

Lemma regime_ok fm thr o0 os t o : index_safe 50 (o0 :: os) -> nth_error os t = Some o ->
  let h := seen o0 os t in
  let v := volatility_of (padded_window 50 o0 h) in
  nth_error (session (regime_aware_processor fm thr) (of_option o0) (map of_option os)) t =
  Some (RegimeOut (of_option o) (of_option (ema (regime_alpha thr o0) h)) v (flt (Fin thr) v)).
Proof.
  intros Hs Ho. cbv zeta. unfold session. destruct (regime_init fm thr o0) as (s & E & Es). rewrite E.
  set (a := regime_alpha thr o0) in *.
  rewrite (applied_regime fm thr (com_of_alpha a) (map of_option os) s t (of_option o)).
  2:{ rewrite nth_error_map, Ho. reflexivity. }
  rewrite Es. rewrite regime_steps.
  rewrite firstn_map.
  change (steps (ring_call 50) (snd (ring_call 50 (ring_init 50 (of_option o0)) (of_option o0))) (map of_option (firstn t os)))
    with (steps (ring_call 50) (ring_init 50 (of_option o0)) (map of_option (o0 :: firstn t os))).
  change (steps (ema_call fm (com_of_alpha a)) (snd (ema_call fm (com_of_alpha a) ema_vars (of_option o0))) (map of_option (firstn t os)))
    with (steps (ema_call fm (com_of_alpha a)) ema_vars (map of_option (o0 :: firstn t os))).
  rewrite (seen_snoc _ _ _ _ Ho). set (h := o0 :: firstn t os).
  unfold regime_applied. rewrite regime_signal. cbn [fst snd].
  assert (Ha : 0 < a < 1).
  { unfold a, regime_alpha. destruct o0; [destruct (Rlt_b thr 0)|]; lra. }
  assert (Hlt : (t < length os)%nat) by (apply nth_error_Some; congruence).
  assert (Hs' : index_safe 50 (map of_option h ++ [of_option o])).
  { destruct Hs as [Hs|Hs]; [left|right; exact Hs]. rewrite app_length, map_length. unfold h. cbn [length] in *.
    rewrite firstn_length_le by lia. lia. }
  pose proof (ring_window 50 (of_option o0) (map of_option h) (of_option o) ltac:(lia) Hs') as Hr.
  destruct (ring_call 50 _ (of_option o)) as [w rs]. cbn [fst] in Hr. subst w.
  pose proof (ema_after fm a h o Ha) as He.
  destruct (ema_call fm _ _ (of_option o)) as [g es]. cbn [fst] in He. subst g. cbn [fst].
  change (map of_option h ++ [of_option o]) with (map of_option h ++ map of_option [o]).
  rewrite <- map_app. rewrite padded_map, fstd_volatility; [reflexivity|].
  intros E0. apply (f_equal (@length _)) in E0. rewrite padded_length in E0. discriminate.
Qed.
