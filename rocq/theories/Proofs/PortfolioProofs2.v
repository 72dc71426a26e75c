From Coq Require Import ZArith List Bool Arith Reals Lra Lia.
From Verif Require Import Model.Unroll Model.Float Model.Modules Model.Ewm Spec.SeriesSpec Spec.EwmSpec Spec.CovSpec Spec.PortfolioSpec Spec.AnalysisSpec Proofs.ListFacts Proofs.FloatFacts Proofs.RunFacts Proofs.EwmFacts Proofs.EwmProofs Proofs.EwmExtra Proofs.EwmcovProofs Proofs.EwmcovExtra Proofs.AnalysisProofs Proofs.AnalysisProofs2.
Import ListNotations.
Local Open Scope R_scope.

(** EWMVar through EWMA: the second moment around any point minus the square of the bias. *)
Lemma ewmvar_moments fm com_ adj c os vs sV ms sM qs sQ :
  0 <= com_ ->
  run (EWMVar com_ adj) (map of_option os) = Some (vs, sV) ->
  run (EWMA fm (EwmaCfg com_ 0 adj true NaN)) (map of_option os) = Some (ms, sM) ->
  run (EWMA fm (EwmaCfg com_ 0 adj true NaN)) (map of_option (map (option_map (fun x => (x - c) ^ 2)) os)) = Some (qs, sQ) ->
  forall t m, (t < length os)%nat -> nth_error ms t = Some (Fin m) ->
  exists q, nth_error qs t = Some (Fin q) /\ nth_error vs t = Some (Fin (q - (m - c) ^ 2)).
Proof.
  intros Hc Hv Hm Hq t m Ht Et. set (cfg := EwmaCfg com_ 0 adj true NaN) in *.
  set (pat := map isobs os).
  assert (Hp : (t < length pat)%nat) by (unfold pat; rewrite map_length; exact Ht).
  destruct (ewma_functional fm cfg pat t Hc eq_refl Hp) as (w & Hw & Hz & Hs & Hf).
  assert (Pm : forall g : R -> R, map isobs (map (option_map g) os) = pat).
  { intros g. unfold pat. rewrite map_map. apply map_ext. intros []; reflexivity. }
  destruct os as [|o0 or_]; [cbn in Ht; lia|]. set (os := o0 :: or_) in *.
  assert (Pn : forall (g : R -> R) k, match nth k (map (option_map g) os) None with Some x => x | None => 0 end = match nth k os None with Some x => g x | None => 0 end).
  { intros g k. change None with (option_map g None) at 1. rewrite map_nth. destruct (nth k os None); reflexivity. }
  pose proof (Hf os ms sM eq_refl Hm) as Fm. rewrite Et in Fm.
  pose proof (Hf _ qs sQ (Pm _) Hq) as Fq.
  destruct (existsb (fun b => b) (firstn (t + 1) pat)) eqn:Ex; [|discriminate Fm].
  specialize (Hs eq_refl).
  assert (We : forall l r, when_enough (min_periods cfg) l (Some r) = Fin r).
  { intros l r. unfold when_enough, cfg; cbn [min_periods]. destruct (Z.ltb_spec (Z.of_nat (count_obs l)) 0); [lia|reflexivity]. }
  rewrite We in Fm, Fq. injection Fm as Fm.
  (* the squares *)
  assert (T2 : exists ss sS, run (EWMA fm cfg) (map of_option (map (option_map (fun x => x * x)) os)) = Some (ss, sS)).
  { unfold os. cbn [map]. apply run_total. }
  destruct T2 as (ss & sS & Hss). pose proof (Hf _ ss sS (Pm _) Hss) as Fs. rewrite We in Fs.
  set (xs := map (fun o : option R => [o]) os).
  assert (T3 : exists Ms sF, run (EWMCov fm cfg false) (map (fun x => (map of_option x, map of_option x)) xs) = Some (Ms, sF)).
  { unfold xs, os. cbn [map]. apply run_total. }
  destruct T3 as (Ms & sF & Hr).
  assert (Hl1 : Forall (fun x => length x = 1%nat) xs).
  { unfold xs. apply Forall_forall. intros x H. apply in_map_iff in H as (o & <- & _). reflexivity. }
  assert (Hsh : Forall (shaped 1 1) (map (fun x => (map of_option x, map of_option x)) xs)).
  { apply Forall_forall. intros x H. apply in_map_iff in H as (o & <- & Ho). rewrite Forall_forall in Hl1. split; cbn [fst snd]; rewrite map_length; apply Hl1, Ho. }
  destruct (cov_run fm cfg 1 1 _ Ms sF Hsh Hr) as [Hl H].
  rewrite map_length in Hl. unfold xs in Hl. rewrite map_length in Hl.
  assert (E1 : map (comp_x 0) (map (fun x => (map of_option x, map of_option x)) xs) = map of_option os).
  { unfold xs. rewrite !map_map. apply map_ext. intros o. reflexivity. }
  assert (E2 : map (comp_y 0) (map (fun x => (map of_option x, map of_option x)) xs) = map of_option os).
  { unfold xs. rewrite !map_map. apply map_ext. intros o. reflexivity. }
  assert (E3 : map (comp_xy 0 0) (map (fun x => (map of_option x, map of_option x)) xs) = map of_option (map (option_map (fun x => x * x)) os)).
  { unfold xs. rewrite !map_map. apply map_ext. intros [x|]; reflexivity. }
  rewrite <- E1 in Hm. pose proof Hm as Hm'. rewrite E1, <- E2 in Hm'. rewrite <- E3 in Hss.
  destruct (H 0%nat 0%nat ltac:(lia) ltac:(lia) _ _ _ _ _ _ Hss Hm Hm' t) as (M & a & b & b' & HM & Ha & Hb & Hb' & HV).
  { rewrite map_length. unfold xs. rewrite map_length. exact Ht. }
  rewrite Et in Hb, Hb'. injection Hb as <-. injection Hb' as <-. rewrite Fs in Ha. injection Ha as <-.
  assert (Hv' : run (EWMVar (com cfg) (adjust cfg)) (map (fun x => of_option (nth 0 x None)) xs) = Some (vs, sV)).
  { unfold xs. rewrite map_map. exact Hv. }
  destruct (ewmvar_ewmcov fm cfg 1 xs Ms sF 0 vs sV Hc eq_refl Hl1 ltac:(lia) Hr Hv' t M HM (or_introl eq_refl)) as [P1 P2].
  eexists. split; [exact Fq|].
  destruct (Classical_Prop.classic (valid_obs (map (fun x => nth 0 x None) (firstn (t + 1) xs)) <> [] /\
    (min_periods cfg <= Z.of_nat (length (valid_obs (map (fun x => nth 0 x None) (firstn (t + 1) xs)))))%Z)) as [Y|N].
  2:{ rewrite (P2 N) in HV. discriminate. }
  rewrite <- (P1 Y), HV. cbn [fmul fsub fneg fadd]. do 2 f_equal.
  set (Q := fun k => match nth k os None with Some x => x | None => 0 end) in *.
  assert (Fm' : m = sum_n (t + 1) (fun k => w k * Q k)) by exact Fm.
  assert (S1 : sum_n (t + 1) (fun k => w k * match nth k (map (option_map (fun x => x * x)) os) None with Some x => x | None => 0 end)
             = sum_n (t + 1) (fun k => w k * (Q k * Q k))).
  { apply sum_n_ext. intros k _. rewrite Pn. unfold Q. destruct (nth k os None); ring. }
  assert (S2 : sum_n (t + 1) (fun k => w k * match nth k (map (option_map (fun x => (x - c) ^ 2)) os) None with Some x => x | None => 0 end)
             = sum_n (t + 1) (fun k => w k * (Q k * Q k)) + (-2 * c) * m + c * c * sum_n (t + 1) w).
  { rewrite Fm', <- !sum_n_scal, <- !sum_n_plus. apply sum_n_ext. intros k _. rewrite Pn. unfold Q.
    destruct (nth k os None) eqn:Ek; [ring|]. rewrite (Hz k); [ring|]. unfold pat.
    change false with (isobs None). rewrite map_nth, Ek. reflexivity. }
  refine (eq_trans (f_equal (fun z => z + - (m * m)) S1) _). symmetry. refine (eq_trans (f_equal (fun z => z - (m - c) ^ 2) S2) _). rewrite Hs. ring.
Qed.

Lemma ewmvar_forgets fm com_ adj c r os vs sV ms sM :
  0 <= com_ -> 0 <= r ->
  run (EWMVar com_ adj) (map of_option os) = Some (vs, sV) ->
  run (EWMA fm (EwmaCfg com_ 0 adj true NaN)) (map of_option os) = Some (ms, sM) ->
  forall s t v m, (s <= t < length os)%nat ->
  (forall k x, (s < k <= t)%nat -> nth_error os k = Some (Some x) -> Rabs (x - c) <= r) ->
  nth_error vs s = Some (Fin v) -> nth_error ms s = Some (Fin m) ->
  exists v', nth_error vs t = Some (Fin v') /\
    v' <= r ^ 2 + (com_ / (1 + com_)) ^ count_obs (firstn (t - s) (skipn (s + 1) os)) * Rmax 0 (v + (m - c) ^ 2 - r ^ 2).
Proof.
  intros Hc Hr Hv Hm s t v m Hst Hx Hvs Hms.
  set (g := fun x => (x - c) ^ 2).
  assert (T : exists qs sQ, run (EWMA fm (EwmaCfg com_ 0 adj true NaN)) (map of_option (map (option_map g) os)) = Some (qs, sQ)).
  { destruct os as [|o0 or_]; [cbn in Hst; lia|]. cbn [map]. apply run_total. }
  destruct T as (qs & sQ & Hq).
  destruct (ewmvar_moments fm com_ adj c os vs sV ms sM qs sQ Hc Hv Hm Hq s m ltac:(lia) Hms) as (q & Eq & Ev).
  rewrite Hvs in Ev. injection Ev as Ev.
  destruct (ewma_range_forgets fm (EwmaCfg com_ 0 adj true NaN) _ qs sQ 0 (r ^ 2) Hc ltac:(apply pow2_ge_0) Hq s t q) as (q' & Eq' & _ & Lq).
  { rewrite !map_length. lia. }
  { intros k y u Hk Ek Eu. rewrite map_map in Ek.
    destruct (nth_error os k) as [o|] eqn:Eo; [|rewrite nth_error_map, Eo in Ek; discriminate].
    rewrite (map_nth_error _ k os Eo) in Ek. injection Ek as <-. rewrite obs_of_option in Eu.
    destruct o as [x|]; [|discriminate]. injection Eu as <-. specialize (Hx k x Hk Eo).
    unfold g. rewrite <- (pow2_abs (x - c)). split; [apply pow2_ge_0|]. apply pow_incr. split; [apply Rabs_pos|exact Hx]. }
  { exact Eq. }
  cbn [com] in Lq.
  assert (Eb : count_obs (AnalysisSpec.between fm s t (map of_option (map (option_map g) os))) = count_obs (firstn (t - s) (skipn (s + 1) os))).
  { unfold AnalysisSpec.between. rewrite map_map, skipn_map, firstn_map, map_map.
    generalize (firstn (t - s) (skipn (s + 1) os)). intros l. induction l as [|[x|] l IH]; cbn; [reflexivity|f_equal; exact IH|exact IH]. }
  rewrite Eb in Lq.
  destruct (nth_error ms t) as [y|] eqn:Ey.
  2:{ apply nth_error_None in Ey. destruct (ewma_run fm (EwmaCfg com_ 0 adj true NaN) _ _ _ Hc Hm) as [L _]. rewrite map_length in L. lia. }
  assert (Hy : exists m', y = Fin m').
  { destruct (ewma_range_forgets fm (EwmaCfg com_ 0 adj true NaN) (map of_option os) ms sM (c - r) (c + r) Hc ltac:(lra) Hm s t m) as (m' & E & _).
    - rewrite map_length. lia.
    - intros k y' u Hk Ek Eu. destruct (nth_error os k) as [o|] eqn:Eo; [|rewrite nth_error_map, Eo in Ek; discriminate].
      rewrite (map_nth_error _ k os Eo) in Ek. injection Ek as <-. rewrite obs_of_option in Eu. subst o.
      specialize (Hx k u Hk Eo). pose proof (Rle_abs (u - c)). pose proof (Rle_abs (- (u - c))) as H9. rewrite Rabs_Ropp in H9. lra.
    - exact Hms.
    - rewrite Ey in E. injection E as ->. eauto. }
  destruct Hy as [m' ->].
  destruct (ewmvar_moments fm com_ adj c os vs sV ms sM qs sQ Hc Hv Hm Hq t m' ltac:(lia) Ey) as (q2 & Eq2 & Ev2).
  assert (q2 = q') by congruence. subst q2.
  eexists. split; [exact Ev2|].
  replace (v + (m - c) ^ 2 - r ^ 2) with (q - r ^ 2) by (subst v; ring).
  pose proof (pow2_ge_0 (m' - c)). lra.
Qed.
