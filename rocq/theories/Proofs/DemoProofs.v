(** C122: the signal processor of the streaming demo. *)
From Coq Require Import String List Arith ZArith Reals Lra Lia Bool Sorted.
From Verif Require Import Model.Unroll Model.Float Model.Modules Model.Ewm Model.FlaxModules Model.FlaxCore Model.Compositions
  Model.Demos Spec.EwmSpec Spec.FlaxSpec Spec.MaskSpec Spec.CompositionSpec Spec.DemoSpec
  Proofs.ListFacts Proofs.FloatFacts Proofs.RunFacts Proofs.EwmFacts Proofs.EwmProofs Proofs.FlaxProofs
  Proofs.CompositionProofs.
Import ListNotations.
Local Open Scope R_scope.

Lemma last_snoc {A} (h : list A) x d : last (h ++ [x]) d = x.
Proof. apply last_last. Qed.
Lemma distances_snoc h o : distances (h ++ [o]) = distances h ++ [distance_to_slow (h ++ [o])].
Proof. unfold distances. rewrite prefixes_snoc, map_app. reflexivity. Qed.
Lemma fabs_of o : fabs (of_option o) = of_option (option_map Rabs o).
Proof. destruct o; reflexivity. Qed.

Ltac al := lra.
Lemma signal_steps fm h :
  steps (signal_call fm) signal_vars (map of_option h) =
  (steps (ring_call 10) (ring_init 10 (Fin 0)) (map of_option h),
   steps (ema_call fm (com_of_alpha (3 / 10))) ema_vars (map of_option h),
   steps (ema_call fm (com_of_alpha (1 / 10))) ema_vars (map of_option h),
   steps (ema_call fm (com_of_alpha (2 / 10))) ema_vars (map of_option (distances h))).
Proof.
  induction h as [|o h IH] using rev_ind; [reflexivity|].
  rewrite distances_snoc, !map_app, !steps_app. cbn [map steps]. rewrite IH. unfold signal_call.
  pose proof (ema_after fm (1 / 10) h o ltac:(lra)) as E2.
  destruct (ring_call 10 _ (of_option o)) as [w rs].
  destruct (ema_call fm (com_of_alpha (3 / 10)) _ (of_option o)) as [a sf].
  destruct (ema_call fm (com_of_alpha (1 / 10)) _ (of_option o)) as [b ss].
  cbn [fst] in E2. subst b. rewrite minus_of, fabs_of.
  replace (option_map Rabs (minus o (ema (1 / 10) (h ++ [o])))) with (distance_to_slow (h ++ [o]))
    by (unfold distance_to_slow; rewrite last_snoc; reflexivity).
  destruct (ema_call fm (com_of_alpha (2 / 10)) _ (of_option (distance_to_slow (h ++ [o])))). reflexivity.
Qed.

(** *** the average distance is known and nonnegative *)
Lemma S1_nonneg a l : 0 < a < 1 -> Forall (fun q : nat * R => 0 <= snd q) l -> 0 <= S1 a l.
Proof.
  intros Ha. unfold S1, sum_over. induction 1 as [|[n x] l Hx Hl IH]; cbn [fold_right fst snd] in *; [lra|].
  assert (0 <= (1 - a) ^ n) by (apply pow_le; lra). nra.
Qed.
Lemma ema_nonneg a h v : 0 < a < 1 -> Forall (fun x => 0 <= x) (valid_obs h) -> ema a h = Some v -> 0 <= v.
Proof.
  intros Ha Hf E. assert (Hc : count_obs h <> 0%nat) by (intros E0; apply (ema_none a) in E0; congruence).
  rewrite ema_some in E by auto. apply some_eq in E. subst v.
  rewrite <- aged_valid in Hf. rewrite Forall_map in Hf.
  apply Rmult_le_pos; [apply S1_nonneg; auto|]. left. apply Rinv_0_lt_compat. apply S0_nz; auto.
Qed.
Lemma distances_nonneg h : Forall (fun x => 0 <= x) (valid_obs (distances h)).
Proof.
  apply Forall_forall. intros x Hx. apply valid_in in Hx. unfold distances in Hx. apply in_map_iff in Hx.
  destruct Hx as (p & E & _). unfold distance_to_slow in E. destruct (minus _ _); [|discriminate].
  cbn in E. injection E as <-. apply Rabs_pos.
Qed.
Lemma average_nonneg h v : average_distance h = Some v -> 0 <= v.
Proof. apply ema_nonneg; [lra|apply distances_nonneg]. Qed.
Lemma count_app h1 h2 : count_obs (h1 ++ h2) = (count_obs h1 + count_obs h2)%nat.
Proof. induction h1 as [|[x|] h1 IH]; cbn; lia. Qed.
Lemma distances_count h : count_obs h <> 0%nat -> count_obs (distances h) <> 0%nat.
Proof.
  induction h as [|o h IH] using rev_ind; [cbn; lia|]. rewrite distances_snoc, !count_app. destruct o as [x|].
  - intros _. unfold distance_to_slow. rewrite last_snoc.
    destruct (ema (1 / 10) (h ++ [Some x])) as [s|] eqn:E; [cbn; lia|].
    apply ema_none in E. rewrite count_app in E. cbn in E. lia.
  - cbn [count_obs]. intros H. pose proof (IH ltac:(lia)). lia.
Qed.
Lemma average_some h : count_obs h <> 0%nat -> exists v, average_distance h = Some v /\ 0 <= v.
Proof.
  intros H. pose proof (distances_count h H) as Hd. unfold average_distance.
  destruct (ema (2 / 10) (distances h)) as [v|] eqn:E.
  - exists v. split; [reflexivity|]. apply (average_nonneg h v E).
  - apply ema_none in E. congruence.
Qed.
Lemma momentum_some h : count_obs h <> 0%nat -> exists m, fast_minus_slow h = Some m.
Proof. intros H. unfold fast_minus_slow. rewrite !ema_some by auto. cbn. eauto. Qed.
Lemma eps_pos n : 0 < 1 / 10 ^ n.
Proof. apply Rmult_lt_0_compat; [lra|]. apply Rinv_0_lt_compat. apply pow_lt. lra. Qed.

Lemma signal_of h :
  ftanh (fdiv (of_option (fast_minus_slow h)) (fadd (of_option (average_distance h)) (Fin (1 / 10 ^ 6)))) =
  of_option (trading_signal h).
Proof.
  unfold trading_signal. destruct (average_distance h) as [v|] eqn:Ev.
  - apply average_nonneg in Ev. pose proof (eps_pos 6). destruct (fast_minus_slow h) as [m|]; [|reflexivity].
    cbn [of_option fadd]. rewrite fdiv_Fin by lra. reflexivity.
  - destruct (fast_minus_slow h); reflexivity.
Qed.

Lemma signal_ok fm o0 os t o : index_safe 10 (o0 :: os) -> nth_error os t = Some o ->
  nth_error (session (streaming_signal_processor fm) (of_option o0) (map of_option os)) t =
  Some (processor_view (seen o0 os t) o).
Proof.
  intros Hs Ho. assert (Hlt : (t < length os)%nat) by (apply nth_error_Some; congruence).
  unfold streaming_signal_processor. rewrite (session_nth _ _ _ t (of_option o)).
  2:{ rewrite nth_error_map, Ho. reflexivity. }
  cbn [fx_call fx_vars signal_module]. rewrite firstn_map.
  change (of_option o0 :: map of_option (firstn t os)) with (map of_option (o0 :: firstn t os)).
  rewrite (seen_snoc o0 os t o Ho). set (h := o0 :: firstn t os).
  rewrite signal_steps. unfold signal_call.
  pose proof (ring_window 10 (Fin 0) (map of_option h) (of_option o) ltac:(lia)) as E0.
  assert (Hsafe : index_safe 10 (map of_option h ++ [of_option o])).
  { unfold index_safe in *. rewrite app_length, map_length. cbn [length] in *. subst h. cbn [length]. rewrite firstn_length.
    destruct Hs as [Hs|Hs]; [left; lia|right; exact Hs]. }
  specialize (E0 Hsafe).
  pose proof (ema_after fm (3 / 10) h o ltac:(lra)) as E1.
  pose proof (ema_after fm (1 / 10) h o ltac:(lra)) as E2.
  pose proof (ema_after fm (2 / 10) (distances h) (distance_to_slow (h ++ [o])) ltac:(lra)) as E3.
  destruct (ring_call 10 _ (of_option o)) as [w rs].
  destruct (ema_call fm (com_of_alpha (3 / 10)) _ (of_option o)) as [a sf].
  destruct (ema_call fm (com_of_alpha (1 / 10)) _ (of_option o)) as [b ss].
  cbn [fst] in E0, E1, E2. subst w a b. rewrite minus_of, fabs_of.
  replace (option_map Rabs (minus o (ema (1 / 10) (h ++ [o])))) with (distance_to_slow (h ++ [o]))
    by (unfold distance_to_slow; rewrite last_snoc; reflexivity).
  destruct (ema_call fm (com_of_alpha (2 / 10)) _ (of_option (distance_to_slow (h ++ [o])))) as [v sv].
  cbn [fst] in E3. subst v. rewrite <- distances_snoc. fold (average_distance (h ++ [o])).
  rewrite minus_of. fold (fast_minus_slow (h ++ [o])). rewrite signal_of. cbn [fst].
  unfold processor_view. rewrite map_app. reflexivity.
Qed.

(** *** properties of the signal *)
Lemma tanh_bound x : -1 < tanh x < 1.
Proof.
  unfold tanh, sinh, cosh. pose proof (exp_pos x). pose proof (exp_pos (- x)).
  set (a := exp x) in *. set (b := exp (- x)) in *.
  assert (E : (a - b) / 2 / ((a + b) / 2) = (a - b) / (a + b)) by (field; lra). rewrite E.
  split.
  - apply Rmult_lt_reg_r with (a + b); [lra|]. unfold Rdiv. rewrite Rmult_assoc, Rinv_l by lra. lra.
  - apply Rmult_lt_reg_r with (a + b); [lra|]. unfold Rdiv. rewrite Rmult_assoc, Rinv_l by lra. lra.
Qed.
Lemma tanh_pos x : 0 < x -> 0 < tanh x.
Proof.
  intros H. unfold tanh, sinh, cosh. pose proof (exp_pos x). pose proof (exp_pos (- x)).
  assert (exp (- x) < exp x) by (apply exp_increasing; lra).
  apply Rmult_lt_0_compat; [lra|]. apply Rinv_0_lt_compat. lra.
Qed.
Lemma tanh_opp x : tanh (- x) = - tanh x.
Proof.
  unfold tanh, sinh, cosh. rewrite Ropp_involutive. pose proof (exp_pos x). pose proof (exp_pos (- x)). field. lra.
Qed.
Lemma tanh_zero : tanh 0 = 0.
Proof. unfold tanh, sinh. rewrite Ropp_0. unfold Rdiv. rewrite Rminus_diag_eq by reflexivity. ring. Qed.
Lemma tanh_sign x : (0 < tanh x <-> 0 < x) /\ (tanh x < 0 <-> x < 0).
Proof.
  destruct (Rtotal_order x 0) as [H|[H|H]].
  - assert (0 < tanh (- x)) by (apply tanh_pos; lra). rewrite tanh_opp in *. split; split; intros; lra.
  - subst x. rewrite tanh_zero. split; split; intros; lra.
  - pose proof (tanh_pos x H). split; split; intros; lra.
Qed.
Lemma quot_sign m d : 0 < d -> (0 < m / d <-> 0 < m) /\ (m / d < 0 <-> m < 0).
Proof.
  intros Hd. assert (E : m = m / d * d) by (field; lra). pose proof (Rinv_0_lt_compat d Hd).
  split; split; intros H'.
  - rewrite E. apply Rmult_lt_0_compat; auto.
  - apply Rmult_lt_0_compat; auto.
  - rewrite E. nra.
  - unfold Rdiv. nra.
Qed.

Lemma signal_bounds h o : count_obs h <> 0%nat ->
  exists m v g, s_momentum (processor_view h o) = Fin m /\ s_volatility (processor_view h o) = Fin v /\
    s_signal (processor_view h o) = Fin g /\ 0 <= v /\ -1 < g < 1 /\ (0 < g <-> 0 < m) /\ (g < 0 <-> m < 0).
Proof.
  intros H. destruct (momentum_some h H) as [m Em]. destruct (average_some h H) as (v & Ev & Hv).
  exists m, v, (tanh (m / (v + 1 / 10 ^ 6))). unfold processor_view. cbn [s_momentum s_volatility s_signal].
  unfold trading_signal. rewrite Em, Ev. cbn [of_option]. repeat split; try assumption; try apply tanh_bound.
  all: pose proof (eps_pos 6); pose proof (tanh_sign (m / (v + 1 / 10 ^ 6))) as T;
    pose proof (quot_sign m (v + 1 / 10 ^ 6) ltac:(lra)) as Q; tauto.
Qed.
Lemma signal_silent h o : count_obs h = 0%nat ->
  s_fast (processor_view h o) = NaN /\ s_slow (processor_view h o) = NaN /\ s_momentum (processor_view h o) = NaN /\
  s_volatility (processor_view h o) = NaN /\ s_signal (processor_view h o) = NaN.
Proof.
  intros H. unfold processor_view. cbn. unfold trading_signal, fast_minus_slow.
  rewrite !(proj2 (ema_none _ h) H). cbn.
  assert (E : average_distance h = None).
  { unfold average_distance. apply ema_none. rewrite count_valid.
    destruct (valid_obs (distances h)) as [|x l] eqn:E; [reflexivity|].
    assert (Hx : In x (valid_obs (distances h))) by (rewrite E; left; reflexivity).
    apply valid_in in Hx. unfold distances in Hx. apply in_map_iff in Hx. destruct Hx as (p & Ep & Hp).
    unfold prefixes in Hp. apply in_map_iff in Hp. destruct Hp as (i & <- & _).
    assert (E0 : count_obs (firstn i h) = 0%nat).
    { rewrite count_valid in *. apply length_zero_iff_nil in H. clear -H. revert i.
      induction h as [|[y|] h IH]; intros [|i]; cbn in *; try reflexivity; try discriminate. apply IH; exact H. }
    unfold distance_to_slow in Ep. rewrite (proj2 (ema_none _ _) E0) in Ep. destruct (last _ _); discriminate. }
  rewrite E. auto.
Qed.

Lemma signal_constant h o p : count_obs h <> 0%nat -> Forall (fun x => x = p) (valid_obs h) ->
  s_fast (processor_view h o) = Fin p /\ s_slow (processor_view h o) = Fin p /\ s_momentum (processor_view h o) = Fin 0 /\
  s_volatility (processor_view h o) = Fin 0 /\ s_signal (processor_view h o) = Fin 0.
Proof.
  intros Hc Hp. unfold processor_view. cbn [s_fast s_slow s_momentum s_volatility s_signal].
  assert (Ea : average_distance h = Some 0).
  { apply ema_const; [lra|apply distances_count; exact Hc|]. apply Forall_forall. intros x Hx.
    apply valid_in in Hx. unfold distances in Hx. apply in_map_iff in Hx. destruct Hx as (q & Eq & Hq).
    unfold prefixes in Hq. apply in_map_iff in Hq. destruct Hq as (i & <- & _).
    pose proof (valid_firstn i h Hp) as Hi. unfold distance_to_slow in Eq.
    destruct (last (firstn i h) None) as [y|] eqn:El; [|discriminate].
    assert (Hn : firstn i h <> []) by (intros E0; rewrite E0 in El; discriminate).
    pose proof (app_removelast_last None Hn) as Ed. rewrite El in Ed.
    assert (Hci : count_obs (firstn i h) <> 0%nat) by (rewrite Ed, count_app; cbn; lia).
    rewrite (ema_const (1 / 10) _ p ltac:(lra) Hci Hi) in Eq. cbn in Eq. injection Eq as <-.
    assert (Hy : y = p).
    { rewrite Forall_forall in Hi. apply Hi. apply valid_in. rewrite Ed. apply in_or_app. right. left. reflexivity. }
    subst y. rewrite Rminus_diag_eq by reflexivity. apply Rabs_R0. }
  unfold trading_signal, fast_minus_slow. rewrite Ea.
  rewrite (ema_const (3 / 10) h p ltac:(lra) Hc Hp), (ema_const (1 / 10) h p ltac:(lra) Hc Hp). cbn [minus of_option].
  assert (E0 : p - p = 0) by ring. rewrite E0. unfold Rdiv at 1. rewrite Rmult_0_l, tanh_zero.
  repeat split; reflexivity.
Qed.

Lemma momentum_rising h m : StronglySorted Rle (valid_obs h) -> fast_minus_slow h = Some m -> 0 <= m.
Proof.
  intros Hs E. unfold fast_minus_slow in E. destruct (ema (3 / 10) h) as [f|] eqn:Ef; [|discriminate].
  destruct (ema (1 / 10) h) as [s|] eqn:Es; [|discriminate]. cbn in E. apply some_eq in E. subst m.
  pose proof (ema_rising (3 / 10) (1 / 10) h f s ltac:(lra) ltac:(lra) Hs Ef Es). lra.
Qed.
Lemma momentum_affine s b h :
  fast_minus_slow (map (option_map (fun x => s * x + b)) h) = option_map (fun x => s * x + 0) (fast_minus_slow h).
Proof.
  unfold fast_minus_slow. rewrite !ema_affine by lra. destruct (ema (3 / 10) h), (ema (1 / 10) h); cbn; auto. f_equal. ring.
Qed.
Lemma momentum_falling h m : StronglySorted Rge (valid_obs h) -> fast_minus_slow h = Some m -> m <= 0.
Proof.
  intros Hs E. pose proof (momentum_affine (-1) 0 h) as A. rewrite E in A. cbn [option_map] in A.
  pose proof (momentum_rising _ _ ltac:(rewrite valid_map; apply sorted_opp; exact Hs) A). lra.
Qed.
Lemma signal_trend h o g : s_signal (processor_view h o) = Fin g ->
  (StronglySorted Rle (valid_obs h) -> 0 <= g) /\ (StronglySorted Rge (valid_obs h) -> g <= 0).
Proof.
  intros E. destruct (Nat.eq_dec (count_obs h) 0) as [Hc|Hc].
  { destruct (signal_silent h o Hc) as (_ & _ & _ & _ & E'). congruence. }
  destruct (signal_bounds h o Hc) as (m & v & g' & Em & _ & Eg & _ & _ & P & N).
  rewrite Eg in E. injection E as ->.
  assert (Em' : fast_minus_slow h = Some m).
  { unfold processor_view in Em. cbn in Em. destruct (fast_minus_slow h); cbn in Em; congruence. }
  split; intros Hs.
  - pose proof (momentum_rising h m Hs Em'). destruct (Rle_or_lt 0 g); [assumption|]. apply N in H0. lra.
  - pose proof (momentum_falling h m Hs Em'). destruct (Rle_or_lt g 0); [assumption|]. apply P in H0. lra.
Qed.

(** all prices shifted by b *)
Lemma last_map {A B} (f : A -> B) l d : last (map f l) (f d) = f (last l d).
Proof. induction l as [|x [|y l] IH]; cbn in *; auto. Qed.
Lemma distances_shift b h : distances (map (option_map (fun x => 1 * x + b)) h) = distances h.
Proof.
  unfold distances, prefixes. rewrite map_length, !map_map. apply map_ext. intros i. rewrite firstn_map.
  unfold distance_to_slow. rewrite ema_affine by lra. set (q := firstn i h).
  change (@None R) with (option_map (fun x => 1 * x + b) None) at 1. rewrite last_map.
  destruct (last q None), (ema (1 / 10) q); cbn; auto. f_equal. f_equal. ring.
Qed.
Lemma signal_shift b h o o' :
  let h' := map (option_map (fun x => x + b)) h in
  s_momentum (processor_view h' o') = s_momentum (processor_view h o) /\
  s_volatility (processor_view h' o') = s_volatility (processor_view h o) /\
  s_signal (processor_view h' o') = s_signal (processor_view h o).
Proof.
  cbv zeta. rewrite (map_ext (option_map (fun x => x + b)) (option_map (fun x => 1 * x + b))).
  2:{ intros [x|]; cbn; [f_equal; ring|reflexivity]. }
  unfold processor_view. cbn [s_momentum s_volatility s_signal]. unfold trading_signal, average_distance.
  rewrite distances_shift, momentum_affine.
  assert (E : option_map (fun x => 1 * x + 0) (fast_minus_slow h) = fast_minus_slow h)
    by (destruct (fast_minus_slow h); cbn; [f_equal; ring|reflexivity]).
  rewrite E. auto.
Qed.
