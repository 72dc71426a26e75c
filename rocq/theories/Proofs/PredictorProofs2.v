(** C140: adaptive_price_predictor. *)
From Coq Require Import List Arith ZArith Reals Lra Lia Bool.
From Verif Require Import Model.Unroll Model.Float Model.Modules Model.Ewm Model.FlaxModules Model.FlaxCore Model.Compositions
  Model.Predictors Spec.EwmSpec Spec.FlaxSpec Spec.CompositionSpec Spec.PredictorSpec
  Proofs.ListFacts Proofs.FloatFacts Proofs.RunFacts Proofs.EwmFacts Proofs.CompositionProofs Proofs.PredictorProofs.
Import ListNotations.
Local Open Scope R_scope.

(** discounted sums *)
Fixpoint disc (b : R) (l : list R) : R := match l with [] => 0 | x :: r => b ^ length r * x + disc b r end.
Lemma disc_snoc b l x : disc b (l ++ [x]) = b * disc b l + x.
Proof.
  induction l as [|a l IH]; cbn; [ring|]. rewrite IH, app_length. cbn [length]. rewrite Nat.add_1_r. cbn [pow]. ring.
Qed.
Definition ones (l : list R) : list R := map (fun _ => 1) l.
Definition sqs (l : list R) : list R := map (fun g => g ^ 2) l.
Lemma disc_ones b l : (1 - b) * disc b (ones l) = 1 - b ^ length l.
Proof.
  induction l as [|a l IH]; cbn [ones map disc length]; [cbn; ring|]. unfold ones in *. rewrite Rmult_plus_distr_l, IH, map_length. cbn [pow]. ring.
Qed.
Lemma disc_aged b l : sum_over (fun p => b ^ fst p * snd p) (aged false (known l)) = disc b l.
Proof.
  unfold known. induction l as [|x l IH]; [reflexivity|]. unfold sum_over in *. cbn [map aged fold_right disc fst snd]. rewrite IH, map_length. reflexivity.
Qed.
Lemma disc_aged1 b l : sum_over (fun p => b ^ fst p) (aged false (known l)) = disc b (ones l).
Proof.
  unfold known, ones. induction l as [|x l IH]; [reflexivity|]. unfold sum_over in *. cbn [map aged fold_right disc fst snd]. rewrite IH, !map_length. ring.
Qed.
Lemma average_disc a l : l <> [] -> average a l = disc (1 - a) l / disc (1 - a) (ones l).
Proof.
  intros H. unfold average, ema, exp_average. destruct (aged false (known l)) as [|q r] eqn:E.
  - destruct l; [congruence|]. discriminate E.
  - rewrite <- E. unfold exp_weighted_mean. rewrite disc_aged, disc_aged1. reflexivity.
Qed.

Lemma disc_nonneg b l : 0 <= b -> Forall (fun x => 0 <= x) l -> 0 <= disc b l.
Proof.
  intros Hb H. induction H as [|x l Hx H IH]; cbn; [lra|]. pose proof (pow_le b (length l) Hb). nra.
Qed.
Lemma ones_nonneg l : Forall (fun x => 0 <= x) (ones l).
Proof. apply Forall_map, Forall_forall. intros; lra. Qed.
Lemma sqs_nonneg l : Forall (fun x => 0 <= x) (sqs l).
Proof. apply Forall_map, Forall_forall. intros; apply pow2_ge_0. Qed.
Lemma disc_ones_pos b l : 0 <= b -> l <> [] -> 0 < disc b (ones l).
Proof.
  intros Hb Hl. destruct l as [|x l _] using rev_ind; [congruence|]. unfold ones. rewrite map_app. cbn [map]. rewrite disc_snoc.
  pose proof (disc_nonneg b (ones l) Hb (ones_nonneg l)). unfold ones in H. nra.
Qed.
Lemma jensen b l : 0 <= b -> disc b l ^ 2 <= disc b (ones l) * disc b (sqs l).
Proof.
  intros Hb. induction l as [|x l IH] using rev_ind; [cbn; lra|].
  unfold ones, sqs in *. rewrite !map_app. cbn [map]. rewrite !disc_snoc.
  pose proof (disc_nonneg b _ Hb (ones_nonneg l)) as HD. pose proof (disc_nonneg b _ Hb (sqs_nonneg l)) as HM.
  unfold ones, sqs in *. set (N := disc b l) in *. set (D := disc b (map (fun _ => 1) l)) in *.
  set (M := disc b (map (fun g => g ^ 2) l)) in *.
  assert (K : 0 <= D * x ^ 2 + M - 2 * N * x).
  { destruct (Req_dec D 0) as [E|E].
    - assert (N = 0) by (rewrite E in IH; nra). rewrite E, H. lra.
    - assert (0 < D) by lra. apply (Rmult_le_reg_l D); [exact H|]. rewrite Rmult_0_r.
      assert (0 <= (D * x - N) ^ 2) by apply pow2_ge_0. nra. }
  assert (0 <= b * (D * x ^ 2 + M - 2 * N * x)) by (apply Rmult_le_pos; assumption).
  assert (b ^ 2 * N ^ 2 <= b ^ 2 * (D * M)) by (apply Rmult_le_compat_l; [apply pow2_ge_0|exact IH]).
  nra.
Qed.
Lemma disc_mono b b' l : 0 <= b <= b' -> Forall (fun x => 0 <= x) l -> disc b l <= disc b' l.
Proof.
  intros Hb H. induction H as [|x l Hx H IH]; cbn; [lra|].
  pose proof (pow_incr b b' (length l) Hb). nra.
Qed.

Lemma adam_bound gs : Rabs (average (1 / 10) gs) <= 10 * sqrt (average (1 / 1000) (sqs gs)).
Proof.
  destruct gs as [|g0 gs0] eqn:E0; [cbn; rewrite Rabs_R0; pose proof (sqrt_pos 0) as H; unfold average, known, sqs; cbn; lra|].
  rewrite <- E0. assert (Hne : gs <> []) by (rewrite E0; discriminate). clear E0 g0 gs0.
  assert (Hne2 : sqs gs <> []) by (unfold sqs; destruct gs; [congruence|discriminate]).
  rewrite (average_disc _ gs Hne), (average_disc _ _ Hne2).
  assert (Eo : ones (sqs gs) = ones gs) by (unfold ones, sqs; rewrite map_map; reflexivity). rewrite Eo.
  set (b1 := 1 - 1 / 10). set (b2 := 1 - 1 / 1000).
  pose proof (disc_ones_pos b1 gs ltac:(unfold b1; lra) Hne) as D1.
  pose proof (disc_ones_pos b2 gs ltac:(unfold b2; lra) Hne) as D2.
  pose proof (jensen b1 gs ltac:(unfold b1; lra)) as J.
  pose proof (disc_mono b1 b2 (sqs gs) ltac:(unfold b1, b2; lra) (sqs_nonneg gs)) as Mm.
  pose proof (disc_nonneg b1 _ ltac:(unfold b1; lra) (sqs_nonneg gs)) as M1.
  assert (Dr : disc b2 (ones gs) <= 100 * disc b1 (ones gs)).
  { pose proof (disc_ones b1 gs) as H1. pose proof (disc_ones b2 gs) as H2.
    pose proof (pow_incr b1 b2 (length gs) ltac:(unfold b1, b2; lra)) as Hp.
    assert (X1 : disc b1 (ones gs) = 10 * (1 - b1 ^ length gs)) by (rewrite <- H1; unfold b1; field).
    assert (X2 : disc b2 (ones gs) = 1000 * (1 - b2 ^ length gs)) by (rewrite <- H2; unfold b2; field).
    rewrite X1, X2. lra. }
  set (N := disc b1 gs) in *. set (A := disc b1 (ones gs)) in *. set (B := disc b2 (ones gs)) in *.
  set (P := disc b1 (sqs gs)) in *. set (Q := disc b2 (sqs gs)) in *.
  assert (Hq : 0 <= Q / B) by (apply Rmult_le_pos; [lra|left; now apply Rinv_0_lt_compat]).
  apply Rsqr_incr_0_var; [|pose proof (sqrt_pos (Q / B)); lra].
  rewrite <- Rsqr_abs, Rsqr_mult, Rsqr_sqrt by exact Hq. unfold Rsqr.
  apply (Rmult_le_reg_l (A * A)); [nra|].
  replace (A * A * (N / A * (N / A))) with (N ^ 2) by (field; lra).
  apply Rle_trans with (A * P); [exact J|].
  assert (P <= A * (10 * 10 * (Q / B))).
  { apply Rle_trans with Q; [exact Mm|]. apply (Rmult_le_reg_r B); [exact D2|].
    replace (A * (10 * 10 * (Q / B)) * B) with (100 * A * Q) by (field; lra). nra. }
  nra.
Qed.

Lemma adam_move_bound lr gs : 0 <= lr -> Rabs (adam_move lr gs) <= 10 * lr.
Proof.
  intros Hl. unfold adam_move. rewrite Rabs_mult, (Rabs_pos_eq lr Hl).
  assert (H : Rabs (average (1 / 10) gs / (sqrt (average (1 / 1000) (map (fun g => g ^ 2) gs)) + 1 / 10 ^ 8)) <= 10).
  { pose proof (adam_bound gs) as B. unfold sqs in B. set (v := sqrt _) in *. pose proof (sqrt_pos (average (1 / 1000) (map (fun g => g ^ 2) gs))) as Hv.
    fold v in Hv. assert (He : 0 < 1 / 10 ^ 8) by (apply Rdiv_lt_0_compat; [lra|apply pow_lt; lra]).
    set (e := 1 / 10 ^ 8) in *. clearbody e. unfold Rdiv. rewrite Rabs_mult, Rabs_inv, (Rabs_pos_eq (v + e)) by lra.
    apply (Rmult_le_reg_r (v + e)); [lra|]. rewrite Rmult_assoc, Rinv_l by lra. lra. }
  nra.
Qed.
Lemma adam_scale_bound lr pys : 0 <= lr -> Rabs (adam_scale lr pys - 1) <= 10 * lr * INR (length pys).
Proof.
  intros Hl. unfold adam_scale. induction pys as [|py l IH] using rev_ind.
  - cbn. rewrite Rminus_diag_eq, Rabs_R0 by reflexivity. lra.
  - rewrite fold_left_app, app_length. cbn [fold_left length]. unfold adam_step at 1. cbn [fst].
    rewrite Nat.add_1_r, S_INR. set (a := fold_left _ l _) in *.
    set (m := adam_move _ _). pose proof (adam_move_bound lr (snd a ++ [slope (fst py) (snd py) (fst a)]) Hl) as B. fold m in B.
    replace (fst a - m - 1) with ((fst a - 1) + - m) by ring.
    eapply Rle_trans; [apply Rabs_triang|]. rewrite Rabs_Ropp. lra.
Qed.

(** the optimizer state *)
Definition adam_state (gs : list R) : nat * fl * fl :=
  (length gs, Fin ((1 - adam_b1) * disc adam_b1 gs), Fin ((1 - adam_b2) * disc adam_b2 (sqs gs))).
Lemma fdiv_fin a b : b <> 0 -> fdiv (Fin a) (Fin b) = Fin (a / b).
Proof. intros H. cbn. unfold Req_b. destruct (Req_EM_T b 0); [contradiction|reflexivity]. Qed.
Lemma pow_small b n : 0 <= b < 1 -> (0 < n)%nat -> b ^ n < 1.
Proof. intros Hb Hn. destruct n; [lia|]. cbn. pose proof (pow_incr b 1 n ltac:(lra)) as H. rewrite pow1 in H. pose proof (pow_le b n ltac:(lra)). nra. Qed.
Lemma adam_update lr gs g p :
  ox_update (optax_adam lr) (Fin g) (adam_state gs) p = (Fin (- adam_move lr (gs ++ [g])), adam_state (gs ++ [g])).
Proof.
  unfold adam_state. cbn [ox_update optax_adam]. unfold sqs. rewrite map_app, !app_length. cbn [map length].
  rewrite !disc_snoc. cbn [fmul fadd]. set (gs' := gs ++ [g]).
  assert (Hne : gs' <> []) by (unfold gs'; destruct gs; discriminate).
  assert (Hlen : (length gs + 1)%nat = length gs') by (unfold gs'; rewrite app_length; reflexivity). rewrite Hlen.
  assert (E1 : (1 - adam_b1) * g + adam_b1 * ((1 - adam_b1) * disc adam_b1 gs) = (1 - adam_b1) * disc adam_b1 gs')
    by (unfold gs'; rewrite disc_snoc; ring).
  assert (E2 : (1 - adam_b2) * (g * g) + adam_b2 * ((1 - adam_b2) * disc adam_b2 (map (fun x => x ^ 2) gs)) =
               (1 - adam_b2) * disc adam_b2 (sqs gs'))
    by (unfold gs', sqs; rewrite map_app; cbn [map]; rewrite disc_snoc; ring).
  rewrite E1, E2.
  assert (L1 : 0 < 1 - adam_b1 ^ length gs').
  { pose proof (pow_small adam_b1 (length gs') ltac:(unfold adam_b1; lra)) as H. lapply H; [lra|]. rewrite <- Hlen; lia. }
  assert (L2 : 0 < 1 - adam_b2 ^ length gs').
  { pose proof (pow_small adam_b2 (length gs') ltac:(unfold adam_b2; lra)) as H. lapply H; [lra|]. rewrite <- Hlen; lia. }
  rewrite !fdiv_fin by lra.
  pose proof (disc_ones adam_b1 gs') as O1. pose proof (disc_ones adam_b2 gs') as O2.
  pose proof (disc_ones_pos adam_b1 gs' ltac:(unfold adam_b1; lra) Hne) as P1.
  pose proof (disc_ones_pos adam_b2 gs' ltac:(unfold adam_b2; lra) Hne) as P2.
  assert (A1 : (1 - adam_b1) * disc adam_b1 gs' / (1 - adam_b1 ^ length gs') = average (1 / 10) gs').
  { rewrite (average_disc _ _ Hne). replace (1 - 1 / 10) with adam_b1 by (unfold adam_b1; field). rewrite <- O1.
    field. split; [lra|unfold adam_b1; lra]. }
  assert (A2 : (1 - adam_b2) * disc adam_b2 (sqs gs') / (1 - adam_b2 ^ length gs') = average (1 / 1000) (sqs gs')).
  { assert (Hne2 : sqs gs' <> []) by (unfold sqs; destruct gs'; [congruence|discriminate]).
    rewrite (average_disc _ _ Hne2). replace (1 - 1 / 1000) with adam_b2 by (unfold adam_b2; field).
    assert (Eo : ones (sqs gs') = ones gs') by (unfold ones, sqs; rewrite map_map; reflexivity). rewrite Eo, <- O2.
    field. split; [lra|unfold adam_b2; lra]. }
  rewrite A1, A2.
  assert (A0 : 0 <= average (1 / 1000) (sqs gs')).
  { rewrite <- A2. apply Rmult_le_pos; [|left; apply Rinv_0_lt_compat; lra]. apply Rmult_le_pos; [unfold adam_b2; lra|].
    apply disc_nonneg; [unfold adam_b2; lra|apply sqs_nonneg]. }
  cbn [fsqrt]. unfold Rlt_b. destruct (Rlt_dec (average (1 / 1000) (sqs gs')) 0) as [H|_]; [lra|].
  cbn [fadd]. rewrite fdiv_fin.
  2:{ pose proof (sqrt_pos (average (1 / 1000) (sqs gs'))). assert (0 < adam_eps) by (unfold adam_eps; apply Rdiv_lt_0_compat; [lra|apply pow_lt; lra]). lra. }
  cbn [fmul]. unfold adam_move. fold (sqs gs'). unfold adam_eps.
  f_equal; [f_equal; ring|]. unfold gs', sqs. rewrite map_app. cbn [map]. rewrite !disc_snoc. reflexivity.
Qed.

Definition adaptive_module (fm : R) :=
  learner (adaptive_model fm) (fun x : fl * fl => [fst x; snd x]) (optax_adam (1 / 1000)).
Lemma average_known a l m : ema a (known l) = Some m -> average a l = m.
Proof. intros H. unfold average. now rewrite H. Qed.
Lemma ema_known a l x : exists m, ema a (known (l ++ [x])) = Some m.
Proof.
  unfold ema, exp_average. destruct (aged false (known (l ++ [x]))) eqn:E; [|eexists; reflexivity].
  destruct l; discriminate E.
Qed.
Lemma adaptive_step fm (h : list (R * R)) x :
  let acc := fold_left (adam_step (1 / 1000)) (compared adaptive_value snd h) (1, []) in
  let v := adaptive_value (h ++ [x]) in
  fx_call (adaptive_module fm)
    (steps (ema_call fm (com_of_alpha (1 / 10))) ema_vars (map of_option (known (map fst h))), (Fin (fst acc), adam_state (snd acc)))
    (finite2 x) =
  ((Fin (squared_error v (snd x) (fst acc)), Fin v, tt),
   (steps (ema_call fm (com_of_alpha (1 / 10))) ema_vars (map of_option (known (map fst (h ++ [x])))),
    (let acc' := adam_step (1 / 1000) acc (v, snd x) in (Fin (fst acc'), adam_state (snd acc'))))).
Proof.
  cbv zeta. destruct x as [f y]. set (acc := fold_left _ _ _).
  unfold adaptive_module, learner, finite2. cbn [fx_call fst snd]. unfold learn_call. cbn [fst snd fx_call adaptive_model].
  pose proof (ema_after fm (1 / 10) (known (map fst h)) (Some f) ltac:(lra)) as E1. cbn [of_option] in E1.
  assert (Est : steps (ema_call fm (com_of_alpha (1 / 10))) ema_vars (map of_option (known (map fst (h ++ [(f, y)])))) =
    snd (ema_call fm (com_of_alpha (1 / 10)) (steps (ema_call fm (com_of_alpha (1 / 10))) ema_vars (map of_option (known (map fst h)))) (Fin f))).
  { unfold known. rewrite !map_app, steps_app. reflexivity. }
  rewrite Est. destruct (ema_call fm (com_of_alpha (1 / 10)) _ (Fin f)) as [a s1]. cbn [fst snd] in *. subst a.
  assert (Ek : known (map fst h) ++ [Some f] = known (map fst (h ++ [(f, y)]))) by (unfold known; rewrite !map_app; reflexivity).
  rewrite Ek. destruct (ema_known (1 / 10) (map fst h) f) as [m Hm].
  assert (Em : ema (1 / 10) (known (map fst (h ++ [(f, y)]))) = Some m) by (rewrite map_app; exact Hm). rewrite Em.
  assert (Ev : adaptive_value (h ++ [(f, y)]) = m * (11 / 10)) by (unfold adaptive_value; rewrite (average_known _ _ _ Em); ring).
  rewrite Ev. set (v := m * (11 / 10)). cbn [of_option fmul second_argument]. fold v.
  assert (Eg : scale_grad (Fin v) (Fin y) (Fin (fst acc)) = Fin (slope v y (fst acc))) by (cbn; unfold slope; f_equal; ring).
  rewrite Eg, adam_update. unfold adam_step. cbn [fst snd fadd]. unfold scale_loss, squared_error. cbn [fmul fsub fneg fadd].
  repeat f_equal; ring.
Qed.

Lemma adaptive_state fm (h : list (R * R)) x0 :
  let acc := fold_left (adam_step (1 / 1000)) (compared adaptive_value snd h) (1, []) in
  steps (fx_call (adaptive_module fm)) (fx_vars (adaptive_module fm) x0) (map finite2 h) =
  (steps (ema_call fm (com_of_alpha (1 / 10))) ema_vars (map of_option (known (map fst h))), (Fin (fst acc), adam_state (snd acc))).
Proof.
  induction h as [|x h IH] using rev_ind.
  - cbn. unfold adam_state. cbn. rewrite !Rmult_0_r. reflexivity.
  - cbv zeta in *. rewrite compared_snoc, fold_left_app, map_app, steps_app, IH. cbn [map steps].
    rewrite adaptive_step. reflexivity.
Qed.

Lemma adaptive_ok fm x0 xs t x : nth_error xs t = Some x ->
  let h := seen x0 xs t in
  let s := adam_scale (1 / 1000) (compared adaptive_value snd (x0 :: firstn t xs)) in
  nth_error (session (adaptive_price_predictor fm) (finite2 x0) (map finite2 xs)) t =
  Some (Fin (squared_error (adaptive_value h) (snd x) s), Fin (adaptive_value h), tt).
Proof.
  intros Hx. cbv zeta. unfold adaptive_price_predictor. fold (adaptive_module fm).
  rewrite (session_nth _ _ _ t (finite2 x)) by now rewrite nth_error_map, Hx.
  rewrite firstn_map. change (finite2 x0 :: map finite2 (firstn t xs)) with (map finite2 (x0 :: firstn t xs)).
  rewrite (seen_snoc _ _ _ _ Hx). set (h := x0 :: firstn t xs). rewrite adaptive_state, adaptive_step. reflexivity.
Qed.
Lemma adaptive_slow x0 (xs : list (R * R)) t : (t < length xs)%nat ->
  Rabs (adam_scale (1 / 1000) (compared adaptive_value snd (x0 :: firstn t xs)) - 1) <= INR (t + 1) / 100.
Proof.
  intros Ht. eapply Rle_trans; [apply adam_scale_bound; lra|].
  rewrite compared_length. cbn [length]. rewrite firstn_length, Nat.min_l by lia. rewrite Nat.add_1_r. lra.
Qed.

(** whatever is missing, the predictions; and a missing target ends the learning *)
Lemma adaptive_ema fm (h : list (option R * option R)) x0 :
  fst (steps (fx_call (adaptive_module fm)) (fx_vars (adaptive_module fm) x0) (map call2 h)) =
  steps (ema_call fm (com_of_alpha (1 / 10))) ema_vars (map of_option (map fst h)).
Proof.
  induction h as [|[f y] h IH] using rev_ind; [reflexivity|].
  rewrite !map_app, !steps_app. cbn [map steps]. destruct (steps _ (fx_vars _ _) _) as [s [sc o]]. cbn [fst] in IH. subst s.
  unfold adaptive_module, learner, call2. cbn [fx_call fst snd]. unfold learn_call. cbn [fst snd fx_call adaptive_model].
  destruct (ema_call fm (com_of_alpha (1 / 10)) _ (of_option f)) as [a s1].
  destruct (ox_update _ _ _ _). reflexivity.
Qed.
Lemma adaptive_predictions fm x0 xs t x : nth_error xs t = Some x ->
  option_map (fun y => snd (fst y)) (nth_error (session (adaptive_price_predictor fm) (call2 x0) (map call2 xs)) t) =
  Some (of_option (adaptive_prediction (map fst (seen x0 xs t)))).
Proof.
  intros Hx. unfold adaptive_price_predictor. fold (adaptive_module fm).
  rewrite (session_nth _ _ _ t (call2 x)) by now rewrite nth_error_map, Hx.
  rewrite firstn_map. change (call2 x0 :: map call2 (firstn t xs)) with (map call2 (x0 :: firstn t xs)).
  rewrite (seen_snoc _ _ _ _ Hx). set (h := x0 :: firstn t xs). cbn [option_map]. f_equal.
  pose proof (adaptive_ema fm h (call2 x0)) as E. destruct (steps _ (fx_vars _ _) _) as [s [sc o]]. cbn [fst] in E. subst s.
  destruct x as [f y]. unfold adaptive_module, learner, call2. cbn [fx_call fst snd]. unfold learn_call. cbn [fst snd fx_call adaptive_model].
  pose proof (ema_after fm (1 / 10) (map fst h) f ltac:(lra)) as E1.
  destruct (ema_call fm (com_of_alpha (1 / 10)) _ (of_option f)) as [a s1]. cbn [fst] in E1. subst a.
  destruct (ox_update _ _ _ _). cbn [fst snd]. unfold adaptive_prediction. rewrite map_app. cbn [map fst].
  destruct (ema (1 / 10) _); cbn; [f_equal; ring|reflexivity].
Qed.
Lemma fadd_nan_r a : fadd a NaN = NaN. Proof. destruct a; reflexivity. Qed.
Lemma fmul_nan_r a : fmul a NaN = NaN. Proof. destruct a; reflexivity. Qed.
Lemma nan_scale fm s o x : exists p s' o', fx_call (adaptive_module fm) (s, (NaN, o)) x = ((NaN, p, tt), (s', (NaN, o'))).
Proof.
  destruct x as [f y]. unfold adaptive_module, learner. cbn [fx_call]. unfold learn_call. cbn [fst snd fx_call adaptive_model].
  destruct (ema_call _ _ _ _) as [a s1]. destruct (ox_update _ _ _ _) as [u o'].
  unfold scale_loss. rewrite fmul_nan_r. cbn. repeat eexists.
Qed.
Lemma nan_target fm s sc o f : exists p s' o', fx_call (adaptive_module fm) (s, (sc, o)) (f, NaN) = ((NaN, p, tt), (s', (NaN, o'))).
Proof.
  unfold adaptive_module, learner. cbn [fx_call]. unfold learn_call. cbn [fst snd fx_call adaptive_model].
  destruct (ema_call _ _ _ _) as [a s1]. destruct o as [[n mu] nu].
  unfold scale_loss, scale_grad, second_argument. unfold fsub, fneg. rewrite fadd_nan_r. cbn [fmul ox_update optax_adam].
  rewrite fadd_nan_r. repeat eexists.
Qed.

Lemma nan_after fm (h : list (option R * option R)) x0 : In None (map snd h) ->
  exists s o, steps (fx_call (adaptive_module fm)) (fx_vars (adaptive_module fm) x0) (map call2 h) = (s, (NaN, o)).
Proof.
  induction h as [|[f y] h IH] using rev_ind; [intros []|]. rewrite !map_app, in_app_iff, steps_app. cbn [map steps snd].
  intros [H|[H|[]]].
  - destruct (IH H) as (s & o & E). rewrite E. destruct (nan_scale fm s o (call2 (f, y))) as (p & s' & o' & E').
    rewrite E'. cbn. eauto.
  - subst y. destruct (steps _ (fx_vars _ _) _) as [s [sc o]]. destruct (nan_target fm s sc o (of_option f)) as (p & s' & o' & E).
    unfold call2. cbn [fst snd of_option]. rewrite E. cbn. eauto.
Qed.
Lemma adaptive_missing fm x0 xs t x : nth_error xs t = Some x -> In None (map snd (seen x0 xs t)) ->
  option_map (fun y => fst (fst y)) (nth_error (session (adaptive_price_predictor fm) (call2 x0) (map call2 xs)) t) = Some NaN.
Proof.
  intros Hx Hn. unfold adaptive_price_predictor. fold (adaptive_module fm).
  rewrite (session_nth _ _ _ t (call2 x)) by now rewrite nth_error_map, Hx.
  rewrite firstn_map. change (call2 x0 :: map call2 (firstn t xs)) with (map call2 (x0 :: firstn t xs)).
  rewrite (seen_snoc _ _ _ _ Hx), map_app, in_app_iff in Hn. set (h := x0 :: firstn t xs) in *. cbn [option_map]. f_equal.
  destruct Hn as [Hn|[Hn|[]]].
  - destruct (nan_after fm h (call2 x0) Hn) as (s & o & E). rewrite E.
    destruct (nan_scale fm s o (call2 x)) as (p & s' & o' & E'). rewrite E'. reflexivity.
  - destruct x as [f y]. cbn [snd] in Hn. subst y. destruct (steps _ (fx_vars _ _) _) as [s [sc o]].
    destruct (nan_target fm s sc o (of_option f)) as (p & s' & o' & E). unfold call2. cbn [fst snd of_option]. rewrite E. reflexivity.
Qed.
