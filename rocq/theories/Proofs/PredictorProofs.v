(** C139: ensemble_predictor. *)
From Coq Require Import List Arith ZArith Reals Lra Lia Bool.
From Verif Require Import Model.Unroll Model.Float Model.Modules Model.Ewm Model.FlaxModules Model.FlaxCore Model.Compositions
  Model.Predictors Spec.EwmSpec Spec.FlaxSpec Spec.CompositionSpec Spec.PredictorSpec
  Proofs.ListFacts Proofs.FloatFacts Proofs.RunFacts Proofs.EwmFacts Proofs.CompositionProofs Proofs.SplitProofs2.
Import ListNotations.
Local Open Scope R_scope.

Lemma compared_snoc {X Y Z} (f : list X -> Y) (g : X -> Z) h x :
  compared f g (h ++ [x]) = compared f g h ++ [(f (h ++ [x]), g x)].
Proof.
  unfold compared. rewrite prefixes_snoc, !map_app. cbn [map].
  assert (E : length (map f (prefixes h)) = length (map g h)).
  { unfold prefixes. now rewrite !map_length, seq_length. }
  revert E. generalize (map f (prefixes h)) (map g h). intros l; induction l as [|a l IH]; intros [|b m] E; try discriminate E.
  - reflexivity.
  - cbn. rewrite IH by (cbn in E; lia). reflexivity.
Qed.
Lemma compared_length {X Y Z} (f : list X -> Y) (g : X -> Z) h : length (compared f g h) = length h.
Proof.
  unfold compared, prefixes. rewrite combine_length, !map_length, seq_length. apply Nat.min_id.
Qed.

Lemma descend_snoc lr l py :
  descend lr (l ++ [py]) = with_all (fun p y s => s - lr * slope p y s) (fst py) (snd py) (descend lr l).
Proof. unfold descend. rewrite fold_left_app. reflexivity. Qed.

Lemma sgd_scale (p y s : option R) lr :
  fadd (of_option s) (fmul (Fin (- lr)) (scale_grad (of_option p) (of_option y) (of_option s))) =
  of_option (with_all (fun p y s => s - lr * slope p y s) p y s).
Proof.
  destruct p as [p|], y as [y|], s as [s|]; cbn; try reflexivity. unfold slope. f_equal. ring.
Qed.
Lemma loss_of (p y s : option R) :
  scale_loss (of_option p) (of_option y) (of_option s) = of_option (with_all squared_error p y s).
Proof. destruct p as [p|], y as [y|], s as [s|]; cbn; try reflexivity. unfold squared_error. f_equal. ring. Qed.

Lemma ensemble_of h a b :
  a = ema (2 / 10) (map fst h) -> b = ema (15 / 100) (map snd h) ->
  fdiv (fadd (fmul (of_option a) (Fin (105 / 100))) (fmul (of_option b) (Fin (1 / 1000)))) (Fin 2) =
  of_option (ensemble_prediction h).
Proof.
  intros -> ->. unfold ensemble_prediction. destruct (ema (2 / 10) _) as [a|]; [|reflexivity].
  destruct (ema (15 / 100) _) as [b|]; [|reflexivity]. cbn. unfold Req_b. destruct (Req_EM_T 2 0); [lra|]. f_equal. lra.
Qed.
Lemma times_of c o : fmul (of_option o) (Fin c) = of_option (times c o).
Proof. destruct o; cbn; [f_equal; lra|reflexivity]. Qed.

Lemma ensemble_state fm (h : list ((option R * option R) * fl)) :
  let l := learner (ensemble_model fm) (fun x => let '(p, v, t) := x in [p; v; t]) (optax_sgd (1 / 100)) in
  let g := map fst h in
  steps (fx_call l) (fx_vars l (call3 ((None, None), NaN))) (map call3 h) =
  ((steps (ema_call fm (com_of_alpha (2 / 10))) ema_vars (map of_option (map fst g)),
    steps (ema_call fm (com_of_alpha (15 / 100))) ema_vars (map of_option (map snd g))),
   (of_option (descend (1 / 100) (compared ensemble_prediction snd g)), tt)).
Proof.
  intros l. induction h as [|[[p v] u] h IH] using rev_ind; [reflexivity|].
  cbv zeta in *. rewrite !map_app, !steps_app, IH. cbn [map steps fst snd]. rewrite compared_snoc, descend_snoc.
  cbn [fst snd]. unfold l, learner, call3, call2. cbn [fx_call fst snd]. unfold learn_call. cbn [fst snd fx_call ensemble_model].
  set (g := map fst h).
  pose proof (ema_after fm (2/10) (map fst g) p ltac:(lra)) as E1.
  pose proof (ema_after fm (15/100) (map snd g) v ltac:(lra)) as E2.
  destruct (ema_call fm (com_of_alpha (2 / 10)) _ (of_option p)) as [a s1].
  destruct (ema_call fm (com_of_alpha (15 / 100)) _ (of_option v)) as [b s2]. cbn [fst snd] in *. subst a b.
  cbn [second_argument ox_update optax_sgd]. rewrite (ensemble_of (g ++ [(p, v)])) by (rewrite map_app; reflexivity).
  rewrite sgd_scale. reflexivity.
Qed.

Lemma ensemble_ok fm x0 xs t x : nth_error xs t = Some x ->
  let h := map fst (seen x0 xs t) in
  let p := ensemble_prediction h in
  let s := descend (1 / 100) (compared ensemble_prediction snd (map fst (x0 :: firstn t xs))) in
  nth_error (session (ensemble_predictor fm) (call3 x0) (map call3 xs)) t =
  Some (of_option (with_all squared_error p (snd (fst x)) s), of_option p,
        EnsembleAux (of_option (times (105 / 100) (ema (2 / 10) (map fst h))))
                    (of_option (times (1 / 1000) (ema (15 / 100) (map snd h))))
                    (of_option (ema (2 / 10) (map fst h))) (of_option (ema (15 / 100) (map snd h)))).
Proof.
  intros Hx. cbv zeta. unfold ensemble_predictor. rewrite (session_nth _ _ _ t (call3 x)) by now rewrite nth_error_map, Hx.
  rewrite firstn_map. change (call3 x0 :: map call3 (firstn t xs)) with (map call3 (x0 :: firstn t xs)).
  rewrite (seen_snoc _ _ _ _ Hx). set (h := x0 :: firstn t xs).
  pose proof (ensemble_state fm h) as E. cbv zeta in E. cbn [fx_vars learner] in E |- *. 
  change (fx_vars (ensemble_model fm) (call3 x0)) with (fx_vars (ensemble_model fm) (call3 ((None, None), NaN))).
  rewrite E. clear E. destruct x as [[p v] u]. rewrite map_app. cbn [map fst snd].
  set (g := map fst h). unfold call3, call2. cbn [fx_call fst snd learner]. unfold learn_call. cbn [fst snd fx_call ensemble_model].
  pose proof (ema_after fm (2/10) (map fst g) p ltac:(lra)) as E1.
  pose proof (ema_after fm (15/100) (map snd g) v ltac:(lra)) as E2.
  destruct (ema_call fm (com_of_alpha (2 / 10)) _ (of_option p)) as [a s1].
  destruct (ema_call fm (com_of_alpha (15 / 100)) _ (of_option v)) as [b s2]. cbn [fst snd] in *. subst a b.
  cbn [second_argument ox_update optax_sgd]. rewrite (ensemble_of (g ++ [(p, v)])) by (rewrite map_app; reflexivity).
  rewrite loss_of, !times_of, !map_app. reflexivity.
Qed.

(** The target is not used *)
Lemma ensemble_blind fm x0 xs x0' xs' : map fst (x0 :: xs) = map fst (x0' :: xs') ->
  session (ensemble_predictor fm) (call3 x0) (map call3 xs) = session (ensemble_predictor fm) (call3 x0') (map call3 xs').
Proof.
  intros H. assert (L : length xs = length xs').
  { apply (f_equal (@length _)) in H. rewrite !map_length in H. cbn in H. lia. }
  assert (Hlen : forall x0 xs, length (session (ensemble_predictor fm) (call3 x0) (map call3 xs)) = length xs).
  { intros y0 ys. unfold session. destruct (t_init _ _ _) as [p s]. rewrite <- (map_length call3 ys). generalize (map call3 ys). clear.
    intros l; revert s; induction l as [|a l IH]; intros s; [reflexivity|]. cbn [applied]. destruct (t_apply _ _ _ _ _) as [y s'].
    cbn [length]. rewrite IH. reflexivity. }
  apply nth_error_ext. intros t. destruct (nth_error xs t) as [x|] eqn:E.
  - destruct (nth_error xs' t) as [x'|] eqn:E'.
    + rewrite (ensemble_ok fm x0 xs t x E), (ensemble_ok fm x0' xs' t x' E').
      assert (Hh : map fst (seen x0 xs t) = map fst (seen x0' xs' t)).
      { unfold seen. change (x0 :: firstn (t + 1) xs) with (firstn (S (t + 1)) (x0 :: xs)).
        change (x0' :: firstn (t + 1) xs') with (firstn (S (t + 1)) (x0' :: xs')). rewrite <- !firstn_map, H. reflexivity. }
      assert (Hg : map fst (x0 :: firstn t xs) = map fst (x0' :: firstn t xs')).
      { change (x0 :: firstn t xs) with (firstn (S t) (x0 :: xs)).
        change (x0' :: firstn t xs') with (firstn (S t) (x0' :: xs')). rewrite <- !firstn_map, H. reflexivity. }
      assert (Hf : fst x = fst x').
      { cbn in H. injection H as _ H. apply (map_nth_error fst) in E, E'. rewrite H in E. congruence. }
      rewrite Hh, Hg, Hf. reflexivity.
    + apply nth_error_None in E'. assert (t < length xs)%nat by (apply nth_error_Some; congruence). lia.
  - apply nth_error_None in E. rewrite (proj2 (nth_error_None _ _)) by (rewrite Hlen; lia).
    symmetry. apply nth_error_None. rewrite Hlen. lia.
Qed.

(** A missing value ends the learning *)
Lemma descend_none lr l : In None (map snd l) -> descend lr l = None.
Proof.
  induction l as [|[p y] l IH] using rev_ind; [intros []|]. rewrite descend_snoc, map_app, in_app_iff. cbn [fst snd map].
  intros [H|[H|[]]].
  - rewrite IH by exact H. destruct p, y; reflexivity.
  - subst y. destruct p; reflexivity.
Qed.
Lemma compared_snd {X Y Z} (f : list X -> Y) (g : X -> Z) h : map snd (compared f g h) = map g h.
Proof.
  induction h as [|x h IH] using rev_ind; [reflexivity|]. rewrite compared_snoc, !map_app, IH. reflexivity.
Qed.
Lemma ensemble_missing fm x0 xs t x : nth_error xs t = Some x ->
  In None (map (fun z => snd (fst z)) (seen x0 xs t)) ->
  option_map (fun y => fst (fst y)) (nth_error (session (ensemble_predictor fm) (call3 x0) (map call3 xs)) t) = Some NaN.
Proof.
  intros Hx Hn. rewrite (ensemble_ok fm x0 xs t x Hx). cbn [option_map fst]. f_equal.
  rewrite (seen_snoc _ _ _ _ Hx), map_app, in_app_iff in Hn. destruct Hn as [Hn|[Hn|[]]].
  - rewrite descend_none. { destruct (ensemble_prediction _), (snd (fst x)); reflexivity. }
    rewrite compared_snd, map_map. exact Hn.
  - rewrite Hn. destruct (ensemble_prediction _); reflexivity.
Qed.

(** Constant prices and volumes *)
Lemma count_repeat (o : R) n : count_obs (repeat (Some o) (S n)) <> 0%nat.
Proof. cbn. lia. Qed.
Lemma valid_repeat (o : R) n : Forall (fun x => x = o) (valid_obs (repeat (Some o) n)).
Proof. induction n; cbn; constructor; auto. Qed.
Lemma map_repeat' {A B} (f : A -> B) a n : map f (repeat a n) = repeat (f a) n.
Proof. induction n; cbn; congruence. Qed.
Lemma ensemble_const P V n :
  ensemble_prediction (repeat (Some P, Some V) (S n)) = Some ((105 / 100 * P + 1 / 1000 * V) / 2).
Proof.
  unfold ensemble_prediction. rewrite !map_repeat'. cbn [fst snd].
  rewrite (ema_const (2/10) _ P ltac:(lra) (count_repeat P n) (valid_repeat P _)).
  rewrite (ema_const (15/100) _ V ltac:(lra) (count_repeat V n) (valid_repeat V _)). reflexivity.
Qed.
Lemma repeat_snoc {A} (a : A) n : repeat a (S n) = repeat a n ++ [a].
Proof. induction n; [reflexivity|]. cbn [repeat app] in *. now rewrite <- IHn. Qed.
Lemma descend_const P V n :
  let p := (105 / 100 * P + 1 / 1000 * V) / 2 in
  exists s, descend (1 / 100) (compared ensemble_prediction snd (repeat (Some P, Some V) n)) = Some s /\
    s * p - V = (1 - p ^ 2 / 50) ^ n * (p - V).
Proof.
  intros p. induction n as [|n (s & E & H)].
  - exists 1. split; [reflexivity|]. cbn. ring.
  - rewrite repeat_snoc, compared_snoc, descend_snoc, E. cbn [fst snd]. rewrite <- repeat_snoc, ensemble_const. fold p.
    cbn [with_all]. eexists. split; [reflexivity|]. unfold slope.
    replace ((s - 1 / 100 * (2 * p * (s * p - V))) * p - V) with ((1 - p ^ 2 / 50) * (s * p - V)) by field.
    rewrite H. cbn [pow]. ring.
Qed.

Lemma firstn_repeat {A} (a : A) n m : (n <= m)%nat -> firstn n (repeat a m) = repeat a n.
Proof. revert m; induction n; intros [|m] H; cbn; [reflexivity..|lia|]. f_equal. apply IHn. lia. Qed.
Lemma nth_repeat' {A} (a : A) t m : (t < m)%nat -> nth_error (repeat a m) t = Some a.
Proof. revert t; induction m; intros [|t] H; cbn; try lia; auto. apply IHm. lia. Qed.
Lemma ensemble_constant fm P V u m t : (t < m)%nat ->
  let x := ((Some P, Some V), u) in
  let p := (105 / 100 * P + 1 / 1000 * V) / 2 in
  option_map fst (nth_error (session (ensemble_predictor fm) (call3 x) (repeat (call3 x) m)) t) =
  Some (Fin ((1 - p ^ 2 / 50) ^ (2 * (t + 1)) * (p - V) ^ 2), Fin p).
Proof.
  intros Ht x p. rewrite <- map_repeat'. pose proof (ensemble_ok fm x (repeat x m) t x (nth_repeat' x t m Ht)) as E.
  cbv zeta in E. rewrite E. cbn [option_map fst]. clear E. unfold seen. rewrite !firstn_repeat by lia.
  change (x :: repeat x (t + 1)) with (repeat x (S (t + 1))). change (x :: repeat x t) with (repeat x (S t)).
  rewrite !map_repeat'. cbn [fst snd x]. rewrite ensemble_const. fold p.
  destruct (descend_const P V (S t)) as (s & -> & H). fold p in H. cbn [with_all of_option]. do 2 f_equal. f_equal.
  unfold squared_error. rewrite H. replace (2 * (t + 1))%nat with (S t + S t)%nat by lia. rewrite pow_add. ring.
Qed.

Lemma pow_vanish q : Rabs q < 1 -> forall c, vanishes (fun n => q ^ n * c).
Proof.
  intros Hq c e He. destruct (Req_dec c 0) as [->|Hc].
  - exists 0%nat. intros m _. rewrite Rmult_0_r, Rabs_R0. exact He.
  - destruct (pow_lt_1_zero q Hq (e / Rabs c)) as [n Hn].
    { apply Rdiv_lt_0_compat; [exact He|now apply Rabs_pos_lt]. }
    exists n. intros m Hm. specialize (Hn m Hm). rewrite Rabs_mult.
    apply Rabs_pos_lt in Hc. apply (Rmult_lt_compat_r (Rabs c)) in Hn; [|exact Hc].
    unfold Rdiv in Hn. rewrite Rmult_assoc, Rinv_l, Rmult_1_r in Hn by lra. exact Hn.
Qed.
Lemma pow_explode q c : 1 < q -> 0 < c -> explodes (fun n => q ^ n * c).
Proof.
  intros Hq Hc b. destruct (Pow_x_infinity q) with (b := b / c + 1) as [n Hn].
  { rewrite Rabs_pos_eq; lra. }
  exists n. intros m Hm. specialize (Hn m Hm). rewrite Rabs_pos_eq in Hn by (apply pow_le; lra).
  assert (b / c < q ^ m) by lra. apply (Rmult_lt_compat_r c) in H; [|exact Hc].
  unfold Rdiv in H. rewrite Rmult_assoc, Rinv_l, Rmult_1_r in H by lra. exact H.
Qed.

Lemma ensemble_limits fm P V u :
  let x := ((Some P, Some V), u) in
  let p := (105 / 100 * P + 1 / 1000 * V) / 2 in
  exists l : nat -> R,
    (forall m t, (t < m)%nat ->
       option_map fst (nth_error (session (ensemble_predictor fm) (call3 x) (repeat (call3 x) m)) t) = Some (Fin (l t), Fin p)) /\
    (0 < Rabs p < 10 -> vanishes l) /\ (10 < Rabs p -> p <> V -> explodes l).
Proof.
  intros x p. exists (fun t => (1 - p ^ 2 / 50) ^ (2 * (t + 1)) * (p - V) ^ 2). split; [|split].
  - intros m t Ht. apply ensemble_constant; exact Ht.
  - intros [H0 H1]. set (q := (1 - p ^ 2 / 50) ^ 2).
    assert (Hp : 0 < p ^ 2 < 100).
    { replace (p ^ 2) with (Rabs p ^ 2) by (rewrite pow2_abs; reflexivity). nra. }
    assert (Hq : Rabs q < 1).
    { unfold q. rewrite Rabs_pos_eq by apply pow2_ge_0. assert (0 < p ^ 2 / 50 < 2) by lra. revert H.
      generalize (p ^ 2 / 50). intros z Hz. nra. }
    intros e He. destruct (pow_vanish q Hq (q * (p - V) ^ 2) e He) as [n Hn]. exists n. intros m Hm.
    replace ((1 - p ^ 2 / 50) ^ (2 * (m + 1)) * (p - V) ^ 2) with (q ^ m * (q * (p - V) ^ 2)); [apply Hn; exact Hm|].
    rewrite pow_mult. fold q. rewrite pow_add. ring.
  - intros H1 Hne. set (q := (1 - p ^ 2 / 50) ^ 2).
    assert (Hp : 100 < p ^ 2). { replace (p ^ 2) with (Rabs p ^ 2) by (rewrite pow2_abs; reflexivity). nra. }
    assert (Hq : 1 < q).
    { unfold q. assert (2 < p ^ 2 / 50) by lra. revert H. generalize (p ^ 2 / 50). intros z Hz. nra. }
    assert (Hd : 0 < (p - V) ^ 2) by (assert (p - V <> 0) by lra; nra).
    intros b. destruct (pow_explode q (q * (p - V) ^ 2) Hq ltac:(nra) b) as [n Hn]. exists n. intros m Hm.
    replace ((1 - p ^ 2 / 50) ^ (2 * (m + 1)) * (p - V) ^ 2) with (q ^ m * (q * (p - V) ^ 2)); [apply Hn; exact Hm|].
    rewrite pow_mult. fold q. rewrite pow_add. ring.
Qed.
