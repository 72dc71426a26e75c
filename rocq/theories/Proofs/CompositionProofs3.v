(** C107, C108: the trading system and the scanned examples. *)
From Coq Require Import List Arith ZArith Reals Lra Lia Bool Sorted.
From Verif Require Import Model.Unroll Model.Float Model.Modules Model.Ewm Model.FlaxModules Model.FlaxCore Model.Compositions
  Spec.EwmSpec Spec.FlaxSpec Spec.MaskSpec Spec.CompositionSpec
  Proofs.ListFacts Proofs.FloatFacts Proofs.RunFacts Proofs.EwmFacts Proofs.EwmProofs Proofs.FlaxProofs Proofs.CompositionProofs
  Proofs.CompositionProofs2.
Import ListNotations.
Local Open Scope R_scope.

Lemma tanh_bound x : -1 < tanh x < 1.
Proof.
  unfold tanh, sinh, cosh. pose proof (exp_pos x). pose proof (exp_pos (- x)).
  set (A := exp x) in *. set (B := exp (- x)) in *. assert (0 < (A + B) / 2) by lra.
  assert (E : (A - B) / 2 / ((A + B) / 2) * ((A + B) / 2) = (A - B) / 2) by (field; lra).
  split; apply Rmult_lt_reg_r with ((A + B) / 2); auto; rewrite E; lra.
Qed.
Lemma tanh_neg x : x < 0 -> tanh x < 0.
Proof.
  intros H. unfold tanh, sinh, cosh. pose proof (exp_pos x). pose proof (exp_pos (- x)).
  assert (exp x < exp (- x)) by (apply exp_increasing; lra).
  apply Rmult_lt_reg_r with ((exp x + exp (- x)) / 2); [lra|].
  assert (E : (exp x - exp (- x)) / 2 / ((exp x + exp (- x)) / 2) * ((exp x + exp (- x)) / 2) = (exp x - exp (- x)) / 2)
    by (field; lra).
  rewrite E. lra.
Qed.

Lemma clip_bound x m : 0 <= m -> fclip x (fneg (Fin m)) (Fin m) = NaN \/
  exists r, fclip x (fneg (Fin m)) (Fin m) = Fin r /\ - m <= r <= m.
Proof.
  intros Hm. unfold fclip. cbn [fneg]. destruct x as [| | |r].
  - left; reflexivity.
  - right. exists m. cbn. split; [reflexivity|lra].
  - right. unfold fmax. cbn [isnan flt]. unfold fmin. cbn [isnan flt].
    destruct (Rlt_b_spec m (- m)); [lra|]. exists (- m). split; [reflexivity|lra].
  - right. rewrite fmax_Fin, fmin_Fin. eexists. split; [reflexivity|].
    unfold Rmin, Rmax. destruct (Rle_dec r (- m)), (Rle_dec _ m); lra.
Qed.
Lemma clip_inside r m : - m <= r <= m -> fclip (Fin r) (fneg (Fin m)) (Fin m) = Fin r.
Proof.
  intros H. unfold fclip. cbn [fneg]. rewrite fmax_Fin, fmin_Fin. f_equal.
  unfold Rmin, Rmax. destruct (Rle_dec r (- m)), (Rle_dec _ m); lra.
Qed.

Lemma ftanh_bound x : ftanh x = NaN \/ exists r, ftanh x = Fin r /\ -1 <= r <= 1.
Proof.
  destruct x as [| | |r]; cbn; [left; reflexivity|right; exists 1|right; exists (-1)|right; exists (tanh r)];
    (split; [reflexivity|]); try lra. pose proof (tanh_bound r). lra.
Qed.

Lemma trading_bounds fm st inp :
  let y := fst (trading_call fm st inp) in
  let bounded m v := v = NaN \/ exists r, v = Fin r /\ - m <= r <= m in
  bounded (1 / 10) (t_final y) /\ bounded 1 (t_raw y) /\
  bounded 1 (t_technical y) /\ bounded 1 (t_momentum y) /\ bounded 1 (t_macd_signal y) /\
  t_high_volume y = flt (Fin 1200) (snd inp).
Proof.
  destruct inp as [price volume]. unfold trading_call.
  destruct (ring_call 20 (ts_buffer st) price). destruct (ema_call fm (com_of_alpha (2 / 21)) (ts_center st) price) as [c e0].
  destruct (ema_call fm (com_of_alpha (2 / 13)) (ts_fast st) price) as [f e1].
  destruct (ema_call fm (com_of_alpha (2 / 27)) (ts_slow st) price) as [s e2].
  destruct (ema_call fm (com_of_alpha (3 / 10)) (ts_responsive st) price) as [rs e3].
  destruct (ema_call fm (com_of_alpha (1 / 10)) (ts_smooth st) price) as [ss e4].
  cbv zeta. cbn [fst snd t_final t_raw t_technical t_momentum t_macd_signal t_high_volume].
  split; [apply clip_bound; lra|].
  match goal with |- context [fdiv (fadd (fadd (ftanh ?a) (ftanh ?b)) (ftanh ?c)) (Fin 3)] =>
    pose proof (ftanh_bound a) as Ba; pose proof (ftanh_bound b) as Bb; pose proof (ftanh_bound c) as Bc end.
  split; [|split; [exact Ba|split; [exact Bb|split; [exact Bc|reflexivity]]]].
  destruct Ba as [->|(ra & -> & Ha)]; [left; reflexivity|].
  destruct Bb as [->|(rb & -> & Hb)]; [left; reflexivity|].
  destruct Bc as [->|(rc & -> & Hc)]; [left; reflexivity|].
  right. cbn [fadd]. rewrite fdiv_Fin by lra. eexists. split; [reflexivity|]. lra.
Qed.

Lemma applied_in {S X Y} (m : flax_module S X Y) : forall xs s t y,
  nth_error (applied (flax_tf m) tt s xs) t = Some y -> exists s' x, nth_error xs t = Some x /\ y = fst (fx_call m s' x).
Proof.
  intros xs s t y H.
  assert (L : length (applied (flax_tf m) tt s xs) = length xs).
  { revert s H. clear. induction xs as [|a xs IH]; intros s H; [reflexivity|].
    cbn [applied flax_tf flax_transform_with_state t_apply] in *. destruct (fx_call m s a) as [y' s1]. cbn [length]. f_equal.
    clear H. revert s1. clear IH. induction xs as [|b xs IH]; intros s1; [reflexivity|].
    cbn [applied t_apply flax_tf flax_transform_with_state]. destruct (fx_call m s1 b). cbn [length]. f_equal. apply IH. }
  destruct (nth_error xs t) as [x|] eqn:E.
  - rewrite (applied_nth m xs s t x E) in H. apply some_eq in H. eauto.
  - apply nth_error_None in E. rewrite <- L in E. apply nth_error_None in E. congruence.
Qed.

Lemma trading_always_bounded fm x0 xs t y :
  nth_error (session (complete_trading_system fm) x0 xs) t = Some y ->
  let bounded m v := v = NaN \/ exists r, v = Fin r /\ - m <= r <= m in
  bounded (1 / 10) (t_final y) /\ bounded 1 (t_raw y) /\
  bounded 1 (t_technical y) /\ bounded 1 (t_momentum y) /\ bounded 1 (t_macd_signal y).
Proof.
  intros H. cbv zeta. unfold session, complete_trading_system in H. cbn [t_init flax_tf flax_transform_with_state] in H.
  apply applied_in in H. destruct H as (s' & x & _ & ->).
  destruct (trading_bounds fm s' x) as (A & B & C & D & E & _). auto.
Qed.

(** *** the formula for positive prices *)
Lemma ema_positive a h r : 0 < a < 1 -> Forall (fun x => 0 < x) (valid_obs h) -> ema a h = Some r -> 0 < r.
Proof.
  intros Ha Hp E. assert (Hc : count_obs h <> 0%nat) by (intros E0; apply (ema_none a) in E0; congruence).
  rewrite ema_some in E by auto. apply some_eq in E. subst r. pose proof (S0_nz a h Ha Hc) as H0.
  apply Rdiv_lt_0_compat; auto.
  rewrite <- aged_valid, Forall_map in Hp. assert (Hne : aged false h <> []) by (intros E; apply aged_nil in E; congruence).
  destruct (aged false h) as [|q l]; [congruence|]. unfold S1, sum_over. cbn [fold_right].
  inversion Hp as [|? ? H1 H2]; subst. assert (0 < (1 - a) ^ fst q * snd q) by (apply Rmult_lt_0_compat; auto; apply pow_lt; lra).
  assert (0 <= fold_right (fun p s => (1 - a) ^ fst p * snd p + s) 0 l); [|lra].
  clear - H2 Ha. induction H2 as [|p l Hp H IH]; cbn [fold_right]; [lra|].
  assert (0 < (1 - a) ^ fst p * snd p) by (apply Rmult_lt_0_compat; auto; apply pow_lt; lra). lra.
Qed.

Lemma trading_steps fm l : forall b c f s r m,
  steps (trading_call fm) (TradingState b c f s r m) l =
  TradingState (steps (ring_call 20) b (map fst l)) (steps (ema_call fm (com_of_alpha (2 / 21))) c (map fst l))
    (steps (ema_call fm (com_of_alpha (2 / 13))) f (map fst l)) (steps (ema_call fm (com_of_alpha (2 / 27))) s (map fst l))
    (steps (ema_call fm (com_of_alpha (3 / 10))) r (map fst l)) (steps (ema_call fm (com_of_alpha (1 / 10))) m (map fst l)).
Proof.
  induction l as [|[p v] l IH]; intros b c f s r m; [reflexivity|]. cbn [map steps fst]. rewrite <- IH.
  unfold trading_call at 2. cbn [ts_buffer ts_center ts_fast ts_slow ts_responsive ts_smooth].
  destruct (ring_call 20 b p), (ema_call fm (com_of_alpha (2 / 21)) c p), (ema_call fm (com_of_alpha (2 / 13)) f p),
    (ema_call fm (com_of_alpha (2 / 27)) s p), (ema_call fm (com_of_alpha (3 / 10)) r p), (ema_call fm (com_of_alpha (1 / 10)) m p).
  reflexivity.
Qed.

Lemma valid_somes l : valid_obs (map Some l) = l.
Proof. induction l; cbn; congruence. Qed.
Lemma count_somes l : count_obs (map Some l) = length l.
Proof. rewrite count_valid, valid_somes. reflexivity. Qed.

Lemma avg_eq a ps : ps <> [] -> ema a (map Some ps) = Some (avg a ps).
Proof.
  intros H. unfold avg. destruct (ema a (map Some ps)) eqn:E; [reflexivity|].
  apply ema_none in E. rewrite count_somes in E. destruct ps; [congruence|discriminate].
Qed.
Lemma trading_ok fm x0 xs t p v :
  index_safe 20 (x0 :: xs) -> nth_error xs t = Some (p, v) -> Forall (fun x => 0 < fst x) (x0 :: xs) ->
  let ps := map fst (seen x0 xs t) in
  let c := avg (2 / 21) ps in
  let sigma := deviation (last20 ps) in
  let macd := avg (2 / 13) ps - avg (2 / 27) ps in
  let mom := if Rlt_b 1200 v then avg (3 / 10) ps else avg (1 / 10) ps in
  let technical := tanh ((p - c) / (sigma + 1 / 10 ^ 8) - 1 / 2) in
  let raw := (technical + tanh (mom / p - 1) + tanh (macd * 10)) / 3 in
  nth_error (session (complete_trading_system fm) (fpair x0) (map fpair xs)) t =
  Some (Trading (Fin c) (Fin ((p - c) / (sigma + 1 / 10 ^ 8))) (Fin sigma) (Fin macd) (Fin technical)
     (Fin (tanh (mom / p - 1))) (Fin (tanh (macd * 10))) (Fin raw) (Fin (raw / (1 + sigma / c)))
     (Fin (raw / (1 + sigma / c) / 10)) (Fin (sigma / c)) (Rlt_b 1200 v)) /\ 0 < c.
Proof.
  intros Hs Ho Hpos ps c sigma macd mom technical raw.
  assert (Hlt : (t < length xs)%nat) by (apply nth_error_Some; congruence).
  unfold complete_trading_system. rewrite (session_nth _ _ _ t (fpair (p, v))).
  2:{ rewrite nth_error_map, Ho. reflexivity. }
  cbn [fx_call fx_vars]. rewrite trading_steps.
  assert (E1 : map fst (fpair x0 :: firstn t (map fpair xs)) = map of_option (map Some (map fst (x0 :: firstn t xs)))).
  { rewrite firstn_map. cbn [map]. f_equal. rewrite !map_map. reflexivity. }
  rewrite E1. set (h := map fst (x0 :: firstn t xs)) in *.
  assert (Eps : ps = h ++ [p]).
  { unfold ps. rewrite (seen_snoc _ _ _ _ Ho), map_app. reflexivity. }
  assert (Hne : ps <> []) by (rewrite Eps; destruct h; discriminate).
  assert (Hall : Forall (fun x => 0 < x) ps).
  { unfold ps. apply Forall_map. unfold seen. inversion Hpos as [|? ? A B]; subst. constructor; [exact A|].
    apply Forall_forall. intros x Hx. rewrite Forall_forall in B. apply B. rewrite <- (firstn_skipn (t + 1) xs).
    apply in_or_app. left. exact Hx. }
  assert (Hp : 0 < p).
  { rewrite Eps in Hall. apply Forall_app in Hall. destruct Hall as [_ A]. inversion A; auto. }
  assert (Hem : forall a, 0 < a < 1 -> fst (ema_call fm (com_of_alpha a)
      (steps (ema_call fm (com_of_alpha a)) ema_vars (map of_option (map Some h))) (Fin p)) = Fin (avg a ps)).
  { intros a Ha. pose proof (ema_after fm a (map Some h) (Some p) Ha) as E. cbn [of_option] in E. rewrite E.
    change [Some p] with (map Some [p]). rewrite <- map_app, <- Eps, (avg_eq a ps Hne). reflexivity. }
  assert (Hs' : index_safe 20 (map of_option (map Some h) ++ [Fin p])).
  { destruct Hs as [Hs|Hs]; [left|right; exact Hs]. rewrite app_length, !map_length. unfold h. rewrite map_length. cbn [length] in *.
    rewrite firstn_length_le by lia. lia. }
  pose proof (ring_window 20 NaN (map of_option (map Some h)) (Fin p) ltac:(lia) Hs') as Hr.
  unfold trading_call, fpair. cbn [fst snd ts_buffer ts_center ts_fast ts_slow ts_responsive ts_smooth].
  destruct (ring_call 20 _ (Fin p)) as [w rs]. cbn [fst] in Hr. subst w.
  pose proof (Hem (2 / 21) ltac:(lra)) as H1. destruct (ema_call fm (com_of_alpha (2 / 21)) _ (Fin p)) as [y1 z1]. cbn [fst] in H1. subst y1.
  pose proof (Hem (2 / 13) ltac:(lra)) as H2. destruct (ema_call fm (com_of_alpha (2 / 13)) _ (Fin p)) as [y2 z2]. cbn [fst] in H2. subst y2.
  pose proof (Hem (2 / 27) ltac:(lra)) as H3. destruct (ema_call fm (com_of_alpha (2 / 27)) _ (Fin p)) as [y3 z3]. cbn [fst] in H3. subst y3.
  pose proof (Hem (3 / 10) ltac:(lra)) as H4. destruct (ema_call fm (com_of_alpha (3 / 10)) _ (Fin p)) as [y4 z4]. cbn [fst] in H4. subst y4.
  pose proof (Hem (1 / 10) ltac:(lra)) as H5. destruct (ema_call fm (com_of_alpha (1 / 10)) _ (Fin p)) as [y5 z5]. cbn [fst] in H5. subst y5.
  fold c.
  assert (Hc : 0 < c).
  { apply (ema_positive (2 / 21) (map Some ps) c); [lra|rewrite valid_somes; exact Hall|apply avg_eq; exact Hne]. }
  split; [|exact Hc].
  assert (Ew : fnanstd (padded_window 20 NaN (map of_option (map Some h) ++ [Fin p])) = Fin sigma).
  { unfold fnanstd. change (map of_option (map Some h) ++ [Fin p]) with (map of_option (map Some h) ++ map of_option (map Some [p])).
    rewrite <- !map_app, <- Eps. rewrite window_valid.
    assert (Er : recent 20 (map Some ps) = last20 ps) by (unfold recent, last20; rewrite map_length, skipn_map; apply valid_somes).
    rewrite Er. apply fstd_Fin. unfold last20. intros E. apply (f_equal (@length _)) in E. rewrite skipn_length in E.
    rewrite Eps, app_length in E. cbn [length] in E. lia. }
  rewrite Ew. cbn [isnan fwhere]. unfold fwhere.
  pose proof (deviation_nonneg (last20 ps)) as Hsg. fold sigma in Hsg. pose proof eps_pos as He.
  unfold fsub. cbn [fneg fadd]. rewrite (fdiv_Fin _ (sigma + 1 / 10 ^ 8)) by lra. cbn [fadd ftanh].
  fold macd. change (avg (2 / 13) ps + - avg (2 / 27) ps) with macd. cbn [flt fmul ftanh].
  replace (if Rlt_b 1200 v then Fin (avg (3 / 10) ps) else Fin (avg (1 / 10) ps)) with (Fin mom).
  2:{ unfold mom. destruct (Rlt_b 1200 v); reflexivity. }
  rewrite (fdiv_Fin mom p) by lra. cbn [fadd ftanh].
  change (tanh ((p + - c) / (sigma + 1 / 10 ^ 8) + - (1 / 2))) with technical.
  change (mom / p + - (1)) with (mom / p - 1).
  rewrite (fdiv_Fin _ 3) by lra. fold raw.
  rewrite (fdiv_Fin sigma c) by lra. cbn [fadd].
  assert (Hq : 0 <= sigma / c) by (apply Rmult_le_pos; [exact Hsg|left; apply Rinv_0_lt_compat; exact Hc]).
  rewrite (fdiv_Fin raw) by lra. cbn [fmul].
  assert (Hraw : -1 <= raw <= 1).
  { unfold raw, technical. pose proof (tanh_bound ((p - c) / (sigma + 1 / 10 ^ 8) - 1 / 2)).
    pose proof (tanh_bound (mom / p - 1)). pose proof (tanh_bound (macd * 10)). lra. }
  assert (Hrisk : -1 <= raw / (1 + sigma / c) <= 1).
  { assert (E : raw / (1 + sigma / c) * (1 + sigma / c) = raw) by (set (q := sigma / c) in *; field; lra).
    split; apply Rmult_le_reg_r with (1 + sigma / c); try lra; rewrite E; lra. }
  assert (Ef : fclip (Fin (raw / (1 + sigma / c) * (1 / 10))) (Fin (- (1 / 10))) (Fin (1 / 10)) = Fin (raw / (1 + sigma / c) / 10)).
  { change (Fin (- (1 / 10))) with (fneg (Fin (1 / 10))). rewrite clip_inside by lra. f_equal. lra. }
  rewrite Ef. reflexivity.
Qed.

Lemma trading_flat fm x0 xs t y q :
  index_safe 20 (x0 :: xs) -> (t < length xs)%nat -> 0 < q -> Forall (fun x => fst x = q) (x0 :: xs) ->
  nth_error (session (complete_trading_system fm) (fpair x0) (map fpair xs)) t = Some y ->
  t_band_position y = Fin 0 /\ t_macd y = Fin 0 /\
  t_final y = Fin (tanh (- (1 / 2)) / 30) /\ tanh (- (1 / 2)) / 30 < 0.
Proof.
  intros Hs Hlt Hq Hf H. destruct (nth_error xs t) as [[p v]|] eqn:Ho; [|apply nth_error_None in Ho; lia].
  destruct (trading_ok fm x0 xs t p v Hs Ho) as [E Hc].
  { eapply Forall_impl; [|exact Hf]. cbn. intros a ->. exact Hq. }
  rewrite E in H. apply some_eq in H. subst y. clear E. revert Hc. set (ps := map fst (seen x0 xs t)). intros Hc.
  assert (Hall : Forall (fun x => x = q) ps).
  { unfold ps. apply Forall_map. unfold seen. pose proof (Forall_inv Hf) as A; pose proof (Forall_inv_tail Hf) as B. constructor; [exact A|].
    apply Forall_forall. intros x Hx. rewrite Forall_forall in B. apply B. rewrite <- (firstn_skipn (t + 1) xs).
    apply in_or_app. left. exact Hx. }
  assert (Hne : ps <> []) by (unfold ps, seen; discriminate).
  assert (Ha : forall a, 0 < a < 1 -> avg a ps = q).
  { intros a Ha. pose proof (avg_eq a ps Hne) as E. rewrite (ema_const a (map Some ps) q Ha) in E.
    - congruence.
    - rewrite count_somes. destruct ps; [congruence|discriminate].
    - rewrite valid_somes. exact Hall. }
  assert (Hp : p = q).
  { rewrite Forall_forall in Hf. change p with (fst (p, v)). apply Hf. right. eapply nth_error_In; eauto. }
  assert (Hd : deviation (last20 ps) = 0).
  { apply (deviation_const _ q). apply Forall_forall. intros x Hx. rewrite Forall_forall in Hall. apply Hall.
    unfold last20 in Hx. rewrite <- (firstn_skipn (length ps - 20) ps). apply in_or_app. right. exact Hx. }
  rewrite !Ha by lra. rewrite Hd, Hp. cbn [t_band_position t_macd t_final].
  assert (E1 : (q - q) / (0 + 1 / 10 ^ 8) = 0) by (unfold Rminus; rewrite Rplus_opp_r; unfold Rdiv; apply Rmult_0_l).
  rewrite E1. split; [reflexivity|]. split; [f_equal; lra|].
  assert (E2 : (if Rlt_b 1200 v then q else q) = q) by (destruct (Rlt_b 1200 v); reflexivity). rewrite E2.
  replace (q / q - 1) with 0 by (field; lra). replace ((q - q) * 10) with 0 by lra.
  assert (E3 : tanh 0 = 0) by (unfold tanh; rewrite sinh_0; unfold Rdiv; apply Rmult_0_l). rewrite E3.
  replace (0 - 1 / 2) with (- (1 / 2)) by lra.
  split; [f_equal; field; lra|]. pose proof (tanh_neg (- (1 / 2)) ltac:(lra)). lra.
Qed.

(** *** scans *)
Lemma scan_map {X Y} (f : X -> Y) (g : unit -> X -> unit * Y) : (forall c x, snd (g c x) = f x) ->
  forall l c, snd (lax_scan g c l) = map f l.
Proof.
  intros H. induction l as [|x l IH]; intros c; [reflexivity|]. cbn [lax_scan map].
  specialize (H c x). destruct (g c x) as [c1 y]. specialize (IH c1). destruct (lax_scan g c1 l). cbn [snd] in *. congruence.
Qed.
Lemma stateless_scan {X Y} (f : X -> Y) (r : option (X -> bool)) xs : xs <> [] ->
  streaming_scan tt (stateless f) r true xs None None None = Some (map f xs, tt).
Proof.
  intros H. unfold streaming_scan. destruct xs as [|x0 xs]; [congruence|].
  destruct (t_init (stateless f) (Some tt) x0) as [p s0].
  match goal with |- context [lax_scan ?g ?a ?b] => pose proof (scan_map f g (fun c x => eq_refl) b a) as G;
    destruct (lax_scan g a b) as [u ys] end.
  cbn [snd] in G. rewrite G. destruct u. reflexivity.
Qed.

Lemma position_value k s : exists r, position_of k (Fin s) = Fin (r * k) /\ r = Rmax (-1) (Rmin s 1).
Proof.
  unfold position_of. cbn [fabs]. rewrite fmin_Fin. unfold fsign.
  destruct (Rlt_b_spec 0 s) as [H|H]; [|destruct (Rlt_b_spec s 0) as [H'|H']]; cbn [fmul]; eexists; (split; [reflexivity|]);
    unfold Rmin, Rmax, Rabs; repeat (destruct (Rle_dec _ _) || destruct (Rcase_abs _)); lra.
Qed.

(** *** a jump leaves the bands *)
Lemma jump_S1 a n : S1 a (aged false (repeat (Some 0) n ++ [Some 1])) = 1.
Proof.
  induction n as [|n IH]; unfold S1, sum_over in *; cbn [repeat app aged fold_right fst snd pow length]; [lra|]. rewrite IH. lra.
Qed.
Lemma jump_S0 a n : 0 < a < 1 -> 2 - a <= S0 a (aged false (repeat (Some 0) (S n) ++ [Some 1])).
Proof.
  intros Ha. induction n as [|n IH].
  - unfold S0, sum_over. cbn [repeat app aged fold_right fst snd length pow]. lra.
  - change (repeat (Some 0) (S (S n)) ++ [Some 1]) with (Some 0 :: (repeat (Some 0) (S n) ++ [Some 1])).
    cbn [aged]. unfold S0, sum_over in *. cbn [fold_right fst]. 
    assert (0 < (1 - a) ^ length (repeat (Some 0) (S n) ++ [Some 1])) by (apply pow_lt; lra). lra.
Qed.
Lemma jump_deviation : deviation (repeat 0 19 ++ [1]) = sqrt (19 / 400).
Proof.
  unfold deviation. f_equal. unfold var_of.
  assert (E : mean_of (repeat 0 19 ++ [1]) = 1 / 20).
  { unfold mean_of, MaskSpec.total. cbn [repeat app fold_right length]. replace (INR 20) with 20 by (cbn; lra). lra. }
  rewrite E. unfold mean_of, MaskSpec.total. rewrite map_length. cbn [repeat app map fold_right length]. replace (INR 20) with 20 by (cbn; lra). lra.
Qed.
Lemma sqrt_19 : 1 / 5 <= sqrt (19 / 400) <= 22 / 100.
Proof.
  split.
  - rewrite <- (sqrt_square (1 / 5)) by lra. apply sqrt_le_1_alt. lra.
  - rewrite <- (sqrt_square (22 / 100)) by lra. apply sqrt_le_1_alt. lra.
Qed.
Lemma bollinger_jump fm : exists b q,
  nth_error (session (bollinger_bands fm 20 2) (Fin 0) (map Fin (repeat 0 18 ++ [1]))) 18 = Some b /\
  b_position b = Fin q /\ 1 < q.
Proof.
  pose proof (bollinger_ok fm 20 2 (Some 0) (map Some (repeat 0 18 ++ [1])) 18 (Some 1) ltac:(lia) ltac:(left; cbn; lia) eq_refl) as H.
  destruct H as (b & Hb & Hat). rewrite map_map in Hb. exists b.
  change (map (fun x => of_option (Some x)) (repeat 0 18 ++ [1])) with (map Fin (repeat 0 18 ++ [1])) in Hb.
  change (seen (Some 0) (map Some (repeat 0 18 ++ [1])) 18) with (repeat (Some 0) 19 ++ [Some 1]) in Hat.
  destruct Hat as [_ Hat].
  assert (Er : recent 20 (repeat (Some 0) 19 ++ [Some 1]) = repeat 0 19 ++ [1]) by reflexivity. rewrite Er, jump_deviation in Hat.
  unfold ema_of_period in Hat. replace (INR 20) with 20 in Hat by (cbn; lra).
  rewrite (ema_some _ (repeat (Some 0) 19 ++ [Some 1])) in Hat by (cbn; discriminate).
  rewrite jump_S1 in Hat. pose proof (jump_S0 (2 / (20 + 1)) 18 ltac:(lra)) as S.
  set (s0 := S0 (2 / (20 + 1)) (aged false (repeat (Some 0) 19 ++ [Some 1]))) in *.
  assert (Hc : 1 / s0 <= 21 / 40).
  { apply Rmult_le_reg_r with s0; [lra|]. unfold Rdiv at 1. rewrite Rmult_assoc, Rinv_l by lra. lra. }
  pose proof sqrt_19 as Hq. set (s := sqrt (19 / 400)) in *. cbv zeta in Hat.
  destruct Hat as (_ & _ & _ & _ & Hp & _).
  assert (Hw : 1 / 10 ^ 8 < 2 * (2 * s)) by lra. specialize (Hp Hw).
  eexists. split; [exact Hb|]. split; [exact Hp|].
  apply Rmult_lt_reg_r with (2 * (2 * s)); [lra|].
  assert (E : (1 - (1 / s0 - 2 * s)) / (2 * (2 * s)) * (2 * (2 * s)) = 1 - (1 / s0 - 2 * s)) by (field; lra).
  rewrite E. lra.
Qed.
