(** C104, C105: Bollinger bands and MACD. *)
From Coq Require Import List Arith ZArith Reals Lra Lia Bool Sorted.
From Verif Require Import Model.Unroll Model.Float Model.Modules Model.Ewm Model.FlaxModules Model.FlaxCore Model.Compositions
  Spec.EwmSpec Spec.FlaxSpec Spec.MaskSpec Spec.CompositionSpec
  Proofs.ListFacts Proofs.FloatFacts Proofs.RunFacts Proofs.EwmFacts Proofs.EwmProofs Proofs.FlaxProofs.
Import ListNotations.
Local Open Scope R_scope.

Lemma some_eq {A} (a b : A) : Some a = Some b -> a = b.
Proof. congruence. Qed.

(** *** sessions *)
Lemma applied_nth {S X Y} (m : flax_module S X Y) : forall xs s t x,
  nth_error xs t = Some x ->
  nth_error (applied (flax_tf m) tt s xs) t = Some (fst (fx_call m (steps (fx_call m) s (firstn t xs)) x)).
Proof.
  induction xs as [|a xs IH]; intros s t x H; [destruct t; discriminate|].
  cbn [applied flax_tf flax_transform_with_state t_apply].
  destruct (fx_call m s a) as [y s1] eqn:E. destruct t as [|t]; cbn [nth_error firstn steps] in *.
  - injection H as <-. rewrite E. reflexivity.
  - rewrite E. cbn [snd]. apply IH; auto.
Qed.

Lemma session_nth {S X Y} (m : flax_module S X Y) x0 xs t x :
  nth_error xs t = Some x ->
  nth_error (session (flax_tf m) x0 xs) t =
    Some (fst (fx_call m (steps (fx_call m) (fx_vars m x0) (x0 :: firstn t xs)) x)).
Proof.
  intros H. unfold session. cbn [flax_tf flax_transform_with_state t_init].
  change (nth_error (applied (flax_tf m) tt (snd (fx_call m (fx_vars m x0) x0)) xs) t =
    Some (fst (fx_call m (steps (fx_call m) (fx_vars m x0) (x0 :: firstn t xs)) x))).
  rewrite (applied_nth m xs _ t x H). reflexivity.
Qed.

Lemma firstn_S_snoc {A} (l : list A) t x : nth_error l t = Some x -> firstn (t + 1) l = firstn t l ++ [x].
Proof.
  revert t; induction l as [|a l IH]; intros [|t] H; try discriminate; cbn in *.
  - injection H as <-. destruct l; reflexivity.
  - rewrite (IH t H). reflexivity.
Qed.
Lemma seen_snoc {X} (x0 : X) xs t x : nth_error xs t = Some x -> seen x0 xs t = (x0 :: firstn t xs) ++ [x].
Proof. intros H. unfold seen. rewrite (firstn_S_snoc _ _ _ H). reflexivity. Qed.

(** *** the modules after a history *)
Lemma calls_last {S X Y} (m : flax_module S X Y) s h x :
  nth_error (fst (flax_calls m s (h ++ [x]))) (length h) = Some (fst (fx_call m (steps (fx_call m) s h) x)).
Proof.
  revert s; induction h as [|a h IH]; intros s; cbn [app flax_calls length steps].
  - destruct (fx_call m s x) as [y s1]; reflexivity.
  - specialize (IH (snd (fx_call m s a))). destruct (fx_call m s a) as [y s1]. cbn [snd] in *.
    destruct (flax_calls m s1 (h ++ [x])). cbn [fst nth_error] in *. exact IH.
Qed.

Lemma ring_window {A} m (f : A) (h : list A) x : (0 < m)%nat -> index_safe m (h ++ [x]) ->
  fst (ring_call m (steps (ring_call m) (ring_init m f) h) x) = padded_window m f (h ++ [x]).
Proof.
  intros Hm Hs.
  pose proof (calls_last (FBuffer m (fun _ => f)) (ring_init m f) h x) as H. cbn [fx_call FBuffer] in H.
  assert (E : exists x0 xs, h ++ [x] = x0 :: xs) by (destruct h; cbn; eauto).
  destruct E as (x0 & xs & E).
  pose proof (fbuffer_window m (fun _ => f) x0 xs (length h) Hm) as W.
  rewrite <- E in W. specialize (W Hs). rewrite app_length in W. cbn [length] in W. specialize (W ltac:(lia)).
  assert (F : flax_from_scratch (FBuffer m (fun _ => f)) (h ++ [x]) =
              fst (flax_calls (FBuffer m (fun _ => f)) (ring_init m f) (h ++ [x]))) by (rewrite E; reflexivity).
  rewrite F, H in W. apply some_eq in W. rewrite W.
  rewrite firstn_all2; [reflexivity|rewrite app_length; cbn; lia].
Qed.

Lemma ema_after fm a (h : list (option R)) o : 0 < a < 1 ->
  fst (ema_call fm (com_of_alpha a)
         (steps (ema_call fm (com_of_alpha a)) ema_vars (map of_option h)) (of_option o)) =
  of_option (ema a (h ++ [o])).
Proof.
  intros Ha. set (c := com_of_alpha a).
  assert (Hc : 0 < c).
  { unfold c, com_of_alpha. assert (1 < / a) by (apply Rmult_lt_reg_l with a; [lra|]; rewrite Rinv_r by lra; lra).
    unfold Rdiv. lra. }
  assert (Hal : 1 / (1 + c) = a).
  { unfold c, com_of_alpha. field. lra. }
  set (cfg := ewma_with_com c).
  assert (EE : ema_vars = ewma_init cfg) by reflexivity. rewrite EE.
  assert (Est : forall s l, steps (ema_call fm c) s l = steps (fx_call (FEWMA fm cfg)) s l).
  { intros s l. revert s. induction l as [|x l IH]; intros s; cbn [steps]; [reflexivity|exact (IH _)]. }
  rewrite Est.
  assert (Ef : forall s x, fst (ema_call fm c s x) = fst (fst (fx_call (FEWMA fm cfg) s x))).
  { intros s x. unfold ema_call. cbn [fx_call FEWMA]. fold cfg.
    destruct (fewma_call fm cfg s x) as [[y i] s1]. reflexivity. }
  rewrite Ef.
  pose proof (calls_last (FEWMA fm cfg) (ewma_init cfg) (map of_option h) (of_option o)) as H.
  set (xs := map of_option h ++ [of_option o]) in *.
  assert (Hne : xs <> []) by (unfold xs; destruct (map of_option h); discriminate).
  destruct (fewma_same fm cfg xs ltac:(cbn; lra) I Hne) as [sF Hr].
  assert (Hfs : flax_from_scratch (FEWMA fm cfg) xs = fst (flax_calls (FEWMA fm cfg) (ewma_init cfg) xs)).
  { destruct xs; [congruence|]. reflexivity. }
  rewrite Hfs in Hr.
  assert (Hr2 : exists sF', run (EWMA fm cfg) xs = Some (map fst (fst (flax_calls (FEWMA fm cfg) (ewma_init cfg) xs)), sF')).
  { clear - Hr. destruct xs as [|x0 xs]; [discriminate|].
    pose proof (run_eq (fun _ : fl => ewma_init cfg) (ewma_step fm cfg) x0 xs) as R1.
    pose proof (run_eq (fun _ : fl => ewma_init cfg)
      (fun s x => let '((r, _), s') := ewma_step fm cfg s x in (r, s')) x0 xs) as R2.
    unfold EWMA_info in Hr. unfold EWMA. rewrite R2. rewrite R1 in Hr. clear R1 R2.
    apply some_pair_inj in Hr. destruct Hr as [Hr _]. rewrite <- Hr.
    eexists. f_equal. f_equal. clear Hr.
    generalize (ewma_init cfg) as s. generalize (x0 :: xs) as l. clear.
    induction l as [|x l IH]; intros s; [reflexivity|]. cbn [lax_scan].
    unfold stepf at 1 3. 
    destruct (ewma_step fm cfg s x) as [[y i] s1]. cbn [fst snd].
    specialize (IH s1). destruct (lax_scan _ s1 l); destruct (lax_scan _ s1 l). cbn [snd map] in *. rewrite IH. reflexivity. }
  destruct Hr2 as [sF' Hr2].
  destruct (ewma_adjust_true fm cfg xs _ sF' Hc eq_refl Hr2) as [_ Ht].
  assert (Hlen : length xs = (length h + 1)%nat) by (unfold xs; rewrite app_length, map_length; reflexivity).
  specialize (Ht (length h) ltac:(lia)).
  rewrite nth_error_map in Ht. rewrite map_length in H. rewrite H in Ht. cbn [option_map] in Ht.
  apply some_eq in Ht. rewrite Ht.
  rewrite firstn_all2 by (rewrite map_length; lia).
  assert (Hos : map (observation fm) xs = h ++ [o]).
  { unfold xs. rewrite map_app, map_map. cbn [map]. rewrite obs_of_option. f_equal.
    rewrite <- (map_id h) at 2. apply map_ext. intros; apply obs_of_option. }
  rewrite Hos. cbn [com cfg ewma_with_com min_periods ignore_na initial_value observation].
  rewrite Hal. unfold when_enough.
  change (exp_average false a (None :: h ++ [o])) with (exp_average false a (h ++ [o])).
  fold (ema a (h ++ [o])). destruct (ema a (h ++ [o])); [|reflexivity].
  destruct (Z.ltb_spec (Z.of_nat (count_obs (h ++ [o]))) 0); [lia|reflexivity].
Qed.

(** *** standard deviations *)
Lemma total_fold l : MaskSpec.total l = fold_right Rplus 0 l.
Proof. reflexivity. Qed.
Lemma INR_len {A} (l : list A) : l <> [] -> 0 < INR (length l).
Proof. intros H. apply lt_0_INR. destruct l; [congruence|cbn; lia]. Qed.
Lemma fmean_Fin l : l <> [] -> fmean (map Fin l) = Fin (mean_of l).
Proof.
  intros H. unfold fmean. rewrite fsum_Fin, map_length, fdiv_Fin; [reflexivity|].
  pose proof (INR_len l H). lra.
Qed.
Lemma total_nonneg l : Forall (fun x => 0 <= x) l -> 0 <= MaskSpec.total l.
Proof. unfold MaskSpec.total. induction 1; cbn [fold_right]; lra. Qed.
Lemma var_nonneg l : 0 <= var_of l.
Proof.
  unfold var_of, mean_of at 1. rewrite map_length. destruct l as [|x l].
  - cbn. unfold Rdiv. rewrite Rmult_0_l. lra.
  - apply Rmult_le_pos.
    + apply total_nonneg. apply Forall_map, Forall_forall. intros; apply pow2_ge_0.
    + left. apply Rinv_0_lt_compat. apply INR_len. discriminate.
Qed.
Lemma fstd_Fin l : l <> [] -> fstd (map Fin l) = Fin (deviation l).
Proof.
  intros H. unfold fstd. rewrite (fmean_Fin l H). rewrite map_map.
  rewrite (map_ext _ (fun v => Fin ((v - mean_of l) ^ 2))).
  - rewrite <- (map_map (fun v => (v - mean_of l) ^ 2) Fin). rewrite fmean_Fin by (destruct l; [congruence|discriminate]).
    apply fsqrt_Fin. apply var_nonneg.
  - intros v. unfold fsub. cbn [fneg fadd fmul]. f_equal. ring.
Qed.
Lemma deviation_short l : (length l <= 1)%nat -> deviation l = 0.
Proof.
  intros H. unfold deviation, var_of, mean_of. destruct l as [|x [|]]; cbn in *; [| |lia].
  - unfold Rdiv. rewrite Rmult_0_l. apply sqrt_0.
  - replace ((x - (x + 0) / 1) * ((x - (x + 0) / 1) * 1) + 0) with 0 by field.
    unfold Rdiv. rewrite Rmult_0_l. apply sqrt_0.
Qed.
Lemma deviation_nonneg l : 0 <= deviation l.
Proof. apply sqrt_pos. Qed.

Lemma filter_nan l : filter (fun v => negb (isnan v)) (map of_option l) = map Fin (valid_obs l).
Proof. induction l as [|[x|] l IH]; cbn; [reflexivity| |exact IH]. f_equal. exact IH. Qed.
Lemma filter_repeat_nan n : filter (fun v => negb (isnan v)) (repeat NaN n) = [].
Proof. induction n; cbn; auto. Qed.
Lemma window_valid w h :
  filter (fun v => negb (isnan v)) (padded_window w NaN (map of_option h)) = map Fin (recent w h).
Proof.
  unfold padded_window, recent. rewrite filter_app, filter_repeat_nan. cbn [app].
  rewrite map_length, skipn_map. apply filter_nan.
Qed.

(** *** Bollinger bands *)
Lemma bollinger_steps fm w k h : forall r e,
  steps (bollinger_call fm w k) (r, e) h =
  (steps (ring_call w) r h, steps (ema_call fm (com_of_alpha (2 / (INR w + 1)))) e h).
Proof.
  induction h as [|x h IH]; intros r e; cbn [steps]; [reflexivity|]. rewrite <- IH.
  unfold bollinger_call at 2. cbn [fst snd].
  destruct (ring_call w r x), (ema_call fm _ e x). reflexivity.
Qed.

Lemma period_alpha n : (2 <= n)%nat -> 0 < 2 / (INR n + 1) < 1.
Proof.
  intros H. assert (2 <= INR n) by (apply (le_INR 2) in H; exact H). split.
  - apply Rmult_lt_0_compat; [lra|]. apply Rinv_0_lt_compat. lra.
  - apply Rmult_lt_reg_r with (INR n + 1); [lra|]. unfold Rdiv. rewrite Rmult_assoc, Rinv_l by lra. lra.
Qed.

Lemma bollinger_ok fm w k o0 os t o :
  (2 <= w)%nat -> index_safe w (o0 :: os) -> nth_error os t = Some o ->
  exists b, nth_error (session (bollinger_bands fm w k) (of_option o0) (map of_option os)) t = Some b /\
            bands_at w k (seen o0 os t) o b.
Proof.
  intros Hw Hs Ho.
  assert (Hlt : (t < length os)%nat) by (apply nth_error_Some; congruence).
  unfold bollinger_bands. rewrite (session_nth _ _ _ t (of_option o)).
  2:{ rewrite nth_error_map, Ho. reflexivity. }
  cbn [fx_call fx_vars]. rewrite bollinger_steps. rewrite firstn_map.
  change (of_option o0 :: map of_option (firstn t os)) with (map of_option (o0 :: firstn t os)).
  set (h := o0 :: firstn t os). rewrite (seen_snoc o0 os t o Ho). fold h.
  unfold bollinger_call. cbn [fst snd].
  pose proof (ring_window w NaN (map of_option h) (of_option o) ltac:(lia)) as Hr.
  assert (Hs' : index_safe w (map of_option h ++ [of_option o])).
  { destruct Hs as [Hs|Hs]; [left|right; exact Hs]. rewrite app_length, map_length. unfold h. cbn [length] in *.
    rewrite firstn_length_le by lia. lia. }
  specialize (Hr Hs'). clear Hs'.
  destruct (ring_call w _ (of_option o)) as [buf rs]. cbn [fst] in Hr. subst buf.
  pose proof (ema_after fm (2 / (INR w + 1)) h o (period_alpha w Hw)) as He.
  destruct (ema_call fm _ _ (of_option o)) as [ctr es]. cbn [fst] in He. subst ctr. cbn [fst].
  change (map of_option h ++ [of_option o]) with (map of_option h ++ map of_option [o]).
  rewrite <- map_app. rewrite window_valid. rewrite map_length.
  set (hh := h ++ [o]). set (rc := recent w hh).
  assert (Hstd : (if (1 <? length rc)%nat then fstd (map Fin rc) else Fin 0) = Fin (deviation rc)).
  { destruct (Nat.ltb_spec 1 (length rc)).
    - apply fstd_Fin. destruct rc; [cbn in *; lia|discriminate].
    - rewrite deviation_short; auto. }
  rewrite Hstd. eexists. split; [reflexivity|]. split; [reflexivity|].
  unfold ema_of_period. fold hh. fold (ema (2 / (INR w + 1)) hh). destruct (ema (2 / (INR w + 1)) hh) as [c|]; cbn [of_option].
  - cbv zeta. unfold fsub. cbn [fneg fadd fmul b_center b_upper b_lower b_width b_position].
    fold hh. fold rc. set (d := k * deviation rc).
    split; [reflexivity|]. split; [reflexivity|]. split; [f_equal; lra|]. split; [apply f_equal; lra|].
    assert (E : c + d + - (c + - d) = 2 * d) by lra. rewrite E. cbn [flt]. unfold fwhere.
    split; intros Hd.
    + rewrite (Rlt_b_true _ _ Hd). destruct o as [p|]; [|reflexivity]. cbn [of_option fadd].
      rewrite fdiv_Fin by lra. replace (p + - (c + - d)) with (p - (c - d)) by lra. reflexivity.
    + rewrite (Rlt_b_false _ _ (Rle_not_lt _ _ Hd)). reflexivity.
  - reflexivity.
Qed.

Lemma bands_order w k h o b c : bands_at w k h o b -> ema_of_period w h = Some c -> 0 <= k ->
  exists u l, b_upper b = Fin u /\ b_lower b = Fin l /\ b_center b = Fin c /\ l <= c <= u /\ c = (u + l) / 2.
Proof.
  intros [_ H] E Hk. rewrite E in H. destruct H as (Hc & Hu & Hl & _).
  eexists _, _. split; [exact Hu|]. split; [exact Hl|]. split; [exact Hc|].
  pose proof (Rmult_le_pos _ _ Hk (deviation_nonneg (recent w h))). lra.
Qed.

Lemma bands_inside w k h p b u l : bands_at w k h (Some p) b -> b_upper b = Fin u -> b_lower b = Fin l ->
  1 / 10 ^ 8 < u - l ->
  exists q, b_position b = Fin q /\ (0 <= q <= 1 <-> l <= p <= u) /\ q = (p - l) / (u - l).
Proof.
  intros [_ H] Eu El Hw. destruct (ema_of_period w h) as [c|].
  2:{ rewrite H in Eu. discriminate. }
  cbv zeta in H. set (d := k * deviation (recent w h)) in *. destruct H as (Hc & Hu & Hl & Hb & Hp & _).
  rewrite Hu in Eu. rewrite Hl in El. injection Eu as <-. injection El as <-.
  assert (E : c + d - (c - d) = 2 * d) by lra. rewrite E in *. specialize (Hp Hw).
  assert (0 < 2 * d). { assert (0 < 1 / 10 ^ 8) by (apply Rdiv_lt_0_compat; [lra|apply pow_lt; lra]). lra. }
  eexists. split; [exact Hp|]. split; [|reflexivity].
  set (n := p - (c - d)). assert (En : n / (2 * d) * (2 * d) = n) by (field; lra).
  split; intros [A B].
  - pose proof (Rmult_le_compat_r (2 * d) _ _ (Rlt_le _ _ H) A).
    pose proof (Rmult_le_compat_r (2 * d) _ _ (Rlt_le _ _ H) B). rewrite En in *. unfold n in *. lra.
  - split; apply Rmult_le_reg_r with (2 * d); auto; rewrite En; unfold n; lra.
Qed.

(** exponential averages of a constant *)
Lemma aged_valid os : map snd (aged false os) = valid_obs os.
Proof. induction os as [|[x|] os IH]; cbn; [reflexivity| |exact IH]. f_equal. exact IH. Qed.
Lemma ema_none a h : ema a h = None <-> count_obs h = 0%nat.
Proof. unfold ema. rewrite exp_average_S. destruct (Nat.eqb_spec (count_obs h) 0); split; congruence. Qed.
Lemma ema_some a h : count_obs h <> 0%nat -> ema a h = Some (S1 a (aged false h) / S0 a (aged false h)).
Proof. intros H. unfold ema. rewrite exp_average_S. destruct (Nat.eqb_spec (count_obs h) 0); congruence. Qed.
Lemma S0_nz a h : 0 < a < 1 -> count_obs h <> 0%nat -> 0 < S0 a (aged false h).
Proof. intros Ha H. apply S0_pos; [lra|]. intros E. apply aged_nil in E. congruence. Qed.

Lemma S1_const a l p : Forall (fun q : nat * R => snd q = p) l -> S1 a l = p * S0 a l.
Proof.
  unfold S1, S0, sum_over. induction 1 as [|q l Hq Hl IH]; cbn [fold_right]; [lra|]. rewrite IH, Hq. ring.
Qed.
Lemma ema_const a h p : 0 < a < 1 -> count_obs h <> 0%nat -> Forall (fun x => x = p) (valid_obs h) -> ema a h = Some p.
Proof.
  intros Ha Hn Hf. rewrite ema_some by auto. pose proof (S0_nz a h Ha Hn) as Hp.
  rewrite (S1_const a _ p).
  - f_equal. field. lra.
  - rewrite <- aged_valid in Hf. rewrite Forall_map in Hf. exact Hf.
Qed.

Lemma aged_affine s b h : aged false (map (option_map (fun x => s * x + b)) h) =
  map (fun q => (fst q, s * snd q + b)) (aged false h).
Proof.
  induction h as [|[x|] h IH]; cbn; [reflexivity| |exact IH]. rewrite map_length. f_equal. exact IH.
Qed.
Lemma count_map {f : R -> R} h : count_obs (map (option_map f) h) = count_obs h.
Proof. induction h as [|[x|] h IH]; cbn; congruence. Qed.
Lemma ema_affine a s b h : 0 < a < 1 ->
  ema a (map (option_map (fun x => s * x + b)) h) = option_map (fun x => s * x + b) (ema a h).
Proof.
  intros Ha. destruct (Nat.eq_dec (count_obs h) 0) as [E|E].
  - rewrite (proj2 (ema_none a h) E). apply ema_none. rewrite count_map. exact E.
  - rewrite (ema_some a h E). cbn [option_map]. rewrite ema_some by (rewrite count_map; exact E).
    f_equal. rewrite aged_affine. pose proof (S0_nz a h Ha E) as Hp. set (l := aged false h) in *.
    assert (E0 : S0 a (map (fun q => (fst q, s * snd q + b)) l) = S0 a l).
    { unfold S0. rewrite sum_over_map. reflexivity. }
    assert (E1 : S1 a (map (fun q => (fst q, s * snd q + b)) l) = s * S1 a l + b * S0 a l).
    { unfold S1, S0. rewrite sum_over_map. unfold sum_over. clear. induction l as [|q l IH]; cbn [fold_right]; [lra|].
      rewrite IH. cbn [fst snd]. ring. }
    rewrite E0, E1. field. lra.
Qed.

(** a rising series: the faster average is the larger one *)
Lemma pow_le_pow q r n : 0 <= r <= q -> r ^ n <= q ^ n.
Proof. intros H. apply pow_incr. lra. Qed.
Lemma rising_term q r n x (m : list (nat * R)) : 0 < r <= q ->
  Forall (fun p => (fst p <= n)%nat /\ x <= snd p) m ->
  0 <= q ^ n * (sum_over (fun p => r ^ fst p * snd p) m - x * sum_over (fun p => r ^ fst p) m)
     - r ^ n * (sum_over (fun p => q ^ fst p * snd p) m - x * sum_over (fun p => q ^ fst p) m).
Proof.
  intros Hr. unfold sum_over. induction 1 as [|[k y] m [Hk Hy] Hm IH]; cbn [fold_right fst snd] in *; [lra|].
  set (A := fold_right (fun p s => r ^ fst p * snd p + s) 0 m) in *.
  set (B := fold_right (fun p s => r ^ fst p + s) 0 m) in *.
  set (C := fold_right (fun p s => q ^ fst p * snd p + s) 0 m) in *.
  set (D := fold_right (fun p s => q ^ fst p + s) 0 m) in *.
  replace (q ^ n * (r ^ k * y + A - x * (r ^ k + B)) - r ^ n * (q ^ k * y + C - x * (q ^ k + D)))
    with (q ^ n * (A - x * B) - r ^ n * (C - x * D) + (q ^ n * r ^ k - r ^ n * q ^ k) * (y - x)) by ring.
  apply Rplus_le_le_0_compat; [exact IH|]. apply Rmult_le_pos; [|lra].
  replace n with (k + (n - k))%nat by lia. rewrite !pow_add.
  replace (q ^ k * q ^ (n - k) * r ^ k - r ^ k * r ^ (n - k) * q ^ k)
    with ((q ^ k * r ^ k) * (q ^ (n - k) - r ^ (n - k))) by ring.
  apply Rmult_le_pos.
  - apply Rmult_le_pos; apply pow_le; lra.
  - pose proof (pow_le_pow q r (n - k) ltac:(lra)). lra.
Qed.

Lemma aged_bound h : Forall (fun p : nat * R => (fst p < length h)%nat) (aged false h).
Proof.
  induction h as [|[x|] h IH]; cbn [aged length]; [constructor|constructor; [cbn [fst]; lia|]|].
  - eapply Forall_impl; [|exact IH]. cbn. intros; lia.
  - eapply Forall_impl; [|exact IH]. cbn. intros; lia.
Qed.

Lemma rising_cross r q h : 0 < r <= q -> StronglySorted Rle (valid_obs h) ->
  let l := aged false h in
  sum_over (fun p => q ^ fst p * snd p) l * sum_over (fun p => r ^ fst p) l <=
  sum_over (fun p => r ^ fst p * snd p) l * sum_over (fun p => q ^ fst p) l.
Proof.
  intros Hr. induction h as [|[x|] h IH]; intros Hs; cbn [aged valid_obs] in *; cbv zeta in *.
  - unfold sum_over; cbn. lra.
  - inversion Hs as [|? ? Hs' Hx]; subst. specialize (IH Hs').
    pose proof (rising_term q r (length h) x (aged false h) Hr) as T.
    assert (F : Forall (fun p : nat * R => (fst p <= length h)%nat /\ x <= snd p) (aged false h)).
    { rewrite <- aged_valid, Forall_map in Hx. pose proof (aged_bound h) as B.
      rewrite Forall_forall in *. intros p Hp. split; [specialize (B p Hp); cbn in B; lia|exact (Hx p Hp)]. }
    specialize (T F). revert IH T. unfold sum_over. cbn [fold_right fst snd].
    set (A := fold_right (fun p s => r ^ fst p * snd p + s) 0 (aged false h)).
    set (B := fold_right (fun p s => r ^ fst p + s) 0 (aged false h)).
    set (C := fold_right (fun p s => q ^ fst p * snd p + s) 0 (aged false h)).
    set (D := fold_right (fun p s => q ^ fst p + s) 0 (aged false h)).
    intros IH T.
    apply Rminus_le. 
    replace ((q ^ length h * x + C) * (r ^ length h + B) - (r ^ length h * x + A) * (q ^ length h + D))
      with ((C * B - A * D) - (q ^ length h * (A - x * B) - r ^ length h * (C - x * D))) by ring.
    lra.
  - exact (IH Hs).
Qed.

Lemma ema_rising af as_ h f s : 0 < as_ <= af -> af < 1 -> StronglySorted Rle (valid_obs h) ->
  ema af h = Some f -> ema as_ h = Some s -> s <= f.
Proof.
  intros Ha Hf Hs Ef Es.
  assert (Hc : count_obs h <> 0%nat) by (intros E; apply (ema_none af) in E; congruence).
  rewrite ema_some in Ef, Es by auto. apply some_eq in Ef. apply some_eq in Es. subst f s.
  pose proof (S0_nz af h ltac:(lra) Hc) as P1. pose proof (S0_nz as_ h ltac:(lra) Hc) as P2.
  pose proof (rising_cross (1 - af) (1 - as_) h ltac:(lra) Hs) as C. cbv zeta in C.
  fold (S0 af (aged false h)) in C. fold (S0 as_ (aged false h)) in C.
  fold (S1 af (aged false h)) in C. fold (S1 as_ (aged false h)) in C.
  apply Rmult_le_reg_r with (S0 as_ (aged false h) * S0 af (aged false h)); [apply Rmult_lt_0_compat; auto|].
  replace (S1 as_ (aged false h) / S0 as_ (aged false h) * (S0 as_ (aged false h) * S0 af (aged false h)))
    with (S1 as_ (aged false h) * S0 af (aged false h)) by (field; lra).
  replace (S1 af (aged false h) / S0 af (aged false h) * (S0 as_ (aged false h) * S0 af (aged false h)))
    with (S1 af (aged false h) * S0 as_ (aged false h)) by (field; lra).
  exact C.
Qed.

(** *** MACD *)
Lemma minus_of a b : fsub (of_option a) (of_option b) = of_option (minus a b).
Proof. destruct a, b; reflexivity. Qed.

Lemma prefixes_snoc {A} (h : list A) x : prefixes (h ++ [x]) = prefixes h ++ [h ++ [x]].
Proof.
  unfold prefixes. rewrite app_length. cbn [length]. rewrite seq_app, map_app. f_equal.
  - apply map_ext_in. intros i Hi. apply in_seq in Hi. rewrite firstn_app.
    replace (i - length h)%nat with 0%nat by lia. cbn. apply app_nil_r.
  - cbn [seq map]. rewrite firstn_all2; [reflexivity|rewrite app_length; cbn; lia].
Qed.
Lemma macd_lines_snoc nf ns h x : macd_lines nf ns (h ++ [x]) = macd_lines nf ns h ++ [macd_line nf ns (h ++ [x])].
Proof. unfold macd_lines. rewrite prefixes_snoc, map_app. reflexivity. Qed.

Lemma macd_state fm nf ns ng (h : list (option R)) : (2 <= nf)%nat -> (2 <= ns)%nat ->
  steps (macd_call fm nf ns ng) (ema_vars, ema_vars, ema_vars) (map of_option h) =
  (steps (ema_call fm (period_com nf)) ema_vars (map of_option h),
   steps (ema_call fm (period_com ns)) ema_vars (map of_option h),
   steps (ema_call fm (period_com ng)) ema_vars (map of_option (macd_lines nf ns h))).
Proof.
  intros Hf Hs. induction h as [|o h IH] using rev_ind; [reflexivity|].
  rewrite macd_lines_snoc, !map_app, !steps_app. cbn [map steps]. rewrite IH.
  unfold macd_call. pose proof (ema_after fm _ h o (period_alpha nf Hf)) as E1.
  pose proof (ema_after fm _ h o (period_alpha ns Hs)) as E2.
  fold (period_com nf) in E1. fold (period_com ns) in E2.
  destruct (ema_call fm (period_com nf) _ (of_option o)) as [a sf]. destruct (ema_call fm (period_com ns) _ (of_option o)) as [b ss].
  cbn [fst] in E1, E2. subst a b. rewrite minus_of.
  fold (ema_of_period nf (h ++ [o])). fold (ema_of_period ns (h ++ [o])). fold (macd_line nf ns (h ++ [o])).
  destruct (ema_call fm (period_com ng) _ (of_option (macd_line nf ns (h ++ [o])))). reflexivity.
Qed.

Lemma macd_ok fm nf ns ng o0 os t o :
  (2 <= nf)%nat -> (2 <= ns)%nat -> (2 <= ng)%nat -> nth_error os t = Some o ->
  let h := seen o0 os t in
  let m := macd_line nf ns h in
  let g := ema_of_period ng (macd_lines nf ns h) in
  nth_error (session (macd_indicator fm nf ns ng) (of_option o0) (map of_option os)) t =
  Some (MacdOut (of_option o) (of_option m) (of_option g) (of_option (minus m g))
          (of_option (ema_of_period nf h)) (of_option (ema_of_period ns h))).
Proof.
  intros Hf Hs Hg Ho. cbv zeta. unfold macd_indicator. rewrite (session_nth _ _ _ t (of_option o)).
  2:{ rewrite nth_error_map, Ho. reflexivity. }
  cbn [fx_call fx_vars]. rewrite firstn_map.
  change (of_option o0 :: map of_option (firstn t os)) with (map of_option (o0 :: firstn t os)).
  rewrite (seen_snoc o0 os t o Ho). set (h := o0 :: firstn t os).
  rewrite (macd_state fm nf ns ng h Hf Hs). unfold macd_call.
  pose proof (ema_after fm _ h o (period_alpha nf Hf)) as E1.
  pose proof (ema_after fm _ h o (period_alpha ns Hs)) as E2.
  fold (period_com nf) in E1. fold (period_com ns) in E2.
  destruct (ema_call fm (period_com nf) _ (of_option o)) as [a sf]. destruct (ema_call fm (period_com ns) _ (of_option o)) as [b ss].
  cbn [fst] in E1, E2. subst a b. rewrite minus_of.
  fold (ema_of_period nf (h ++ [o])). fold (ema_of_period ns (h ++ [o])). fold (macd_line nf ns (h ++ [o])).
  pose proof (ema_after fm _ (macd_lines nf ns h) (macd_line nf ns (h ++ [o])) (period_alpha ng Hg)) as E3.
  fold (period_com ng) in E3. rewrite <- macd_lines_snoc in E3.
  destruct (ema_call fm (period_com ng) _ (of_option (macd_line nf ns (h ++ [o])))) as [c sg]. cbn [fst] in E3. subst c.
  fold (ema_of_period ng (macd_lines nf ns (h ++ [o]))). rewrite minus_of. reflexivity.
Qed.

Lemma valid_firstn {P : R -> Prop} i (h : list (option R)) : Forall P (valid_obs h) -> Forall P (valid_obs (firstn i h)).
Proof.
  revert i; induction h as [|[x|] h IH]; intros [|i] H; cbn in *; auto.
  inversion H; subst. constructor; auto.
Qed.
Lemma macd_line_const nf ns h p : (2 <= nf)%nat -> (2 <= ns)%nat -> Forall (fun x => x = p) (valid_obs h) ->
  macd_line nf ns h = if (count_obs h =? 0)%nat then None else Some 0.
Proof.
  intros Hf Hs H. unfold macd_line, ema_of_period. destruct (Nat.eqb_spec (count_obs h) 0) as [E|E].
  - rewrite (proj2 (ema_none _ h) E). reflexivity.
  - rewrite (ema_const _ h p (period_alpha nf Hf) E H), (ema_const _ h p (period_alpha ns Hs) E H). cbn.
    f_equal. lra.
Qed.
Lemma valid_in x h : In x (valid_obs h) <-> In (Some x) h.
Proof.
  induction h as [|[y|] h IH]; cbn; [tauto| |].
  - rewrite IH. split; (intros [E|E]; [left; congruence|right; exact E]).
  - rewrite IH. split; [intros E; right; exact E|intros [E|E]; [discriminate|exact E]].
Qed.
Lemma count_valid h : count_obs h = length (valid_obs h).
Proof. induction h as [|[x|] h IH]; cbn; auto. Qed.

Lemma macd_constant fm nf ns ng o0 os t out p :
  (2 <= nf)%nat -> (2 <= ns)%nat -> (2 <= ng)%nat ->
  nth_error (session (macd_indicator fm nf ns ng) (of_option o0) (map of_option os)) t = Some out ->
  (t < length os)%nat ->
  (exists x, In x (valid_obs (seen o0 os t))) -> Forall (fun x => x = p) (valid_obs (seen o0 os t)) ->
  m_fast out = Fin p /\ m_slow out = Fin p /\ m_macd out = Fin 0 /\ m_signal out = Fin 0 /\ m_histogram out = Fin 0.
Proof.
  intros Hf Hs Hg H Hlt [x0 Hx] Hp.
  destruct (nth_error os t) as [o|] eqn:Ho; [|apply nth_error_None in Ho; lia].
  rewrite (macd_ok fm nf ns ng o0 os t o Hf Hs Hg Ho) in H. apply some_eq in H. subst out.
  cbn [m_fast m_slow m_macd m_signal m_histogram].
  rewrite (seen_snoc _ _ _ _ Ho) in *. set (h := o0 :: firstn t os) in *.
  assert (Hc : count_obs (h ++ [o]) <> 0%nat).
  { rewrite count_valid. destruct (valid_obs (h ++ [o])); [destruct Hx|discriminate]. }
  assert (Em : macd_line nf ns (h ++ [o]) = Some 0).
  { rewrite (macd_line_const nf ns _ p Hf Hs Hp). destruct (Nat.eqb_spec (count_obs (h ++ [o])) 0); congruence. }
  assert (Eg : ema_of_period ng (macd_lines nf ns (h ++ [o])) = Some 0).
  { apply ema_const; [apply period_alpha; auto| |].
    - rewrite count_valid. assert (Hin : In 0 (valid_obs (macd_lines nf ns (h ++ [o])))).
      { apply valid_in. rewrite macd_lines_snoc, Em. apply in_or_app. right. left. reflexivity. }
      intros E0. apply length_zero_iff_nil in E0. rewrite E0 in Hin. destruct Hin.
    - apply Forall_forall. intros y Hy. apply valid_in in Hy. unfold macd_lines, prefixes in Hy.
      rewrite map_map in Hy. apply in_map_iff in Hy. destruct Hy as (i & Ei & _).
      rewrite (macd_line_const nf ns _ p Hf Hs (valid_firstn i _ Hp)) in Ei.
      destruct (count_obs _ =? 0)%nat; congruence. }
  rewrite Eg, Em. unfold ema_of_period.
  rewrite (ema_const _ _ p (period_alpha nf Hf) Hc Hp), (ema_const _ _ p (period_alpha ns Hs) Hc Hp). cbn.
  split; [reflexivity|]. split; [reflexivity|]. split; [reflexivity|]. split; [reflexivity|]. f_equal; lra.
Qed.

(** prices scaled and shifted *)
Lemma of_scale s b o : of_option (option_map (fun x => s * x + b) o) = match of_option o with Fin r => Fin (s * r + b) | y => y end.
Proof. destruct o; reflexivity. Qed.
Lemma macd_line_affine nf ns s b h : (2 <= nf)%nat -> (2 <= ns)%nat ->
  macd_line nf ns (map (option_map (fun x => s * x + b)) h) = option_map (fun x => s * x + 0) (macd_line nf ns h).
Proof.
  intros Hf Hs. unfold macd_line, ema_of_period.
  rewrite (ema_affine _ s b h (period_alpha nf Hf)), (ema_affine _ s b h (period_alpha ns Hs)).
  destruct (ema _ h), (ema _ h); cbn; auto. f_equal. lra.
Qed.
Lemma macd_lines_affine nf ns s b h : (2 <= nf)%nat -> (2 <= ns)%nat ->
  macd_lines nf ns (map (option_map (fun x => s * x + b)) h) = map (option_map (fun x => s * x + 0)) (macd_lines nf ns h).
Proof.
  intros Hf Hs. unfold macd_lines, prefixes. rewrite map_length, !map_map. apply map_ext. intros i.
  rewrite firstn_map. apply macd_line_affine; auto.
Qed.
Lemma seen_map {A B} (f : A -> B) x0 xs t : seen (f x0) (map f xs) t = map f (seen x0 xs t).
Proof. unfold seen. rewrite firstn_map. reflexivity. Qed.

Lemma macd_scaled fm nf ns ng s b o0 os t out :
  (2 <= nf)%nat -> (2 <= ns)%nat -> (2 <= ng)%nat ->
  nth_error (session (macd_indicator fm nf ns ng) (of_option o0) (map of_option os)) t = Some out ->
  (t < length os)%nat ->
  let f := option_map (fun x => s * x + b) in
  exists out', nth_error (session (macd_indicator fm nf ns ng) (of_option (f o0)) (map of_option (map f os))) t = Some out' /\
    m_macd out' = fscale s (m_macd out) /\ m_signal out' = fscale s (m_signal out) /\
    m_histogram out' = fscale s (m_histogram out).
Proof.
  intros Hf Hs Hg H Hlt f.
  destruct (nth_error os t) as [o|] eqn:Ho; [|apply nth_error_None in Ho; lia].
  rewrite (macd_ok fm nf ns ng o0 os t o Hf Hs Hg Ho) in H. apply some_eq in H. subst out.
  assert (Ho' : nth_error (map f os) t = Some (f o)) by (rewrite nth_error_map, Ho; reflexivity).
  eexists. split; [apply (macd_ok fm nf ns ng (f o0) (map f os) t (f o) Hf Hs Hg Ho')|].
  cbn [m_macd m_signal m_histogram]. rewrite seen_map. unfold f.
  rewrite (macd_line_affine nf ns s b _ Hf Hs), (macd_lines_affine nf ns s b _ Hf Hs).
  unfold ema_of_period. rewrite (ema_affine _ s 0 _ (period_alpha ng Hg)).
  destruct (macd_line nf ns _), (ema _ _); cbn; repeat split; f_equal; ring.
Qed.

Lemma period_alpha_le nf ns : (2 <= nf <= ns)%nat -> 2 / (INR ns + 1) <= 2 / (INR nf + 1).
Proof.
  intros H. assert (2 <= INR nf) by (apply (le_INR 2); lia). assert (INR nf <= INR ns) by (apply le_INR; lia).
  apply Rmult_le_compat_l; [lra|]. apply Rinv_le_contravar; lra.
Qed.
Lemma macd_line_rising nf ns h m : (2 <= nf <= ns)%nat -> StronglySorted Rle (valid_obs h) ->
  macd_line nf ns h = Some m -> 0 <= m.
Proof.
  intros Hn Hs. unfold macd_line, ema_of_period. pose proof (period_alpha_le nf ns Hn) as Hle.
  pose proof (period_alpha ns ltac:(lia)) as H1. pose proof (period_alpha nf ltac:(lia)) as H2.
  destruct (ema (2 / (INR nf + 1)) h) as [f|] eqn:Ef; [|discriminate].
  destruct (ema (2 / (INR ns + 1)) h) as [s|] eqn:Es; [|discriminate]. cbn. intros E. apply some_eq in E. subst m.
  pose proof (ema_rising _ _ h f s ltac:(split; [apply H1|exact Hle]) ltac:(apply H2) Hs Ef Es). lra.
Qed.
Lemma valid_map f h : valid_obs (map (option_map f) h) = map f (valid_obs h).
Proof. induction h as [|[x|] h IH]; cbn; [reflexivity| |exact IH]. f_equal. exact IH. Qed.
Lemma sorted_opp l : StronglySorted Rge l -> StronglySorted Rle (map (fun x => -1 * x + 0) l).
Proof.
  induction 1 as [|x l Hs IH Hf]; cbn [map]; constructor; auto. apply Forall_map. eapply Forall_impl; [|exact Hf].
  intros y Hy. cbn. lra.
Qed.
Lemma macd_line_falling nf ns h m : (2 <= nf <= ns)%nat -> StronglySorted Rge (valid_obs h) ->
  macd_line nf ns h = Some m -> m <= 0.
Proof.
  intros Hn Hs E. pose proof (macd_line_affine nf ns (-1) 0 h ltac:(lia) ltac:(lia)) as A. rewrite E in A. cbn [option_map] in A.
  pose proof (macd_line_rising nf ns _ _ Hn ltac:(rewrite valid_map; apply sorted_opp; exact Hs) A). lra.
Qed.

Lemma macd_trend fm nf ns ng o0 os t out :
  (2 <= nf <= ns)%nat -> (2 <= ng)%nat ->
  nth_error (session (macd_indicator fm nf ns ng) (of_option o0) (map of_option os)) t = Some out ->
  (t < length os)%nat -> forall m, m_macd out = Fin m ->
  (StronglySorted Rle (valid_obs (seen o0 os t)) -> 0 <= m) /\
  (StronglySorted Rge (valid_obs (seen o0 os t)) -> m <= 0).
Proof.
  intros Hn Hg H Hlt m Hm.
  destruct (nth_error os t) as [o|] eqn:Ho; [|apply nth_error_None in Ho; lia].
  rewrite (macd_ok fm nf ns ng o0 os t o ltac:(lia) ltac:(lia) Hg Ho) in H. apply some_eq in H. subst out.
  cbn [m_macd] in Hm. destruct (macd_line nf ns (seen o0 os t)) as [m'|] eqn:E; [|discriminate]. injection Hm as ->.
  split; intros Hs; [eapply macd_line_rising|eapply macd_line_falling]; eauto.
Qed.
