(** Composition of lags, telescoping of differences and returns, stability of ARMA. *)
From Coq Require Import List ZArith Reals Lra Lia Bool.
From Verif Require Import Model.Unroll Model.Float Model.Modules Model.Ewm Model.Dynamics Spec.EwmSpec Spec.SeriesSpec
  Spec.DynSpec Spec.AnalysisSpec
  Proofs.FloatFacts Proofs.ListFacts Proofs.RunFacts Proofs.BufferProofs Proofs.SmallProofs
  Proofs.EwmProofs Proofs.EwmExtra Proofs.EwmcovProofs Proofs.DynProofs Proofs.DynProofs2.
Import ListNotations.
Local Open Scope R_scope.

Lemma lag_compose {A} (a b : nat) (full : A -> A) (x0 : A) xs ys sF z0 zs ws sG vs sH :
  full (full x0) = full x0 ->
  run (Lag a full) (x0 :: xs) = Some (ys, sF) -> ys = map Some (z0 :: zs) ->
  run (Lag b full) (z0 :: zs) = Some (ws, sG) ->
  run (Lag (a + b) full) (x0 :: xs) = Some (vs, sH) -> ws = vs.
Proof.
  intros Hf H1 Hy H2 H3.
  destruct (lag_run a full x0 xs _ _ H1) as [L1 N1]. destruct (lag_run b full z0 zs _ _ H2) as [L2 N2].
  destruct (lag_run (a + b) full x0 xs _ _ H3) as [L3 N3].
  assert (Lz : length (z0 :: zs) = length (x0 :: xs)) by (rewrite <- L1, Hy, map_length; reflexivity).
  rewrite Lz in *.
  assert (Ez : forall t, (t < length (x0 :: xs))%nat ->
     nth_error (z0 :: zs) t = if (t <? a)%nat then Some (full x0) else nth_error (x0 :: xs) (t - a)).
  { intros t Ht. specialize (N1 t Ht). rewrite Hy, nth_error_map in N1.
    destruct (nth_error (z0 :: zs) t); cbn [option_map] in N1; [injection N1 as <-; auto|discriminate]. }
  assert (E0 : full z0 = full x0).
  { specialize (Ez 0%nat ltac:(simpl; lia)). cbn [nth_error] in Ez. destruct a; cbn in Ez; injection Ez as ->; auto. }
  apply nth_error_ext. intros t. destruct (Nat.lt_ge_cases t (length (x0 :: xs))) as [Ht|Ht].
  - rewrite N2, N3 by auto. rewrite E0.
    destruct (Nat.ltb_spec t b), (Nat.ltb_spec t (a + b)); try lia; auto.
    + rewrite Ez by lia. destruct (Nat.ltb_spec (t - b) a); [auto|lia].
    + rewrite Ez by lia. destruct (Nat.ltb_spec (t - b) a); [lia|]. do 2 f_equal. lia.
  - transitivity (@None (option A)); [|symmetry]; apply nth_error_None; lia.
Qed.

(** *** differences *)
Lemma diff_telescopes m r0 rs ys sF :
  Diff 1 = Some m -> run m (map Fin (r0 :: rs)) = Some (ys, sF) ->
  exists ds, ys = NaN :: map Fin ds /\ length ds = length rs /\
    forall t, (t <= length rs)%nat -> nth t (r0 :: rs) 0 = r0 + rsum (firstn t ds).
Proof.
  intros Hm Hr. cbn [map] in Hr. destruct (diff_run m _ _ ys sF Hm Hr) as (Hl & H0 & H).
  change (Fin r0 :: map Fin rs) with (map Fin (r0 :: rs)) in *.
  rewrite map_length in Hl. destruct ys as [|y ys]; [discriminate|]. injection H0 as ->.
  set (ds := map (fun t => nth (S t) (r0 :: rs) 0 - nth t (r0 :: rs) 0) (seq 0 (length rs))).
  assert (Ld : length ds = length rs) by (unfold ds; rewrite map_length, seq_length; auto).
  assert (Nd : forall t, (t < length rs)%nat -> nth_error ds t = Some (nth (S t) (r0 :: rs) 0 - nth t (r0 :: rs) 0)).
  { intros t Ht. unfold ds. erewrite map_nth_error; [reflexivity|]. rewrite nth_error_nth' with (d := 0%nat) by (rewrite seq_length; auto).
    rewrite seq_nth; auto. }
  exists ds. split; [|split; [auto|]].
  - f_equal. apply nth_error_ext. intros t. destruct (Nat.lt_ge_cases t (length rs)) as [Ht|Ht].
    + rewrite (map_nth_error Fin _ _ (Nd t Ht)).
      assert (E1 : nth_error (map Fin (r0 :: rs)) t = Some (Fin (nth t (r0 :: rs) 0)))
        by (apply map_nth_error, nth_error_nth'; simpl; lia).
      assert (E2 : nth_error (map Fin (r0 :: rs)) (t + 1) = Some (Fin (nth (S t) (r0 :: rs) 0))).
      { rewrite Nat.add_1_r. apply map_nth_error, nth_error_nth'; simpl; lia. }
      specialize (H t _ _ E1 E2). rewrite Nat.add_1_r in H. cbn [nth_error] in H. exact H.
    + transitivity (@None fl); [|symmetry]; apply nth_error_None; [simpl in Hl; lia|rewrite map_length; lia].
  - intros t. induction t as [|t IH]; intros Ht; [simpl; lra|].
    rewrite (firstn_snoc _ _ _ (Nd t ltac:(lia))).
    assert (E : forall l x, rsum (l ++ [x]) = rsum l + x).
    { unfold rsum. induction l as [|y l IHl]; intros x; simpl; [lra|]. rewrite IHl; lra. }
    rewrite E, <- Rplus_assoc, <- IH by lia. ring.
Qed.

(** *** returns *)
Fixpoint pcts (v : R) (os : list (option R)) : list R :=
  match os with
  | [] => []
  | Some x :: r => (x / v - 1) :: pcts x r
  | None :: r => 0 :: pcts v r
  end.
Fixpoint lastv (v : R) (os : list (option R)) : R :=
  match os with [] => v | Some x :: r => lastv x r | None :: r => lastv v r end.
Definition nonzero (o : option R) : Prop := match o with Some x => x <> 0 | None => True end.

Lemma pcts_prod os : forall v t, v <> 0 -> Forall nonzero os -> v * rprod (map (Rplus 1) (firstn t (pcts v os))) = lastv v (firstn t os).
Proof.
  induction os as [|[x|] os IH]; intros v [|t] Hv Hf; cbn [pcts firstn map rprod fold_right lastv]; try (unfold rprod; simpl; ring).
  - pose proof (Forall_inv Hf) as Hx. cbn in Hx. rewrite <- (IH x t Hx (Forall_inv_tail Hf)). unfold rprod. field; auto.
  - rewrite <- (IH v t Hv (Forall_inv_tail Hf)). unfold rprod. ring.
Qed.
Lemma pcts_length os : forall v, length (pcts v os) = length os.
Proof. induction os as [|[x|] os IH]; intros v; simpl; auto. Qed.
Lemma pcts_nth os : forall v t o, nth_error os t = Some o ->
  nth_error (pcts v os) t = Some (match o with Some x => x / lastv v (firstn t os) - 1 | None => 0 end).
Proof.
  induction os as [|[x|] os IH]; intros v [|t] o Ho; try discriminate; cbn [nth_error] in Ho; cbn [pcts nth_error firstn lastv];
    try (injection Ho as <-; reflexivity); apply IH; auto.
Qed.

Lemma lastv_snoc os o : forall v, lastv v (os ++ [o]) = match o with Some x => x | None => lastv v os end.
Proof. induction os as [|[x|] os IH]; intros v; simpl; auto. Qed.
Lemma lastv_valid x0 os : last_valid_is (Fin x0 :: map of_option os) (Fin (lastv x0 os)).
Proof.
  right. split; [discriminate|]. induction os as [|o os IH] using rev_ind.
  - exists [], []. auto.
  - rewrite lastv_snoc, map_app. cbn [map]. destruct o as [x|].
    + exists (Fin x0 :: map of_option os), []. auto.
    + destruct IH as (bf & af & E & Ha). exists bf, (af ++ [NaN]). split.
      * rewrite app_comm_cons, E, <- app_assoc. reflexivity.
      * apply Forall_app. auto.
Qed.
Lemma lastv_nonzero os : forall v, v <> 0 -> Forall nonzero os -> lastv v os <> 0.
Proof.
  induction os as [|[x|] os IH]; intros v Hv Hf; simpl; auto; apply IH; auto;
    try exact (Forall_inv_tail Hf). exact (Forall_inv Hf).
Qed.

Lemma Forall_firstn' {A} (P : A -> Prop) l : Forall P l -> forall n, Forall P (firstn n l).
Proof. induction 1; intros [|n]; simpl; auto. Qed.

Lemma pct_compounds m meth x0 (os : list (option R)) ys sF zs sG :
  PctChange 1 meth true = Some m -> x0 <> 0 -> Forall nonzero os ->
  run m (Fin x0 :: map of_option os) = Some (ys, sF) ->
  run Ffill (Fin x0 :: map of_option os) = Some (zs, sG) ->
  exists ps, ys = NaN :: map Fin ps /\ length ps = length os /\
    forall t, (t <= length os)%nat -> nth_error zs t = Some (Fin (x0 * rprod (map (Rplus 1) (firstn t ps)))).
Proof.
  intros Hm Hx Hf Hr Hz. destruct (pct_change_run m meth true _ _ ys sF Hm Hr) as [Hl H].
  destruct (ffill_run _ _ _ _ Hz) as [Lz Nz].
  exists (pcts x0 os). split; [|split; [apply pcts_length|]].
  - destruct ys as [|y ys]; [discriminate|].
    assert (E0 := H 0%nat (Fin x0) NaN eq_refl (or_introl (conj eq_refl (Forall_nil _)))).
    cbn in E0. injection E0 as ->. f_equal. cbn [length] in Hl. rewrite map_length in Hl.
    apply nth_error_ext. intros t. destruct (Nat.lt_ge_cases t (length os)) as [Ht|Ht].
    + destruct (nth_error os t) as [o|] eqn:Eo; [|apply nth_error_None in Eo; lia].
      rewrite (map_nth_error Fin _ _ (pcts_nth os x0 t o Eo)).
      assert (E := H (S t) (of_option o) (Fin (lastv x0 (firstn t os)))).
      cbn [nth_error firstn] in E. rewrite E.
      * destruct o as [x|]; cbn [of_option isnan]; auto.
        rewrite fdiv_Fin by (apply lastv_nonzero; auto; apply Forall_firstn'; auto). reflexivity.
      * apply map_nth_error; auto.
      * rewrite firstn_map. apply lastv_valid.
    + transitivity (@None fl); [|symmetry]; apply nth_error_None; rewrite ?map_length, ?pcts_length; lia.
  - intros t Ht. rewrite pcts_prod by auto.
    destruct (nth_error zs t) as [z|] eqn:Ez.
    2:{ apply nth_error_None in Ez. cbn [length] in Lz. rewrite map_length in Lz. lia. }
    f_equal. apply (last_valid_unique (firstn (t + 1) (Fin x0 :: map of_option os))); [apply Nz; auto|].
    rewrite Nat.add_1_r. cbn [firstn]. rewrite firstn_map. apply lastv_valid.
Qed.

(** *** ARMA: bounded noise gives bounded outputs *)
Lemma sum_n_le n f g : (forall k, (k < n)%nat -> f k <= g k) -> sum_n n f <= sum_n n g.
Proof.
  induction n as [|n IH]; simpl; intros H; [lra|]. specialize (IH ltac:(intros; apply H; lia)). specialize (H n ltac:(lia)). lra.
Qed.
Lemma sum_n_abs n f : Rabs (sum_n n f) <= sum_n n (fun k => Rabs (f k)).
Proof.
  induction n as [|n IH]; simpl; [rewrite Rabs_R0; lra|]. pose proof (Rabs_triang (sum_n n f) (f n)). lra.
Qed.
Lemma sum_n_shift n f : sum_n (S n) f = f 0%nat + sum_n n (fun k => f (S k)).
Proof. induction n as [|n IH]; simpl in *; [lra|]. rewrite IH. lra. Qed.
Lemma abs_sum_n l : sum_n (length l) (fun i => Rabs (nth i l 0)) = abs_sum l.
Proof.
  induction l as [|x l IH]; [reflexivity|]. cbn [length]. rewrite sum_n_shift. cbn [nth]. rewrite IH. reflexivity.
Qed.

Lemma dot_bound l f M : 0 <= M -> (forall i, (i < length l)%nat -> Rabs (f i) <= M) ->
  Rabs (sum_n (length l) (fun i => nth i l 0 * f i)) <= abs_sum l * M.
Proof.
  intros HM H. eapply Rle_trans; [apply sum_n_abs|]. rewrite <- abs_sum_n.
  rewrite (Rmult_comm _ M), <- sum_n_scal. apply sum_n_le. intros k Hk. rewrite Rabs_mult.
  rewrite (Rmult_comm M). apply Rmult_le_compat_l; [apply Rabs_pos|auto].
Qed.
Lemma abs_sum_nonneg l : 0 <= abs_sum l.
Proof. unfold abs_sum; induction l as [|x l IH]; simpl; [lra|]. pose proof (Rabs_pos x). lra. Qed.

Lemma lagged_bound (l : list R) t k M : 0 <= M -> (0 < k)%nat -> (forall s, (s < t)%nat -> Rabs (nth s l 0) <= M) ->
  Rabs (lagged 0 l t k) <= M.
Proof.
  intros HM Hk H. unfold lagged. destruct (Nat.leb_spec k t); [apply H; lia|rewrite Rabs_R0; auto].
Qed.

Lemma arma_stable alpha beta eps ys E :
  abs_sum alpha < 1 -> 0 <= E -> arma_rec alpha beta eps ys ->
  (forall k, (k < length eps)%nat -> Rabs (nth k eps 0) <= E) ->
  forall t, (t < length eps)%nat -> Rabs (nth t ys 0) <= (1 + abs_sum beta) * E / (1 - abs_sum alpha).
Proof.
  intros HA HE [Hl Hrec] He. set (M := (1 + abs_sum beta) * E / (1 - abs_sum alpha)).
  pose proof (abs_sum_nonneg beta) as HB. pose proof (abs_sum_nonneg alpha) as HA0.
  assert (HM : 0 <= M).
  { unfold M. apply Rmult_le_pos; [apply Rmult_le_pos; lra|]. left; apply Rinv_0_lt_compat; lra. }
  assert (EM : M = abs_sum alpha * M + (1 + abs_sum beta) * E) by (unfold M; field; lra).
  intros t. induction t as [t IH] using lt_wf_ind. intros Ht. rewrite (Hrec t Ht). unfold arma_value.
  assert (B1 : Rabs (sum_n (length alpha) (fun i => nth i alpha 0 * lagged 0 ys t (length alpha - i))) <= abs_sum alpha * M).
  { apply dot_bound; auto. intros i Hi. apply lagged_bound; auto; [lia|]. intros s Hs. apply IH; lia. }
  assert (B2 : Rabs (sum_n (length beta) (fun i => nth i beta 0 * lagged 0 eps t (length beta - i))) <= abs_sum beta * E).
  { apply dot_bound; auto. intros i Hi. apply lagged_bound; auto; [lia|]. intros s Hs. apply He; lia. }
  specialize (He t Ht).
  match goal with |- Rabs (?a + ?b + ?c) <= _ => pose proof (Rabs_triang (a + b) c); pose proof (Rabs_triang a b) end.
  lra.
Qed.

(** a past disturbance dies out *)
Lemma lin_nth a b x y t : length x = length y -> nth t (lin a b x y) 0 = a * nth t x 0 + b * nth t y 0.
Proof.
  unfold lin. revert y t; induction x as [|u x IH]; intros [|v y] t Hl; try discriminate.
  - destruct t; simpl; ring.
  - destruct t; simpl; [reflexivity|]. apply IH. simpl in Hl; lia.
Qed.
Lemma lin_length a b x y : length x = length y -> length (lin a b x y) = length x.
Proof.
  unfold lin. revert y; induction x as [|u x IH]; intros [|v y] Hl; try discriminate; simpl; auto.
Qed.

Lemma arma_quiet alpha beta eps ys s D :
  abs_sum alpha < 1 -> 0 <= D -> arma_rec alpha beta eps ys ->
  (forall t, (t < length eps)%nat -> Rabs (nth t ys 0) <= D) ->
  (forall k, (s < k)%nat -> nth k eps 0 = 0) ->
  forall n t, (t < length eps)%nat -> (s + length beta + n * length alpha < t)%nat ->
  Rabs (nth t ys 0) <= abs_sum alpha ^ n * D.
Proof.
  intros HA HD [Hl Hrec] Hb Hq. pose proof (abs_sum_nonneg alpha) as HA0.
  assert (G : forall n t, (t < length eps)%nat -> (s + length beta + n * length alpha < t)%nat ->
     forall M, (forall k, (k < t)%nat -> (s + length beta + n * length alpha < k + length alpha)%nat -> Rabs (nth k ys 0) <= M) ->
     0 <= M -> Rabs (nth t ys 0) <= abs_sum alpha * M).
  { intros n t Ht Hn M HM HM0. rewrite (Hrec t Ht). unfold arma_value.
    rewrite (sum_n_zero (length beta)).
    2:{ intros j Hj. unfold lagged. destruct (Nat.leb_spec (length beta - j) t); [|ring].
        rewrite Hq by lia. ring. }
    rewrite (Hq t) by lia. rewrite !Rplus_0_r. apply dot_bound; auto. intros i Hi.
    unfold lagged. destruct (Nat.leb_spec (length alpha - i) t); [|rewrite Rabs_R0; auto].
    apply HM; lia. }
  induction n as [|n IH]; intros t Ht Hn.
  - simpl. rewrite Rmult_1_l. auto.
  - cbn [pow]. rewrite Rmult_assoc. apply (G (S n) t Ht Hn).
    + intros k Hk Hk'. apply IH; simpl in *; lia.
    + apply Rmult_le_pos; auto. apply pow_le; auto.
Qed.

Lemma arma_forgets alpha beta e1 e2 y1 y2 s D :
  abs_sum alpha < 1 -> 0 <= D -> length e1 = length e2 ->
  arma_rec alpha beta e1 y1 -> arma_rec alpha beta e2 y2 ->
  (forall k, (k <= s)%nat -> Rabs (nth k e1 0 - nth k e2 0) <= D) ->
  (forall k, (s < k)%nat -> nth k e1 0 = nth k e2 0) ->
  forall n t, (t < length e1)%nat -> (s + length beta + n * length alpha < t)%nat ->
  Rabs (nth t y1 0 - nth t y2 0) <= abs_sum alpha ^ n * ((1 + abs_sum beta) * D / (1 - abs_sum alpha)).
Proof.
  intros HA HD Hl H1 H2 Hc Hq n t Ht Hn.
  pose proof (arma_linear alpha beta 1 (Ropp 1) e1 e2 y1 y2 Hl H1 H2) as H.
  assert (Ly : length y1 = length y2) by (destruct H1, H2; congruence).
  set (e := lin 1 (Ropp 1) e1 e2) in *. set (y := lin 1 (Ropp 1) y1 y2) in *.
  assert (Le : length e = length e1) by (apply lin_length; auto).
  assert (Ee : forall k, nth k e 0 = nth k e1 0 - nth k e2 0) by (intros k; unfold e; rewrite lin_nth by auto; ring).
  replace (nth t y1 0 - nth t y2 0) with (nth t y 0) by (unfold y; rewrite lin_nth by auto; ring).
  pose proof (abs_sum_nonneg beta) as HB.
  assert (He : forall k, Rabs (nth k e 0) <= D).
  { intros k. rewrite Ee. destruct (Nat.le_gt_cases k s); [auto|]. rewrite Hq by auto. rewrite Rminus_diag_eq, Rabs_R0; auto. }
  apply (arma_quiet alpha beta e y s); auto; try lia.
  - apply Rmult_le_pos; [apply Rmult_le_pos; lra|left; apply Rinv_0_lt_compat; lra].
  - intros k Hk. apply (arma_stable alpha beta e y D); auto.
  - intros k Hk. rewrite Ee, Hq by auto. ring.
Qed.
