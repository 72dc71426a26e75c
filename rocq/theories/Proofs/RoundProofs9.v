(** EWMCov in rounded arithmetic: distance to the exact covariance. *)
From Coq Require Import List ZArith Reals Lra Lia Bool.
From Verif Require Import Model.Unroll Model.Float Model.Modules Model.Ewm Model.Rounded
  Spec.EwmSpec Spec.SeriesSpec Spec.CovSpec Spec.RoundSpec Proofs.FloatFacts Proofs.ListFacts Proofs.RunFacts
  Proofs.EwmFacts Proofs.EwmProofs Proofs.EwmExtra Proofs.EwmcovProofs Proofs.EwmcovExtra Proofs.RoundProofs Proofs.RoundProofs2
  Proofs.RoundProofs3 Proofs.RoundProofs8.
Import ListNotations.
Local Open Scope R_scope.

(** same missing values, values at most [e] apart *)
Definition near (e : R) (a b : option R) : Prop :=
  match a, b with Some x, Some y => Rabs (x - y) <= e | None, None => True | _, _ => False end.
Definition val (o : option R) : R := match o with Some x => x | None => 0 end.

Lemma near_isobs e os os' : Forall2 (near e) os os' -> map isobs os = map isobs os'.
Proof.
  induction 1 as [|a b os os' H F IH]; cbn [map]; auto. rewrite IH. f_equal. destruct a, b; cbn in *; tauto || auto.
Qed.
Lemma near_nth e os os' : 0 <= e -> Forall2 (near e) os os' -> forall k, Rabs (val (nth k os None) - val (nth k os' None)) <= e.
Proof.
  intros He. induction 1 as [|a b os os' H F IH]; intros [|k]; cbn [nth val]; auto;
    try (rewrite Rminus_0_r, Rabs_R0; auto).
  destruct a, b; cbn in *; try tauto. rewrite Rminus_0_r, Rabs_R0; auto.
Qed.
Lemma count_isobs os os' : map isobs os = map isobs os' -> count_obs os = count_obs os'.
Proof.
  revert os'. induction os as [|a os IH]; intros [|b os'] H; cbn [map] in H; try discriminate; auto.
  injection H as H1 H2. destruct a, b; cbn [count_obs] in *; try discriminate; auto.
Qed.

Lemma wsum_abs n (w v : nat -> R) e : (forall k, 0 <= w k) -> (forall k, Rabs (v k) <= e) ->
  Rabs (sum_n n (fun k => w k * v k)) <= e * sum_n n w.
Proof.
  intros Hw Hv. induction n as [|n IH]; cbn [sum_n].
  - rewrite Rabs_R0, Rmult_0_r. lra.
  - apply Rle_trans with (1 := Rabs_triang _ _). rewrite Rabs_mult, (Rabs_pos_eq (w n)) by auto.
    pose proof (Rmult_le_compat_l (w n) _ _ (Hw n) (Hv n)). nra.
Qed.

Lemma sum_n_minus' n f g : sum_n n f - sum_n n g = sum_n n (fun k => f k - g k).
Proof. induction n; cbn [sum_n]; [ring|]. rewrite <- IHn. ring. Qed.

(** the average is non-expansive *)
Lemma ewma_lipschitz fm cfg e os os' ys ys' s s' :
  0 <= com cfg -> initial_value cfg = NaN -> 0 <= e -> Forall2 (near e) os os' ->
  run (EWMA fm cfg) (map of_option os) = Some (ys, s) -> run (EWMA fm cfg) (map of_option os') = Some (ys', s') ->
  forall t y y', nth_error ys t = Some y -> nth_error ys' t = Some y' -> within e y y'.
Proof.
  intros Hc Hi He F R1 R2 t y y' Y1 Y2.
  pose proof (near_isobs _ _ _ F) as P.
  assert (Ht : (t < length (map isobs os))%nat).
  { rewrite map_length. destruct (ewma_run fm cfg _ _ _ Hc R1) as (L & _). rewrite map_length in L.
    rewrite <- L. apply nth_error_Some. congruence. }
  destruct (ewma_functional fm cfg (map isobs os) t Hc Hi Ht) as (w & W0 & _ & W1 & W).
  pose proof (W os ys s eq_refl R1) as A. pose proof (W os' ys' s' (eq_sym P) R2) as B.
  rewrite Y1 in A. rewrite Y2 in B. injection A as ->. injection B as ->.
  assert (Q : count_obs (firstn (t + 1) os) = count_obs (firstn (t + 1) os')).
  { apply count_isobs. rewrite <- !firstn_map, P. reflexivity. }
  destruct (existsb (fun b => b) (firstn (t + 1) (map isobs os))) eqn:E; unfold when_enough; [|exact I].
  rewrite <- Q. destruct (Z.of_nat (count_obs (firstn (t + 1) os)) <? min_periods cfg)%Z; [exact I|]. cbn [within].
  rewrite sum_n_minus'.
  rewrite (sum_n_ext _ _ (fun k => w k * (val (nth k os None) - val (nth k os' None)))).
  2:{ intros k _. unfold val. ring. }
  apply Rle_trans with (1 := wsum_abs _ _ _ e W0 (near_nth e os os' He F)). rewrite W1 by auto. lra.
Qed.

Lemma ewma_bounded fm cfg X os ys s :
  0 <= com cfg -> initial_value cfg = NaN -> 0 <= X -> Forall (fun o => Rabs (val o) <= X) os ->
  run (EWMA fm cfg) (map of_option os) = Some (ys, s) ->
  forall t y, nth_error ys t = Some y -> bounded X y.
Proof.
  intros Hc Hi HX F R1 t y Y1.
  assert (Ht : (t < length (map isobs os))%nat).
  { rewrite map_length. destruct (ewma_run fm cfg _ _ _ Hc R1) as (L & _). rewrite map_length in L.
    rewrite <- L. apply nth_error_Some. congruence. }
  destruct (ewma_functional fm cfg (map isobs os) t Hc Hi Ht) as (w & W0 & _ & W1 & W).
  pose proof (W os ys s eq_refl R1) as A. rewrite Y1 in A. injection A as ->.
  destruct (existsb (fun b => b) (firstn (t + 1) (map isobs os))) eqn:E; unfold when_enough; [|exact I].
  destruct (Z.of_nat (count_obs (firstn (t + 1) os)) <? min_periods cfg)%Z; [exact I|]. cbn [bounded].
  assert (V : forall k, Rabs (val (nth k os None)) <= X).
  { intros k. destruct (nth_in_or_default k os None) as [H|H].
    - rewrite Forall_forall in F. apply F; auto.
    - rewrite H. cbn [val]. rewrite Rabs_R0. auto. }
  change (Rabs (sum_n (t + 1) (fun k => w k * val (nth k os None))) <= X).
  apply Rle_trans with (1 := wsum_abs _ _ _ X W0 V). rewrite W1 by auto. lra.
Qed.

(** the options behind a list of bounded values *)
Definition opt (x : fl) : option R := match x with Fin r => Some r | _ => None end.
Lemma of_opt X x : bounded X x -> of_option (opt x) = x.
Proof. destruct x; cbn; tauto. Qed.
Lemma map_of_opt X xs : Forall (bounded X) xs -> map of_option (map opt xs) = xs.
Proof. intros H. rewrite map_map. rewrite <- (map_id xs) at 2. apply map_ext_in. intros x Hx. rewrite Forall_forall in H. eapply of_opt; eauto. Qed.

Section CovErr.
  Variables (u eta : R) (rd : R -> R) (fm : R) (cfg : ewma_cfg) (X : R).
  Hypothesis HR : rounding u eta rd.
  Hypothesis Hu : 0 <= u.
  Hypothesis He : 0 <= eta.
  Notation C := (1 + com cfg).
  Hypothesis Hc : 0 <= com cfg.
  Hypothesis Hadj : adjust cfg <> AdjLinear.
  Hypothesis Hi : initial_value cfg = NaN.
  Hypothesis Hs : 100 * u * C ^ 2 <= 1.
  Hypothesis HX : 0 <= X.
  Hypothesis Ht : eta * C <= u * Rmin 1 (X * X).
  Hypothesis Hm1 : 16 * C * Rmax 1 (X * X) <= fm.
  Notation rnd := (round_to rd fm).

  Lemma rmin_sq : Rmin 1 (X * X) <= Rmin 1 X.
  Proof using HX. unfold Rmin. destruct (Rle_dec 1 (X * X)), (Rle_dec 1 X); nra. Qed.
  Lemma rmin_2 : Rmin 1 (X * X) <= Rmin 1 (2 * (X * X)).
  Proof using HX. unfold Rmin. destruct (Rle_dec 1 (X * X)), (Rle_dec 1 (2 * (X * X))); nra. Qed.
  Lemma rmax_sq : Rmax 1 X <= Rmax 1 (X * X).
  Proof using HX. unfold Rmax. destruct (Rle_dec 1 (X * X)), (Rle_dec 1 X); nra. Qed.
  Lemma rmax_2 : Rmax 1 (2 * (X * X)) <= 2 * Rmax 1 (X * X).
  Proof using HX. unfold Rmax. destruct (Rle_dec 1 (X * X)), (Rle_dec 1 (2 * (X * X))); nra. Qed.

  Lemma Cge : 1 <= C * C.
  Proof using Hc. nra. Qed.
  Lemma u_small : u <= / 100.
  Proof using Hc Hu Hs. pose proof Cge. assert (100 * u * 1 <= 100 * u * (C * C)) by (apply Rmult_le_compat_l; lra). nra. Qed.
  Lemma eta_le : eta <= u * (X * X).
  Proof using Hc Hu He Ht HX.
    pose proof (Rmin_r 1 (X * X)). assert (u * Rmin 1 (X * X) <= u * (X * X)) by (apply Rmult_le_compat_l; lra).
    assert (eta * 1 <= eta * C) by (apply Rmult_le_compat_l; lra). lra.
  Qed.
  Lemma fm_ge : 16 * (X * X) <= fm.
  Proof using Hc Hm1 HX.
    pose proof (Rmax_r 1 (X * X)). pose proof (Rmax_l 1 (X * X)).
    assert (16 * 1 * Rmax 1 (X * X) <= 16 * C * Rmax 1 (X * X)) by (apply Rmult_le_compat_r; lra). lra.
  Qed.

  (** the rounded average of a series against the exact one *)
  Lemma mean_err B xs ys s ys' s' : 0 <= B -> Rmin 1 (X * X) <= Rmin 1 B -> Rmax 1 B <= 2 * Rmax 1 (X * X) ->
    Forall (bounded B) xs ->
    run (EWMA_r rnd fm cfg) xs = Some (ys, s) -> run (EWMA fm cfg) xs = Some (ys', s') ->
    forall t y y', nth_error ys t = Some y -> nth_error ys' t = Some y' -> within (80 * u * C ^ 2 * B) y y'.
  Proof using HR Hu He Hc Hadj Hi Hs HX Ht Hm1.
    intros HB H1 H2 F R1 R2 t y y' Y1 Y2.
    assert (A1 : eta * C <= u * Rmin 1 B).
    { apply Rle_trans with (1 := Ht). apply Rmult_le_compat_l; auto. }
    assert (A2 : 8 * C * Rmax 1 B <= fm).
    { apply Rle_trans with (2 := Hm1). assert (0 <= 8 * C) by lra. nra. }
    assert (A3 : bounded B (initial_value cfg)) by (rewrite Hi; exact I).
    destruct (ewma_r_run u eta rd fm cfg B HR Hu He Hc Hadj Hs HB A1 A2 xs ys s F A3 R1) as (L & N).
    destruct (ewma_run fm cfg xs ys' s' Hc R2) as (L' & N').
    specialize (N t y Y1). assert (T : (t < length xs)%nat) by (rewrite <- L'; apply nth_error_Some; congruence).
    specialize (N' t T). rewrite Y2 in N'. injection N' as ->. exact N.
  Qed.

  Lemma prod_round x y : bounded X x -> bounded X y ->
    bounded (2 * (X * X)) (rnd (fmul x y)) /\ bounded (X * X) (fmul x y) /\
    near (2 * u * (X * X)) (opt (rnd (fmul x y))) (opt (fmul x y)).
  Proof using HR Hu He Hc Hs HX Ht Hm1.
    destruct x as [| | |x], y as [| | |y]; cbn [bounded fmul]; intros Hx Hy; try tauto; try (cbn; auto; fail).
    pose proof (abs_mul _ _ _ _ Hx Hy) as P.
    pose proof (rd_err_le u eta rd HR Hu (x * y) (X * X) P) as E.
    pose proof eta_le. pose proof u_small. pose proof fm_ge. assert (0 <= X * X) by nra.
    assert (U : u * (X * X) <= / 100 * (X * X)) by (apply Rmult_le_compat_r; lra).
    assert (Q : Rabs (rd (x * y)) <= 2 * (X * X)).
    { replace (rd (x * y)) with ((rd (x * y) - x * y) + x * y) by ring.
      apply Rle_trans with (1 := Rabs_triang _ _). lra. }
    rewrite round_to_fin by lra. cbn [bounded opt near]. repeat split; auto. lra.
  Qed.

  Lemma combine_err a a' b b' c c' :
    within (162 * u * C ^ 2 * (X * X)) a a' -> within (80 * u * C ^ 2 * X) b b' -> within (80 * u * C ^ 2 * X) c c' ->
    bounded (X * X) a' -> bounded X b' -> bounded X c' ->
    within (400 * u * C ^ 2 * (X * X)) (rnd (fsub a (rnd (fmul b c)))) (fsub a' (fmul b' c')).
  Proof using HR Hu He Hc Hs HX Ht Hm1.
    intros Wa Wb Wc Ba Bb Bc.
    destruct b as [| | |b], b' as [| | |b']; cbn [within bounded] in *; try tauto.
    1:{ unfold fsub. destruct a, a'; cbn in *; tauto. }
    destruct c as [| | |c], c' as [| | |c']; cbn [within bounded] in *; try tauto.
    1:{ unfold fsub. destruct a, a'; cbn in *; tauto. }
    cbn [fmul].
    set (k := u * C ^ 2) in *.
    assert (Hk : 0 <= k <= / 100). { unfold k. split; [|lra]. apply Rmult_le_pos; auto. apply pow2_ge_0. }
    assert (Huk : u <= k). { unfold k. pose proof Cge. assert (u * 1 <= u * (C * C)) by (apply Rmult_le_compat_l; lra). lra. }
    replace (80 * u * C ^ 2 * X) with (80 * k * X) in * by (unfold k; ring).
    replace (162 * u * C ^ 2 * (X * X)) with (162 * k * (X * X)) in * by (unfold k; ring).
    replace (400 * u * C ^ 2 * (X * X)) with (400 * k * (X * X)) by (unfold k; ring).
    pose proof eta_le as Ee. pose proof fm_ge as Ef. set (Q := X * X) in *.
    assert (HQ : 0 <= Q) by (unfold Q; nra).
    assert (K1 : k * X <= / 100 * X) by (apply Rmult_le_compat_r; lra).
    assert (Bb2 : Rabs b <= 1.8 * X).
    { replace b with ((b - b') + b') by ring. apply Rle_trans with (1 := Rabs_triang _ _). lra. }
    assert (Bc2 : Rabs c <= 1.8 * X).
    { replace c with ((c - c') + c') by ring. apply Rle_trans with (1 := Rabs_triang _ _). lra. }
    assert (P1 : Rabs (b * c) <= 3.24 * Q).
    { apply Rle_trans with (1 := abs_mul _ _ _ _ Bb2 Bc2). unfold Q. lra. }
    assert (P2 : Rabs (b * c - b' * c') <= 224 * k * Q).
    { replace (b * c - b' * c') with ((b - b') * c + b' * (c - c')) by ring.
      apply Rle_trans with (1 := Rabs_triang _ _).
      pose proof (abs_mul _ _ _ _ Wb Bc2). pose proof (abs_mul _ _ _ _ Bb Wc). unfold Q. lra. }
    pose proof (rd_err_le u eta rd HR Hu _ _ P1) as E1.
    assert (Uq : u * Q <= k * Q) by (apply Rmult_le_compat_r; lra).
    assert (Kq : k * Q <= / 100 * Q) by (apply Rmult_le_compat_r; lra).
    assert (E1' : Rabs (rd (b * c) - b * c) <= 4.24 * (k * Q)) by (apply Rle_trans with (1 := E1); lra).
    assert (P3 : Rabs (rd (b * c)) <= 3.3 * Q).
    { replace (rd (b * c)) with ((rd (b * c) - b * c) + b * c) by ring. apply Rle_trans with (1 := Rabs_triang _ _). lra. }
    rewrite round_to_fin by lra.
    destruct a as [| | |a], a' as [| | |a']; cbn [within bounded] in *; try tauto. cbn [fsub fadd fneg].
    assert (Ba2 : Rabs a <= 2.62 * Q).
    { replace a with ((a - a') + a') by ring. apply Rle_trans with (1 := Rabs_triang _ _). lra. }
    assert (P4 : Rabs (a + - rd (b * c)) <= 6 * Q).
    { apply Rle_trans with (1 := Rabs_triang _ _). rewrite Rabs_Ropp. lra. }
    pose proof (rd_err_le u eta rd HR Hu _ _ P4) as E2.
    assert (P5 : Rabs (rd (a + - rd (b * c))) <= 6.1 * Q).
    { replace (rd (a + - rd (b * c))) with ((rd (a + - rd (b * c)) - (a + - rd (b * c))) + (a + - rd (b * c))) by ring.
      apply Rle_trans with (1 := Rabs_triang _ _). lra. }
    rewrite round_to_fin by lra. cbn [within].
    replace (rd (a + - rd (b * c)) - (a' + - (b' * c'))) with
      ((rd (a + - rd (b * c)) - (a + - rd (b * c))) + ((a - a') + (- (rd (b * c) - b * c) + - (b * c - b' * c')))) by ring.
    apply Rle_trans with (1 := Rabs_triang _ _).
    assert (T1 := Rabs_triang (a - a') (- (rd (b * c) - b * c) + - (b * c - b' * c'))).
    assert (T2 := Rabs_triang (- (rd (b * c) - b * c)) (- (b * c - b' * c'))).
    rewrite !Rabs_Ropp in T2. lra.
  Qed.

  Lemma within_trans e1 e2 x y z : within e1 x y -> within e2 y z -> within (e1 + e2) x z.
  Proof using.
    destruct x, y, z; cbn; try tauto. intros.
    match goal with |- Rabs (?a - ?c) <= _ => match goal with H : Rabs (a - ?b) <= _ |- _ =>
      replace (a - c) with ((a - b) + (b - c)) by ring end end.
    apply Rle_trans with (1 := Rabs_triang _ _). lra.
  Qed.
  Lemma within_le e1 e2 x y : within e1 x y -> e1 <= e2 -> within e2 x y.
  Proof using. destruct x, y; cbn; try tauto. lra. Qed.

  Lemma nth_total {A} (l : list A) t : (t < length l)%nat -> exists v, nth_error l t = Some v.
  Proof using. intros H. destruct (nth_error l t) eqn:E; eauto. apply nth_error_None in E. lia. Qed.

  Definition cells_bounded (xy : list fl * list fl) : Prop := Forall (bounded X) (fst xy) /\ Forall (bounded X) (snd xy).

  Lemma cell_b (l : list fl) i : Forall (bounded X) l -> bounded X (nth i l NaN).
  Proof using.
    intros F. destruct (nth_in_or_default i l NaN) as [H|H]; [|rewrite H; exact I].
    rewrite Forall_forall in F. auto.
  Qed.

  Lemma cov_err ac p q xs ys s ys' s' :
    Forall (shaped p q) xs -> Forall cells_bounded xs ->
    run (EWMCov_r rnd fm cfg ac) xs = Some (ys, s) -> run (EWMCov fm cfg ac) xs = Some (ys', s') ->
    forall t M M' i j v v', nth_error ys t = Some M -> nth_error ys' t = Some M' ->
    nth2 M i j = Some v -> nth2 M' i j = Some v' -> (i < p)%nat -> (j < q)%nat ->
    within (400 * u * C ^ 2 * (X * X)) v v' /\ bounded (2 * (X * X)) v'.
  Proof using HR Hu He Hc Hadj Hi Hs HX Ht Hm1.
    intros Sh Bd R1 R2 t M M' i j v v' HM HM' Hv Hv' Li Lj.
    destruct (run_nonempty _ _ _ _ R1) as (x0 & r & E0).
    destruct (ewma_r_total rnd fm cfg (fun xy => rnd (comp_xy i j xy)) x0 r) as (e1 & s1 & Q1).
    destruct (ewma_r_total rnd fm cfg (comp_x i) x0 r) as (e2 & s2 & Q2).
    destruct (ewma_r_total rnd fm cfg (comp_y j) x0 r) as (e3 & s3 & Q3).
    destruct (ewma_total fm cfg (comp_xy i j) x0 r) as (f1 & g1 & P1).
    destruct (ewma_total fm cfg (comp_x i) x0 r) as (f2 & g2 & P2).
    destruct (ewma_total fm cfg (comp_y j) x0 r) as (f3 & g3 & P3).
    destruct (ewma_total fm cfg (fun xy => rnd (comp_xy i j xy)) x0 r) as (h1 & k1 & P0).
    rewrite <- E0 in *.
    destruct (cov_r_run rnd fm cfg ac p q xs ys s Sh R1) as (L1 & N1).
    assert (T : (t < length xs)%nat) by (rewrite <- L1; apply nth_error_Some; congruence).
    destruct (N1 i j Li Lj _ _ _ _ _ _ Q1 Q2 Q3 t T) as (M1 & a & b & c & EM & Ea & Eb & Ec & Ev).
    rewrite <- ewmcov_exact in R2.
    change (EWMA fm cfg) with (EWMA_r (fun v => v) fm cfg) in P1, P2, P3.
    destruct (cov_r_run (fun v => v) fm cfg ac p q xs ys' s' Sh R2) as (L2 & N2).
    destruct (N2 i j Li Lj _ _ _ _ _ _ P1 P2 P3 t T) as (M2 & a' & b' & c' & EM' & Ea' & Eb' & Ec' & Ev').
    change (EWMA_r (fun v => v) fm cfg) with (EWMA fm cfg) in P1, P2, P3.
    rewrite HM in EM. injection EM as <-. rewrite HM' in EM'. injection EM' as <-.
    rewrite Hv in Ev. rewrite Hv' in Ev'. apply (f_equal (fun o => match o with Some z => z | None => NaN end)) in Ev, Ev'.
    cbn beta iota in Ev, Ev'. subst v v'.
    assert (Bx : Forall (bounded X) (map (comp_x i) xs)).
    { apply Forall_map. eapply Forall_impl; [|exact Bd]. intros xy (H & _). apply cell_b, H. }
    assert (By : Forall (bounded X) (map (comp_y j) xs)).
    { apply Forall_map. eapply Forall_impl; [|exact Bd]. intros xy (_ & H). apply cell_b, H. }
    assert (Pr : Forall (fun xy => bounded (2 * (X * X)) (rnd (comp_xy i j xy)) /\ bounded (X * X) (comp_xy i j xy) /\
       near (2 * u * (X * X)) (opt (rnd (comp_xy i j xy))) (opt (comp_xy i j xy))) xs).
    { eapply Forall_impl; [|exact Bd]. intros xy (H & H'). apply prod_round; apply cell_b; auto. }
    assert (Bp : Forall (bounded (2 * (X * X))) (map (fun xy => rnd (comp_xy i j xy)) xs)).
    { apply Forall_map. eapply Forall_impl; [|exact Pr]. intros xy H. apply H. }
    assert (Bp' : Forall (bounded (X * X)) (map (comp_xy i j) xs)).
    { apply Forall_map. eapply Forall_impl; [|exact Pr]. intros xy H. apply H. }
    assert (HQ : 0 <= X * X) by nra.
    (* the three means *)
    destruct (ewma_run fm cfg _ _ _ Hc P0) as (L0 & _). rewrite map_length in L0.
    destruct (nth_total h1 t ltac:(lia)) as (a0 & Ea0).
    assert (Wb : within (80 * u * C ^ 2 * X) b b').
    { refine (mean_err X _ _ _ _ _ HX rmin_sq _ Bx Q2 P2 t b b' Eb Eb'). pose proof rmax_sq.
      pose proof (Rmax_l 1 (X * X)). lra. }
    assert (Wc : within (80 * u * C ^ 2 * X) c c').
    { refine (mean_err X _ _ _ _ _ HX rmin_sq _ By Q3 P3 t c c' Ec Ec'). pose proof rmax_sq.
      pose proof (Rmax_l 1 (X * X)). lra. }
    assert (Wa0 : within (80 * u * C ^ 2 * (2 * (X * X))) a a0).
    { refine (mean_err (2 * (X * X)) _ _ _ _ _ _ rmin_2 rmax_2 Bp Q1 P0 t a a0 Ea Ea0). lra. }
    assert (Wa1 : within (2 * u * (X * X)) a0 a').
    { rewrite <- (map_of_opt _ _ Bp) in P0. rewrite <- (map_of_opt _ _ Bp') in P1. rewrite !map_map in P0, P1.
      rewrite <- (map_map (fun x => opt (rnd (comp_xy i j x))) of_option) in P0.
      rewrite <- (map_map (fun x => opt (comp_xy i j x)) of_option) in P1.
      refine (ewma_lipschitz fm cfg _ _ _ _ _ _ _ Hc Hi _ _ P0 P1 t a0 a' Ea0 Ea').
      - assert (0 <= u * (X * X)) by (apply Rmult_le_pos; auto). lra.
      - clear -Pr. induction Pr as [|xy xs H F IH]; cbn [map]; constructor; auto. apply H. }
    assert (Wa : within (162 * u * C ^ 2 * (X * X)) a a').
    { apply within_le with (1 := within_trans _ _ _ _ _ Wa0 Wa1).
      pose proof Cge. assert (0 <= u * (X * X)) by (apply Rmult_le_pos; auto).
      assert (u * (X * X) * 1 <= u * (X * X) * (C * C)) by (apply Rmult_le_compat_l; lra). lra. }
    assert (Vb : forall B xs, 0 <= B -> Forall (bounded B) xs -> Forall (fun o => Rabs (val o) <= B) (map opt xs)).
    { clear. intros B xs HB F. apply Forall_map. eapply Forall_impl; [|exact F]. intros [| | |x]; cbn; auto; rewrite Rabs_R0; auto. }
    assert (Ga : bounded (X * X) a').
    { rewrite <- (map_of_opt _ _ Bp') in P1. exact (ewma_bounded fm cfg _ _ _ _ Hc Hi HQ (Vb _ _ HQ Bp') P1 t a' Ea'). }
    assert (Gb : bounded X b').
    { rewrite <- (map_of_opt _ _ Bx) in P2. exact (ewma_bounded fm cfg _ _ _ _ Hc Hi HX (Vb _ _ HX Bx) P2 t b' Eb'). }
    assert (Gc : bounded X c').
    { rewrite <- (map_of_opt _ _ By) in P3. exact (ewma_bounded fm cfg _ _ _ _ Hc Hi HX (Vb _ _ HX By) P3 t c' Ec'). }
    split.
    - destruct ac.
      + apply within_le with (1 := Wa). assert (0 <= u * C ^ 2 * (X * X)); [|lra].
        apply Rmult_le_pos; auto. apply Rmult_le_pos; auto. apply pow2_ge_0.
      + apply combine_err; auto.
    - destruct ac.
      + destruct a' as [| | |a']; cbn [bounded] in *; auto. lra.
      + destruct a' as [| | |a'], b' as [| | |b'], c' as [| | |c']; cbn in *; auto; try tauto.
        apply Rle_trans with (1 := Rabs_triang _ _). rewrite Rabs_Ropp.
        pose proof (abs_mul _ _ _ _ Gb Gc). lra.
  Qed.
End CovErr.

Section CovThms.
  Variables (u eta : R) (rd : R -> R) (fm : R) (cfg : ewma_cfg) (X : R).
  Hypothesis HR : rounding u eta rd.
  Hypothesis Hu : 0 <= u.
  Hypothesis He : 0 <= eta.
  Hypothesis Hc : 0 <= com cfg.
  Hypothesis Hadj : adjust cfg <> AdjLinear.
  Hypothesis Hi : initial_value cfg = NaN.
  Hypothesis Hs : 100 * u * (1 + com cfg) ^ 2 <= 1.
  Hypothesis HX : 0 <= X.
  Hypothesis Ht : eta * (1 + com cfg) <= u * Rmin 1 (X * X).
  Hypothesis Hm1 : 16 * (1 + com cfg) * Rmax 1 (X * X) <= fm.

  Lemma entry_total rnd ac p q xs ys s : Forall (shaped p q) xs -> run (EWMCov_r rnd fm cfg ac) xs = Some (ys, s) ->
    length ys = length xs /\
    forall t M i j, nth_error ys t = Some M -> (i < p)%nat -> (j < q)%nat -> exists v, nth2 M i j = Some v.
  Proof using.
    intros Sh R1. destruct (run_nonempty _ _ _ _ R1) as (x0 & r & E0).
    destruct (cov_r_run rnd fm cfg ac p q xs ys s Sh R1) as (L1 & N1). split; auto.
    intros t M i j HM Li Lj.
    destruct (ewma_r_total rnd fm cfg (fun xy => rnd (comp_xy i j xy)) x0 r) as (e1 & s1 & Q1).
    destruct (ewma_r_total rnd fm cfg (comp_x i) x0 r) as (e2 & s2 & Q2).
    destruct (ewma_r_total rnd fm cfg (comp_y j) x0 r) as (e3 & s3 & Q3). rewrite <- E0 in *.
    assert (T : (t < length xs)%nat) by (rewrite <- L1; apply nth_error_Some; congruence).
    destruct (N1 i j Li Lj _ _ _ _ _ _ Q1 Q2 Q3 t T) as (M1 & a & b & c & EM & Ea & Eb & Ec & Ev).
    rewrite HM in EM. injection EM as <-. eauto.
  Qed.

  Lemma cov_rounded ac p q xs ys s ys' s' :
    Forall (shaped p q) xs ->
    Forall (fun xy => Forall (bounded X) (fst xy) /\ Forall (bounded X) (snd xy)) xs ->
    run (EWMCov_r (round_to rd fm) fm cfg ac) xs = Some (ys, s) -> run (EWMCov fm cfg ac) xs = Some (ys', s') ->
    length ys = length xs /\ length ys' = length xs /\
    forall t M M' i j, nth_error ys t = Some M -> nth_error ys' t = Some M' -> (i < p)%nat -> (j < q)%nat ->
    exists v v', nth2 M i j = Some v /\ nth2 M' i j = Some v' /\
      within (400 * u * (1 + com cfg) ^ 2 * (X * X)) v v'.
  Proof using HR Hu He Hc Hadj Hi Hs HX Ht Hm1.
    intros Sh Bd R1 R2.
    destruct (entry_total _ ac p q xs ys s Sh R1) as (L1 & T1).
    pose proof R2 as R2'. rewrite <- ewmcov_exact in R2'.
    destruct (entry_total _ ac p q xs ys' s' Sh R2') as (L2 & T2).
    repeat split; auto. intros t M M' i j HM HM' Li Lj.
    destruct (T1 t M i j HM Li Lj) as (v & Ev). destruct (T2 t M' i j HM' Li Lj) as (v' & Ev').
    exists v, v'. repeat split; auto.
    exact (proj1 (cov_err u eta rd fm cfg X HR Hu He Hc Hadj Hi Hs HX Ht Hm1 ac p q xs ys s ys' s' Sh Bd R1 R2
      t M M' i j v v' HM HM' Ev Ev' Li Lj)).
  Qed.

  Lemma cov_almost_nonneg p xs ys s :
    Forall (fun x => length x = p /\ Forall (bounded X) x) xs ->
    run (EWMCov_r (round_to rd fm) fm cfg false) (map (fun x => (x, x)) xs) = Some (ys, s) ->
    forall t M i, nth_error ys t = Some M -> (i < p)%nat ->
    exists v, nth2 M i i = Some v /\
      (v = NaN \/ exists r, v = Fin r /\ - (400 * u * (1 + com cfg) ^ 2 * (X * X)) <= r).
  Proof using HR Hu He Hc Hadj Hi Hs HX Ht Hm1.
    intros F R1 t M i HM Li.
    assert (Sh : Forall (shaped p p) (map (fun x => (x, x)) xs)).
    { apply Forall_map. eapply Forall_impl; [|exact F]. intros x (H & _). split; auto. }
    assert (Bd : Forall (fun xy => Forall (bounded X) (fst xy) /\ Forall (bounded X) (snd xy)) (map (fun x => (x, x)) xs)).
    { apply Forall_map. eapply Forall_impl; [|exact F]. intros x (_ & H). split; auto. }
    destruct (run_nonempty _ _ _ _ R1) as (z0 & r & E0).
    destruct (run_total (fun xy => ewmcov_init cfg (fst xy) (snd xy)) (ewmcov_step fm cfg false) z0 r) as (ys' & s' & R2).
    rewrite <- E0 in R2. fold (EWMCov fm cfg false) in R2.
    destruct (cov_rounded false p p _ _ _ _ _ Sh Bd R1 R2) as (L1 & L2 & H).
    assert (T : (t < length ys')%nat) by (rewrite L2, <- L1; apply nth_error_Some; congruence).
    destruct (nth_total ys' t T) as (M' & HM').
    destruct (H t M M' i i HM HM' Li Li) as (v & v' & Ev & Ev' & W).
    exists v. split; auto.
    assert (E : map (fun x => (map of_option x, map of_option x)) (map (map opt) xs) = map (fun x => (x, x)) xs).
    { rewrite map_map. apply map_ext_in. intros x Hx. rewrite Forall_forall in F. destruct (F x Hx) as (_ & Bx).
      rewrite (map_of_opt X x Bx). reflexivity. }
    rewrite <- E in R2.
    assert (F' : Forall (fun x => length x = p) (map (map opt) xs)).
    { apply Forall_map. eapply Forall_impl; [|exact F]. intros x (Hx & _). rewrite map_length. auto. }
    destruct (cov_diag fm cfg p _ _ _ Hc Hi F' R2 t M' i HM' Li) as (v2 & Ev2 & D).
    rewrite Ev' in Ev2. injection Ev2 as <-.
    destruct D as [->|(r0 & -> & Hr)].
    - destruct v; cbn in W; tauto.
    - right. destruct v as [| | |x]; cbn in W; try tauto. exists x. split; auto.
      apply abs_inv in W. lra.
  Qed.
End CovThms.

Lemma side_sq c X hi lo : 0 <= X -> 1 <= hi -> lo <= X <= hi -> 0 < lo <= 1 ->
  lo * lo <= X * X <= hi * hi /\ lo * lo <= 8 * Rmax 1 (X * X) <= 8 * (hi * hi) /\
  (8 * (1 + c) * Rmax 1 (8 * Rmax 1 (X * X)) = 64 * (1 + c) * Rmax 1 (X * X)).
Proof.
  intros H0 H1 H2 H3.
  assert (A : lo * lo <= X * X) by nra. assert (B : X * X <= hi * hi) by nra.
  pose proof (Rmax_l 1 (X * X)). pose proof (Rmax_r 1 (X * X)).
  assert (Rmax 1 (X * X) <= hi * hi) by (apply Rmax_lub; nra).
  split; [lra|]. split; [nra|]. rewrite (Rmax_right 1 (8 * Rmax 1 (X * X))) by lra. ring.
Qed.

(** the scalar model of the diagonal (Model/Rounded.v) is the diagonal of the matrix model *)
From Verif Require Import Proofs.RoundProofs7.
Lemma ewmcov_diag_same rnd fm cfg xs ys ys' s s' :
  run (EWMCov_diag_r rnd fm cfg) xs = Some (ys, s) ->
  run (EWMCov_r rnd fm cfg false) (map (fun x => ([x], [x])) xs) = Some (ys', s') ->
  ys' = map (fun y => [[y]]) ys.
Proof.
  intros H1 H2.
  assert (F : Forall2 (fun y m => m = [[y]]) ys ys').
  { refine (run_sim _ _ _ _ (fun x => ([x], [x]))
      (fun a b => cov_xy b = [[fst a]] /\ cov_x b = [snd a] /\ cov_y b = [snd a]) _ _ _ xs ys ys' s s' H1 H2).
    - intros x. repeat split.
    - intros [a1 a2] [b1 b2 b3] x (E1 & E2 & E3). cbn [cov_xy cov_x cov_y fst snd] in *. subst.
      unfold ewmcov_diag_step_r, ewmcov_step_r, ewma_mat_r, ewma_vec_r, outer.
      cbn [cov_xy cov_x cov_y map map2 fst snd].
      destruct (ewma_step_r rnd fm cfg a1 (rnd (fmul x x))) as [[r1 i1] t1].
      destruct (ewma_step_r rnd fm cfg a2 x) as [[r2 i2] t2].
      cbn [cov_xy cov_x cov_y map map2 fst snd]. repeat split. }
  clear -F. induction F; cbn [map]; congruence.
Qed.

Lemma side_single_sq c X : 0 <= c -> 1 + c <= 2 ^ 8 -> / 2 ^ 48 <= X <= 2 ^ 48 ->
  0 <= / 2 ^ 24 /\ 0 <= / 2 ^ 150 /\ 100 * / 2 ^ 24 * (1 + c) ^ 2 <= 1 /\ 0 <= X /\
  / 2 ^ 150 * (1 + c) <= / 2 ^ 24 * Rmin 1 (X * X) /\ 64 * (1 + c) * Rmax 1 (X * X) <= max_single.
Proof.
  intros H1 H2 H3.
  assert (Pl : 0 < / 2 ^ 48 <= 1).
  { split; [apply Rinv_0_lt_compat, pow_lt; lra|]. rewrite <- Rinv_1 at 1. apply Rinv_le_contravar; [lra|]. apply pow_R1_Rle; lra. }
  assert (Ph : 1 <= 2 ^ 48) by (apply pow_R1_Rle; lra).
  assert (E1 : / 2 ^ 48 * / 2 ^ 48 = / 2 ^ 96).
  { rewrite <- Rinv_mult. rewrite <- pow_add. reflexivity. }
  assert (E2 : 2 ^ 48 * 2 ^ 48 = 2 ^ 96) by (rewrite <- pow_add; reflexivity).
  destruct (side_sq c X (2 ^ 48) (/ 2 ^ 48) ltac:(lra) Ph H3 Pl) as (A & B & D).
  rewrite E1, E2 in A, B.
  assert (F1 : / 2 ^ 100 <= / 2 ^ 96).
  { apply Rinv_le_contravar; [apply pow_lt; lra|]. apply Rle_pow; [lra|lia]. }
  assert (F2 : 2 ^ 96 <= 2 ^ 100) by (apply Rle_pow; [lra|lia]).
  assert (F3 : 8 * 2 ^ 96 <= 2 ^ 100). { replace (2 ^ 100) with (16 * 2 ^ 96) by (simpl; ring). assert (0 < 2 ^ 96) by (apply pow_lt; lra). lra. }
  destruct (side_single c (X * X) H1 H2 ltac:(lra)) as (Q1 & Q2 & Q3 & _ & _ & Q5 & _).
  destruct (side_single c (8 * Rmax 1 (X * X)) H1 H2 ltac:(lra)) as (_ & _ & _ & _ & _ & _ & Q6 & _).
  rewrite D in Q6. repeat split; auto. lra.
Qed.
Lemma side_double_sq c X : 0 <= c -> 1 + c <= 2 ^ 23 -> / 2 ^ 448 <= X <= 2 ^ 448 ->
  0 <= / 2 ^ 53 /\ 0 <= / 2 ^ 1075 /\ 100 * / 2 ^ 53 * (1 + c) ^ 2 <= 1 /\ 0 <= X /\
  / 2 ^ 1075 * (1 + c) <= / 2 ^ 53 * Rmin 1 (X * X) /\ 64 * (1 + c) * Rmax 1 (X * X) <= max_double.
Proof.
  intros H1 H2 H3.
  assert (Pl : 0 < / 2 ^ 448 <= 1).
  { split; [apply Rinv_0_lt_compat, pow_lt; lra|]. rewrite <- Rinv_1 at 1. apply Rinv_le_contravar; [lra|]. apply pow_R1_Rle; lra. }
  assert (Ph : 1 <= 2 ^ 448) by (apply pow_R1_Rle; lra).
  assert (E1 : / 2 ^ 448 * / 2 ^ 448 = / 2 ^ 896).
  { rewrite <- Rinv_mult. rewrite <- pow_add. reflexivity. }
  assert (E2 : 2 ^ 448 * 2 ^ 448 = 2 ^ 896) by (rewrite <- pow_add; reflexivity).
  destruct (side_sq c X (2 ^ 448) (/ 2 ^ 448) ltac:(lra) Ph H3 Pl) as (A & B & D).
  rewrite E1, E2 in A, B.
  assert (F1 : / 2 ^ 900 <= / 2 ^ 896).
  { apply Rinv_le_contravar; [apply pow_lt; lra|]. apply Rle_pow; [lra|lia]. }
  assert (F3 : 2 ^ 900 = 16 * 2 ^ 896). { change 900%nat with (4 + 896)%nat. rewrite pow_add. ring. }
  assert (F4 : 0 < 2 ^ 896) by (apply pow_lt; lra).
  destruct (side_double c (X * X) H1 H2 ltac:(lra)) as (Q1 & Q2 & Q3 & _ & _ & Q5 & _).
  destruct (side_double c (8 * Rmax 1 (X * X)) H1 H2 ltac:(lra)) as (_ & _ & _ & _ & _ & _ & Q6 & _).
  rewrite D in Q6. repeat split; auto. lra.
Qed.
