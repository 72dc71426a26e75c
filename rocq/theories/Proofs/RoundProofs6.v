(** Diff, PctChange and RollingMean with rounding. *)
From Coq Require Import List ZArith Reals Lra Lia Bool.
From Verif Require Import Model.Unroll Model.Float Model.Modules Model.Ewm Model.Rounded
  Spec.RoundSpec Proofs.FloatFacts Proofs.RunFacts Proofs.RoundProofs Proofs.RoundProofs2.
Import ListNotations.
Local Open Scope R_scope.

Lemma run_rel {S X Y Y'} (init : X -> S) (f : S -> X -> Y * S) (g : S -> X -> Y' * S)
  (Inv : S -> Prop) (P : X -> Prop) (Rl : Y -> Y' -> Prop) :
  (forall x, P x -> Inv (init x)) ->
  (forall s x, Inv s -> P x ->
     snd (f s x) = snd (g s x) /\ Inv (snd (g s x)) /\ Rl (fst (f s x)) (fst (g s x))) ->
  forall xs ys ys' s s', Forall P xs ->
    run (hk_module init f) xs = Some (ys, s) -> run (hk_module init g) xs = Some (ys', s') ->
    s = s' /\ Forall2 Rl ys ys'.
Proof.
  intros H0 Hs xs ys ys' s s' HP H1 H2.
  destruct (run_nonempty _ _ _ _ H1) as (x0 & r & ->).
  rewrite (run_eq init f) in H1. rewrite (run_eq init g) in H2. apply some_pair_inj in H1. apply some_pair_inj in H2.
  destruct H1 as [<- <-], H2 as [<- <-].
  specialize (H0 x0 (Forall_inv HP)). revert H0 HP. generalize (init x0), (x0 :: r). clear x0 r.
  intros st l. revert st. induction l as [|x l IH]; intros st H0 HP; cbn [lax_scan].
  - split; [reflexivity|constructor].
  - destruct (Hs st x H0 (Forall_inv HP)) as (E & I1 & R1). unfold stepf at 1 3 5 7. rewrite E.
    destruct (IH (snd (g st x)) I1 (Forall_inv_tail HP)) as (A & B).
    destruct (lax_scan (stepf f) _ l) as [c1 o1]. destruct (lax_scan (stepf g) _ l) as [c2 o2].
    cbn [fst snd] in *. split; auto.
Qed.

(** Diff: the correctly rounded difference. *)
Lemma diff_rounded rnd xs ys ys' s s' m :
  Diff 1 = Some m -> run (Diff_r rnd) xs = Some (ys, s) -> run m xs = Some (ys', s') ->
  ys = map rnd ys'.
Proof.
  intros Hm H1 H2. unfold Diff in Hm. cbn [Nat.eqb] in Hm.
  assert (E : m = hk_module (fun _ => buffer_init (1 + 1) NaN) diff_step) by congruence. subst m.
  assert (F : Forall2 (fun a b => a = rnd b) ys ys').
  { refine (proj2 (run_rel (fun _ : fl => buffer_init 2 NaN) (diff_step_r rnd) diff_step
      (fun _ => True) (fun _ => True) (fun a b => a = rnd b) _ _ xs ys ys' s s' _ H1 H2)); auto.
    apply Forall_forall. auto. }
  clear -F. induction F; cbn [map]; congruence.
Qed.

Section Pct.
  Variables (u eta : R) (rd : R -> R) (fm : R).
  Hypothesis HR : rounding u eta rd.
  Hypothesis Hu : 0 <= u <= 1.
  Hypothesis He : 0 <= eta.
  Notation rnd := (round_to rd fm).

  (** finite exact result, without overflow *)
  Lemma pct_one x p : p <> 0 -> 8 * (Rabs (x / p) + 1 + eta) <= fm ->
    exists v, rnd (fsub (rnd (fdiv (Fin x) (Fin p))) (Fin 1)) = Fin v /\
      Rabs (v - (x / p - 1)) <= 3 * u * (1 + Rabs (x / p - 1)) + 3 * eta.
  Proof using HR Hu He.
    intros Hp Hf. rewrite fdiv_Fin by auto. set (q := x / p) in *. set (A := Rabs q) in *.
    assert (A0 : 0 <= A) by apply Rabs_pos.
    assert (HA : Rabs q <= A) by apply Rle_refl.
    pose proof (abs_inv _ _ (rd_err_le u eta rd HR (proj1 Hu) q A HA)) as E1.
    assert (uA : 0 <= u * A <= A).
    { split; [apply Rmult_le_pos; lra|]. rewrite <- (Rmult_1_l A) at 2. apply Rmult_le_compat_r; lra. }
    pose proof (abs_inv _ _ HA).
    rewrite round_to_fin by (apply abs_le; lra). cbn [fsub fadd fneg]. fold (rd q - 1).
    set (Y := Rabs (q - 1)) in *. assert (Y0 : 0 <= Y) by apply Rabs_pos.
    assert (HY : A <= 1 + Y).
    { unfold A, Y. replace q with (1 + (q - 1)) at 1 by lra. apply Rle_trans with (1 := Rabs_triang _ _).
      rewrite Rabs_R1. lra. }
    assert (HY2 : Y <= A + 1).
    { unfold A, Y. apply Rle_trans with (1 := Rabs_triang q (- 1)). replace (Rabs (- 1)) with 1 by (unfold Rabs; destruct (Rcase_abs _); lra). lra. }
    assert (HYq : - Y <= q - 1 <= Y) by (apply abs_inv, Rle_refl).
    assert (uA2 : u * A <= u * (1 + Y)) by (apply Rmult_le_compat_l; lra).
    assert (B : Rabs (rd q - 1) <= Y + u * A + eta) by (apply abs_le; lra).
    pose proof (abs_inv _ _ (rd_err_le u eta rd HR (proj1 Hu) _ _ B)) as E2.
    assert (U2 : u * (Y + u * A + eta) <= u * Y + u * A + eta).
    { assert (u * (u * A) <= u * A).
      { rewrite <- (Rmult_1_l (u * A)) at 2. apply Rmult_le_compat_r; lra. }
      assert (u * eta <= eta) by (rewrite <- (Rmult_1_l eta) at 2; apply Rmult_le_compat_r; lra). lra. }
    assert (uY : 0 <= u * Y <= Y).
    { split; [apply Rmult_le_pos; lra|]. rewrite <- (Rmult_1_l Y) at 2. apply Rmult_le_compat_r; lra. }
    apply abs_inv in B.
    rewrite round_to_fin by (apply abs_le; lra).
    eexists. split; [reflexivity|]. apply abs_le; lra.
  Qed.

  (** what the rounded percentage change is, for any pair of floats *)
  Notation pct_close := (pct_close u eta).
  Lemma pct_any x p : let y := fsub (fdiv x p) (Fin 1) in
    (forall r, y = Fin r -> 8 * (Rabs r + 2 + eta) <= fm) ->
    pct_close (rnd (fsub (rnd (fdiv x p)) (Fin 1))) y.
  Proof using HR Hu He.
    intros y Hy. unfold y in *. clear y.
    assert (D : (exists q, fdiv x p = Fin q) \/ rnd (fdiv x p) = fdiv x p /\
                (fdiv x p = NaN \/ fdiv x p = PInf \/ fdiv x p = NInf)).
    { destruct (fdiv x p); [right|right|right|left; eauto]; cbn [round_to]; split; auto. }
    destruct D as [[q E]|[E [E2|[E2|E2]]]].
    2-4: rewrite E, E2; reflexivity.
    rewrite E in *. cbn [fsub fadd fneg] in Hy.
    specialize (Hy _ eq_refl).
    assert (A : Rabs q <= Rabs (q + Ropp 1) + 1).
    { replace q with ((q + Ropp 1) + 1) at 1 by ring. apply Rle_trans with (1 := Rabs_triang _ _).
      rewrite Rabs_R1. lra. }
    pose proof (pct_one q 1 ltac:(lra)) as P. rewrite fdiv_Fin in P by lra.
    replace (q / 1) with q in P by field.
    destruct P as (w & Ew & Hw); [lra|]. rewrite Ew. cbn [fsub fadd fneg pct_close]. eauto.
  Qed.

  (** sum over a window; the missing values count as 0, which adds no error *)
  Variable X : R.
  Hypothesis HX : 0 <= X.
  Definition obs_count (b : list fl) : R := INR (length (filter (fun v => negb (isnan v)) b)).
  Lemma rsum_err l s sh B e :
    Forall (bounded X) l -> rd sh = sh ->
    Rabs s <= B -> Rabs (sh - s) <= e ->
    let n := obs_count l in
    let T := n * (u * (2 * (B + n * X) ) + eta) in
    e + T <= B + n * X -> 4 * (B + n * X) + eta <= fm ->
    exists r rh,
      fold_left fadd (map (fun v => if negb (isnan v) then v else Fin 0) l) (Fin s) = Fin r /\
      fold_left (fun s v => rnd (fadd s v)) (map (fun v => if negb (isnan v) then v else Fin 0) l) (Fin sh) = Fin rh /\
      Rabs r <= B + n * X /\ Rabs (rh - r) <= e + T.
  Proof using HR Hu He HX.
    revert s sh B e. induction l as [|v l IH]; intros s sh B e Hl Hrep Hs Hsh n T HT Hf.
    - exists s, sh. cbn [map fold_left]. unfold T, n, obs_count in *. cbn [filter length INR] in *.
      repeat split; auto; lra.
    - pose proof (Forall_inv Hl) as Hv. cbn [map fold_left].
      assert (B0 : 0 <= B) by (apply Rle_trans with (2 := Hs), Rabs_pos).
      assert (e0 : 0 <= e) by (apply Rle_trans with (2 := Hsh), Rabs_pos).
      destruct v as [| | |r]; try contradiction.
      + (* missing *)
        cbn [isnan negb fadd].
        assert (En : n = obs_count l) by reflexivity.
        assert (n0 : 0 <= n) by apply pos_INR. assert (nX : 0 <= n * X) by (apply Rmult_le_pos; auto).
        rewrite !Rplus_0_r. apply abs_inv in Hsh as Hsh'. apply abs_inv in Hs as Hs'.
        assert (0 <= T).
        { unfold T. apply Rmult_le_pos; auto. assert (0 <= u * (2 * (B + n * X))); [|lra].
          apply Rmult_le_pos; lra. }
        rewrite round_to_fin by (rewrite Hrep; apply abs_le; lra). rewrite Hrep.
        destruct (IH s sh B e (Forall_inv_tail Hl) Hrep Hs Hsh) as (r1 & rh1 & F1 & F2 & F3 & F4); auto.
        exists r1, rh1. rewrite <- En in F3, F4. auto.
      + cbn [isnan negb fadd].
        assert (En : n = obs_count l + 1).
        { unfold n, obs_count. cbn [filter isnan negb length]. apply S_INR. }
        unfold T in *. clear T. rewrite En in *. clear En n. set (k := obs_count l) in *.
        assert (k0 : 0 <= k) by apply pos_INR.
        assert (kX : 0 <= k * X) by (apply Rmult_le_pos; auto).
        set (G := B + (k + 1) * X) in *. assert (EG : G = B + X + k * X) by (unfold G; ring).
        set (g := u * (2 * G) + eta) in *.
        assert (g0 : 0 <= g).
        { unfold g. assert (0 <= u * (2 * G)) by (apply Rmult_le_pos; lra). lra. }
        assert (kg : 0 <= k * g) by (apply Rmult_le_pos; auto).
        cbn [bounded] in Hv.
        apply abs_inv in Hs. apply abs_inv in Hsh. apply abs_inv in Hv.
        assert (S1 : Rabs (s + r) <= B + X) by (apply abs_le; lra).
        assert (S2 : Rabs (sh + r) <= 2 * G).
        { apply abs_le; lra. }
        pose proof (abs_inv _ _ (rd_err_le u eta rd HR (proj1 Hu) _ _ S2)) as E1. fold g in E1.
        assert (E2 : Rabs (rd (sh + r) - (s + r)) <= e + g) by (apply abs_le; lra).
        pose proof (abs_inv _ _ S2) as S2'. pose proof (abs_inv _ _ E2). pose proof (abs_inv _ _ S1).
        rewrite round_to_fin by (apply abs_le; lra).
        specialize (IH (s + r) (rd (sh + r)) (B + X) (e + g) (Forall_inv_tail Hl)
                       (rd_idem _ _ _ HR _) S1 E2).
        cbv zeta in IH. fold k in IH. rewrite <- EG in IH. fold g in IH.
        destruct IH as (r1 & rh1 & F1 & F2 & F3 & F4); auto; try lra.
        exists r1, rh1. repeat split; auto. replace (e + (k + 1) * g) with (e + g + k * g) by ring. auto.
  Qed.

  Variable h : nat.
  Hypothesis Hh : 100 * INR h * u <= 1.
  Hypothesis Heta : 4 * eta <= X.
  Hypothesis Hfm : 8 * INR h * X + 8 * X <= fm.
  Lemma rolling_one mp b : length b = h -> Forall (bounded X) b ->
    within (3 * (INR h + 1) * u * X + 3 * eta) (rolling_mean_of_r rnd mp b) (rolling_mean_of mp b).
  Proof using HR Hu He HX Hh Heta Hfm.
    intros Hlen Hb. unfold rolling_mean_of_r, rolling_mean_of.
    destruct (Z.geb _ _); [|exact I].
    unfold rsum, fsum. fold (obs_count b). set (n := obs_count b).
    assert (Hn : n = 0 \/ 1 <= n).
    { unfold n, obs_count. destruct (length (filter _ _)) as [|k]; [left; reflexivity|right].
      rewrite S_INR. pose proof (pos_INR k). lra. }
    assert (nh : n <= INR h).
    { unfold n, obs_count. apply le_INR. rewrite <- Hlen. clear. induction b; cbn; [lia|].
      destruct (negb _); cbn; lia. }
    assert (n0 : 0 <= n) by lra.
    assert (nX : 0 <= n * X <= INR h * X).
    { split; [apply Rmult_le_pos|apply Rmult_le_compat_r]; auto. }
    assert (nu : 100 * (n * u) <= 1).
    { assert (n * u <= INR h * u) by (apply Rmult_le_compat_r; lra). lra. }
    assert (nuX : 0 <= n * u * X /\ 100 * (n * u * X) <= X).
    { split. apply Rmult_le_pos; auto. apply Rmult_le_pos; lra.
      replace (100 * (n * u * X)) with (100 * (n * u) * X) by ring.
      rewrite <- (Rmult_1_l X) at 2. apply Rmult_le_compat_r; auto. }
    set (T := n * (u * (2 * (0 + n * X)) + eta)).
    assert (ET : T = n * (2 * (n * u * X) + eta)) by (unfold T; ring).
    assert (HT : 0 <= T <= n * X).
    { rewrite ET. split; [apply Rmult_le_pos; lra|]. apply Rmult_le_compat_l; lra. }
    destruct (rsum_err b 0 0 0 0 Hb (rd_zero _ _ _ HR)) as (r & rh & F1 & F2 & F3 & F4).
    { rewrite Rabs_R0. lra. } { rewrite Rminus_0_r, Rabs_R0. lra. }
    { fold n. fold T. lra. } { fold n. lra. }
    rewrite F1, F2. fold n in F3, F4. fold T in F4.
    destruct Hn as [Hn|Hn].
    { (* no observation: 0 / 0 *)
      rewrite Hn in *. assert (r = 0) as -> by (apply abs_inv in F3; lra).
      assert (rh = 0) as -> by (apply abs_inv in F4; lra). unfold fdiv.
      rewrite Req_b_refl. unfold signed_inf. rewrite Req_b_refl. exact I. }
    rewrite !fdiv_Fin by lra.
    assert (D1 : Rabs (rh / n - r / n) <= 2 * (n * u * X) + eta).
    { replace (rh / n - r / n) with ((rh - r) / n) by (field; lra). unfold Rdiv. rewrite Rabs_mult.
      rewrite (Rabs_right (/ n)) by (apply Rle_ge, Rlt_le, Rinv_0_lt_compat; lra).
      apply Rmult_le_reg_r with n; [lra|]. rewrite Rmult_assoc, Rinv_l by lra. rewrite ET in F4. lra. }
    assert (D2 : Rabs (r / n) <= X).
    { unfold Rdiv. rewrite Rabs_mult.
      rewrite (Rabs_right (/ n)) by (apply Rle_ge, Rlt_le, Rinv_0_lt_compat; lra).
      apply Rmult_le_reg_r with n; [lra|]. rewrite Rmult_assoc, Rinv_l by lra. lra. }
    apply abs_inv in D1. apply abs_inv in D2.
    assert (D3 : Rabs (rh / n) <= 2 * X) by (apply abs_le; lra).
    pose proof (abs_inv _ _ (rd_err_le u eta rd HR (proj1 Hu) _ _ D3)) as E1.
    assert (uX : 0 <= u * X <= X).
    { split; [apply Rmult_le_pos; lra|]. rewrite <- (Rmult_1_l X) at 2. apply Rmult_le_compat_r; lra. }
    apply abs_inv in D3.
    assert (hX : 0 <= INR h * X) by lra.
    rewrite round_to_fin by (apply abs_le; lra).
    cbn [within].
    assert (n * u * X <= INR h * u * X).
    { apply Rmult_le_compat_r; auto. apply Rmult_le_compat_r; lra. }
    apply abs_le; lra.
  Qed.

  Lemma rolling_rounded mp xs ys ys' s s' : (1 <= h)%nat -> Forall (bounded X) xs ->
    run (RollingMean_r rnd h mp) xs = Some (ys, s) -> run (RollingMean h mp) xs = Some (ys', s') ->
    Forall2 (within (3 * (INR h + 1) * u * X + 3 * eta)) ys ys'.
  Proof using HR Hu He HX Hh Heta Hfm.
    intros Hh1 HP H1 H2.
    refine (proj2 (run_rel (fun _ : fl => buffer_init h NaN) (rolling_mean_step_r rnd h mp)
      (rolling_mean_step h mp)
      (fun st => length (buffer st) = h /\ Forall (bounded X) (buffer st)) (bounded X)
      (within (3 * (INR h + 1) * u * X + 3 * eta)) _ _ xs ys ys' s s' HP H1 H2)).
    - intros x _. cbn [buffer_init buffer]. split; [apply repeat_length|].
      apply Forall_forall. intros y Hy. apply repeat_spec in Hy. subst. exact I.
    - intros st x (L & B) Hx. unfold rolling_mean_step_r, rolling_mean_step.
      unfold buffer_apply. set (b := set_last (roll1 (buffer st)) x). cbn [fst snd buffer].
      assert (Lb : length b = h /\ Forall (bounded X) b).
      { unfold b. destruct (buffer st) as [|a r]; cbn [length] in L; [lia|].
        cbn [roll1]. unfold set_last. destruct (r ++ [a]) eqn:E; [destruct r; discriminate|].
        rewrite <- E. rewrite removelast_last. rewrite app_length. cbn [length]. split; [lia|].
        apply Forall_app. split; [exact (Forall_inv_tail B)|]. constructor; auto. }
      repeat split; try apply Lb. apply rolling_one; apply Lb.
  Qed.
End Pct.

Lemma pct_rounded u eta rd fm fz xs ys ys' s s' m fmeth :
  rounding u eta rd -> 0 <= u <= 1 -> 0 <= eta ->
  PctChange 1 fmeth fz = Some m ->
  run (PctChange_r (round_to rd fm) fz) xs = Some (ys, s) -> run m xs = Some (ys', s') ->
  (forall r, In (Fin r) ys' -> 8 * (Rabs r + 2 + eta) <= fm) ->
  Forall2 (pct_close u eta) ys ys'.
Proof.
  intros HR Hu He Hm H1 H2 Ho.
  assert (E : m = hk_module (fun _ => PctState NaN (buffer_init 2 NaN)) (pct_change_step fz)).
  { unfold PctChange in Hm. cbn [Nat.eqb Nat.add] in Hm. destruct fmeth; congruence. }
  subst m.
  assert (F : Forall2 (fun v y => (forall r, y = Fin r -> 8 * (Rabs r + 2 + eta) <= fm) ->
                                  pct_close u eta v y) ys ys').
  { refine (proj2 (run_rel (fun _ : fl => PctState NaN (buffer_init 2 NaN))
      (pct_change_step_r (round_to rd fm) fz) (pct_change_step fz)
      (fun _ => True) (fun _ => True) _ _ _ xs ys ys' s s' _ H1 H2)); auto.
    2: apply Forall_forall; auto.
    intros st x _ _. unfold pct_change_step_r, pct_change_step.
    destruct (ffill_step _ _) as [v ff]. destruct (buffer_apply _ _ _) as [b lg]. cbn [fst snd].
    repeat split; auto. intros Hy. destruct fz; [|apply pct_any; auto].
    destruct (andb _ _); [|apply pct_any; auto].
    exists 0. split; auto. rewrite Rminus_0_r, Rabs_R0. rewrite Rplus_0_r.
    assert (0 <= 3 * u * 1) by (apply Rmult_le_pos; lra). lra. }
  clear -F Ho. induction F; constructor; auto.
  - apply H. intros r ->. apply Ho. left; auto.
  - apply IHF. intros r Hr. apply Ho. right; auto.
Qed.
