(** EWMVar with rounding is never negative. *)
From Coq Require Import List ZArith Reals Lra Lia Bool.
From Verif Require Import Model.Unroll Model.Float Model.Modules Model.Ewm Model.Rounded Spec.EwmSpec
  Spec.RoundSpec Proofs.FloatFacts Proofs.ListFacts Proofs.RunFacts Proofs.EwmFacts
  Proofs.RoundProofs Proofs.RoundProofs2.
Import ListNotations.
Local Open Scope R_scope.

(** not negative (NaN allowed) *)
Definition nn (v : fl) : Prop := match v with NInf => False | Fin r => 0 <= r | _ => True end.
Lemma nn_flt v : nn v -> flt v (Fin 0) = false.
Proof. destruct v; simpl; auto; try contradiction. intros. apply Rlt_b_false. lra. Qed.

Lemma nn_add a b : nn a -> nn b -> nn (fadd a b).
Proof. destruct a, b; simpl; auto; try contradiction. lra. Qed.
Lemma nn_signed r : 0 <= r -> nn (signed_inf true r).
Proof.
  intros H. unfold signed_inf. destruct (Req_b_spec r 0); [exact I|]. rewrite Rlt_b_true by lra. exact I.
Qed.
Lemma nn_mul a b : nn a -> nn b -> nn (fmul a b).
Proof.
  destruct a, b; simpl; auto; try contradiction; intros; try (apply nn_signed; auto; fail).
  apply Rmult_le_pos; auto.
Qed.

(** same sign as: positive multiples of a float, rounded *)
Definition samesign (d v : fl) : Prop :=
  match d, v with
  | NaN, _ | _, NaN => True
  | PInf, PInf | NInf, NInf => True
  | Fin d, Fin v => 0 <= d * v
  | Fin d, PInf => 0 <= d
  | Fin d, NInf => d <= 0
  | _, _ => False
  end.
Lemma samesign_mul d v : samesign d v -> nn (fmul d v).
Proof.
  destruct d, v; simpl; auto; try contradiction; intros; try (apply nn_signed; auto; fail).
  unfold signed_inf. destruct (Req_b_spec r 0); [exact I|].
  rewrite Rlt_b_false by lra. exact I.
Qed.

Lemma inv_le1 r : 1 <= r -> 0 < / r <= 1.
Proof.
  intros H. split; [apply Rinv_0_lt_compat; lra|]. rewrite <- Rinv_1. apply Rinv_le_contravar; lra.
Qed.

Section Var.
  Variables (u eta : R) (rd : R -> R) (fm : R).
  Hypothesis HR : rounding u eta rd.
  Hypothesis Hfm : 1 <= fm.
  Notation rnd := (round_to rd fm).

  Lemma nn_rnd v : nn v -> nn (rnd v).
  Proof using HR Hfm.
    destruct v; simpl; auto. intros H. pose proof (rd_nonneg u eta rd HR r H).
    destruct (Rlt_b fm (rd r)); simpl; auto. rewrite Rlt_b_false by lra. exact H0.
  Qed.

  Lemma incr_sign a d : 0 <= a -> samesign d (rnd (fmul (Fin a) d)).
  Proof using HR Hfm.
    intros Ha. destruct d as [| | |d]; simpl; auto.
    - unfold signed_inf. destruct (Req_b_spec a 0); [exact I|]. rewrite Rlt_b_true by lra. exact I.
    - unfold signed_inf. destruct (Req_b_spec a 0); [exact I|]. rewrite Rlt_b_true by lra. exact I.
    - destruct (Rle_dec 0 d) as [Hd|Hd].
      + pose proof (rd_nonneg u eta rd HR (a * d) (Rmult_le_pos _ _ Ha Hd)).
        destruct (Rlt_b fm _); simpl; auto. rewrite Rlt_b_false by lra. apply Rmult_le_pos; auto.
      + assert (Hp : a * d <= 0) by (rewrite <- (Rmult_0_r a); apply Rmult_le_compat_l; lra).
        pose proof (rd_nonpos u eta rd HR (a * d) Hp).
        rewrite Rlt_b_false by lra. destruct (Rlt_b _ (- fm)); simpl; [lra|].
        rewrite <- Rmult_opp_opp. apply Rmult_le_pos; lra.
  Qed.

  Definition unit_weight (v : fl) : Prop := match v with NaN => True | Fin a => 0 <= a <= 1 | _ => False end.

  Lemma var_nn w d V : unit_weight w -> nn V ->
    nn (rnd (fmul (rnd (fsub (Fin 1) w)) (rnd (fadd V (rnd (fmul d (rnd (fmul w d)))))))).
  Proof using HR Hfm.
    intros Hw HV. destruct w as [| | |a]; try contradiction; [exact I|]. cbn [unit_weight] in Hw.
    apply nn_rnd, nn_mul; apply nn_rnd.
    - simpl. lra.
    - apply nn_add; auto. apply nn_rnd, samesign_mul, incr_sign. lra.
  Qed.

  Lemma alpha_unit c : 0 <= c -> exists a, rnd (fdiv (Fin 1) (rnd (fadd (Fin 1) (Fin c)))) = Fin a /\ 0 <= a <= 1 /\ rd a = a.
  Proof using HR Hfm.
    intros Hc. cbn [fadd round_to]. pose proof (rd_ge_1 u eta rd HR (1 + c) ltac:(lra)) as H1.
    destruct (Rlt_b_spec fm (rd (1 + c))).
    - exists 0. cbn [fdiv round_to]. rewrite (rd_zero _ _ _ HR). rewrite Rlt_b_false by lra.
      rewrite Rlt_b_false by lra. split; auto. split; [lra|auto].
    - rewrite Rlt_b_false by lra. rewrite fdiv_Fin by lra.
      pose proof (inv_le1 _ H1).
      assert (H3 : 0 <= rd (1 / rd (1 + c)) <= 1).
      { unfold Rdiv. rewrite Rmult_1_l. split; [apply (rd_nonneg u eta rd HR)|apply (rd_le_1 u eta rd HR)]; lra. }
      exists (rd (1 / rd (1 + c))). rewrite round_to_fin; [|rewrite Rabs_right; lra].
      split; auto. split; auto. apply (rd_idem _ _ _ HR).
  Qed.

  Definition ge2 (v : fl) : Prop := match v with PInf => True | Fin r => 2 <= r | _ => False end.
  Lemma ge2_rnd v : ge2 v -> ge2 (rnd v).
  Proof using HR Hfm.
    destruct v; simpl; auto. intros H.
    assert (2 <= rd r) by (rewrite <- (rd_two _ _ _ HR); apply (rd_mono _ _ _ HR); auto).
    destruct (Rlt_b fm (rd r)); simpl; auto. rewrite Rlt_b_false by lra. exact H0.
  Qed.
  Definition ge1 (v : fl) : Prop := match v with PInf => True | Fin r => 1 <= r | _ => False end.
  Lemma ge1_rnd v : ge1 v -> ge1 (rnd v).
  Proof using HR Hfm.
    destruct v; simpl; auto. intros H. pose proof (rd_ge_1 u eta rd HR r H).
    destruct (Rlt_b fm (rd r)); simpl; auto. rewrite Rlt_b_false by lra. exact H0.
  Qed.
  Lemma inv_ge1 v : ge1 v -> unit_weight (rnd (fdiv (Fin 1) v)).
  Proof using HR Hfm.
    destruct v as [| | |r]; simpl; auto; try contradiction.
    - intros _. rewrite (rd_zero _ _ _ HR). rewrite Rlt_b_false by lra. rewrite Rlt_b_false by lra. simpl. lra.
    - intros H. rewrite Req_b_neq by lra.
      pose proof (inv_le1 _ H).
      change (unit_weight (rnd (Fin (1 / r)))).
      assert (0 <= rd (1 / r) <= 1).
      { unfold Rdiv. rewrite Rmult_1_l. split; [apply (rd_nonneg u eta rd HR)|apply (rd_le_1 u eta rd HR)]; lra. }
      rewrite round_to_fin; [assumption|]. rewrite Rabs_right; lra.
  Qed.
  Lemma ge1_inv a : 0 <= a <= 1 -> ge1 (fdiv (Fin 1) (Fin a)).
  Proof.
    intros Ha. simpl. destruct (Req_b_spec a 0) as [->|E].
    - unfold signed_inf. rewrite Req_b_neq by lra. rewrite Rlt_b_true by lra. exact I.
    - simpl. unfold Rdiv. rewrite Rmult_1_l, <- Rinv_1. apply Rinv_le_contravar; lra.
  Qed.

  (** what stays true of the state *)
  Definition vinv (s : ewmvar_state_r) : Prop :=
    nn (er_var s) /\
    ((er_nobs s = Fin 0 /\ er_mean s = NaN /\ (er_var s = NaN \/ er_var s = Fin 0)) \/ ge1 (er_nobs s)).
  Lemma nobs_next s : vinv s -> ge1 (rnd (fadd (er_nobs s) (Fin 1))).
  Proof using HR Hfm.
    intros (_ & [(E & _)|H]); apply ge1_rnd.
    - rewrite E. simpl. lra.
    - destruct (er_nobs s); simpl in *; auto; try contradiction. lra.
  Qed.

  (** any scheme whose weight is between 0 and 1, or undefined, after the first observation *)
  Variables (pw : R -> R -> R) (c : R) (adj : adjust_mode).
  Hypothesis Hc : 0 <= c.
  Definition weight_of (n : fl) : fl :=
    let alpha := rnd (fdiv (Fin 1) (rnd (fadd (Fin 1) (Fin c)))) in
    match adj with
    | AdjLinear =>
        let tscale := rnd (fdiv (Fin 1) alpha) in
        let tscale := if flt n tscale then n else tscale in
        if flt (Fin 0) tscale then rnd (fdiv (Fin 1) tscale) else NaN
    | AdjTrue =>
        match rnd (fsub (Fin 1) alpha), n with
        | Fin b, Fin k => rnd (fdiv alpha (rnd (fsub (Fin 1) (Fin (pw b k)))))
        | _, _ => NaN
        end
    | AdjFalse => alpha
    end.
  Hypothesis Hweight : forall n, ge2 n -> unit_weight (weight_of (rnd n)).
  Hypothesis Hweight1 : unit_weight (weight_of (Fin 1)) \/ adj = AdjTrue.

  Lemma ewmvar_step_nn s x : vinv s -> let r := ewmvar_step_r rnd pw c adj s x in nn (fst r) /\ vinv (snd r).
  Proof using HR Hfm Hweight Hweight1.
    intros Hv r. pose proof (nobs_next s Hv) as Hn. destruct Hv as (Hv & Hcase).
    assert (HV : nn (if isnan (er_var s) then Fin 0 else er_var s)).
    { destruct (isnan _); [simpl; lra|auto]. }
    assert (Hr : r = ewmvar_step_r rnd pw c adj s x) by reflexivity. clearbody r. revert Hr.
    unfold ewmvar_step_r.
    fold (weight_of (if negb (isnan x) then rnd (fadd (er_nobs s) (Fin 1)) else er_nobs s)).
    destruct (isnan x) eqn:Ex; cbn [negb]; cbv zeta; intros ->; cbn [fst snd].
    - (* missing *)
      destruct x; try discriminate. split; auto. split; auto. cbn [er_nobs er_mean er_var].
      destruct Hcase as [(E1 & E2 & E3)|H]; [left|right; auto]. rewrite E1, E2. cbn [isnan].
      split; auto. split; auto. destruct E3 as [->| ->]; cbn [isnan]; auto.
    - (* observation *)
      set (w := weight_of _).
      assert (G : nn (rnd (fmul (rnd (fsub (Fin 1) w)) (rnd (fadd (if isnan (er_var s) then Fin 0 else er_var s)
         (rnd (fmul (rnd (fsub x (if isnan (er_mean s) then x else er_mean s)))
           (rnd (fmul w (rnd (fsub x (if isnan (er_mean s) then x else er_mean s)))))))))))).
      { destruct Hcase as [(E1 & E2 & E3)|H].
        - (* first observation: the difference is zero *)
          rewrite E2. cbn [isnan].
          assert (D : rnd (fsub x x) = Fin 0 \/ rnd (fsub x x) = NaN).
          { destruct x; simpl; auto. left. replace (r + - r) with 0 by lra. rewrite (rd_zero _ _ _ HR).
            rewrite Rlt_b_false by lra. rewrite Rlt_b_false by lra. reflexivity. }
          assert (Ew : w = weight_of (Fin 1)).
          { unfold w. rewrite E1. f_equal. cbn [fadd]. rewrite Rplus_0_l, round_to_fin; rewrite (rd_one _ _ _ HR); auto.
            rewrite Rabs_R1. auto. }
          destruct Hweight1 as [Hu1|_]; [rewrite Ew; apply var_nn; auto|].
          assert (EV : (if isnan (er_var s) then Fin 0 else er_var s) = Fin 0)
            by (destruct E3 as [->| ->]; reflexivity).
          rewrite EV. clearbody w.
          assert (R0 : rnd (Fin 0) = Fin 0).
          { rewrite round_to_fin; rewrite (rd_zero _ _ _ HR); auto. rewrite Rabs_R0. lra. }
          assert (Z : forall v, v = Fin 0 \/ v = NaN -> forall w', rnd (fmul w' v) = Fin 0 \/ rnd (fmul w' v) = NaN).
          { intros v [->| ->] w'; destruct w'; simpl; auto.
            - unfold signed_inf. rewrite Req_b_refl. auto.
            - unfold signed_inf. rewrite Req_b_refl. auto.
            - rewrite Rmult_0_r. left. exact R0. }
          set (d := rnd (fsub x x)) in *.
          assert (Z1 := Z d D w). set (i := rnd (fmul w d)) in *.
          assert (Z2 : rnd (fmul d i) = Fin 0 \/ rnd (fmul d i) = NaN) by (apply Z; auto).
          assert (Z3 : rnd (fadd (Fin 0) (rnd (fmul d i))) = Fin 0 \/ rnd (fadd (Fin 0) (rnd (fmul d i))) = NaN).
          { destruct Z2 as [->| ->]; [left|right; reflexivity]. cbn [fadd]. rewrite Rplus_0_l. exact R0. }
          destruct (Z _ Z3 (rnd (fsub (Fin 1) w))) as [->| ->]; simpl; auto. lra.
        - apply var_nn; auto. unfold w. apply Hweight.
          destruct (er_nobs s); simpl in *; auto; try contradiction. lra. }
      split; auto. split; auto.
  Qed.
End Var.

Lemma ewmvar_run_nn rd fm u eta pw c adj xs ys sF :
  rounding u eta rd -> 1 <= fm -> 0 <= c ->
  (forall n, ge2 n -> unit_weight (weight_of rd fm pw c adj (round_to rd fm n))) ->
  (unit_weight (weight_of rd fm pw c adj (Fin 1)) \/ adj = AdjTrue) ->
  run (EWMVar_r (round_to rd fm) pw c adj) xs = Some (ys, sF) ->
  Forall (fun y => flt y (Fin 0) = false) ys.
Proof.
  intros HR Hf Hc H1 H2 Hr. destruct (run_nonempty _ _ _ _ Hr) as (x0 & r & ->).
  destruct (run_inv (fun _ : fl => EwmvarStateR NaN NaN (Fin 0)) (ewmvar_step_r (round_to rd fm) pw c adj) (fun _ s => vinv s) x0 r ys sF) as (Hl & _ & Hn).
  - split; [exact I|]. left. cbn [er_nobs er_mean er_var]. auto.
  - intros pre s x Hv. apply (ewmvar_step_nn u eta rd fm HR Hf pw c adj H1 H2 s x Hv).
  - exact Hr.
  - apply Forall_forall. intros y Hy. apply In_nth_error in Hy. destruct Hy as (t & Ht).
    destruct (nth_error (x0 :: r) t) as [x|] eqn:Hx.
    2:{ apply nth_error_None in Hx. rewrite <- Hl in Hx. apply nth_error_None in Hx. congruence. }
    destruct (Hn t x Hx) as (s & Hv & _ & Ey). rewrite Ht in Ey.
    apply (f_equal (fun o => match o with Some v => v | None => NaN end)) in Ey. cbn beta iota in Ey.
    rewrite Ey. apply nn_flt. apply (ewmvar_step_nn u eta rd fm HR Hf pw c adj H1 H2 s x Hv).
Qed.

Lemma ewmvar_nonneg_simple : forall u eta rd fm pw c adj xs ys sF,
  rounding u eta rd -> 1 <= fm -> 0 <= c -> adj <> AdjTrue ->
  run (EWMVar_r (round_to rd fm) pw c adj) xs = Some (ys, sF) ->
  Forall (fun y => flt y (Fin 0) = false) ys.
Proof.
  intros u eta rd fm pw c adj xs ys sF HR Hf Hc Ha.
  destruct (alpha_unit u eta rd fm HR Hf c Hc) as (a & Ea & Ha1 & _).
  assert (G : forall n, ge1 n -> unit_weight (weight_of rd fm pw c adj n)).
  { intros n Hn. unfold weight_of. rewrite Ea. destruct adj; [contradiction|exact Ha1|]. cbv zeta.
    assert (T : ge1 (round_to rd fm (fdiv (Fin 1) (Fin a)))) by (apply (ge1_rnd u eta); auto; apply ge1_inv; auto).
    set (ts := if flt n _ then n else _).
    assert (Ht : ge1 ts) by (unfold ts; destruct (flt _ _); auto). clearbody ts.
    destruct (flt (Fin 0) ts); [apply (inv_ge1 u eta); auto|exact I]. }
  apply (ewmvar_run_nn rd fm u eta pw c adj xs ys sF HR Hf Hc).
  - intros n Hn. apply G. apply (ge1_rnd u eta); auto. destruct n; simpl in *; auto; lra.
  - left. apply G. simpl. lra.
Qed.

(** the weight of the exponential scheme *)
Lemma true_weight u eta rd c pw k :
  rounding u eta rd -> 0 <= u -> 0 <= eta -> 0 <= c -> 100 * u * ((1 + c) * (1 + c)) <= 1 -> 8 * (eta * (1 + c)) <= u ->
  (forall b k, 0 <= b <= 1 -> 2 <= k -> pw b k <= rd (b * b)) -> 2 <= k ->
  let a := ah rd c in ah rd c <= rd (1 - pw (bh rd c) k).
Proof.
  intros HR Hu He Hc Hs Ht Hpw Hk a.
  pose proof (ah_range u eta rd HR _ Hc) as Ha. fold a in Ha.
  pose proof (bh_range u eta rd HR _ Hc) as Hb.
  specialize (Hpw (bh rd c) k Hb Hk).
  assert (Ida : rd a = a) by apply (rd_idem _ _ _ HR).
  assert (G : rd (bh rd c * bh rd c) <= 1 - a).
  { set (b := bh rd c) in *. destruct (Rle_dec (1 / 2) a) as [H2|H2].
    - assert (Eb : b = 1 - a) by (apply (rd_exact_diff _ _ _ HR); auto; lra).
      rewrite <- Eb. assert (Ib : rd b = b) by apply (rd_idem _ _ _ HR).
      assert (Hbb : b * b <= b) by (rewrite <- (Rmult_1_r b) at 3; apply Rmult_le_compat_l; lra).
      apply (rd_mono _ _ _ HR) in Hbb. rewrite Ib in Hbb. exact Hbb.
    - assert (Ht1 : eta * (1 + c) <= u) by lra.
      pose proof (ah_low u eta rd HR Hu He c Hc Hs Ht1) as Hal. fold a in Hal.
      pose proof (u1 u Hu c Hc Hs) as U1. pose proof (uC u Hu c Hc Hs) as UC. pose proof (invC _ Hc) as HI.
      pose proof (etale eta He c Hc).
      assert (Hau : 4 * u <= a).
      { assert (u * (1 + c) * / (1 + c) <= 1 / 100 * / (1 + c)) by (apply Rmult_le_compat_r; lra).
        rewrite Rmult_assoc, Rinv_r in H0 by lra. lra. }
      assert (B1 : Rabs (b - (1 - a)) <= u * (1 - a) + eta).
      { unfold b, bh. fold a. apply (rd_err_le u eta rd HR Hu). rewrite Rabs_right; lra. }
      apply abs_inv in B1.
      assert (Ue : u * a <= u * (1 / 2)) by (apply Rmult_le_compat_l; lra).
      assert (B2 : b <= (1 - a) * (1 + 5 / 4 * u)) by lra.
      assert (Ua : 4 * (u * u) <= u * a) by (rewrite <- Rmult_assoc, (Rmult_comm 4), Rmult_assoc; apply Rmult_le_compat_l; lra).
      assert (ua0 : 0 <= u * a) by (apply Rmult_le_pos; lra).
      assert (B3 : b <= 1 - 11 / 4 * u) by lra.
      assert (B4 : b * b <= (1 - a) * (1 + 5 / 4 * u) * (1 - 11 / 4 * u)) by (apply mul_le; lra).
      assert (B0 : 0 <= b * b) by (apply Rmult_le_pos; lra).
      assert (B5 : Rabs (rd (b * b) - b * b) <= u * (b * b) + eta)
        by (apply (rd_err_le u eta rd HR Hu); rewrite Rabs_right; lra).
      apply abs_inv in B5.
      assert (B6 : (1 + u) * (b * b) <= (1 + u) * ((1 - a) * (1 + 5 / 4 * u) * (1 - 11 / 4 * u)))
        by (apply Rmult_le_compat_l; lra).
      assert (uu : 0 <= u * u <= 1 / 100 * u) by (split; [apply Rmult_le_pos; lra|apply Rmult_le_compat_r; lra]).
      assert (P : (1 + u) * ((1 + 5 / 4 * u) * (1 - 11 / 4 * u)) <= 1 - 1 / 2 * u).
      { assert (u * u * u >= 0) by (apply Rle_ge, Rmult_le_pos; lra). lra. }
      assert (P1 : (1 - a) * ((1 + u) * ((1 + 5 / 4 * u) * (1 - 11 / 4 * u))) <= (1 - a) * (1 - 1 / 2 * u))
        by (apply Rmult_le_compat_l; lra).
      lra. }
  fold a. rewrite <- Ida. apply (rd_mono _ _ _ HR). lra.
Qed.

Lemma ewmvar_nonneg_true : forall u eta rd fm pw c xs ys sF,
  rounding u eta rd -> 0 <= u -> 0 <= eta -> 0 <= c -> 100 * u * (1 + c) ^ 2 <= 1 -> 8 * eta * (1 + c) <= u ->
  8 * (1 + c) <= fm ->
  (forall b k, 0 <= b <= 1 -> 2 <= k -> 0 <= pw b k <= rd (b * b)) ->
  run (EWMVar_r (round_to rd fm) pw c AdjTrue) xs = Some (ys, sF) ->
  Forall (fun y => flt y (Fin 0) = false) ys.
Proof.
  intros u eta rd fm pw c xs ys sF HR Hu He Hc Hs Ht Hf Hp.
  assert (Hs' : 100 * u * ((1 + c) * (1 + c)) <= 1) by lra.
  assert (Ht' : 8 * (eta * (1 + c)) <= u) by lra.
  pose (cfg := EwmaCfg c 0 AdjTrue false NaN).
  assert (E0 : eta * (1 + c) >= 0) by (apply Rle_ge, Rmult_le_pos; lra).
  assert (Ht1 : eta * (1 + c) <= u) by lra.
  pose proof (alpha_r u eta rd fm cfg HR Hu He Hc Hs' Ht1 Hf) as Ea.
  pose proof (beta_r u eta rd fm cfg HR Hc Hf) as Eb. cbn [com] in Ea, Eb.
  apply (ewmvar_run_nn rd fm u eta pw c AdjTrue xs ys sF HR ltac:(lra) Hc); [|right; reflexivity].
  intros n Hn. unfold weight_of. cbv zeta.
  change (com cfg) with c in *. rewrite Ea, Eb.
  pose proof (ge2_rnd u eta rd fm HR ltac:(lra) n Hn) as Hg.
  destruct (round_to rd fm n) as [| | |k] eqn:En; try contradiction; [exact I|]. cbn [ge2] in Hg.
  pose proof (ah_range u eta rd HR _ Hc) as Ha. pose proof (bh_range u eta rd HR _ Hc) as Hb.
  pose proof (Hp (bh rd c) k Hb Hg) as Hpk.
  assert (Hbb : rd (bh rd c * bh rd c) <= 1).
  { apply (rd_le_1 u eta rd HR). rewrite <- (Rmult_1_r 1). apply mul_le; lra. }
  pose proof (rd_nonneg u eta rd HR (1 - pw (bh rd c) k) ltac:(lra)) as R0.
  pose proof (rd_le_1 u eta rd HR (1 - pw (bh rd c) k) ltac:(lra)) as R1.
  cbn [fsub fadd fneg]. fold (1 - pw (bh rd c) k).
  rewrite round_to_fin by (rewrite Rabs_right; lra).
  pose proof (true_weight u eta rd c pw k HR Hu He Hc Hs' Ht' (fun b k H1 H2 => proj2 (Hp b k H1 H2)) Hg) as T. cbv zeta in T.
  set (D := rd (1 - pw (bh rd c) k)) in *.
  pose proof (ah_low u eta rd HR Hu He c Hc Hs' ltac:(lra)) as Al. pose proof (invC _ Hc).
  rewrite fdiv_Fin by lra.
  assert (Q : 0 <= ah rd c / D <= 1) by (split; [apply le_div; lra|apply div_le; lra]).
  assert (H0 : 0 <= rd (ah rd c / D) <= 1) by (split; [apply (rd_nonneg u eta rd HR)|apply (rd_le_1 u eta rd HR)]; lra).
  rewrite round_to_fin by (rewrite Rabs_right; lra). exact H0.
Qed.
