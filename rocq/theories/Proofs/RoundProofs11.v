(** EWMVar in rounded arithmetic: the coefficients of the three adjustment modes. *)
From Coq Require Import List ZArith Reals Lra Lia Bool.
From Verif Require Import Model.Unroll Model.Float Model.Modules Model.Ewm Model.Rounded
  Spec.EwmSpec Spec.RoundSpec Proofs.FloatFacts Proofs.ListFacts Proofs.RunFacts
  Proofs.RoundProofs Proofs.RoundProofs2 Proofs.RoundProofs10.
Import ListNotations.
Local Open Scope R_scope.

Lemma pow_gap g b n : 0 <= b <= g -> g <= 1 -> (1 - g) * (g ^ n - b ^ n) <= (g - b) * (1 - g ^ n).
Proof.
  intros H1 H2. induction n as [|n IH]; [simpl; lra|].
  assert (P : 0 <= g ^ n) by (apply pow_le; lra).
  assert (P1 : g ^ n <= 1) by (rewrite <- (pow1 n); apply pow_incr; lra).
  replace ((1 - g) * (g ^ S n - b ^ S n)) with (b * ((1 - g) * (g ^ n - b ^ n)) + (1 - g) * g ^ n * (g - b)) by (simpl; ring).
  apply Rle_trans with (b * ((g - b) * (1 - g ^ n)) + (1 - g) * g ^ n * (g - b)).
  - apply Rplus_le_compat_r. apply Rmult_le_compat_l; lra.
  - assert (b * ((g - b) * (1 - g ^ n)) <= 1 * ((g - b) * (1 - g ^ n))).
    { apply Rmult_le_compat_r; [apply Rmult_le_pos; lra|lra]. }
    replace ((g - b) * (1 - g ^ S n)) with ((g - b) * (1 - g ^ n) + (1 - g) * g ^ n * (g - b)) by (simpl; ring). lra.
Qed.
Lemma pow_decay g n : 0 <= g <= 1 -> g ^ n * (1 + INR n * (1 - g)) <= 1.
Proof.
  intros H. induction n as [|n IH]; [simpl; lra|]. rewrite S_INR.
  assert (P : 0 <= g ^ n) by (apply pow_le; lra). assert (N : 0 <= INR n) by apply pos_INR.
  apply Rle_trans with (2 := IH).
  replace (g ^ S n * (1 + (INR n + 1) * (1 - g))) with (g ^ n * (g * (1 + (INR n + 1) * (1 - g)))) by (simpl; ring).
  apply Rmult_le_compat_l; auto.
  assert (0 <= (INR n + 1) * ((1 - g) * (1 - g))) by (apply Rmult_le_pos; nra). nra.
Qed.
Lemma pow_decay' g n s e : 0 <= g <= 1 -> 0 < s <= 1 - g -> 1 <= e * (INR n * s) -> 0 <= e -> g ^ n <= e.
Proof.
  intros H1 H2 H3 He. pose proof (pow_decay g n H1) as D. assert (P : 0 <= g ^ n) by (apply pow_le; lra).
  assert (N : 0 <= INR n) by apply pos_INR.
  assert (A : g ^ n * (INR n * s) <= 1).
  { apply Rle_trans with (2 := D). apply Rmult_le_compat_l; auto.
    assert (INR n * s <= INR n * (1 - g)) by (apply Rmult_le_compat_l; lra). lra. }
  assert (B : 0 < INR n * s). { destruct (Rle_lt_dec (INR n * s) 0) as [Z|Z]; auto.
    assert (INR n * s = 0). { apply Rle_antisym; auto. apply Rmult_le_pos; lra. } rewrite H in H3. lra. }
  apply Rmult_le_reg_r with (INR n * s); lra.
Qed.

(** reciprocals of close numbers *)
Lemma recip_err v t e : 0 < t -> Rabs (v - t) <= e * t -> 0 <= e <= / 5 ->
  0 < v /\ / v <= / t * 1.25 /\ Rabs (/ v - / t) <= / t * (1.25 * e).
Proof.
  intros H1 H2 H3. apply abs_inv in H2.
  assert (E5 : e * t <= / 5 * t) by (apply Rmult_le_compat_r; lra).
  assert (Hv : 0.8 * t <= v) by lra. assert (Pv : 0 < v) by lra.
  assert (I : / v <= / t * 1.25).
  { apply Rmult_le_reg_r with v; auto. rewrite Rinv_l by lra.
    apply Rmult_le_reg_l with t; auto. rewrite Rmult_1_r.
    replace (t * (/ t * 1.25 * v)) with (1.25 * v * (t * / t)) by ring. rewrite Rinv_r by lra. lra. }
  assert (It : 0 < / t) by (apply Rinv_0_lt_compat; auto).
  assert (Iv : 0 < / v) by (apply Rinv_0_lt_compat; auto).
  repeat split; auto.
  replace (/ v - / t) with ((t - v) * (/ t * / v)) by (field; lra).
  rewrite Rabs_mult, (Rabs_pos_eq (/ t * / v)) by (apply Rmult_le_pos; lra).
  apply Rle_trans with (e * t * (/ t * / v)).
  - apply Rmult_le_compat_r; [apply Rmult_le_pos; lra|]. apply abs_le; lra.
  - replace (e * t * (/ t * / v)) with (e * / v * (t * / t)) by ring. rewrite Rinv_r by lra. rewrite Rmult_1_r.
    apply Rle_trans with (e * (/ t * 1.25)); [apply Rmult_le_compat_l; lra|]. lra.
Qed.

Section Coef.
  Variables (u eta : R) (rd : R -> R) (pw : R -> R -> R) (N : Z) (c : R).
  Hypothesis HR : rounding u eta rd.
  Hypothesis Hu : 0 <= u.
  Hypothesis He : 0 <= eta.
  Notation C := (1 + c).
  Notation k := (u * C).
  Hypothesis Hc : 0 <= c.
  Hypothesis Hs : 100 * u * (C * C) <= 1.
  Hypothesis Ht : eta * C <= u.
  Hypothesis Hpw : power_within (2 * u) pw.
  Hypothesis HN : 1 <= 2 * u * IZR N.

  Let ah := RoundProofs.ah rd c.
  Let bh := RoundProofs.bh rd c.
  Let al0 := / C.

  Lemma k_small : k <= / 100. Proof using Hu Hc Hs. pose proof (uC u Hu c Hc Hs). lra. Qed.
  Lemma al0_pos : 0 < al0 <= 1. Proof using Hc. apply (invC c Hc). Qed.
  Lemma u_al : u = k * al0. Proof using Hc. unfold al0. field. lra. Qed.
  Lemma ah_e : Rabs (ah - al0) <= 5 * u * al0.
  Proof using HR Hu He Hc Hs Ht. pose proof (ah_err u eta rd HR Hu He c Hc Hs Ht). unfold ah, al0. lra. Qed.
  Lemma bh_e : Rabs (bh - (1 - al0)) <= 7 * u.
  Proof using HR Hu He Hc Hs Ht. pose proof (bh_err u eta rd HR Hu He c Hc Hs Ht). unfold bh, al0. lra. Qed.
  Lemma bh_01 : 0 <= bh <= 1.
  Proof using HR Hc. exact (bh_range u eta rd HR c Hc). Qed.
  Lemma eta_al : eta <= u * al0.
  Proof using Hc Ht. exact (eta_invC u eta c Hc Ht). Qed.
  Lemma u_100 : u <= / 100. Proof using Hu Hc Hs. pose proof (u1 u Hu c Hc Hs). lra. Qed.
  Lemma u_le_k : u <= k. Proof using Hu Hc. pose proof (ule u Hu c Hc). lra. Qed.

  Lemma coef_false : / C <= al0 <= 1 /\ Rabs (ah - al0) <= 25 * k * al0.
  Proof using HR Hu He Hc Hs Ht.
    pose proof al0_pos. pose proof ah_e as E. pose proof u_le_k.
    split; [unfold al0 in *; lra|]. apply Rle_trans with (1 := E).
    apply Rmult_le_compat_r; lra.
  Qed.

  Lemma N_pos : (1 <= N)%Z.
  Proof using HN Hu Hc Hs. pose proof u_100. destruct (Z_le_gt_dec 1 N); auto.
      assert (H1 : IZR N <= 0) by (apply IZR_le; lia). assert (u * IZR N <= 0) by (rewrite <- (Rmult_0_r u); apply Rmult_le_compat_l; auto). lra.
  Qed.

  (** adjust=True *)
  Section True.
    Variable n : nat.
    Hypothesis Hn : (1 <= n)%nat.
    Let be := 1 - al0.
    Let g1 := 1 - be ^ n.
    Let n' := Z.to_nat (Z.min (Z.of_nat n) N).
    Let gh := pw bh (INR n').
    Let h := rd (1 - gh).
    Let al := al0 / g1.
    Let a := rd (ah / h).

    Lemma be_01 : 0 <= be <= 1. Proof using Hc. pose proof al0_pos. unfold be. lra. Qed.
    Lemma pow_01 b j : 0 <= b <= 1 -> 0 <= b ^ j <= 1.
    Proof using. intros H. split; [apply pow_le; lra|]. rewrite <- (pow1 j). apply pow_incr. lra. Qed.
    Lemma g1_ge : al0 <= g1 <= 1.
    Proof using Hc Hn.
      pose proof be_01 as B. pose proof (pow_01 be (n - 1) B) as P. unfold g1.
      assert (En : n = S (n - 1)) by (clear -Hn; lia). rewrite En. cbn [pow]. assert (be * be ^ (n - 1) <= be * 1) by (apply Rmult_le_compat_l; lra).
      pose proof (Rmult_le_pos _ _ (proj1 B) (proj1 P)). unfold be in *. lra.
    Qed.
    Lemma n'_pos : (1 <= n')%nat. Proof using HN Hu Hc Hs Hn. pose proof N_pos. unfold n'. lia. Qed.

    Lemma pow_bh_err : Rabs (bh ^ n' - be ^ n) <= 7.6 * k * g1.
    Proof using HR Hu He Hc Hs Ht HN Hn.
      pose proof be_01 as B. pose proof bh_01 as B'. pose proof g1_ge as G. pose proof k_small as K. pose proof al0_pos as A.
      pose proof u_al as U. pose proof (abs_inv _ _ bh_e) as E. fold be in E. pose proof (kpos u Hu C ltac:(lra)) as KP.
      assert (Ka : k * al0 <= / 100 * al0) by (apply Rmult_le_compat_r; lra).
      assert (S1 : 0.93 * al0 <= 1 - bh). { unfold be in *. lra. }
      assert (kg : 0 <= k * g1) by (apply Rmult_le_pos; lra).
      destruct (Z_le_gt_dec (Z.of_nat n) N) as [L|L].
      - replace n' with n by (unfold n'; lia).
        destruct (Rle_lt_dec be bh) as [D|D].
        + pose proof (pow_gap bh be n ltac:(lra) ltac:(lra)) as P.
          assert (M : be ^ n <= bh ^ n) by (apply pow_incr; lra).
          rewrite Rabs_pos_eq by lra.
          assert (P2 : 0.93 * al0 * (bh ^ n - be ^ n) <= 7 * u * g1).
          { apply Rle_trans with ((1 - bh) * (bh ^ n - be ^ n)); [apply Rmult_le_compat_r; lra|].
            apply Rle_trans with (1 := P). apply Rmult_le_compat; try lra.
            - pose proof (pow_01 bh n B'). lra.
            - unfold g1. lra. }
          apply Rmult_le_reg_l with (0.93 * al0); [lra|]. apply Rle_trans with (1 := P2).
          rewrite U at 1. replace (7 * (k * al0) * g1) with (7 * (al0 * (k * g1))) by ring.
          assert (0 <= al0 * (k * g1)) by (apply Rmult_le_pos; lra). lra.
        + pose proof (pow_gap be bh n ltac:(lra) ltac:(lra)) as P.
          assert (M : bh ^ n <= be ^ n) by (apply pow_incr; lra).
          rewrite Rabs_minus_sym, Rabs_pos_eq by lra.
          assert (P2 : al0 * (be ^ n - bh ^ n) <= 7 * u * g1).
          { replace al0 with (1 - be) at 1 by (unfold be; ring). apply Rle_trans with (1 := P).
            apply Rmult_le_compat; unfold g1 in *; lra. }
          apply Rmult_le_reg_l with al0; [lra|]. apply Rle_trans with (1 := P2).
          rewrite U at 1. replace (7 * (k * al0) * g1) with (7 * (al0 * (k * g1))) by ring.
          assert (0 <= al0 * (k * g1)) by (apply Rmult_le_pos; lra). lra.
      - assert (En : INR n' = IZR N).
        { unfold n'. rewrite Z.min_r by lia. rewrite INR_IZR_INZ, Z2Nat.id; auto. pose proof N_pos. lia. }
        assert (Ln : IZR N <= INR n). { rewrite INR_IZR_INZ. apply IZR_le. lia. }
        assert (Un : 2 * u * IZR N = 2 * k * (IZR N * al0)). { rewrite U at 1. ring. }
        assert (Q1 : bh ^ n' <= 2.2 * k).
        { apply (pow_decay' bh n' (0.93 * al0)); auto; [lra| |lra]. rewrite En.
          replace (2.2 * k * (IZR N * (0.93 * al0))) with (2.046 / 2 * (2 * k * (IZR N * al0))) by lra. rewrite <- Un. lra. }
        assert (Q2 : be ^ n <= 2.2 * k).
        { apply (pow_decay' be n al0); auto; [unfold be; lra| |lra].
          assert (IZR N * al0 <= INR n * al0) by (apply Rmult_le_compat_r; lra).
          assert (2 * k * (IZR N * al0) <= 2 * k * (INR n * al0)) by (apply Rmult_le_compat_l; lra).
          assert (0 <= k * (INR n * al0)). { apply Rmult_le_pos; auto. apply Rmult_le_pos; [apply pos_INR|lra]. } lra. }
        pose proof (pow_01 bh n' B'). pose proof (pow_01 be n B).
        assert (Rabs (bh ^ n' - be ^ n) <= 2.2 * k) by (apply abs_le; lra).
        assert (0.9 <= g1) by (unfold g1; lra).
        assert (k * 0.9 <= k * g1) by (apply Rmult_le_compat_l; lra). lra.
    Qed.

    Lemma h_err : Rabs (h - g1) <= 12.6 * k * g1.
    Proof using HR Hu He Hc Hs Ht Hpw HN Hn.
      pose proof g1_ge as G. pose proof k_small as K. pose proof al0_pos as A. pose proof u_al as U.
      pose proof (kpos u Hu C ltac:(lra)) as KP. pose proof u_100 as U1.
      assert (Uk : u <= k * g1). { rewrite U at 1. apply Rmult_le_compat_l; lra. }
      assert (Ee : eta <= u). { pose proof eta_al. assert (u * al0 <= u * 1) by (apply Rmult_le_compat_l; lra). lra. }
      pose proof (Hpw bh n' bh_01 n'_pos) as P. fold gh in P.
      pose proof (pow_01 bh n' bh_01) as B.
      assert (H2 : Rabs (1 - gh) <= 2). { apply abs_inv in P. apply abs_le; lra. }
      pose proof (rd_err_le u eta rd HR Hu _ _ H2) as E. fold h in E.
      replace (h - g1) with ((h - (1 - gh)) + (- (gh - bh ^ n') + - (bh ^ n' - be ^ n))) by (unfold g1; ring).
      apply Rle_trans with ((u * 2 + eta) + (2 * u + 7.6 * k * g1)); [|lra].
      apply abs_sum; auto. apply abs_sum; rewrite Rabs_Ropp; auto. apply pow_bh_err.
    Qed.

    Lemma coef_true : / C <= al <= 1 /\ Rabs (a - al) <= 25 * k * al /\ 0 < h <= 2.
    Proof using HR Hu He Hc Hs Ht Hpw HN Hn.
      pose proof g1_ge as G. pose proof k_small as K. pose proof al0_pos as A. pose proof u_al as U.
      pose proof (kpos u Hu C ltac:(lra)) as KP. pose proof u_100 as U1. pose proof u_le_k as Uk.
      destruct (recip_err h g1 (12.6 * k)) as (Ph & I1 & I2); [lra|apply h_err|lra|].
      assert (Pg : 0 < / g1) by (apply Rinv_0_lt_compat; lra).
      assert (Gi : g1 * / g1 = 1) by (apply Rinv_r; lra).
      assert (G1 : 1 <= / g1). { apply Rmult_le_reg_l with g1; [lra|]. rewrite Gi. lra. }
      assert (Hal : al0 <= al <= 1).
      { unfold al, Rdiv. split.
        - rewrite <- (Rmult_1_r al0) at 1. apply Rmult_le_compat_l; lra.
        - rewrite <- Gi. apply Rmult_le_compat_r; lra. }
      assert (Pal : 0 < al) by lra.
      assert (Hh : 0 < h <= 2).
      { split; auto. pose proof (abs_inv _ _ h_err). assert (k * g1 <= / 100 * 1) by (apply Rmult_le_compat; lra). lra. }
      split; [unfold al0 in *; lra|]. split; auto.
      assert (Iv : 0 < / h) by (apply Rinv_0_lt_compat; lra).
      assert (E1 : Rabs (ah / h - al) <= (6.25 * u + 15.75 * k) * al).
      { replace (ah / h - al) with ((ah - al0) * / h + al0 * (/ h - / g1)) by (unfold al, Rdiv; ring).
        apply Rle_trans with (5 * u * al0 * (/ g1 * 1.25) + al0 * (/ g1 * (1.25 * (12.6 * k)))).
        - apply abs_sum; apply abs_mul; auto; [apply ah_e|rewrite Rabs_pos_eq; lra|rewrite Rabs_pos_eq; lra].
        - unfold al, Rdiv. assert (0 <= al0 * / g1 * k) by (apply Rmult_le_pos; [apply Rmult_le_pos; lra|lra]). lra. }
      assert (kal : 0 <= k * al) by (apply Rmult_le_pos; lra).
      assert (ual : u * al <= k * al) by (apply Rmult_le_compat_r; lra).
      assert (k1 : k * al <= / 100 * al) by (apply Rmult_le_compat_r; lra).
      assert (H2 : Rabs (ah / h) <= 1.25 * al).
      { apply Rle_trans with ((6.25 * u + 15.75 * k) * al + al); [|lra]. apply (abs_split _ al); auto. rewrite Rabs_pos_eq; lra. }
      pose proof (rd_err_le u eta rd HR Hu _ _ H2) as E. fold a in E.
      assert (Ee : eta <= u * al). { pose proof eta_al. assert (u * al0 <= u * al) by (apply Rmult_le_compat_l; lra). lra. }
      replace (a - al) with ((a - ah / h) + (ah / h - al)) by ring.
      apply Rle_trans with ((u * (1.25 * al) + eta) + (6.25 * u + 15.75 * k) * al); [apply abs_sum; auto|].
      assert (ua : 8.5 * (u * al) <= 8.5 * (k * al)) by lra. lra.
    Qed.
  End True.

  (** adjust="linear" *)
  Section Linear.
    Variable n : nat.
    Hypothesis Hn : (1 <= n)%nat.
    Let nu := IZR (Z.min (Z.of_nat n) N).
    Let T := rd (1 / ah).
    Let th := if Rlt_b nu T then nu else T.
    Let t := if Rlt_b (INR n) C then INR n else C.
    Let al := 1 / t.
    Let a := rd (1 / th).

    Lemma T_err : Rabs (T - C) <= 9 * u * C.
    Proof using HR Hu He Hc Hs Ht.
      pose proof al0_pos as A. pose proof u_100 as U1. pose proof ah_e as E.
      destruct (recip_err ah al0 (5 * u)) as (Pa & I1 & I2); [lra|exact E|lra|].
      assert (EC : / al0 = C) by (unfold al0; apply Rinv_inv).
      rewrite EC in I1, I2.
      assert (H : Rabs (1 / ah) <= C * 1.25).
      { unfold Rdiv. rewrite Rmult_1_l, Rabs_pos_eq; auto. left. apply Rinv_0_lt_compat; auto. }
      assert (Ee : eta <= u). { pose proof eta_al. assert (u * al0 <= u * 1) by (apply Rmult_le_compat_l; lra). lra. }
      pose proof u_le_k.
      pose proof (rd_err_le u eta rd HR Hu _ _ H) as E'. fold T in E'.
      replace (T - C) with ((T - 1 / ah) + (/ ah - C)) by (unfold Rdiv; ring).
      apply Rle_trans with ((u * (C * 1.25) + eta) + C * (1.25 * (5 * u))); [apply abs_sum; auto|]. lra.
    Qed.

    Lemma th_err : Rabs (th - t) <= 10 * u * t /\ 1 <= t <= C.
    Proof using HR Hu He Hc Hs Ht HN Hn.
      clear Hpw. pose proof T_err as E. apply abs_inv in E. pose proof u_100 as U1. pose proof k_small as K.
      pose proof (kpos u Hu C ltac:(lra)) as KP.
      assert (Hn1 : 1 <= INR n) by (change 1 with (INR 1); apply le_INR; auto).
      assert (Ht1 : 1 <= t <= C). { unfold t. destruct (Rlt_b_spec (INR n) C); lra. }
      split; auto.
      assert (BN : 50 * C <= IZR N).
      { destruct (Rle_lt_dec (50 * C) (IZR N)) as [Z|Z]; auto. exfalso.
        assert (u * IZR N <= u * (50 * C)) by (apply Rmult_le_compat_l; lra).
        assert (k * 1 <= k * C) by (apply Rmult_le_compat_l; lra). 
        assert (2 * u * IZR N = 1 \/ 1 < 2 * u * IZR N) by lra.
        assert (D : 2 * u * IZR N <= 2 * (u * (50 * C))) by lra.
        assert (100 * k >= 1) by lra. assert (100 * k <= 1) by lra.
        assert (Eu : 100 * k = 1) by lra.
        assert (0 < u). { destruct (Rle_lt_dec u 0); auto. assert (u = 0) by lra. subst u. lra. }
        assert (u * IZR N < u * (50 * C)) by (apply Rmult_lt_compat_l; lra). lra. }
      assert (uT : u * C <= / 100 * C) by (apply Rmult_le_compat_r; lra).
      assert (TC : T <= 1.09 * C) by lra.
      unfold th, t in *. unfold nu in *.
      destruct (Z_le_gt_dec (Z.of_nat n) N) as [L|L].
      - rewrite Z.min_l in * by auto. rewrite <- INR_IZR_INZ in *.
        destruct (Rlt_b_spec (INR n) T), (Rlt_b_spec (INR n) C).
        + replace (INR n - INR n) with 0 by ring. rewrite Rabs_R0. apply Rmult_le_pos; lra.
        + apply abs_le; lra.
        + assert (u * (9 * u * C) <= / 100 * (9 * u * C)) by (apply Rmult_le_compat_r; lra).
          assert (u * T <= u * INR n) by (apply Rmult_le_compat_l; lra).
          assert (u * (C - 9 * u * C) <= u * T) by (apply Rmult_le_compat_l; lra).
          apply abs_le; lra.
        + apply abs_le; lra.
      - rewrite Z.min_r in * by lia.
        assert (Ln : IZR N <= INR n). { rewrite INR_IZR_INZ. apply IZR_le. lia. }
        destruct (Rlt_b_spec (IZR N) T); [lra|]. destruct (Rlt_b_spec (INR n) C); [lra|]. apply abs_le; lra.
    Qed.

    Lemma coef_linear : / C <= al <= 1 /\ Rabs (a - al) <= 25 * k * al /\ 0 < th /\ 0 < t.
    Proof using HR Hu He Hc Hs Ht HN Hn.
      destruct th_err as (E & Ht1). pose proof u_100 as U1. pose proof u_le_k as Uk. pose proof al0_pos as A.
      destruct (recip_err th t (10 * u)) as (Pt & I1 & I2); [lra|auto|lra|].
      assert (Pal : 0 < / t) by (apply Rinv_0_lt_compat; lra).
      assert (Eal : al = / t) by (unfold al, Rdiv; ring).
      assert (Hal : / C <= al <= 1).
      { rewrite Eal. split; [apply Rinv_le_contravar; lra|]. rewrite <- Rinv_1. apply Rinv_le_contravar; lra. }
      split; auto. split; [|lra].
      assert (Pth : 0 < / th) by (apply Rinv_0_lt_compat; lra).
      assert (H2 : Rabs (1 / th) <= al * 1.25).
      { unfold Rdiv. rewrite Rmult_1_l, Rabs_pos_eq, Eal by lra. auto. }
      pose proof (rd_err_le u eta rd HR Hu _ _ H2) as E'. fold a in E'.
      assert (Ee : eta <= u * al). { pose proof eta_al. assert (u * al0 <= u * al) by (apply Rmult_le_compat_l; unfold al0 in *; lra). lra. }
      replace (a - al) with ((a - 1 / th) + (/ th - / t)) by (rewrite Eal; unfold Rdiv; ring).
      apply Rle_trans with ((u * (al * 1.25) + eta) + / t * (1.25 * (10 * u))); [apply abs_sum; auto|].
      rewrite <- Eal. assert (u * al <= k * al) by (apply Rmult_le_compat_r; lra).
      assert (0 <= k * al) by (apply Rmult_le_pos; [apply (kpos u Hu C); lra|lra]). lra.
    Qed.
  End Linear.
End Coef.
