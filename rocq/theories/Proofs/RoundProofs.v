(** Rounding error of the EWMA step, on real numbers. *)
From Coq Require Import Reals Lra Lia.
From Verif Require Import Spec.RoundSpec.
Local Open Scope R_scope.

Lemma abs_le a b : - b <= a -> a <= b -> Rabs a <= b.
Proof. intros. apply Rabs_le; lra. Qed.
Lemma abs_inv a b : Rabs a <= b -> - b <= a <= b.
Proof. intros H. unfold Rabs in H. destruct (Rcase_abs a); lra. Qed.
Lemma abs_mul a b A B : Rabs a <= A -> Rabs b <= B -> Rabs (a * b) <= A * B.
Proof. intros. rewrite Rabs_mult. apply Rmult_le_compat; auto; apply Rabs_pos. Qed.
Lemma mul_le a b A B : 0 <= a -> 0 <= b -> a <= A -> b <= B -> a * b <= A * B.
Proof. intros. apply Rmult_le_compat; auto. Qed.
Lemma abs_div a b A B : Rabs a <= A -> 0 < B -> B <= b -> Rabs (a / b) <= A / B.
Proof.
  intros Ha HB Hb. unfold Rdiv. rewrite Rabs_mult. rewrite (Rabs_right (/ b)).
  - apply Rmult_le_compat; auto; [apply Rabs_pos| |].
    + left. apply Rinv_0_lt_compat. lra.
    + apply Rinv_le_contravar; lra.
  - left. apply Rinv_0_lt_compat. lra.
Qed.
Lemma div_le a b c : 0 < b -> a <= c * b -> a / b <= c.
Proof.
  intros Hb H. apply Rmult_le_reg_r with b; auto. unfold Rdiv.
  rewrite Rmult_assoc, Rinv_l by lra. lra.
Qed.
Lemma le_div a b c : 0 < b -> c * b <= a -> c <= a / b.
Proof.
  intros Hb H. apply Rmult_le_reg_r with b; auto. unfold Rdiv.
  rewrite Rmult_assoc, Rinv_l by lra. lra.
Qed.

Section Err.
  Variables (u eta : R) (rd : R -> R).
  Hypothesis HR : rounding u eta rd.
  Hypothesis Hu : 0 <= u.
  Hypothesis He : 0 <= eta.

  Lemma rd_err_le x B : Rabs x <= B -> Rabs (rd x - x) <= u * B + eta.
  Proof using HR Hu.
    intros H. apply Rle_trans with (1 := rd_error _ _ _ HR x).
    apply Rplus_le_compat_r. apply Rmult_le_compat_l; auto.
  Qed.
  Lemma rd_le x B : Rabs x <= B -> Rabs (rd x) <= B + u * B + eta.
  Proof using HR Hu.
    intros H. pose proof (abs_inv _ _ (rd_err_le x B H)). apply abs_inv in H. apply abs_le; lra.
  Qed.
  Lemma rd_nonneg x : 0 <= x -> 0 <= rd x.
  Proof using HR. intros H. rewrite <- (rd_zero _ _ _ HR). apply (rd_mono _ _ _ HR); auto. Qed.
  Lemma rd_nonpos x : x <= 0 -> rd x <= 0.
  Proof using HR. intros H. rewrite <- (rd_zero _ _ _ HR). apply (rd_mono _ _ _ HR); auto. Qed.
  Lemma rd_le_1 x : x <= 1 -> rd x <= 1.
  Proof using HR. intros H. rewrite <- (rd_one _ _ _ HR). apply (rd_mono _ _ _ HR); auto. Qed.
  Lemma rd_ge_1 x : 1 <= x -> 1 <= rd x.
  Proof using HR. intros H. rewrite <- (rd_one _ _ _ HR). apply (rd_mono _ _ _ HR); auto. Qed.

  Section Consts.
    Variable c : R.
    Let C := 1 + c.
    Hypothesis Hc : 0 <= c.
    Hypothesis Hs : 100 * u * (C * C) <= 1.
    Hypothesis Ht : eta * C <= u.

    Definition Ch := rd (1 + c).
    Definition ah := rd (1 / Ch).
    Definition bh := rd (1 - ah).

    Lemma C1 : 1 <= C. Proof using Hc. unfold C. lra. Qed.
    Lemma uCle : u * C <= u * (C * C).
    Proof using Hu Hc. pose proof C1. apply Rmult_le_compat_l; auto. rewrite <- (Rmult_1_l C) at 1. apply Rmult_le_compat_r; lra. Qed.
    Lemma uCC : u * (C * C) <= 1 / 100. Proof using Hs. lra. Qed.
    Lemma uC : u * C <= 1 / 100. Proof using Hu Hc Hs. pose proof uCle. pose proof uCC. lra. Qed.
    Lemma ule : u <= u * C.
    Proof using Hu Hc. pose proof C1. rewrite <- (Rmult_1_r u) at 1. apply Rmult_le_compat_l; auto. Qed.
    Lemma u1 : u <= 1 / 100. Proof using Hu Hc Hs. pose proof ule. pose proof uC. lra. Qed.
    Lemma etale : eta <= eta * C.
    Proof using He Hc. pose proof C1. rewrite <- (Rmult_1_r eta) at 1. apply Rmult_le_compat_l; auto. Qed.
    Lemma eta_u : eta <= u. Proof using He Hc Ht. pose proof etale. lra. Qed.
    Lemma invC : 0 < / C <= 1.
    Proof using Hc.
      pose proof C1. split; [apply Rinv_0_lt_compat; lra|]. rewrite <- Rinv_1. apply Rinv_le_contravar; lra.
    Qed.
    Lemma CinvC : C * / C = 1. Proof using Hc. pose proof C1. apply Rinv_r. lra. Qed.
    Lemma eta_invC : eta <= u * / C.
    Proof using Hc Ht.
      pose proof invC. apply (Rmult_le_compat_r (/ C)) in Ht; [|lra].
      rewrite Rmult_assoc, CinvC in Ht. lra.
    Qed.

    Lemma Ch_err : Rabs (Ch - C) <= 2 * (u * C).
    Proof using HR Hu He Hc Ht.
      pose proof C1. pose proof eta_u. pose proof ule. unfold Ch. fold C.
      apply Rle_trans with (u * C + eta); [|lra]. apply rd_err_le. rewrite Rabs_right; lra.
    Qed.
    Lemma Ch_ge1 : 1 <= Ch. Proof using HR Hc. apply rd_ge_1. lra. Qed.
    Lemma Ch_low : 98 / 100 * C <= Ch.
    Proof using HR Hu He Hc Hs Ht.
      pose proof (abs_inv _ _ Ch_err). pose proof C1. pose proof u1.
      assert (u * C <= 1 / 100 * C) by (apply Rmult_le_compat_r; lra). lra.
    Qed.
    Lemma invCh : / Ch <= 103 / 100 * / C.
    Proof using HR Hu He Hc Hs Ht.
      pose proof Ch_low. pose proof C1.
      apply Rle_trans with (/ (98 / 100 * C)); [apply Rinv_le_contravar; lra|].
      rewrite Rinv_mult. pose proof invC.
      replace (/ (98 / 100)) with (100 / 98) by lra. apply Rmult_le_compat_r; lra.
    Qed.

    Lemma ah_err : Rabs (ah - / C) <= 5 * (u * / C).
    Proof using HR Hu He Hc Hs Ht.
      pose proof Ch_ge1 as H1. pose proof C1. pose proof invC. pose proof invCh as Hi.
      assert (Hp : 0 < / Ch) by (apply Rinv_0_lt_compat; lra).
      assert (E1 : Rabs (1 / Ch - / C) <= 206 / 100 * (u * / C)).
      { replace (1 / Ch - / C) with ((C - Ch) * (/ C * / Ch)) by (field; lra).
        pose proof (abs_inv _ _ Ch_err).
        assert (Rabs (C - Ch) <= 2 * (u * C)) by (apply abs_le; lra).
        rewrite Rabs_mult. rewrite (Rabs_right (/ C * / Ch)); [|apply Rle_ge, Rmult_le_pos; lra].
        apply Rle_trans with (2 * (u * C) * (/ C * / Ch)).
        { apply Rmult_le_compat_r; auto. apply Rmult_le_pos; lra. }
        replace (2 * (u * C) * (/ C * / Ch)) with (2 * u * / Ch) by (field; lra).
        assert (u * / Ch <= u * (103 / 100 * / C)) by (apply Rmult_le_compat_l; auto). lra. }
      assert (E2 : Rabs (ah - 1 / Ch) <= u * / Ch + eta).
      { unfold ah. apply rd_err_le. unfold Rdiv. rewrite Rmult_1_l, Rabs_right; lra. }
      pose proof eta_invC.
      assert (u * / Ch <= u * (103 / 100 * / C)) by (apply Rmult_le_compat_l; auto).
      apply abs_inv in E1. apply abs_inv in E2. apply abs_le; lra.
    Qed.
    Lemma ah_range : 0 <= ah <= 1.
    Proof using HR Hc.
      pose proof Ch_ge1. assert (0 < / Ch) by (apply Rinv_0_lt_compat; lra).
      assert (/ Ch <= 1) by (rewrite <- Rinv_1; apply Rinv_le_contravar; lra).
      unfold ah. split; [apply rd_nonneg|apply rd_le_1]; unfold Rdiv; lra.
    Qed.
    Lemma ah_low : 95 / 100 * / C <= ah.
    Proof using HR Hu He Hc Hs Ht.
      pose proof (abs_inv _ _ ah_err). pose proof u1. pose proof invC.
      assert (u * / C <= 1 / 100 * / C) by (apply Rmult_le_compat_r; lra). lra.
    Qed.
    Lemma bh_range : 0 <= bh <= 1.
    Proof using HR Hc. pose proof ah_range. unfold bh. split; [apply rd_nonneg|apply rd_le_1]; lra. Qed.
    Lemma bh_err : Rabs (bh - (1 - / C)) <= 7 * u.
    Proof using HR Hu He Hc Hs Ht.
      pose proof ah_range. pose proof invC. pose proof eta_u.
      assert (E2 : Rabs (bh - (1 - ah)) <= u * 1 + eta).
      { unfold bh. apply rd_err_le. apply abs_le; lra. }
      pose proof (abs_inv _ _ ah_err). apply abs_inv in E2.
      assert (u * / C <= u * 1) by (apply Rmult_le_compat_l; lra). apply abs_le; lra.
    Qed.

    (** decay of a weight *)
    Lemma decay_err w wh Wm D :
      0 <= wh -> Rabs (wh - w) <= D -> 0 <= w <= Wm -> 8 * u * (Wm + D) + u <= D * / C ->
      Rabs (rd (wh * bh) - w * (1 - / C)) <= D /\ 0 <= rd (wh * bh) /\ rd (wh * bh) <= w * (1 - / C) + D.
    Proof using HR Hu He Hc Hs Ht.
      intros Hw0 Hd Hw HD. pose proof bh_range as Hb. pose proof (abs_inv _ _ bh_err) as Hbe.
      apply abs_inv in Hd. pose proof eta_u. pose proof invC.
      assert (Hp : 0 <= wh * bh) by (apply Rmult_le_pos; lra).
      assert (Hp1 : wh * bh <= wh * 1) by (apply Rmult_le_compat_l; lra).
      assert (E : Rabs (rd (wh * bh) - wh * bh) <= u * wh + eta)
        by (apply rd_err_le; rewrite Rabs_right; lra).
      apply abs_inv in E.
      assert (A1 : Rabs (wh * (bh - (1 - / C))) <= wh * (7 * u)).
      { apply abs_mul; [rewrite Rabs_right; lra|exact bh_err]. }
      assert (A2 : Rabs ((wh - w) * (1 - / C)) <= D * (1 - / C)).
      { apply abs_mul; [apply abs_le; lra|rewrite Rabs_right; lra]. }
      apply abs_inv in A1. apply abs_inv in A2.
      assert (Hwu : u * wh <= u * (Wm + D)) by (apply Rmult_le_compat_l; lra).
      assert (G : Rabs (rd (wh * bh) - w * (1 - / C)) <= D).
      { apply abs_le; lra. }
      split; auto. split; [apply rd_nonneg; auto|]. apply abs_inv in G. lra.
    Qed.

    (** The evaluation of the mean. *)
    Lemma eval_err wh nh m x M X :
      0 <= wh -> 95 / 100 * / C <= nh -> Rabs m <= M -> Rabs x <= M -> 0 <= X -> X <= M ->
      eta * C <= u * X ->
      let q := rd (rd (rd (wh * m) + rd (nh * x)) / rd (wh + nh)) in
      Rabs (q - (wh * m + nh * x) / (wh + nh)) <= 10 * (u * M) /\
      Rabs (rd (wh * m)) <= 103 / 100 * ((wh + nh) * M) /\
      Rabs (rd (nh * x)) <= 103 / 100 * ((wh + nh) * M) /\
      Rabs (rd (rd (wh * m) + rd (nh * x))) <= 107 / 100 * ((wh + nh) * M) /\
      0 < rd (wh + nh) <= 103 / 100 * (wh + nh).
    Proof using HR Hu He Hc Hs Ht.
      intros Hw Hn Hm Hx HX HXM HeX q. pose proof C1. pose proof invC. pose proof u1 as U1.
      pose proof eta_invC. pose proof eta_u.
      assert (Hnp : 0 < nh) by lra.
      set (S := wh + nh) in *. assert (HS : 0 < S) by (unfold S; lra).
      assert (HSC : 95 / 100 * / C <= S) by (unfold S; lra).
      assert (M0 : 0 <= M) by lra.
      assert (uM : 0 <= u * M) by (apply Rmult_le_pos; lra).
      assert (HuX : u * X <= u * M) by (apply Rmult_le_compat_l; lra).
      (* eta against S M *)
      assert (EM : eta <= 106 / 100 * (u * (S * M))).
      { assert (K : eta * C * / C <= u * M * / C) by (apply Rmult_le_compat_r; lra).
        rewrite Rmult_assoc, CinvC in K.
        assert (u * M * (95 / 100 * / C) <= u * M * S) by (apply Rmult_le_compat_l; lra). lra. }
      assert (SM0 : 0 <= S * M) by (apply Rmult_le_pos; lra).
      assert (uSM : 0 <= u * (S * M)) by (apply Rmult_le_pos; lra).
      assert (uSM1 : u * (S * M) <= 1 / 100 * (S * M)) by (apply Rmult_le_compat_r; lra).
      assert (WM0 : 0 <= wh * M) by (apply Rmult_le_pos; lra).
      assert (NM0 : 0 <= nh * M) by (apply Rmult_le_pos; lra).
      assert (SMeq : S * M = wh * M + nh * M) by (unfold S; ring).
      assert (Bwm : Rabs (wh * m) <= wh * M) by (apply abs_mul; auto; rewrite Rabs_right; lra).
      assert (Bnx : Rabs (nh * x) <= nh * M) by (apply abs_mul; auto; rewrite Rabs_right; lra).
      pose proof (abs_inv _ _ (rd_err_le _ _ Bwm)) as E1.
      pose proof (abs_inv _ _ (rd_err_le _ _ Bnx)) as E2.
      pose proof (abs_inv _ _ Bwm) as Bwm'. pose proof (abs_inv _ _ Bnx) as Bnx'.
      set (p1 := rd (wh * m)) in *. set (p2 := rd (nh * x)) in *.
      assert (uWM : 0 <= u * (wh * M)) by (apply Rmult_le_pos; lra).
      assert (uNM : 0 <= u * (nh * M)) by (apply Rmult_le_pos; lra).
      assert (uSMeq : u * (S * M) = u * (wh * M) + u * (nh * M)) by (rewrite SMeq; ring).
      assert (B12 : Rabs (p1 + p2) <= 104 / 100 * (S * M)) by (apply abs_le; lra).
      pose proof (abs_inv _ _ (rd_err_le _ _ B12)) as E3.
      set (Nh := rd (p1 + p2)) in *. set (N := wh * m + nh * x) in *.
      assert (EN : Rabs (Nh - N) <= 53 / 10 * (u * (S * M))).
      { unfold N. apply abs_le; lra. }
      assert (HSR : Rabs S <= S) by (rewrite Rabs_right; lra).
      pose proof (rd_err_le _ _ HSR) as E4. set (Sh := rd S) in *.
      assert (ES : Rabs (Sh - S) <= 206 / 100 * (u * S)).
      { assert (u * (95 / 100 * / C) <= u * S) by (apply Rmult_le_compat_l; lra).
        apply Rle_trans with (1 := E4). lra. }
      pose proof (abs_inv _ _ ES) as ES'.
      assert (uS : 0 <= u * S <= 1 / 100 * S).
      { split; [apply Rmult_le_pos; lra|apply Rmult_le_compat_r; lra]. }
      assert (HSh : 979 / 1000 * S <= Sh) by lra.
      assert (HShp : 0 < Sh) by lra.
      assert (BN : Rabs N <= S * M).
      { unfold N. rewrite SMeq. apply abs_le; lra. }
      assert (Q : Rabs (Nh / Sh - N / S) <= 755 / 100 * (u * M)).
      { replace (Nh / Sh - N / S) with (((Nh - N) - N * (Sh - S) / S) / Sh) by (field; lra).
        assert (T : Rabs (N * (Sh - S) / S) <= 206 / 100 * (u * (S * M))).
        { replace (N * (Sh - S) / S) with (N * ((Sh - S) / S)) by (field; lra).
          replace (206 / 100 * (u * (S * M))) with ((S * M) * (206 / 100 * u)) by ring.
          apply abs_mul; auto. apply Rle_trans with (206 / 100 * (u * S) / S).
          - apply abs_div; auto; lra.
          - apply div_le; auto. lra. }
        apply Rle_trans with ((736 / 100 * (u * (S * M))) / (979 / 1000 * S)).
        - apply abs_div; [|lra|auto]. apply abs_inv in T. apply abs_inv in EN. apply abs_le; lra.
        - apply div_le; [lra|]. replace (755 / 100 * (u * M) * (979 / 1000 * S)) with
            (739145 / 100000 * (u * (S * M))) by (field). lra. }
      assert (BQ : Rabs (N / S) <= M).
      { apply Rle_trans with (S * M / S); [apply abs_div; auto; lra|]. apply div_le; auto. lra. }
      assert (uMM : u * M <= 1 / 100 * M) by (apply Rmult_le_compat_r; lra).
      assert (BNS : Rabs (Nh / Sh) <= 108 / 100 * M).
      { apply abs_inv in Q. apply abs_inv in BQ. apply abs_le; lra. }
      pose proof (abs_inv _ _ (rd_err_le _ _ BNS)) as E5.
      assert (eta <= u * M) by (pose proof etale; lra).
      assert (HSh2 : Sh <= 103 / 100 * S) by lra.
      repeat split; auto.
      - unfold q. apply abs_inv in Q. apply abs_le; lra.
      - apply abs_le; lra.
      - apply abs_le; lra.
      - apply abs_le; lra.
    Qed.

    (** One observation: weights [w] (exact, decayed) and [wh], new weights [n] and [nh]. *)
    Lemma obs_err w wh n nh m mh x X e :
      0 <= w -> 0 <= wh -> 0 < n -> 95 / 100 * / C <= nh -> w + n <= n * C ->
      Rabs (wh - w) + w * Rabs (nh - n) / n <= 20 * (u * (C * C)) * (wh + nh) ->
      Rabs m <= X -> Rabs x <= X -> Rabs (mh - m) <= e -> e <= 80 * (u * (C * C)) * X ->
      eta * C <= u * X ->
      let q := rd (rd (rd (wh * mh) + rd (nh * x)) / rd (wh + nh)) in
      Rabs (q - (w * m + n * x) / (w + n)) <= 80 * (u * (C * C)) * X /\
      Rabs ((w * m + n * x) / (w + n)) <= X.
    Proof using HR Hu He Hc Hs Ht.
      intros Hw Hwh Hn Hnh HwC Hd Hm Hx He' HE HeX q.
      pose proof C1. pose proof invC. pose proof uCC as HCC. pose proof uCle. pose proof ule.
      set (k := u * (C * C)) in *. assert (k0 : 0 <= k) by lra.
      assert (X0 : 0 <= X) by (apply Rle_trans with (2 := Hm), Rabs_pos).
      assert (e0 : 0 <= e) by (apply Rle_trans with (2 := He'), Rabs_pos).
      assert (Hmh : Rabs mh <= X + e).
      { apply abs_inv in Hm. apply abs_inv in He'. apply abs_le; lra. }
      destruct (eval_err wh nh mh x (X + e) X Hwh Hnh Hmh ltac:(lra) X0 ltac:(lra) HeX) as (Q & _).
      fold q in Q.
      assert (Hnhp : 0 < nh) by lra.
      set (S := w + n) in *. set (Sh := wh + nh) in *.
      assert (HS : 0 < S) by (unfold S; lra). assert (HSh : 0 < Sh) by (unfold Sh; lra).
      set (l := w / S). set (g := n / S).
      assert (Hlg : l + g = 1) by (unfold l, g, S; field; unfold S in HS; lra).
      assert (l0 : 0 <= l) by (unfold l; apply le_div; lra).
      assert (g0 : 0 <= g) by (unfold g; apply le_div; lra).
      assert (gC : / C <= g).
      { unfold g. apply le_div; auto. apply (Rmult_le_compat_r (/ C)) in HwC; [|lra].
        rewrite Rmult_assoc, CinvC in HwC. lra. }
      (* difference of the two averages *)
      assert (Dl : Rabs (wh / Sh - l) <= g * (20 * k)).
      { replace (wh / Sh - l) with (g * (((wh - w) - w * (nh - n) / n) / Sh))
          by (unfold g, l, Sh, S; field; unfold Sh, S in *; lra).
        apply abs_mul; [rewrite Rabs_right; lra|].
        apply Rle_trans with ((20 * k * Sh) / Sh).
        - apply abs_div; auto; try lra. apply Rle_trans with (2 := Hd).
          apply Rle_trans with (Rabs (wh - w) + Rabs (w * (nh - n) / n)).
          + unfold Rminus at 1. rewrite <- (Rabs_Ropp (w * (nh - n) / n)). apply Rabs_triang.
          + apply Rplus_le_compat_l. unfold Rdiv. rewrite !Rabs_mult.
            rewrite (Rabs_right w) by lra. rewrite (Rabs_right (/ n)); [lra|].
            left. apply Rinv_0_lt_compat. auto.
        - apply div_le; auto. lra. }
      assert (Eh : (wh * mh + nh * x) / Sh = wh / Sh * (mh - x) + x)
        by (unfold Sh; field; unfold Sh in *; lra).
      assert (Ee : (w * m + n * x) / S = l * m + g * x) by (unfold l, g; field; lra).
      assert (Bm : Rabs (l * m + g * x) <= X).
      { apply abs_inv in Hm. apply abs_inv in Hx.
        assert (l * m <= l * X) by (apply Rmult_le_compat_l; lra).
        assert (l * (- X) <= l * m) by (apply Rmult_le_compat_l; lra).
        assert (g * x <= g * X) by (apply Rmult_le_compat_l; lra).
        assert (g * (- X) <= g * x) by (apply Rmult_le_compat_l; lra).
        assert (l * X + g * X = X) by (rewrite <- Rmult_plus_distr_r, Hlg; lra).
        apply abs_le; lra. }
      rewrite Ee. split; auto.
      assert (Dx : Rabs (mh - x) <= 2 * X + e).
      { apply abs_inv in Hmh. apply abs_inv in Hx. apply abs_le; lra. }
      assert (T1 : Rabs ((wh / Sh - l) * (mh - x)) <= g * (20 * k) * (2 * X + e)) by (apply abs_mul; auto).
      assert (T2 : Rabs (l * (mh - m)) <= l * e) by (apply abs_mul; auto; rewrite Rabs_right; lra).
      assert (Dq : q - (l * m + g * x) = (q - (wh * mh + nh * x) / Sh) +
         ((wh / Sh - l) * (mh - x) + l * (mh - m))).
      { rewrite Eh. replace (l * m + g * x) with (l * (m - x) + x).
        - ring. - replace g with (1 - l) by lra. ring. }
      rewrite Dq. clear Dq Eh Ee.
      set (E := 80 * k * X) in *.
      assert (kX : 0 <= k * X) by (apply Rmult_le_pos; lra).
      assert (ke : k * e <= 1 / 100 * E).
      { apply Rle_trans with (k * E); [apply Rmult_le_compat_l; auto|]. apply Rmult_le_compat_r; lra. }
      assert (Rho : 10 * (u * (X + e)) <= g * (10 * (k * X) + 10 * (k * e))).
      { assert (G1 : u * (X + e) <= u * (X + e) * (g * C)).
        { rewrite <- (Rmult_1_r (u * (X + e))) at 1. apply Rmult_le_compat_l.
          - apply Rmult_le_pos; lra.
          - rewrite <- (Rinv_l C) by lra. apply Rmult_le_compat_r; lra. }
        assert (G2 : u * C * (X + e) <= k * (X + e)) by (apply Rmult_le_compat_r; lra).
        assert (G3 : g * (u * C * (X + e)) <= g * (k * (X + e))) by (apply Rmult_le_compat_l; auto).
        lra. }
      assert (Hsum : g * (20 * k) * (2 * X + e) = g * (40 * (k * X) + 20 * (k * e))) by ring.
      assert (le : l * e <= l * E) by (apply Rmult_le_compat_l; auto).
      assert (Hg : g * (50 * (k * X) + 30 * (k * e)) <= g * E).
      { apply Rmult_le_compat_l; auto. unfold E in *. lra. }
      assert (HlE : l * E + g * E = E) by (rewrite <- Rmult_plus_distr_r, Hlg; lra).
      apply abs_inv in Q. apply abs_inv in T1. apply abs_inv in T2. apply abs_le; lra.
    Qed.
  End Consts.
End Err.
