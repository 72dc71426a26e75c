(** EWMVar in rounded arithmetic: one step. *)
From Coq Require Import List ZArith Reals Lra Lia Bool.
From Verif Require Import Model.Unroll Model.Float Model.Modules Model.Ewm Model.Rounded
  Spec.EwmSpec Spec.RoundSpec Proofs.FloatFacts Proofs.ListFacts Proofs.RunFacts
  Proofs.RoundProofs Proofs.RoundProofs2.
Import ListNotations.
Local Open Scope R_scope.

Lemma abs_sum a b A B : Rabs a <= A -> Rabs b <= B -> Rabs (a + b) <= A + B.
Proof. intros. apply Rle_trans with (1 := Rabs_triang _ _). lra. Qed.
Lemma abs_split a b A B : Rabs (a - b) <= A -> Rabs b <= B -> Rabs a <= A + B.
Proof. intros. replace a with ((a - b) + b) by ring. apply abs_sum; auto. Qed.

Section VarStep.
  Variables (u eta : R) (rd : R -> R).
  Hypothesis HR : rounding u eta rd.
  Hypothesis Hu : 0 <= u.
  Hypothesis He : 0 <= eta.
  Variables (C X al a : R).
  Notation k := (u * C).
  Notation Q := (X * X).
  Hypothesis HC : 1 <= C.
  Hypothesis Hk : k <= / 100.
  Hypothesis HX : 0 <= X.
  Hypothesis Hal : / C <= al <= 1.
  Hypothesis Ht : eta * C <= u * Rmin 1 (X * X).
  Hypothesis Ha : Rabs (a - al) <= 25 * k * al.

  Lemma alpos : 0 < al.
  Proof using HC Hal. assert (0 < / C) by (apply Rinv_0_lt_compat; lra). lra. Qed.
  Lemma kpos : 0 <= k. Proof using Hu HC. apply Rmult_le_pos; lra. Qed.
  Lemma Cal : 1 <= C * al.
  Proof using HC Hal. assert (C * / C = 1) by (apply Rinv_r; lra). assert (C * / C <= C * al) by (apply Rmult_le_compat_l; lra). lra. Qed.
  Lemma u_k : u <= k * al.
  Proof using Hu HC Hal. pose proof Cal. replace (k * al) with (u * (C * al)) by ring. rewrite <- (Rmult_1_r u) at 1. apply Rmult_le_compat_l; auto. Qed.
  Lemma eta_B B : 0 <= B -> Rmin 1 Q <= B -> eta <= u * al * B.
  Proof using Hu He HC Hal Ht.
    intros HB H. pose proof Cal.
    assert (u * Rmin 1 Q <= u * B) by (apply Rmult_le_compat_l; auto).
    assert (eta * C * al <= u * B * al) by (apply Rmult_le_compat_r; [pose proof alpos; lra|lra]).
    assert (eta * 1 <= eta * (C * al)) by (apply Rmult_le_compat_l; auto). lra.
  Qed.
  Lemma rmin_X : Rmin 1 Q <= X.
  Proof using HX. unfold Rmin. destruct (Rle_dec 1 Q); nra. Qed.
  Lemma eta_X : eta <= u * al * X. Proof using Hu He HC Hal Ht HX. apply eta_B; auto. apply rmin_X. Qed.
  Lemma eta_Q : eta <= u * al * Q. Proof using Hu He HC Hal Ht HX. apply eta_B; [nra|apply Rmin_r]. Qed.
  Lemma eta_1 : eta <= u * al * 1. Proof using Hu He HC Hal Ht. apply eta_B; [lra|apply Rmin_l]. Qed.
  Lemma a_hi : Rabs a <= 1.25 * al.
  Proof using Ha Hk HC Hal.
    pose proof alpos. assert (k * al <= / 100 * al) by (apply Rmult_le_compat_r; lra).
    apply Rle_trans with (25 * k * al + al); [|lra]. apply (abs_split _ al); auto. rewrite Rabs_pos_eq; lra.
  Qed.

  Variables (x m mh V Vh : R).
  Hypothesis Hx : Rabs x <= X.
  Hypothesis Hm : Rabs m <= X.
  Hypothesis Hmh : Rabs (mh - m) <= 90 * k * X.
  Hypothesis HV : 0 <= V <= 4 * Q.
  Hypothesis HVh : Rabs (Vh - V) <= 1700 * k * Q.

  Let dh := rd (x - mh).
  Let ih := rd (a * dh).
  Let mh' := rd (mh + ih).
  Let ph := rd (dh * ih).
  Let sh := rd (Vh + ph).
  Let bh := rd (1 - a).
  Let Vh' := rd (bh * sh).
  Let d := x - m.
  Let m' := m + al * d.
  Let V' := (1 - al) * (V + d * (al * d)).

  (** units *)
  Lemma unitX B : u * B <= k * al * B \/ B < 0.
  Proof using Hu HC Hal. destruct (Rle_dec 0 B); [left|right; lra]. apply Rmult_le_compat_r; auto. apply u_k. Qed.

  Lemma var_step :
    (Rabs mh' <= 2 * X /\ Rabs dh <= 3 * X /\ Rabs ih <= 4 * X /\ Rabs ph <= 12 * Q /\ Rabs sh <= 34 * Q /\
     Rabs bh <= 3 /\ Rabs Vh' <= 22 * Q) /\
    Rabs m' <= X /\ 0 <= V' <= 4 * Q /\
    Rabs (mh' - m') <= 90 * k * X /\ Rabs (Vh' - V') <= 1700 * k * Q.
  Proof using HR Hu He HC Hk HX Hal Ht Ha Hx Hm Hmh HV HVh.
    pose proof alpos as Pal. pose proof kpos as Pk. pose proof u_k as Uk. pose proof a_hi as Hah.
    pose proof eta_X as EX. pose proof eta_Q as EQ. pose proof eta_1 as E1.
    assert (PQ : 0 <= Q) by nra.
    set (w := k * al) in *.
    assert (Pw : 0 <= w) by (apply Rmult_le_pos; lra).
    assert (wk : w <= k). { unfold w. rewrite <- (Rmult_1_r k) at 2. apply Rmult_le_compat_l; lra. }
    assert (kX : k * X <= / 100 * X) by (apply Rmult_le_compat_r; lra).
    assert (kQ : k * Q <= / 100 * Q) by (apply Rmult_le_compat_r; lra).
    assert (wX : w * X <= k * X) by (apply Rmult_le_compat_r; lra).
    assert (wQ : w * Q <= k * Q) by (apply Rmult_le_compat_r; lra).
    assert (PwX : 0 <= w * X) by (apply Rmult_le_pos; lra).
    assert (PwQ : 0 <= w * Q) by (apply Rmult_le_pos; lra).
    assert (uX : u * X <= w * X) by (apply Rmult_le_compat_r; lra).
    assert (uQ : u * Q <= w * Q) by (apply Rmult_le_compat_r; lra).
    assert (uaX : u * al * X <= u * X). { apply Rmult_le_compat_r; auto. rewrite <- (Rmult_1_r u) at 2. apply Rmult_le_compat_l; lra. }
    assert (uaQ : u * al * Q <= u * Q). { apply Rmult_le_compat_r; auto. rewrite <- (Rmult_1_r u) at 2. apply Rmult_le_compat_l; lra. }
    assert (ua1 : u * al <= u). { rewrite <- (Rmult_1_r u) at 2. apply Rmult_le_compat_l; lra. }
    (* the exact step *)
    assert (Hd : Rabs d <= 2 * X).
    { unfold d. apply abs_inv in Hx. apply abs_inv in Hm. apply abs_le; lra. }
    assert (Hm' : Rabs m' <= X).
    { unfold m', d. replace (m + al * (x - m)) with ((1 - al) * m + al * x) by ring.
      apply Rle_trans with ((1 - al) * X + al * X); [|lra]. apply abs_sum; apply abs_mul; auto; rewrite Rabs_pos_eq; lra. }
    assert (Hd2 : d * d <= 4 * Q).
    { pose proof (abs_mul _ _ _ _ Hd Hd) as H. apply abs_inv in H. lra. }
    assert (Hd0 : 0 <= d * d) by nra.
    assert (HV' : 0 <= V' <= 4 * Q).
    { unfold V'. replace (d * (al * d)) with (al * (d * d)) by ring.
      assert (0 <= al * (d * d) <= al * (4 * Q)) by (split; [apply Rmult_le_pos; lra|apply Rmult_le_compat_l; lra]).
      split; [apply Rmult_le_pos; lra|].
      apply Rle_trans with ((1 - al) * (4 * Q + al * (4 * Q))); [apply Rmult_le_compat_l; lra|].
      assert (0 <= al * al * (4 * Q)) by (apply Rmult_le_pos; nra). lra. }
    (* deviation *)
    assert (Hxm : Rabs (x - mh) <= 2.9 * X).
    { replace (x - mh) with ((x - m) + - (mh - m)) by ring. apply Rle_trans with (2 * X + 90 * k * X); [|lra].
      apply abs_sum; auto. rewrite Rabs_Ropp. auto. }
    assert (Edh : Rabs (dh - (x - mh)) <= 3.9 * (w * X)).
    { apply Rle_trans with (1 := rd_err_le u eta rd HR Hu _ _ Hxm). lra. }
    assert (Hdh : Rabs dh <= 2.94 * X).
    { apply Rle_trans with (3.9 * (w * X) + 2.9 * X); [|lra]. eapply abs_split; eauto. }
    assert (Edd : Rabs (dh - d) <= 94 * (k * X)).
    { replace (dh - d) with ((dh - (x - mh)) + - (mh - m)) by (unfold d; ring).
      apply Rle_trans with (3.9 * (w * X) + 90 * k * X); [|lra]. apply abs_sum; auto. rewrite Rabs_Ropp. auto. }
    (* increment *)
    assert (Had : Rabs (a * dh) <= al * (3.675 * X)).
    { apply Rle_trans with (1 := abs_mul _ _ _ _ Hah Hdh). lra. }
    assert (alX : al * X <= X) by (rewrite <- (Rmult_1_l X) at 2; apply Rmult_le_compat_r; lra).
    assert (alQ : al * Q <= Q) by (rewrite <- (Rmult_1_l Q) at 2; apply Rmult_le_compat_r; lra).
    assert (Eih : Rabs (ih - a * dh) <= 4.7 * (u * al * X)).
    { apply Rle_trans with (1 := rd_err_le u eta rd HR Hu _ _ Had). lra. }
    assert (Hu100 : u * al * X <= / 100 * (al * X)).
    { replace (u * al * X) with (u * (al * X)) by ring. apply Rmult_le_compat_r; [apply Rmult_le_pos; lra|].
      apply Rle_trans with (1 := Uk). lra. }
    assert (Hih : Rabs ih <= 3.73 * (al * X)).
    { apply Rle_trans with (4.7 * (u * al * X) + al * (3.675 * X)); [|lra]. eapply abs_split; eauto. }
    (* mean *)
    assert (Hmh1 : Rabs mh <= 1.9 * X).
    { apply Rle_trans with (90 * k * X + X); [|lra]. eapply abs_split; eauto. }
    assert (Hmi : Rabs (mh + ih) <= 5.63 * X).
    { apply Rle_trans with (1.9 * X + 3.73 * (al * X)); [|lra]. apply abs_sum; auto. }
    assert (Emh : Rabs (mh' - (mh + ih)) <= 6.63 * (w * X)).
    { apply Rle_trans with (1 := rd_err_le u eta rd HR Hu _ _ Hmi). lra. }
    assert (Em : Rabs (mh' - m') <= 90 * k * X).
    { replace (mh' - m') with ((mh' - (mh + ih)) + ((ih - a * dh) + (a * (dh - (x - mh)) + ((a - al) * (x - mh) + (1 - al) * (mh - m)))))
        by (unfold m', d; ring).
      apply Rle_trans with (6.63 * (w * X) + (4.7 * (u * al * X) + (1.25 * al * (3.9 * (w * X)) + (25 * k * al * (2.9 * X) + (1 - al) * (90 * k * X))))).
      - apply abs_sum; auto. apply abs_sum; auto. apply abs_sum; [apply abs_mul; auto|].
        apply abs_sum; apply abs_mul; auto. rewrite Rabs_pos_eq; lra.
      - assert (al * (w * X) <= w * X) by (rewrite <- (Rmult_1_l (w * X)) at 2; apply Rmult_le_compat_r; lra).
        replace (25 * k * al * (2.9 * X)) with (72.5 * (w * X)) by (unfold w; lra).
        replace ((1 - al) * (90 * k * X)) with (90 * k * X - 90 * (w * X)) by (unfold w; lra). lra. }
    (* the product *)
    assert (wkal : al * (k * Q) = w * Q) by (unfold w; lra).
    assert (Hpi : Rabs (dh * ih) <= al * (11 * Q)).
    { apply Rle_trans with (1 := abs_mul _ _ _ _ Hdh Hih). assert (0 <= al * Q) by (apply Rmult_le_pos; lra). lra. }
    assert (Eph : Rabs (ph - dh * ih) <= 12 * (w * Q)).
    { apply Rle_trans with (1 := rd_err_le u eta rd HR Hu _ _ Hpi). lra. }
    assert (Ep : Rabs (ph - al * (d * d)) <= 713 * (w * Q)).
    { replace (ph - al * (d * d)) with ((ph - dh * ih) + (dh * (ih - a * dh) + ((a - al) * (dh * dh) + al * ((dh - d) * (dh + d))))) by ring.
      apply Rle_trans with (12 * (w * Q) + (2.94 * X * (4.7 * (u * al * X)) + (25 * k * al * (2.94 * X * (2.94 * X)) + al * (94 * (k * X) * (2.94 * X + 2 * X))))).
      - apply abs_sum; auto. apply abs_sum; [apply abs_mul; auto|]. apply abs_sum.
        + apply abs_mul; auto. apply abs_mul; auto.
        + apply abs_mul; [rewrite Rabs_pos_eq; lra|]. apply abs_mul; auto. apply abs_sum; auto.
      - replace (2.94 * X * (4.7 * (u * al * X))) with (13.818 * (u * al * Q)) by lra.
        replace (25 * k * al * (2.94 * X * (2.94 * X))) with (216.09 * (w * Q)) by (unfold w; lra).
        replace (al * (94 * (k * X) * (2.94 * X + 2 * X))) with (464.36 * (w * Q)) by (unfold w; lra). lra. }
    assert (Hph : Rabs ph <= 11.2 * Q).
    { apply Rle_trans with (12 * (w * Q) + al * (11 * Q)); [|lra]. eapply abs_split; eauto. }
    (* the sum *)
    assert (HVh1 : Rabs Vh <= 21 * Q).
    { apply Rle_trans with (1700 * k * Q + 4 * Q); [|lra]. apply (abs_split _ V); auto. rewrite Rabs_pos_eq; lra. }
    assert (Hsum : Rabs (Vh + ph) <= 32.2 * Q).
    { apply Rle_trans with (21 * Q + 11.2 * Q); [|lra]. apply abs_sum; auto. }
    assert (Esh : Rabs (sh - (Vh + ph)) <= 33.2 * (w * Q)).
    { apply Rle_trans with (1 := rd_err_le u eta rd HR Hu _ _ Hsum). lra. }
    assert (Hsh : Rabs sh <= 32.6 * Q).
    { apply Rle_trans with (33.2 * (w * Q) + 32.2 * Q); [|lra]. eapply abs_split; eauto. }
    (* the factor *)
    assert (H1a : Rabs (1 - a) <= 1.25).
    { replace (1 - a) with (- (a - al) + (1 - al)) by ring. apply Rle_trans with (25 * k * al + (1 - al)).
      - apply abs_sum; [rewrite Rabs_Ropp; auto|rewrite Rabs_pos_eq; lra].
      - assert (k * al <= / 100 * al) by (apply Rmult_le_compat_r; lra). lra. }
    assert (Ebh0 : Rabs (bh - (1 - a)) <= 2.25 * w).
    { apply Rle_trans with (1 := rd_err_le u eta rd HR Hu _ _ H1a). lra. }
    assert (Ebh : Rabs (bh - (1 - al)) <= 27.25 * w).
    { replace (bh - (1 - al)) with ((bh - (1 - a)) + - (a - al)) by ring.
      apply Rle_trans with (2.25 * w + 25 * k * al); [apply abs_sum; auto; rewrite Rabs_Ropp; auto|unfold w; lra]. }
    assert (Hbh : Rabs bh <= 1.2725).
    { apply Rle_trans with (2.25 * w + 1.25); [|lra]. eapply abs_split; eauto. }
    (* the variance *)
    assert (Hbs : Rabs (bh * sh) <= 41.6 * Q).
    { apply Rle_trans with (1 := abs_mul _ _ _ _ Hbh Hsh). lra. }
    assert (EVh : Rabs (Vh' - bh * sh) <= 42.6 * (w * Q)).
    { apply Rle_trans with (1 := rd_err_le u eta rd HR Hu _ _ Hbs). lra. }
    assert (EV : Rabs (Vh' - V') <= 1700 * k * Q).
    { replace (Vh' - V') with ((Vh' - bh * sh) + ((bh - (1 - al)) * sh + (1 - al) * ((sh - (Vh + ph)) + ((ph - al * (d * d)) + (Vh - V)))))
        by (unfold V'; ring).
      apply Rle_trans with (42.6 * (w * Q) + (27.25 * w * (32.6 * Q) + (1 - al) * (33.2 * (w * Q) + (713 * (w * Q) + 1700 * k * Q)))).
      - apply abs_sum; auto. apply abs_sum; apply abs_mul; auto; [rewrite Rabs_pos_eq; lra|].
        apply abs_sum; auto. apply abs_sum; auto.
      - replace ((1 - al) * (33.2 * (w * Q) + (713 * (w * Q) + 1700 * k * Q))) with
          (1700 * k * Q - 1700 * (w * Q) + (1 - al) * (746.2 * (w * Q))) by (unfold w; lra).
        assert ((1 - al) * (746.2 * (w * Q)) <= 1 * (746.2 * (w * Q))) by (apply Rmult_le_compat_r; lra). lra. }
    assert (B1 : Rabs mh' <= 2 * X).
    { apply Rle_trans with (90 * k * X + X); [|lra]. eapply abs_split; eauto. }
    assert (B2 : Rabs Vh' <= 22 * Q).
    { apply Rle_trans with (1700 * k * Q + 4 * Q); [|lra]. apply (abs_split _ V'); auto. rewrite Rabs_pos_eq; lra. }
    repeat split; auto; try lra.
  Qed.
End VarStep.
