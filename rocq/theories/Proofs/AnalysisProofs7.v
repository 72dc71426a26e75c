(** The online Newton optimiser: logarithmic regret, through the product of the pivots of the matrix. *)
From Coq Require Import List ZArith Reals Lra Lia Bool.
From Verif Require Import Model.Newton Spec.NewtonSpec Spec.EwmSpec Spec.AnalysisSpec Proofs.NewtonProofs Proofs.AnalysisProofs4.
Import ListNotations.
Local Open Scope R_scope.

(** elimination of the last index; the product of the pivots *)
Definition schur (k : nat) (A : mat) : mat := fun i j => A i j - A i k * A k j / A k k.
Fixpoint pdet (n : nat) (A : mat) : R := match n with O => 1 | S k => A k k * pdet k (schur k A) end.

Lemma pdet_ext n : forall A B, mat_eq n A B -> pdet n A = pdet n B.
Proof.
  induction n as [|k IH]; intros A B H; cbn [pdet]; [reflexivity|].
  rewrite (H k k) by lia. f_equal. apply IH. intros i j Hi Hj. unfold schur.
  rewrite (H i j), (H i k), (H k j), (H k k) by lia. reflexivity.
Qed.

Definition posdef (n : nat) (A : mat) : Prop :=
  symmetric n A /\ forall y, (exists i, (i < n)%nat /\ y i <> 0) -> 0 < quad n y A y.

Lemma quad_eye n A i : (i < n)%nat -> quad n (eye i) A (eye i) = A i i.
Proof.
  intros Hi. unfold quad.
  rewrite (vsum_ext n _ (fun a => eye i a * vsum n (fun b => A a b * eye i b))).
  - rewrite vsum_eye_l by auto. rewrite (vsum_ext n _ (fun b => eye i b * A i b)) by (intros; ring).
    apply vsum_eye_l; auto.
  - intros a _. rewrite <- vsum_scal. apply vsum_ext. intros; ring.
Qed.
Lemma posdef_diag n A i : posdef n A -> (i < n)%nat -> 0 < A i i.
Proof.
  intros [_ P] Hi. rewrite <- (quad_eye n A i Hi). apply P. exists i. split; [exact Hi|].
  unfold eye. rewrite Nat.eqb_refl. lra.
Qed.

(** the quadratic form with its last index split off *)
Lemma quad_last k A y : symmetric (S k) A ->
  quad (S k) y A y = quad k y A y + 2 * y k * vsum k (fun i => A k i * y i) + y k ^ 2 * A k k.
Proof.
  intros Hs. unfold quad. cbn [vsum]. rewrite vsum_plus.
  rewrite (vsum_ext k (fun i => y i * A i k * y k) (fun i => y k * (A k i * y i))).
  2:{ intros i Hi. rewrite (Hs i k) by lia. ring. }
  rewrite vsum_scal.
  rewrite (vsum_ext k (fun j => y k * A k j * y j) (fun j => y k * (A k j * y j))) by (intros; ring).
  rewrite vsum_scal. ring.
Qed.
Lemma quad_schur k A y : symmetric (S k) A -> A k k <> 0 ->
  quad k y (schur k A) y = quad k y A y - (vsum k (fun i => A k i * y i)) ^ 2 / A k k.
Proof.
  intros Hs Ha. unfold quad, schur.
  rewrite (vsum_ext k _ (fun i => vsum k (fun j => y i * A i j * y j) +
     (- (vsum k (fun j => A k j * y j)) / A k k) * (A k i * y i))).
  - rewrite vsum_plus, vsum_scal. field. exact Ha.
  - intros i Hi. rewrite (vsum_ext k _ (fun j => y i * A i j * y j + (- (A k i * y i) / A k k) * (A k j * y j))).
    + rewrite vsum_plus, vsum_scal. field. exact Ha.
    + intros j Hj. rewrite (Hs i k) by lia. field. exact Ha.
Qed.
Lemma posdef_schur k A : posdef (S k) A -> posdef k (schur k A).
Proof.
  intros P. pose proof (posdef_diag (S k) A k P ltac:(lia)) as Ha. destruct P as [Hs P]. split.
  - intros i j Hi Hj. unfold schur. rewrite (Hs i j), (Hs i k), (Hs k j) by lia. field. lra.
  - intros y (i & Hi & Hy). rewrite quad_schur by (auto; lra).
    set (c := vsum k (fun i => A k i * y i)).
    set (z := fun i => if (i <? k)%nat then y i else - c / A k k).
    assert (Hz : 0 < quad (S k) z A z).
    { apply P. exists i. split; [lia|]. unfold z. destruct (Nat.ltb_spec i k); [exact Hy|lia]. }
    rewrite quad_last in Hz by exact Hs.
    assert (E1 : quad k z A z = quad k y A y).
    { unfold quad. apply vsum_ext. intros a Ha'. apply vsum_ext. intros b Hb. unfold z.
      destruct (Nat.ltb_spec a k), (Nat.ltb_spec b k); try lia. reflexivity. }
    assert (E2 : vsum k (fun i => A k i * z i) = c).
    { unfold c. apply vsum_ext. intros a Ha'. unfold z. destruct (Nat.ltb_spec a k); try lia. reflexivity. }
    assert (E3 : z k = - c / A k k) by (unfold z; rewrite Nat.ltb_irrefl; reflexivity).
    rewrite E1, E2, E3 in Hz.
    assert (E4 : 2 * (- c / A k k) * c + (- c / A k k) ^ 2 * A k k = - (c ^ 2 / A k k)) by (field; lra).
    lra.
Qed.
Lemma pdet_pos n : forall A, posdef n A -> 0 < pdet n A.
Proof.
  induction n as [|k IH]; intros A P; cbn [pdet]; [lra|].
  apply Rmult_lt_0_compat; [apply (posdef_diag (S k)); auto|]. apply IH, posdef_schur, P.
Qed.

(** a rank-one update multiplies the product of the pivots by 1 + g . A^-1 g *)
Lemma pdet_update n : forall A g u, posdef n A -> (forall i, (i < n)%nat -> matvec n A u i = g i) ->
  pdet n (mat_plus A (outer g g)) = pdet n A * (1 + vdot n g u).
Proof.
  induction n as [|k IH]; intros A g u P Hu; cbn [pdet]; [unfold vdot; cbn; lra|].
  pose proof (posdef_diag (S k) A k P ltac:(lia)) as Ha. pose proof (posdef_schur k A P) as PS. destruct P as [Hs P].
  set (a := A k k) in *. set (a' := a + g k ^ 2).
  assert (Ha' : 0 < a') by (unfold a'; pose proof (pow2_ge_0 (g k)); lra).
  assert (Hq : 0 < a / a') by (apply Rmult_lt_0_compat; [exact Ha|apply Rinv_0_lt_compat; exact Ha']).
  set (c := sqrt (a / a')). assert (Hc : c * c = a / a') by (apply sqrt_sqrt; lra).
  set (h := fun i => g i - g k * A i k / a).
  set (b := vsum k (fun j => A k j * u j)).
  assert (Hk : b + a * u k = g k). { specialize (Hu k ltac:(lia)). unfold matvec in Hu. cbn [vsum] in Hu. exact Hu. }
  assert (E0 : mat_plus A (outer g g) k k = a') by (unfold mat_plus, outer, a', a; ring).
  assert (ES : mat_eq k (schur k (mat_plus A (outer g g))) (mat_plus (schur k A) (outer (fun i => c * h i) (fun i => c * h i)))).
  { intros i j Hi Hj. unfold schur at 1. rewrite E0. unfold mat_plus, outer, schur, h. fold a.
    replace (c * (g i - g k * A i k / a) * (c * (g j - g k * A j k / a)))
      with (c * c * ((g i - g k * A i k / a) * (g j - g k * A j k / a))) by ring.
    rewrite Hc. rewrite (Hs j k) by lia. unfold a' in *. field. lra. }
  rewrite E0, (pdet_ext k _ _ ES).
  rewrite (IH (schur k A) (fun i => c * h i) (fun i => c * u i) PS).
  2:{ intros i Hi. unfold matvec, schur. fold a.
      rewrite (vsum_ext k _ (fun j => c * (A i j * u j) + (- c * A i k / a) * (A k j * u j))) by (intros; field; lra).
      rewrite vsum_plus, !vsum_scal. fold b. specialize (Hu i ltac:(lia)). unfold matvec in Hu. cbn [vsum] in Hu.
      unfold h. replace (vsum k (fun j => A i j * u j)) with (g i - A i k * u k) by lra.
      replace b with (g k - a * u k) by lra. field. lra. }
  assert (Ed : vdot k (fun i => c * h i) (fun i => c * u i) = a / a' * (vdot (S k) g u - g k ^ 2 / a)).
  { unfold vdot. rewrite (vsum_ext k _ (fun i => (a / a') * (g i * u i) + (- (a / a') * g k / a) * (A k i * u i))).
    - rewrite vsum_plus, !vsum_scal. fold b. replace b with (g k - a * u k) by lra. cbn [vsum]. field. lra.
    - intros i Hi. rewrite <- Hc. unfold h. rewrite (Hs i k) by lia. field. lra. }
  rewrite Ed. unfold a' in *. field. lra.
Qed.

(** Hadamard's inequality and the trace *)
Fixpoint vprod (n : nat) (f : nat -> R) : R := match n with O => 1 | S k => vprod k f * f k end.
Lemma vprod_le n f f' : (forall i, (i < n)%nat -> 0 < f i <= f' i) -> 0 < vprod n f <= vprod n f'.
Proof.
  induction n as [|n IH]; intros H; cbn [vprod]; [lra|].
  destruct (IH ltac:(intros; apply H; lia)) as [P1 P2]. destruct (H n ltac:(lia)) as [Q1 Q2].
  split; [apply Rmult_lt_0_compat; auto|]. apply Rmult_le_compat; lra.
Qed.
Lemma hadamard n : forall A, posdef n A -> pdet n A <= vprod n (fun i => A i i).
Proof.
  induction n as [|k IH]; intros A P; cbn [pdet vprod]; [lra|].
  pose proof (posdef_diag (S k) A k P ltac:(lia)) as Ha. pose proof (posdef_schur k A P) as PS.
  rewrite Rmult_comm. apply Rmult_le_compat_r; [lra|]. eapply Rle_trans; [apply IH; exact PS|].
  apply vprod_le. intros i Hi. split; [apply (posdef_diag k); auto|].
  unfold schur. destruct P as [Hs _]. rewrite (Hs k i) by lia.
  assert (0 <= A i k * A i k / A k k).
  { apply Rmult_le_pos; [apply Rle_0_sqr|left; apply Rinv_0_lt_compat; exact Ha]. }
  lra.
Qed.
Lemma ln_le x : 0 < x -> ln x <= x - 1.
Proof.
  intros H. pose proof (exp_ineq1_le (ln x)) as E. rewrite exp_ln in E by exact H. lra.
Qed.
Lemma ln_vprod n f m : 0 < m -> (forall i, (i < n)%nat -> 0 < f i) ->
  ln (vprod n f) <= vsum n f / m - INR n + INR n * ln m.
Proof.
  intros Hm. induction n as [|n IH]; intros H; cbn [vprod vsum].
  - rewrite ln_1. cbn. lra.
  - specialize (IH ltac:(intros; apply H; lia)). pose proof (H n ltac:(lia)) as Hn.
    assert (P : 0 < vprod n f) by (apply (vprod_le n f f); intros; split; [apply H; lia|lra]).
    rewrite ln_mult by auto. rewrite S_INR.
    assert (E : f n = f n / m * m) by (field; lra).
    assert (Q : 0 < f n / m) by (apply Rmult_lt_0_compat; [exact Hn|apply Rinv_0_lt_compat; exact Hm]).
    assert (L : ln (f n) <= f n / m - 1 + ln m).
    { rewrite E at 1. rewrite ln_mult by auto. pose proof (ln_le (f n / m) Q). lra. }
    unfold Rdiv in *. lra.
Qed.

(** the matrices of the optimiser *)
Lemma hessian_symmetric eps gs n : symmetric n (hessian eps gs).
Proof.
  induction gs as [|g r IH]; intros i j Hi Hj; cbn [hessian].
  - rewrite eye_sym. reflexivity.
  - unfold mat_plus, outer. rewrite (IH i j) by auto. ring.
Qed.
Lemma hessian_posdef eps gs n : 0 < eps -> posdef n (hessian eps gs).
Proof.
  intros He. split; [apply hessian_symmetric|]. intros y (i & Hi & Hy).
  pose proof (hessian_quad eps gs n y ltac:(lra)) as Hq. pose proof (vdot_self_nonneg n y) as Hn.
  destruct (Req_dec (vdot n y y) 0) as [Z|Z]; [exfalso; apply Hy; exact (vdot_self_zero n y Z i Hi)|].
  assert (0 < eps * vdot n y y) by (apply Rmult_lt_0_compat; lra). lra.
Qed.
Lemma pdet_eye n eps : 0 < eps -> pdet n (fun i j => eps * eye i j) = eps ^ n.
Proof.
  intros He. induction n as [|k IH]; cbn [pdet pow]; [reflexivity|].
  rewrite (pdet_ext k _ (fun i j => eps * eye i j)).
  - rewrite IH. unfold eye. rewrite Nat.eqb_refl. ring.
  - intros i j Hi Hj. unfold schur, eye. rewrite Nat.eqb_refl. destruct (Nat.eqb_spec i k); [lia|].
    field. lra.
Qed.
Lemma hessian_trace eps gs n : vsum n (fun i => hessian eps gs i i) = INR n * eps + fold_right (fun g s => vdot n g g + s) 0 gs.
Proof.
  induction gs as [|g r IH]; cbn [hessian fold_right].
  - rewrite Rplus_0_r. unfold eye. induction n as [|n IHn]; cbn [vsum]; [cbn; ring|]. rewrite IHn, S_INR, Nat.eqb_refl. ring.
  - unfold mat_plus, outer. rewrite vsum_plus, IH. unfold vdot. ring.
Qed.

(** the sum of g . u telescopes *)
Lemma leverage_gen n eps : 0 < eps -> forall gs gs0 H, newton_inv n eps gs0 H -> forall g0,
  sum_n (length gs) (fun t => vdot n (nth t gs g0) (nth t (fst (newton_run n H gs)) g0)) <=
  ln (pdet n (hessian eps (rev gs ++ gs0))) - ln (pdet n (hessian eps gs0)).
Proof.
  intros He. induction gs as [|g r IH]; intros gs0 H Hi g0.
  - cbn [length sum_n rev app]. lra.
  - rewrite newton_run_cons. cbn [fst length]. rewrite sum_n_shift'. cbn [nth].
    specialize (IH (g :: gs0) _ (newton_inv_next n eps gs0 H g He Hi) g0).
    cbn [rev]. rewrite <- app_assoc. cbn [app].
    assert (Hg : vdot n g (fst (newton_update n g H)) <= ln (pdet n (hessian eps (g :: gs0))) - ln (pdet n (hessian eps gs0))).
    { rewrite (gu n eps gs0 H g He Hi). pose proof (q_nonneg n eps gs0 H g He Hi) as Hq.
      pose proof (pdet_pos n _ (hessian_posdef eps gs0 n He)) as P0.
      cbn [hessian]. rewrite (pdet_update n (hessian eps gs0) g (matvec n H g)).
      - rewrite (vdot_comm n g (matvec n H g)).
        assert (Eq : vdot n (matvec n H g) g = quad n g H g).
        { rewrite vdot_comm. unfold vdot, quad, matvec. apply vsum_ext. intros i _. rewrite <- vsum_scal.
          apply vsum_ext; intros; ring. }
        rewrite Eq. set (q := quad n g H g) in *. rewrite ln_mult by lra.
        assert (L : ln (/ (1 + q)) <= / (1 + q) - 1) by (apply ln_le, Rinv_0_lt_compat; lra).
        rewrite ln_Rinv in L by lra.
        assert (Ef : q / (1 + q) = 1 - / (1 + q)) by (field; lra). rewrite Ef. lra.
      - apply hessian_posdef; exact He.
      - intros i Hin. destruct Hi as [[AH _] _]. exact (A_Hu n H (hessian eps gs0) g AH i Hin). }
    lra.
Qed.

Lemma sum_over_rev {A} (f : A -> R) l : sum_over f (rev l) = sum_over f l.
Proof.
  unfold sum_over. induction l as [|x l IH]; [reflexivity|]. cbn [rev fold_right]. rewrite <- IH.
  generalize (rev l). intros m. induction m as [|y m IHm]; cbn [app fold_right]; [lra|]. rewrite IHm. lra.
Qed.
Lemma newton_leverage_log n eps gs us H g0 : 0 < eps -> (0 < n)%nat ->
  newton_run n (newton_init eps n) gs = (us, H) ->
  sum_n (length gs) (fun t => dotp n (nth t gs g0) (nth t us g0)) <=
  INR n * ln (1 + sum_over (fun g => dotp n g g) gs / (INR n * eps)).
Proof.
  intros He Hn E. assert (HN : 0 < INR n) by (apply lt_0_INR; exact Hn).
  pose proof (leverage_gen n eps He gs [] _ (newton_inv_init n eps He) g0) as L. rewrite E, app_nil_r in L. cbn [fst hessian] in L.
  rewrite pdet_eye in L by exact He.
  assert (S1 : forall m f f', (forall k, f k = f' k) -> sum_n m f = sum_n m f').
  { induction m as [|m IHm]; intros f f' Hf; simpl; auto. rewrite (IHm f f' Hf), Hf. reflexivity. }
  rewrite (S1 (length gs) (fun t => dotp n (nth t gs g0) (nth t us g0)) (fun t => vdot n (nth t gs g0) (nth t us g0)) ltac:(intros k; apply dotp_vdot)).
  eapply Rle_trans; [exact L|]. set (A := hessian eps (rev gs)) in *.
  pose proof (hessian_posdef eps (rev gs) n He) as P. fold A in P.
  set (s := sum_over (fun g => dotp n g g) gs).
  assert (Hs : 0 <= s).
  { unfold s, sum_over. clear. induction gs as [|g r IH]; cbn [fold_right]; [lra|]. rewrite dotp_vdot.
    pose proof (vdot_self_nonneg n g). lra. }
  assert (Et : vsum n (fun i => A i i) = INR n * eps + s).
  { unfold A. rewrite hessian_trace. f_equal. unfold s. rewrite <- sum_over_rev. unfold sum_over. clear.
    induction (rev gs) as [|g r IH]; cbn [fold_right]; [reflexivity|]. rewrite IH. reflexivity. }
  set (m := eps + s / INR n). assert (Hm : 0 < m).
  { unfold m. assert (0 <= s / INR n) by (apply Rmult_le_pos; [exact Hs|left; apply Rinv_0_lt_compat; exact HN]). lra. }
  pose proof (hadamard n A P) as Hd. pose proof (pdet_pos n A P) as Pp.
  assert (Hl : ln (pdet n A) <= ln (vprod n (fun i => A i i))).
  { destruct Hd as [Hd|Hd]; [left; apply ln_increasing; auto|rewrite Hd; lra]. }
  pose proof (ln_vprod n (fun i => A i i) m Hm ltac:(intros; apply (posdef_diag n); auto)) as Hv. rewrite Et in Hv.
  assert (E1 : (INR n * eps + s) / m = INR n).
  { replace (INR n * eps + s) with (INR n * m) by (unfold m; field; lra). field. lra. }
  rewrite E1 in Hv.
  assert (E2 : ln (eps ^ n) = INR n * ln eps).
  { clear -He. induction n as [|k IH]; [cbn; rewrite ln_1; ring|].
    cbn [pow]. rewrite ln_mult by (auto using pow_lt). rewrite IH, S_INR. ring. }
  assert (E3 : 1 + s / (INR n * eps) = m * / eps) by (unfold m; field; lra).
  rewrite E3, ln_mult, ln_Rinv by (auto using Rinv_0_lt_compat). rewrite E2. lra.
Qed.

Lemma newton_leverage_log_bounded n eps gs us H G2 g0 : 0 < eps -> (0 < n)%nat ->
  newton_run n (newton_init eps n) gs = (us, H) ->
  (forall t g, nth_error gs t = Some g -> dotp n g g <= G2) ->
  sum_n (length gs) (fun t => dotp n (nth t gs g0) (nth t us g0)) <=
  INR n * ln (1 + INR (length gs) * G2 / (INR n * eps)).
Proof.
  intros He Hn E Hg. pose proof (newton_leverage_log n eps gs us H g0 He Hn E) as L. eapply Rle_trans; [exact L|].
  assert (HN : 0 < INR n) by (apply lt_0_INR; exact Hn).
  apply Rmult_le_compat_l; [lra|].
  assert (Hs : sum_over (fun g => dotp n g g) gs <= INR (length gs) * G2 /\ 0 <= sum_over (fun g => dotp n g g) gs).
  { clear L E. unfold sum_over. induction gs as [|g r IH]; cbn [fold_right length]; [cbn; lra|].
    destruct IH as [I1 I2]. { intros t g' Ht. apply (Hg (S t)). exact Ht. }
    rewrite S_INR. pose proof (Hg 0%nat g eq_refl). rewrite dotp_vdot in *. pose proof (vdot_self_nonneg n g). lra. }
  destruct Hs as [Hs1 Hs2]. assert (Hne : 0 < INR n * eps) by (apply Rmult_lt_0_compat; auto).
  assert (Hi : 0 < / (INR n * eps)) by (apply Rinv_0_lt_compat; exact Hne).
  assert (Hle : sum_over (fun g => dotp n g g) gs / (INR n * eps) <= INR (length gs) * G2 / (INR n * eps))
    by (apply Rmult_le_compat_r; [lra|exact Hs1]).
  assert (H0 : 0 <= sum_over (fun g => dotp n g g) gs / (INR n * eps)) by (apply Rmult_le_pos; lra).
  destruct Hle as [Hlt|Heq]; [left; apply ln_increasing; lra|rewrite Heq; lra].
Qed.

Lemma newton_log_regret n eps beta gs us H z (x : nat -> vec) (f : nat -> vec -> R) G2 : 0 < eps -> 0 < beta -> (0 < n)%nat ->
  newton_run n (newton_init eps n) gs = (us, H) ->
  (forall t u, nth_error us t = Some u -> forall i, (i < n)%nat -> x (S t) i = x t i - (1 / beta) * u i) ->
  (forall t g, nth_error gs t = Some g -> dotp n g g <= G2 /\ f t (x t) - f t z <=
     dotp n g (fun i => x t i - z i) - beta / 2 * dotp n g (fun i => x t i - z i) ^ 2) ->
  sum_n (length gs) (fun t => f t (x t) - f t z) <=
  beta / 2 * eps * dotp n (fun i => x 0%nat i - z i) (fun i => x 0%nat i - z i) +
  INR n / (2 * beta) * ln (1 + INR (length gs) * G2 / (INR n * eps)).
Proof.
  intros He Hb Hn E Hx Hf.
  pose proof (newton_regret_bound n eps beta gs us H z x f (fun _ => 0) He Hb E Hx ltac:(intros t g Ht; apply (Hf t g Ht))) as R.
  pose proof (newton_leverage_log_bounded n eps gs us H G2 (fun _ => 0) He Hn E ltac:(intros t g Ht; apply (Hf t g Ht))) as L.
  apply (Rmult_le_compat_l (1 / (2 * beta))) in L.
  2:{ apply Rmult_le_pos; [lra|]. left. apply Rinv_0_lt_compat. lra. }
  eapply Rle_trans; [exact R|]. apply Rplus_le_compat_l. eapply Rle_trans; [exact L|]. right. unfold Rdiv. ring.
Qed.


(** the squared loss (w - 1)^2 from w = 0, beta = 1/2: iterates 0, 4/5, ... *)
Definition newton_points (t : nat) : vec := fun _ => match t with O => 0 | 1%nat => 4/5 | _ => 4/5 + 20/129 end.
Lemma newton_regret_case : exists us H,
  newton_run 1 (newton_init 1 1) [(fun _ => -2); (fun _ => -2/5)] = (us, H) /\
  (forall t u, nth_error us t = Some u -> forall i, (i < 1)%nat ->
     newton_points (S t) i = newton_points t i - (1 / (1/2)) * u i) /\
  sum_n 2 (fun t => (newton_points t 0%nat - 1) ^ 2 - (1 - 1) ^ 2) <= 1/4 + ln 9.
Proof.
  destruct (newton_run 1 (newton_init 1 1) [(fun _ => -2); (fun _ => -2/5)]) as [us H] eqn:E.
  exists us, H. split; auto.
  assert (Hx : forall t u, nth_error us t = Some u -> forall i, (i < 1)%nat ->
     newton_points (S t) i = newton_points t i - (1 / (1/2)) * u i).
  { intros t u Hu i Hi. destruct i; [|lia]. clear Hi. cbn in E. injection E as <- <-.
    destruct t as [|[|t]]; cbn [nth_error] in Hu; [| |destruct t; discriminate];
      injection Hu as <-; unfold newton_init, sherman_morrison, matmul, vecmat, matvec, vdot, outer, eye; cbn; field. }
  split; auto.
  pose proof (newton_log_regret 1 1 (1/2) [(fun _ => -2); (fun _ => -2/5)] us H (fun _ => 1) newton_points
    (fun _ w => (w 0%nat - 1) ^ 2) 4 ltac:(lra) ltac:(lra) ltac:(lia) E Hx) as L.
  cbn [length] in L.
  assert (P : forall t g, nth_error [(fun _ : nat => -2); (fun _ => -2/5)] t = Some g ->
    dotp 1 g g <= 4 /\ (newton_points t 0%nat - 1) ^ 2 - (1 - 1) ^ 2 <=
    dotp 1 g (fun i => newton_points t i - 1) - 1/2 / 2 * dotp 1 g (fun i => newton_points t i - 1) ^ 2).
  { intros t g Ht. destruct t as [|[|t]]; cbn [nth_error] in Ht; [| |destruct t; discriminate];
      injection Ht as <-; unfold newton_points, dotp; cbn; lra. }
  specialize (L P). eapply Rle_trans; [exact L|].
  replace (1 + INR 2 * 4 / (INR 1 * 1)) with 9 by (cbn; field).
  unfold newton_points, dotp; cbn. right. field.
Qed.
