(** The online Newton optimiser: size of the steps, and the regret identity. *)
From Coq Require Import List ZArith Reals Lra Lia Bool.
From Verif Require Import Model.Newton Spec.NewtonSpec Spec.EwmSpec Spec.AnalysisSpec Proofs.NewtonProofs.
Import ListNotations.
Local Open Scope R_scope.

Lemma vsum_sum_n n f : vsum n f = sum_n n f.
Proof. induction n as [|n IH]; simpl; congruence. Qed.
Lemma dotp_vdot n x y : dotp n x y = vdot n x y.
Proof. unfold dotp, vdot. symmetry; apply vsum_sum_n. Qed.
Lemma qform_quad n M x : qform n M x = quad n x M x.
Proof.
  unfold qform, quad. rewrite <- vsum_sum_n. apply vsum_ext. intros i _. symmetry; apply vsum_sum_n.
Qed.

Lemma vdot_comm n x y : vdot n x y = vdot n y x.
Proof. unfold vdot. apply vsum_ext; intros; ring. Qed.
Lemma quad_matvec n x H y : quad n x H y = vdot n x (matvec n H y).
Proof.
  unfold quad, vdot, matvec. apply vsum_ext. intros i _. rewrite <- vsum_scal. apply vsum_ext; intros; ring.
Qed.

Section Step.
  Variables (n : nat) (eps : R) (gs : list vec) (H : mat) (g : vec).
  Hypothesis (He : 0 < eps) (Hi : newton_inv n eps gs H).
  Let q := quad n g H g.
  Let u := fst (newton_update n g H).
  Let H' := snd (newton_update n g H).

  Lemma q_nonneg : 0 <= q.
  Proof.
    pose proof (newton_den n eps gs H g He Hi) as Hd. rewrite uHv in Hd. unfold q, quad. lra.
  Qed.
  Lemma den_q : 1 + vdot n (vecmat n g H) g = 1 + q.
  Proof. rewrite uHv. reflexivity. Qed.

  Lemma H'_entry i j : (i < n)%nat -> (j < n)%nat ->
    H' i j = H i j - matvec n H g i * matvec n H g j / (1 + q).
  Proof.
    intros Hi' Hj. unfold H', newton_update. cbn [snd]. rewrite sm_entry, den_q.
    replace (vecmat n g H j) with (matvec n H g j); [reflexivity|].
    destruct Hi as [_ Hs]. unfold matvec, vecmat. apply vsum_ext. intros k Hk. rewrite (Hs j k) by auto. ring.
  Qed.

  Lemma u_entry i : (i < n)%nat -> u i = matvec n H g i / (1 + q).
  Proof.
    intros Hi'. pose proof q_nonneg as Hq. unfold u, newton_update. cbn [fst]. unfold matvec at 1.
    rewrite (vsum_ext n _ (fun j => H i j * g j + (- (matvec n H g i / (1 + q))) * (g j * matvec n H g j))).
    - rewrite vsum_plus, vsum_scal. fold (matvec n H g i). change (vsum n (fun j => g j * matvec n H g j)) with (vdot n g (matvec n H g)).
      rewrite <- quad_matvec. fold q. unfold matvec. field. lra.
    - intros j Hj. change (sherman_morrison n H g g i j) with (H' i j). rewrite H'_entry by auto. field. lra.
  Qed.

  Lemma gu : vdot n g u = q / (1 + q).
  Proof.
    pose proof q_nonneg. unfold vdot. rewrite (vsum_ext n _ (fun i => / (1 + q) * (g i * matvec n H g i))).
    - rewrite vsum_scal. change (vsum n (fun i => g i * matvec n H g i)) with (vdot n g (matvec n H g)).
      rewrite <- quad_matvec. fold q. unfold Rdiv; ring.
    - intros i Hi'. rewrite u_entry by auto. unfold Rdiv; ring.
  Qed.

  Lemma xu x : vdot n x u = vdot n x (matvec n H g) / (1 + q).
  Proof.
    unfold vdot. rewrite (vsum_ext n _ (fun i => x i * matvec n H g i * / (1 + q))).
    - rewrite vsum_scal_r. reflexivity.
    - intros i Hi'. rewrite u_entry by auto. unfold Rdiv; ring.
  Qed.

  (** the state decreases by (1+q) (x.u)^2 in every direction x *)
  Lemma quad_decrease x : quad n x H' x = quad n x H x - (1 + q) * vdot n x u ^ 2.
  Proof.
    pose proof q_nonneg as Hq. rewrite xu. set (hg := matvec n H g) in *.
    unfold quad at 1. 
    rewrite (vsum_ext n _ (fun i => vsum n (fun j => x i * H i j * x j) + (- (x i * hg i / (1 + q))) * vdot n x hg)).
    - rewrite vsum_plus. fold (quad n x H x).
      rewrite (vsum_ext n (fun i => - (x i * hg i / (1 + q)) * vdot n x hg) (fun i => (x i * hg i) * (- (vdot n x hg / (1 + q)))))
        by (intros; field; lra).
      rewrite vsum_scal_r. fold (vdot n x hg). field. lra.
    - intros i Hi'. unfold vdot. rewrite <- vsum_scal, <- vsum_plus. apply vsum_ext. intros j Hj.
      rewrite H'_entry by auto. fold hg. field. lra.
  Qed.

  Lemma u_small : vdot n u u <= / (4 * eps).
  Proof.
    pose proof q_nonneg as Hq. set (hg := matvec n H g).
    assert (E : vdot n u u = vdot n hg hg / ((1 + q) * (1 + q))).
    { rewrite xu. rewrite vdot_comm, xu. fold hg. field. lra. }
    assert (Hb : eps * vdot n hg hg <= q).
    { unfold q. destruct Hi as [[AH HA] Hs]. rewrite (quad_inverse n (hessian eps gs)) by auto. fold hg.
      apply hessian_quad. lra. }
    rewrite E. apply Rmult_le_reg_r with (4 * eps * ((1 + q) * (1 + q))).
    { apply Rmult_lt_0_compat; [lra|]. apply Rmult_lt_0_compat; lra. }
    replace (vdot n hg hg / ((1 + q) * (1 + q)) * (4 * eps * ((1 + q) * (1 + q)))) with (4 * (eps * vdot n hg hg)) by (field; lra).
    replace (/ (4 * eps) * (4 * eps * ((1 + q) * (1 + q)))) with ((1 + q) * (1 + q)) by (field; lra).
    pose proof (Rle_0_sqr (1 - q)) as Hs. unfold Rsqr in Hs. nra.
  Qed.

  Lemma quad_nonneg x : 0 <= quad n x H x.
  Proof.
    destruct Hi as [[AH HA] Hs]. rewrite (quad_inverse n (hessian eps gs)) by auto.
    pose proof (hessian_quad eps gs n (matvec n H x) ltac:(lra)). pose proof (vdot_self_nonneg n (matvec n H x)).
    assert (0 <= eps * vdot n (matvec n H x) (matvec n H x)) by (apply Rmult_le_pos; lra). lra.
  Qed.
End Step.

Lemma newton_run_cons n H g r : newton_run n H (g :: r) =
  (fst (newton_update n g H) :: fst (newton_run n (snd (newton_update n g H)) r),
   snd (newton_run n (snd (newton_update n g H)) r)).
Proof. cbn [newton_run]. destruct (newton_update n g H) as [u h]. cbn [fst snd]. destruct (newton_run n h r). reflexivity. Qed.

Lemma newton_inv_next n eps gs H g : 0 < eps -> newton_inv n eps gs H ->
  newton_inv n eps (g :: gs) (snd (newton_update n g H)).
Proof. apply newton_inv_step. Qed.

(** sizes *)
Lemma newton_steps_small_gen n eps : 0 < eps -> forall gs gs0 H, newton_inv n eps gs0 H ->
  forall t g u, nth_error gs t = Some g -> nth_error (fst (newton_run n H gs)) t = Some u ->
  0 <= dotp n g u < 1 /\ dotp n u u <= / (4 * eps).
Proof.
  intros He. induction gs as [|g0 r IH]; intros gs0 H Hi t g u Hg Hu; [destruct t; discriminate|].
  rewrite newton_run_cons in Hu. cbn [fst] in Hu. destruct t as [|t]; cbn [nth_error] in Hg, Hu.
  - injection Hg as <-. apply (f_equal (fun o => match o with Some v => v | None => u end)) in Hu. cbv beta iota in Hu. subst u. rewrite !dotp_vdot. rewrite (gu n eps gs0 H g0 He Hi).
    pose proof (q_nonneg n eps gs0 H g0 He Hi) as Hq. split; [|apply (u_small n eps gs0); auto].
    split; [apply Rmult_le_pos; [lra|left; apply Rinv_0_lt_compat; lra]|].
    apply Rmult_lt_reg_r with (1 + quad n g0 H g0); [lra|]. unfold Rdiv. rewrite Rmult_assoc, Rinv_l by lra. lra.
  - eapply IH; [apply (newton_inv_next n eps gs0 H g0 He Hi)|exact Hg|exact Hu].
Qed.

Lemma newton_steps_small n eps gs us H : 0 < eps -> newton_run n (newton_init eps n) gs = (us, H) ->
  forall t g u, nth_error gs t = Some g -> nth_error us t = Some u ->
  0 <= dotp n g u < 1 /\ dotp n u u <= / (4 * eps).
Proof.
  intros He E t g u Hg Hu. eapply (newton_steps_small_gen n eps He gs [] _ (newton_inv_init n eps He)); eauto.
  rewrite E. exact Hu.
Qed.

Lemma newton_square_sum_gen n eps x : 0 < eps -> forall gs gs0 H, newton_inv n eps gs0 H ->
  sum_over (fun u => dotp n x u ^ 2) (fst (newton_run n H gs)) + qform n (snd (newton_run n H gs)) x <= qform n H x.
Proof.
  intros He. induction gs as [|g r IH]; intros gs0 H Hi.
  - cbn [newton_run fst snd sum_over fold_right]. lra.
  - rewrite newton_run_cons. cbn [fst snd]. cbn [sum_over fold_right].
    specialize (IH _ _ (newton_inv_next n eps gs0 H g He Hi)).
    rewrite (qform_quad n (snd (newton_update n g H))) in IH. rewrite (quad_decrease n eps gs0 H g He Hi) in IH.
    pose proof (q_nonneg n eps gs0 H g He Hi) as Hq. rewrite <- dotp_vdot, <- qform_quad in IH.
    set (d := dotp n x (fst (newton_update n g H))) in *. pose proof (pow2_ge_0 d).
    assert (0 <= quad n g H g * d ^ 2) by (apply Rmult_le_pos; auto).
    unfold sum_over in IH. lra.
Qed.

Lemma qform_init n eps x : 0 < eps -> qform n (newton_init eps n) x = dotp n x x / eps.
Proof.
  intros He. rewrite qform_quad, dotp_vdot. unfold quad, vdot.
  rewrite (vsum_ext n _ (fun i => (x i * x i) * / eps)).
  - rewrite vsum_scal_r. reflexivity.
  - intros i Hi. unfold newton_init. rewrite (vsum_ext n _ (fun j => (x i / eps) * (eye i j * x j))) by (intros; field; lra).
    rewrite vsum_scal, vsum_eye_l by auto. field. lra.
Qed.

Lemma newton_square_sum n eps gs us H x : 0 < eps -> newton_run n (newton_init eps n) gs = (us, H) ->
  0 <= qform n H x /\ sum_over (fun u => dotp n x u ^ 2) us + qform n H x <= dotp n x x / eps.
Proof.
  intros He E. pose proof (newton_square_sum_gen n eps x He gs [] _ (newton_inv_init n eps He)) as Hs.
  rewrite E in Hs. cbn [fst snd] in Hs. rewrite qform_init in Hs by auto. split; auto.
  rewrite qform_quad. apply (quad_nonneg n eps (rev gs)); auto. exact (newton_tracks_inverse n eps gs us H He E).
Qed.

Lemma newton_monotone n eps gs gs' us H us' H' x : 0 < eps ->
  newton_run n (newton_init eps n) gs = (us, H) -> newton_run n (newton_init eps n) (gs ++ gs') = (us', H') ->
  qform n H' x <= qform n H x.
Proof.
  intros He E E'. rewrite newton_run_app, E in E'. cbn [fst snd] in E'. injection E' as _ <-.
  pose proof (newton_square_sum_gen n eps x He gs' (rev gs) H (newton_tracks_inverse n eps gs us H He E)) as Hs.
  assert (0 <= sum_over (fun u => dotp n x u ^ 2) (fst (newton_run n H gs'))).
  { generalize (fst (newton_run n H gs')). intros l. induction l as [|u l IH]; cbn [sum_over fold_right]; [lra|].
    pose proof (pow2_ge_0 (dotp n x u)). unfold sum_over in IH. lra. }
  lra.
Qed.

(** *** the regret identity *)
Lemma hessian_sym eps gs n : symmetric n (hessian eps gs).
Proof.
  intros i j _ _. induction gs as [|g r IH]; cbn [hessian].
  - rewrite eye_sym. reflexivity.
  - unfold mat_plus, outer. rewrite IH. ring.
Qed.
Lemma quad_plus_outer n x A g : quad n x (mat_plus A (outer g g)) x = quad n x A x + vdot n g x ^ 2.
Proof.
  unfold quad, mat_plus, outer.
  rewrite (vsum_ext n _ (fun i => vsum n (fun j => x i * A i j * x j) + (g i * x i) * vdot n g x)).
  - rewrite vsum_plus, vsum_scal_r. fold (vdot n g x). ring.
  - intros i _. unfold vdot. rewrite <- vsum_scal, <- vsum_plus. apply vsum_ext; intros; ring.
Qed.
Lemma quad_lin n x y A c : symmetric n A ->
  quad n (fun i => x i - c * y i) A (fun i => x i - c * y i) =
  quad n x A x - 2 * c * vdot n x (matvec n A y) + c ^ 2 * vdot n y (matvec n A y).
Proof.
  intros Hs. rewrite <- !quad_matvec.
  assert (E : quad n (fun i => x i - c * y i) A (fun i => x i - c * y i) =
    quad n x A x + ((- c) * quad n x A y + ((- c) * quad n y A x + c ^ 2 * quad n y A y))).
  { unfold quad. rewrite <- !vsum_scal, <- !vsum_plus. apply vsum_ext. intros i _.
    rewrite <- !vsum_scal, <- !vsum_plus. apply vsum_ext; intros; ring. }
  rewrite E, (quad_sym n y A x Hs). ring.
Qed.
Lemma quad_ext n x y A : (forall i, (i < n)%nat -> x i = y i) -> quad n x A x = quad n y A y.
Proof.
  intros H. unfold quad. apply vsum_ext. intros i Hi. apply vsum_ext. intros j Hj. rewrite !H by auto. reflexivity.
Qed.
Lemma vdot_ext n x x' y y' : (forall i, (i < n)%nat -> x i = x' i) -> (forall i, (i < n)%nat -> y i = y' i) -> vdot n x y = vdot n x' y'.
Proof. intros H H'. unfold vdot. apply vsum_ext. intros i Hi. rewrite H, H' by auto. reflexivity. Qed.

Lemma A_u n eps gs H g : 0 < eps -> newton_inv n eps gs H -> forall i, (i < n)%nat ->
  matvec n (hessian eps (g :: gs)) (fst (newton_update n g H)) i = g i.
Proof.
  intros He Hi i Hin. destruct (newton_inv_step n eps gs H g He Hi) as [[AH _] _].
  unfold newton_update. cbn [fst]. exact (A_Hu n (sherman_morrison n H g g) (hessian eps (g :: gs)) g AH i Hin).
Qed.

Definition diff (x z : vec) : vec := fun i => x i - z i.

Lemma sum_n_shift' n f : sum_n (S n) f = f 0%nat + sum_n n (fun k => f (S k)).
Proof. induction n as [|n IH]; simpl in *; [lra|]. rewrite IH. lra. Qed.

Lemma newton_regret_gen n eps lr z : 0 < eps -> forall gs gs0 H (x : nat -> vec), newton_inv n eps gs0 H ->
  (forall t u, nth_error (fst (newton_run n H gs)) t = Some u -> forall i, (i < n)%nat -> x (S t) i = x t i - lr * u i) ->
  forall g0,
  sum_n (length gs) (fun t => 2 * lr * vdot n (nth t gs g0) (diff (x t) z) - vdot n (nth t gs g0) (diff (x t) z) ^ 2) +
    quad n (diff (x (length gs)) z) (hessian eps (rev gs ++ gs0)) (diff (x (length gs)) z) =
  quad n (diff (x 0%nat) z) (hessian eps gs0) (diff (x 0%nat) z) +
    lr ^ 2 * sum_n (length gs) (fun t => vdot n (nth t gs g0) (nth t (fst (newton_run n H gs)) g0)).
Proof.
  intros He. induction gs as [|g r IH]; intros gs0 H x Hi Hx g0.
  - simpl. lra.
  - rewrite newton_run_cons in *. cbn [fst] in *. set (u := fst (newton_update n g H)) in *.
    specialize (IH (g :: gs0) _ (fun t => x (S t)) (newton_inv_next n eps gs0 H g He Hi)).
    assert (Hx' : forall t v, nth_error (fst (newton_run n (snd (newton_update n g H)) r)) t = Some v ->
      forall i, (i < n)%nat -> x (S (S t)) i = x (S t) i - lr * v i) by (intros t v Hv; apply (Hx (S t) v Hv)).
    specialize (IH Hx' g0). cbv beta in IH.
    assert (E1 : quad n (diff (x 1%nat) z) (hessian eps (g :: gs0)) (diff (x 1%nat) z) =
       quad n (diff (x 0%nat) z) (hessian eps gs0) (diff (x 0%nat) z) + vdot n g (diff (x 0%nat) z) ^ 2
       - 2 * lr * vdot n g (diff (x 0%nat) z) + lr ^ 2 * vdot n g u).
    { rewrite (quad_ext n _ (fun i => diff (x 0%nat) z i - lr * u i)).
      2:{ intros i Hin. unfold diff. rewrite (Hx 0%nat u eq_refl i Hin). ring. }
      rewrite quad_lin by apply hessian_sym. cbn [hessian]. rewrite quad_plus_outer.
      rewrite (vdot_ext n (diff (x 0%nat) z) (diff (x 0%nat) z) _ g) by (auto; intros; apply (A_u n eps gs0 H g); auto).
      rewrite (vdot_ext n u u _ g) by (auto; intros; apply (A_u n eps gs0 H g); auto).
      rewrite (vdot_comm n (diff (x 0%nat) z) g), (vdot_comm n u g). ring. }
    rewrite E1 in IH. cbn [length rev]. rewrite !sum_n_shift'. cbn [nth]. rewrite <- app_assoc. cbn [app].
    lra.
Qed.

Lemma newton_regret n eps lr gs us H z (x : nat -> vec) g0 : 0 < eps ->
  newton_run n (newton_init eps n) gs = (us, H) ->
  (forall t u, nth_error us t = Some u -> forall i, (i < n)%nat -> x (S t) i = x t i - lr * u i) ->
  sum_n (length gs) (fun t => 2 * lr * dotp n (nth t gs g0) (fun i => x t i - z i) - dotp n (nth t gs g0) (fun i => x t i - z i) ^ 2) +
    qform n (hessian eps (rev gs)) (fun i => x (length gs) i - z i) =
  eps * dotp n (fun i => x 0%nat i - z i) (fun i => x 0%nat i - z i) +
    lr ^ 2 * sum_n (length gs) (fun t => dotp n (nth t gs g0) (nth t us g0)).
Proof.
  intros He E Hx. pose proof (newton_regret_gen n eps lr z He gs [] _ x (newton_inv_init n eps He)) as R.
  rewrite E in R. cbn [fst] in R. specialize (R Hx g0). rewrite app_nil_r in R. rewrite qform_quad.
  assert (E0 : quad n (diff (x 0%nat) z) (hessian eps []) (diff (x 0%nat) z) = eps * dotp n (diff (x 0%nat) z) (diff (x 0%nat) z)).
  { rewrite dotp_vdot. unfold quad, vdot. cbn [hessian]. rewrite <- vsum_scal. apply vsum_ext. intros i Hi.
    rewrite (vsum_ext n _ (fun j => (eps * diff (x 0%nat) z i) * (eye i j * diff (x 0%nat) z j))) by (intros; ring).
    rewrite vsum_scal, vsum_eye_l by auto. ring. }
  rewrite E0 in R. unfold diff in R.
  assert (S1 : forall m f f', (forall k, f k = f' k) -> sum_n m f = sum_n m f').
  { induction m as [|m IHm]; intros f f' Hf; simpl; auto. rewrite (IHm f f' Hf), Hf. reflexivity. }
  rewrite (S1 (length gs) _ (fun t => 2 * lr * vdot n (nth t gs g0) (fun i => x t i - z i) - vdot n (nth t gs g0) (fun i => x t i - z i) ^ 2))
    by (intros; rewrite dotp_vdot; reflexivity).
  rewrite (S1 (length gs) (fun t => dotp n (nth t gs g0) (nth t us g0)) (fun t => vdot n (nth t gs g0) (nth t us g0)))
    by (intros; apply dotp_vdot).
  exact R.
Qed.

(** losses that are bounded below by a quadratic along the gradient: with learning rate 1/beta the
    regret against any fixed point is bounded *)
Lemma newton_regret_bound n eps beta gs us H z (x : nat -> vec) (f : nat -> vec -> R) g0 : 0 < eps -> 0 < beta ->
  newton_run n (newton_init eps n) gs = (us, H) ->
  (forall t u, nth_error us t = Some u -> forall i, (i < n)%nat -> x (S t) i = x t i - (1 / beta) * u i) ->
  (forall t g, nth_error gs t = Some g -> f t (x t) - f t z <=
     dotp n g (fun i => x t i - z i) - beta / 2 * dotp n g (fun i => x t i - z i) ^ 2) ->
  sum_n (length gs) (fun t => f t (x t) - f t z) <=
  beta / 2 * eps * dotp n (fun i => x 0%nat i - z i) (fun i => x 0%nat i - z i) +
  1 / (2 * beta) * sum_n (length gs) (fun t => dotp n (nth t gs g0) (nth t us g0)).
Proof.
  intros He Hb E Hx Hf. pose proof (newton_regret n eps (1 / beta) gs us H z x g0 He E Hx) as R.
  assert (Q : 0 <= qform n (hessian eps (rev gs)) (fun i => x (length gs) i - z i)).
  { rewrite qform_quad. set (d := fun i => x (length gs) i - z i).
    pose proof (hessian_quad eps (rev gs) n d ltac:(lra)). pose proof (vdot_self_nonneg n d).
    assert (0 <= eps * vdot n d d) by (apply Rmult_le_pos; lra). lra. }
  set (D := dotp n (fun i => x 0%nat i - z i) (fun i => x 0%nat i - z i)) in *.
  set (G := sum_n (length gs) (fun t => dotp n (nth t gs g0) (nth t us g0))) in *.
  set (T := sum_n (length gs) (fun t => 2 * (1 / beta) * dotp n (nth t gs g0) (fun i => x t i - z i) - dotp n (nth t gs g0) (fun i => x t i - z i) ^ 2)) in *.
  assert (HT : sum_n (length gs) (fun t => f t (x t) - f t z) <= beta / 2 * T).
  { unfold T. assert (G1 : forall m, (m <= length gs)%nat ->
      sum_n m (fun t => f t (x t) - f t z) <= beta / 2 * sum_n m (fun t => 2 * (1 / beta) * dotp n (nth t gs g0) (fun i => x t i - z i) - dotp n (nth t gs g0) (fun i => x t i - z i) ^ 2)).
    { induction m as [|m IHm]; intros Hm; cbn [sum_n]; [lra|].
      specialize (IHm ltac:(lia)). assert (Lm : (m < length gs)%nat) by lia. pose proof (Hf m (nth m gs g0) (nth_error_nth' gs g0 Lm)) as F.
      set (dg := dotp n (nth m gs g0) (fun i => x m i - z i)) in *.
      assert (beta / 2 * (2 * (1 / beta) * dg - dg ^ 2) = dg - beta / 2 * dg ^ 2) as Eb by (field; lra). rewrite Rmult_plus_distr_l, Eb. apply Rplus_le_compat; [exact IHm|exact F]. }
    apply G1; lia. }
  assert (HT' : T <= eps * D + (1 / beta) ^ 2 * G) by lra.
  apply (Rmult_le_compat_l (beta / 2)) in HT'; [|lra].
  replace (beta / 2 * (eps * D + (1 / beta) ^ 2 * G)) with (beta / 2 * eps * D + 1 / (2 * beta) * G) in HT' by (field; lra).
  lra.
Qed.

Lemma cauchy_schwarz n x y : vdot n x y ^ 2 <= vdot n x x * vdot n y y.
Proof.
  assert (E : vdot n (fun i => vdot n y y * x i - vdot n x y * y i) (fun i => vdot n y y * x i - vdot n x y * y i)
    = vdot n y y * (vdot n x x * vdot n y y - vdot n x y ^ 2)).
  { set (a := vdot n y y). set (b := vdot n x y).
    transitivity (a ^ 2 * vdot n x x + ((- 2 * a * b) * vdot n x y + b ^ 2 * vdot n y y)).
    - unfold vdot. rewrite <- !vsum_scal, <- !vsum_plus. apply vsum_ext; intros; ring.
    - fold a b. ring. }
  pose proof (vdot_self_nonneg n (fun i => vdot n y y * x i - vdot n x y * y i)) as P. rewrite E in P.
  pose proof (vdot_self_nonneg n y) as Py. pose proof (vdot_self_nonneg n x) as Px.
  destruct (Req_dec (vdot n y y) 0) as [Z|Z].
  - assert (vdot n x y = 0). { unfold vdot. apply vsum_zero. intros k Hk. rewrite (vdot_self_zero n y Z k Hk). ring. }
    rewrite H, Z. simpl. lra.
  - assert (0 < vdot n y y) by lra. assert (0 <= vdot n x x * vdot n y y - vdot n x y ^ 2).
    { apply Rmult_le_reg_l with (vdot n y y); [auto|lra]. } lra.
Qed.

Lemma dotp_basis n u k : (k < n)%nat -> dotp n (eye k) u = u k.
Proof. intros Hk. rewrite dotp_vdot. unfold vdot. apply vsum_eye_l; auto. Qed.

Lemma newton_total_displacement n eps gs us H : 0 < eps -> newton_run n (newton_init eps n) gs = (us, H) ->
  sum_over (fun u => dotp n u u) us <= INR n / eps.
Proof.
  intros He E.
  assert (G : forall m, (m <= n)%nat -> sum_over (fun u => sum_n m (fun i => u i * u i)) us <= INR m / eps).
  { induction m as [|m IH]; intros Hm.
    - simpl. unfold Rdiv. rewrite Rmult_0_l. clear. induction us as [|u us IH]; simpl; [lra|]. unfold sum_over in *; lra.
    - specialize (IH ltac:(lia)).
      assert (Es : sum_over (fun u => sum_n (S m) (fun i => u i * u i)) us =
        sum_over (fun u => sum_n m (fun i => u i * u i)) us + sum_over (fun u => dotp n (eye m) u ^ 2) us).
      { clear -Hm. unfold sum_over. induction us as [|u us IHu]; cbn [fold_right]; [lra|]. rewrite IHu.
        rewrite dotp_basis by lia. cbn [sum_n]. ring. }
      rewrite Es, S_INR. destruct (newton_square_sum n eps gs us H (eye m) He E) as [Q0 Q].
      rewrite (dotp_basis n (eye m) m) in Q by lia. assert (Em : eye m m = 1) by (unfold eye; rewrite Nat.eqb_refl; auto). rewrite Em in Q.
      unfold Rdiv in *. lra. }
  exact (G n (Nat.le_refl n)).
Qed.

Lemma sum_over_nth {A} (f : A -> R) (l : list A) d : sum_over f l = sum_n (length l) (fun t => f (nth t l d)).
Proof.
  induction l as [|x l IH]; [reflexivity|]. cbn [length]. rewrite sum_n_shift'. cbn [nth]. rewrite <- IH. reflexivity.
Qed.

Lemma newton_run_length n H gs : length (fst (newton_run n H gs)) = length gs.
Proof. revert H. induction gs as [|g r IH]; intros H; [reflexivity|]. rewrite newton_run_cons. cbn [fst length]. rewrite IH; auto. Qed.

Lemma newton_leverage_sublinear n eps gs us H G2 g0 : 0 < eps -> 0 <= G2 ->
  newton_run n (newton_init eps n) gs = (us, H) ->
  (forall t g, nth_error gs t = Some g -> dotp n g g <= G2) ->
  sum_n (length gs) (fun t => dotp n (nth t gs g0) (nth t us g0)) ^ 2 <= INR (length gs) * (G2 * INR n / eps).
Proof.
  intros He HG E Hg. set (T := length gs).
  assert (Lu : length us = T) by (unfold T; rewrite <- (newton_run_length n (newton_init eps n) gs), E; reflexivity).
  set (a := fun t => dotp n (nth t gs g0) (nth t us g0)).
  pose proof (cauchy_schwarz T a (fun _ => 1)) as C.
  assert (E1 : vdot T a (fun _ => 1) = sum_n T a).
  { unfold vdot. rewrite vsum_sum_n. clear. induction T as [|T IH]; simpl; [auto|rewrite IH; lra]. }
  assert (E2 : vdot T (fun _ => 1) (fun _ => 1) = INR T).
  { unfold vdot. clear. induction T as [|T IH]; [reflexivity|]. rewrite S_INR. cbn [vsum]. rewrite IH. lra. }
  rewrite E1, E2 in C. fold T. fold a. eapply Rle_trans; [exact C|].
  rewrite (Rmult_comm (vdot T a a)). apply Rmult_le_compat_l; [apply pos_INR|].
  pose proof (newton_total_displacement n eps gs us H He E) as D. rewrite (sum_over_nth _ us g0), Lu in D.
  apply Rle_trans with (G2 * sum_n T (fun t => dotp n (nth t us g0) (nth t us g0))).
  - unfold vdot. rewrite vsum_sum_n.
    assert (Gm : forall m, (m <= T)%nat -> sum_n m (fun i => a i * a i) <= G2 * sum_n m (fun t => dotp n (nth t us g0) (nth t us g0))).
    { induction m as [|m IH]; intros Hm; cbn [sum_n]; [lra|]. specialize (IH ltac:(lia)).
      assert (Lm : (m < length gs)%nat) by (unfold T in Hm; lia).
      specialize (Hg m (nth m gs g0) (nth_error_nth' gs g0 Lm)).
      pose proof (cauchy_schwarz n (nth m gs g0) (nth m us g0)) as C1. rewrite <- !dotp_vdot in C1. fold (a m) in C1.
      assert (0 <= dotp n (nth m us g0) (nth m us g0)) by (rewrite dotp_vdot; apply vdot_self_nonneg).
      assert (dotp n (nth m gs g0) (nth m gs g0) * dotp n (nth m us g0) (nth m us g0) <= G2 * dotp n (nth m us g0) (nth m us g0))
        by (apply Rmult_le_compat_r; auto).
      rewrite Rmult_plus_distr_l. apply Rplus_le_compat; [exact IH|].
      replace (a m * a m) with (a m ^ 2) by ring. eapply Rle_trans; [exact C1|]. assumption. }
    apply Gm; lia.
  - apply (Rmult_le_compat_l G2) in D; auto. eapply Rle_trans; [exact D|]. right. unfold Rdiv; ring.
Qed.
