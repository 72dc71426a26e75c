From Coq Require Import List Arith Lia Reals Lra Bool.
From Verif Require Import Model.Ewm Model.Newton Spec.NewtonSpec.
Import ListNotations.
Local Open Scope R_scope.

Lemma vsum_ext n f g : (forall k, (k < n)%nat -> f k = g k) -> vsum n f = vsum n g.
Proof. induction n as [|n IH]; intros H; cbn; auto. rewrite IH, H; auto. Qed.
Lemma vsum_plus n f g : vsum n (fun k => f k + g k) = vsum n f + vsum n g.
Proof. induction n as [|n IH]; cbn; [lra|]. rewrite IH. lra. Qed.
Lemma vsum_scal n c f : vsum n (fun k => c * f k) = c * vsum n f.
Proof. induction n as [|n IH]; cbn; [lra|]. rewrite IH. lra. Qed.
Lemma vsum_scal_r n c f : vsum n (fun k => f k * c) = vsum n f * c.
Proof. induction n as [|n IH]; cbn; [lra|]. rewrite IH. lra. Qed.
Lemma vsum_zero n f : (forall k, (k < n)%nat -> f k = 0) -> vsum n f = 0.
Proof. induction n as [|n IH]; intros H; cbn; auto. rewrite IH, H by auto. lra. Qed.
Lemma vsum_nonneg n f : (forall k, (k < n)%nat -> 0 <= f k) -> 0 <= vsum n f.
Proof.
  induction n as [|n IH]; intros H; cbn; [lra|].
  assert (0 <= vsum n f) by auto. specialize (H n ltac:(lia)). lra.
Qed.
Lemma vsum_swap n m f : vsum n (fun i => vsum m (fun j => f i j)) = vsum m (fun j => vsum n (fun i => f i j)).
Proof.
  induction n as [|n IH]; cbn.
  - symmetry. apply vsum_zero. auto.
  - rewrite IH, <- vsum_plus. reflexivity.
Qed.
Lemma vsum_eye_l n i f : (i < n)%nat -> vsum n (fun k => eye i k * f k) = f i.
Proof.
  unfold eye. induction n as [|n IH]; intros H; [lia|]. cbn.
  destruct (Nat.eqb_spec i n) as [->|Hne].
  - rewrite vsum_zero; [lra|]. intros k Hk. destruct (Nat.eqb_spec n k); [lia|lra].
  - rewrite IH by lia. lra.
Qed.
Lemma eye_sym i j : eye i j = eye j i.
Proof. unfold eye. rewrite Nat.eqb_sym. reflexivity. Qed.

(** *** Sherman-Morrison *)
Section SM.
  Variables (n : nat) (H A : mat) (u v : vec).
  Let Hu := matvec n H u.
  Let vH := vecmat n v H.
  Let uH := vecmat n u H.
  Let den := 1 + vdot n uH v.

  Lemma rank_one_product i j :
    matmul n (matmul n H (outer u v)) H i j = Hu i * vH j.
  Proof.
    unfold matmul, Hu, vH, matvec, vecmat, outer.
    rewrite (vsum_ext n _ (fun k => vsum n (fun l => H i l * u l) * (v k * H k j))).
    - rewrite vsum_scal. reflexivity.
    - intros k _. rewrite (vsum_ext n _ (fun l => H i l * u l * v k)) by (intros; ring).
      rewrite vsum_scal_r. ring.
  Qed.

  Lemma sm_entry i j : sherman_morrison n H u v i j = H i j - Hu i * vH j / den.
  Proof. unfold sherman_morrison. rewrite rank_one_product. reflexivity. Qed.

  (** v^T H u with the code's association is the same as u^T H v only up to transposition: the code
      uses (u @ A_inv) @ v *)
  Lemma uHv : vdot n uH v = vsum n (fun i => vsum n (fun j => u i * H i j * v j)).
  Proof.
    unfold vdot, uH, vecmat. rewrite vsum_swap. apply vsum_ext. intros j _. rewrite vsum_scal_r. reflexivity.
  Qed.
  Definition quad (x : vec) (M : mat) (y : vec) := vsum n (fun i => vsum n (fun j => x i * M i j * y j)).

  Lemma vHu : vdot n v Hu = quad v H u.
  Proof.
    unfold vdot, Hu, matvec, quad. apply vsum_ext. intros i _. rewrite <- vsum_scal.
    apply vsum_ext; intros; ring.
  Qed.
  Lemma vH_u : vdot n vH u = quad v H u.
  Proof.
    unfold vdot, vH, vecmat, quad. rewrite vsum_swap. apply vsum_ext. intros j _.
    rewrite <- vsum_scal_r. apply vsum_ext; intros; ring.
  Qed.

  Hypothesis AH : mat_eq n (matmul n A H) eye.
  Hypothesis HA : mat_eq n (matmul n H A) eye.
  Hypothesis Hden : den <> 0.
  (** the denominator used by the code is the one of the formula *)
  Hypothesis Hd : quad u H v = quad v H u.

  Lemma A_Hu i : (i < n)%nat -> vsum n (fun k => A i k * Hu k) = u i.
  Proof.
    intros Hi. unfold Hu, matvec.
    rewrite (vsum_ext n _ (fun k => vsum n (fun j => A i k * H k j * u j))).
    - rewrite vsum_swap. rewrite (vsum_ext n _ (fun j => eye i j * u j)).
      + apply vsum_eye_l; auto.
      + intros j Hj. rewrite vsum_scal_r. f_equal. exact (AH i j Hi Hj).
    - intros k _. rewrite <- vsum_scal. apply vsum_ext; intros; ring.
  Qed.

  Lemma sm_right : mat_eq n (matmul n (mat_plus A (outer u v)) (sherman_morrison n H u v)) eye.
  Proof.
    intros i j Hi Hj. unfold matmul, mat_plus, outer.
    rewrite (vsum_ext n _ (fun k => A i k * H k j +
       ((- (vH j / den)) * (A i k * Hu k) + (u i * (v k * H k j) + (- (u i * vH j / den)) * (v k * Hu k))))).
    2: { intros k _. rewrite sm_entry. field. exact Hden. }
    rewrite !vsum_plus, !vsum_scal, A_Hu by auto.
    assert (E1 : vsum n (fun k => A i k * H k j) = eye i j) by exact (AH i j Hi Hj).
    rewrite E1. change (vsum n (fun k => v k * H k j)) with (vH j).
    change (vsum n (fun k => v k * Hu k)) with (vdot n v Hu). rewrite vHu, <- Hd.
    assert (E2 : quad u H v = den - 1).
    { unfold den. rewrite uHv. unfold quad. ring. }
    rewrite E2. field. exact Hden.
  Qed.

  Lemma vH_A j : (j < n)%nat -> vsum n (fun k => vH k * A k j) = v j.
  Proof.
    intros Hj. unfold vH, vecmat.
    rewrite (vsum_ext n _ (fun k => vsum n (fun i => v i * (H i k * A k j)))).
    - rewrite vsum_swap. rewrite (vsum_ext n _ (fun i => eye j i * v i)).
      + apply vsum_eye_l; auto.
      + intros i Hi. rewrite vsum_scal. rewrite Rmult_comm, (eye_sym j i). f_equal. exact (HA i j Hi Hj).
    - intros k _. rewrite <- vsum_scal_r. apply vsum_ext; intros; ring.
  Qed.

  Lemma sm_left : mat_eq n (matmul n (sherman_morrison n H u v) (mat_plus A (outer u v))) eye.
  Proof.
    intros i j Hi Hj. unfold matmul, mat_plus, outer.
    rewrite (vsum_ext n _ (fun k => H i k * A k j +
       ((- (Hu i / den)) * (vH k * A k j) + (v j * (H i k * u k) + (- (Hu i * v j / den)) * (vH k * u k))))).
    2: { intros k _. rewrite sm_entry. field. exact Hden. }
    rewrite !vsum_plus, !vsum_scal, vH_A by auto.
    assert (E1 : vsum n (fun k => H i k * A k j) = eye i j) by exact (HA i j Hi Hj).
    rewrite E1. change (vsum n (fun k => H i k * u k)) with (Hu i).
    change (vsum n (fun k => vH k * u k)) with (vdot n vH u). rewrite vH_u, <- Hd.
    assert (E2 : quad u H v = den - 1).
    { unfold den. rewrite uHv. unfold quad. ring. }
    rewrite E2. field. exact Hden.
  Qed.
End SM.

Lemma quad_sym n u H v : symmetric n H -> quad n u H v = quad n v H u.
Proof.
  intros Hs. unfold quad. rewrite vsum_swap. apply vsum_ext. intros i Hi. apply vsum_ext. intros j Hj.
  rewrite (Hs j i) by auto. ring.
Qed.

Lemma sherman_morrison_inverse n A H u v :
  inverse_of n A H -> symmetric n H -> 1 + vdot n (vecmat n u H) v <> 0 ->
  inverse_of n (mat_plus A (outer u v)) (sherman_morrison n H u v).
Proof.
  intros [AH HA] Hs Hd. split; [apply sm_right|apply sm_left]; auto using quad_sym.
Qed.

Lemma sm_symmetric n H g : symmetric n H -> symmetric n (sherman_morrison n H g g).
Proof.
  intros Hs i j Hi Hj. rewrite !sm_entry. rewrite (Hs i j) by auto.
  assert (E : forall k, (k < n)%nat -> matvec n H g k = vecmat n g H k).
  { intros k Hk. unfold matvec, vecmat. apply vsum_ext. intros l Hl. rewrite (Hs k l) by auto. ring. }
  rewrite (E i), (E j) by auto. f_equal. f_equal. ring.
Qed.

(** *** The optimiser *)
Lemma hessian_quad eps gs n y : 0 <= eps ->
  eps * vdot n y y <= quad n y (hessian eps gs) y.
Proof.
  intros He. induction gs as [|g r IH]; cbn [hessian].
  - unfold quad, vdot. rewrite (vsum_ext n (fun i => vsum n (fun j => y i * (eps * eye i j) * y j)) (fun i => eps * (y i * y i))).
    + rewrite vsum_scal. lra.
    + intros i Hi. rewrite (vsum_ext n _ (fun j => (eps * y i) * (eye i j * y j))) by (intros; ring).
      rewrite vsum_scal, vsum_eye_l by auto. ring.
  - assert (E : quad n y (mat_plus (hessian eps r) (outer g g)) y = quad n y (hessian eps r) y + vdot n g y * vdot n g y).
    { unfold quad, mat_plus, outer.
      rewrite (vsum_ext n _ (fun i => vsum n (fun j => y i * hessian eps r i j * y j) + (g i * y i) * vdot n g y)).
      - rewrite vsum_plus, vsum_scal_r. unfold vdot at 3. ring.
      - intros i Hi. unfold vdot. rewrite <- vsum_scal, <- vsum_plus. apply vsum_ext. intros; ring. }
    rewrite E. pose proof (Rle_0_sqr (vdot n g y)) as Hq. unfold Rsqr in Hq. lra.
Qed.

Lemma quad_inverse n A H g : mat_eq n (matmul n A H) eye ->
  quad n g H g = quad n (matvec n H g) A (matvec n H g).
Proof.
  intros AH. transitivity (vdot n (matvec n H g) g).
  - unfold quad, vdot, matvec. apply vsum_ext. intros i _. rewrite <- vsum_scal_r. apply vsum_ext; intros; ring.
  - unfold quad, vdot. apply vsum_ext. intros i Hi.
    rewrite (vsum_ext n _ (fun j => matvec n H g i * (A i j * matvec n H g j))) by (intros; ring).
    rewrite vsum_scal, A_Hu; auto.
Qed.

Lemma vdot_self_nonneg n y : 0 <= vdot n y y.
Proof. apply vsum_nonneg. intros k _. pose proof (Rle_0_sqr (y k)) as Hq. exact Hq. Qed.
Lemma vdot_self_zero n y : vdot n y y = 0 -> forall i, (i < n)%nat -> y i = 0.
Proof.
  unfold vdot. induction n as [|n IH]; intros H i Hi; [lia|]. cbn in H.
  pose proof (vdot_self_nonneg n y) as H1. unfold vdot in H1.
  pose proof (Rle_0_sqr (y n)) as H2. unfold Rsqr in H2.
  destruct (Nat.eq_dec i n) as [->|Hne].
  - assert (y n * y n = 0) by lra. apply Rmult_integral in H0. tauto.
  - apply IH; [lra|lia].
Qed.

Definition newton_inv (n : nat) (eps : R) (gs : list vec) (H : mat) : Prop :=
  inverse_of n (hessian eps gs) H /\ symmetric n H.

Lemma newton_inv_init n eps : 0 < eps -> newton_inv n eps [] (newton_init eps n).
Proof.
  intros He. unfold newton_init. split; [split|].
  - intros i j Hi Hj. cbn. unfold matmul.
    rewrite (vsum_ext n _ (fun k => eye i k * eye k j)) by (intros; field; lra).
    rewrite vsum_eye_l by auto. reflexivity.
  - intros i j Hi Hj. cbn. unfold matmul.
    rewrite (vsum_ext n _ (fun k => eye i k * eye k j)) by (intros; field; lra).
    rewrite vsum_eye_l by auto. reflexivity.
  - intros i j Hi Hj. rewrite eye_sym. reflexivity.
Qed.

Lemma newton_den n eps gs H g : 0 < eps -> newton_inv n eps gs H ->
  1 <= 1 + vdot n (vecmat n g H) g.
Proof.
  intros He [[AH HA] Hs]. rewrite uHv. fold (quad n g H g). rewrite (quad_inverse n (hessian eps gs)) by auto.
  pose proof (hessian_quad eps gs n (matvec n H g) ltac:(lra)) as Hq.
  pose proof (vdot_self_nonneg n (matvec n H g)) as H0.
  assert (0 <= eps * vdot n (matvec n H g) (matvec n H g)) by (apply Rmult_le_pos; lra). lra.
Qed.

Lemma newton_inv_step n eps gs H g : 0 < eps -> newton_inv n eps gs H ->
  newton_inv n eps (g :: gs) (sherman_morrison n H g g).
Proof.
  intros He Hi. pose proof (newton_den n eps gs H g He Hi) as Hd. destruct Hi as [Hinv Hs].
  split; [|apply sm_symmetric; auto]. cbn [hessian]. apply sherman_morrison_inverse; auto. lra.
Qed.

Lemma newton_run_app n H gs1 gs2 :
  newton_run n H (gs1 ++ gs2) =
  (fst (newton_run n H gs1) ++ fst (newton_run n (snd (newton_run n H gs1)) gs2),
   snd (newton_run n (snd (newton_run n H gs1)) gs2)).
Proof.
  revert H. induction gs1 as [|g r IH]; intros H; cbn [newton_run app fst snd].
  - destruct (newton_run n H gs2); reflexivity.
  - destruct (newton_update n g H) as [u h]. rewrite IH. destruct (newton_run n h r) as [us hF]. reflexivity.
Qed.

Lemma newton_run_inv n eps gs0 H gs : 0 < eps -> newton_inv n eps gs0 H ->
  newton_inv n eps (rev gs ++ gs0) (snd (newton_run n H gs)).
Proof.
  intros He. revert gs0 H. induction gs as [|g r IH]; intros gs0 H Hi; cbn [newton_run rev app].
  - exact Hi.
  - unfold newton_update. destruct (newton_run n (sherman_morrison n H g g) r) as [us hF] eqn:E.
    rewrite <- app_assoc. cbn [app snd]. change hF with (snd (us, hF)). rewrite <- E.
    apply IH. apply newton_inv_step; auto.
Qed.

Lemma newton_tracks_inverse n eps gs us H : 0 < eps ->
  newton_run n (newton_init eps n) gs = (us, H) ->
  inverse_of n (hessian eps (rev gs)) H /\ symmetric n H.
Proof.
  intros He E. pose proof (newton_run_inv n eps [] _ gs He (newton_inv_init n eps He)) as Hi.
  rewrite E, app_nil_r in Hi. exact Hi.
Qed.

Lemma newton_denominator n eps gs us H g : 0 < eps ->
  newton_run n (newton_init eps n) gs = (us, H) ->
  1 <= 1 + vdot n (vecmat n g H) g.
Proof.
  intros He E. apply (newton_den n eps (rev gs)); auto. exact (newton_tracks_inverse n eps gs us H He E).
Qed.

(** the update of step t solves (eps I + sum_{s<=t} g_s g_s^T) x = g_t and is a descent direction *)
Lemma newton_step_solves n eps gs us H : 0 < eps ->
  newton_run n (newton_init eps n) gs = (us, H) ->
  length us = length gs /\
  forall t g, nth_error gs t = Some g -> exists u, nth_error us t = Some u /\
    vec_eq n (matvec n (hessian eps (rev (firstn (t + 1) gs))) u) g /\
    eps * vdot n u u <= vdot n g u /\ 0 <= vdot n g u.
Proof.
  intros He E. split.
  - assert (L : forall gs H, length (fst (newton_run n H gs)) = length gs).
    { clear. induction gs as [|g r IH]; intros H; auto. cbn. 
      specialize (IH (sherman_morrison n H g g)). destruct (newton_run n (sherman_morrison n H g g) r). cbn in *. lia. }
    specialize (L gs (newton_init eps n)). rewrite E in L. exact L.
  - intros t g Hg. destruct (nth_error_split gs t Hg) as (l1 & l2 & -> & Hl).
    rewrite newton_run_app in E. cbn [newton_run] in E. unfold newton_update in E.
    pose proof (newton_run_inv n eps [] _ l1 He (newton_inv_init n eps He)) as Hi. rewrite app_nil_r in Hi.
    destruct (newton_run n (newton_init eps n) l1) as [us1 H1] eqn:E1. cbn [fst snd] in *.
    apply (newton_inv_step n eps _ _ g He) in Hi.
    destruct (newton_run n (sherman_morrison n H1 g g) l2) as [us2 H2]. cbn [fst snd] in E.
    assert (Eu : us = us1 ++ matvec n (sherman_morrison n H1 g g) g :: us2) by congruence.
    assert (L1 : length us1 = length l1).
    { assert (L : forall gs H, length (fst (newton_run n H gs)) = length gs).
      { clear. induction gs as [|g r IH]; intros H; auto. cbn.
        specialize (IH (sherman_morrison n H g g)). destruct (newton_run n (sherman_morrison n H g g) r). cbn in *. lia. }
      specialize (L l1 (newton_init eps n)). rewrite E1 in L. exact L. }
    set (H' := sherman_morrison n H1 g g) in *. exists (matvec n H' g).
    assert (Ef : rev (firstn (t + 1) (l1 ++ g :: l2)) = g :: rev l1).
    { rewrite <- Hl. rewrite firstn_app_2. cbn. rewrite rev_app_distr. reflexivity. }
    rewrite Ef. destruct Hi as [[AH HA] Hs].
    assert (Sol : vec_eq n (matvec n (hessian eps (g :: rev l1)) (matvec n H' g)) g).
    { intros i Hi. unfold matvec at 1. apply (A_Hu n H' (hessian eps (g :: rev l1)) g AH i Hi). }
    split; [subst us; rewrite nth_error_app2 by lia; rewrite L1, Hl, Nat.sub_diag; reflexivity|].
    split; [exact Sol|].
    assert (Q : vdot n g (matvec n H' g) = quad n (matvec n H' g) (hessian eps (g :: rev l1)) (matvec n H' g)).
    { rewrite <- quad_inverse by auto. unfold vdot, matvec, quad. apply vsum_ext. intros i _.
      rewrite <- vsum_scal. apply vsum_ext; intros; ring. }
    pose proof (hessian_quad eps (g :: rev l1) n (matvec n H' g) ltac:(lra)) as Hq.
    pose proof (vdot_self_nonneg n (matvec n H' g)) as H0.
    assert (0 <= eps * vdot n (matvec n H' g) (matvec n H' g)) by (apply Rmult_le_pos; lra).
    rewrite Q. split; lra.
Qed.

Lemma newton_strict_descent n eps gs us H t g u : 0 < eps ->
  newton_run n (newton_init eps n) gs = (us, H) ->
  nth_error gs t = Some g -> nth_error us t = Some u ->
  (exists i, (i < n)%nat /\ g i <> 0) -> 0 < vdot n g u.
Proof.
  intros He E Hg Hu (i & Hi & Hne).
  destruct (newton_step_solves n eps gs us H He E) as [_ Hs].
  destruct (Hs t g Hg) as (u' & Hu' & Sol & Hd & H0). assert (u' = u) by congruence. subst u'.
  destruct (Rle_lt_or_eq_dec _ _ (vdot_self_nonneg n u)) as [Hp|Hz].
  - assert (0 < eps * vdot n u u) by (apply Rmult_lt_0_compat; auto). lra.
  - exfalso. apply Hne. rewrite <- (Sol i Hi). unfold matvec. apply vsum_zero. intros k Hk.
    rewrite (vdot_self_zero n u (eq_sym Hz) k Hk). ring.
Qed.

(** on the code's sherman_morrison with u <> v and a non symmetric matrix: the denominator is the one
    of the transposed update *)
Lemma sherman_morrison_nonsym :
  exists (A H : mat) (u v : vec), inverse_of 2 A H /\ 1 + vdot 2 (vecmat 2 u H) v <> 0 /\
    ~ inverse_of 2 (mat_plus A (outer u v)) (sherman_morrison 2 H u v).
Proof.
  exists (fun i j => match i, j with O, 1%nat => -1 | O, O => 1 | 1%nat, 1%nat => 1 | _, _ => 0 end),
         (fun i j => match i, j with O, 1%nat => 1 | O, O => 1 | 1%nat, 1%nat => 1 | _, _ => 0 end),
         (fun i => match i with O => 1 | _ => 0 end), (fun i => match i with O => 0 | _ => 1 end).
  split; [|split].
  - split; intros [|[|i]] [|[|j]] Hi Hj; try lia; cbn; lra.
  - cbn. lra.
  - intros [HL _]. specialize (HL 0%nat 1%nat ltac:(lia) ltac:(lia)). unfold mat_plus, sherman_morrison, outer, matmul, vdot, vecmat in HL. cbn in HL.
    revert HL. match goal with |- ?x = _ -> _ => replace x with (1/2); [lra|field; lra] end.
Qed.

Lemma newton_tree_leaf gs hs k : length gs = length hs ->
  nth_error (newton_update_tree gs hs) k =
  match nth_error gs k, nth_error hs k with
  | Some g, Some h => Some (newton_update (fst g) (snd g) h)
  | _, _ => None
  end.
Proof.
  unfold newton_update_tree. revert hs k. induction gs as [|g gs IH]; intros [|h hs] [|k] L; try discriminate; auto.
  cbn. apply IH. cbn in L; lia.
Qed.

Lemma newton_tree_run dims gss k n gs :
  nth_error dims k = Some n -> forall eps,
  Forall (fun l => map fst l = dims) gss ->
  Forall2 (fun l g => nth_error l k = Some (n, g)) gss gs ->
  let t := newton_run_tree (newton_init_tree eps dims) gss in
  let r := newton_run n (newton_init eps n) gs in
  Forall2 (fun us u => nth_error us k = Some u) (fst t) (fst r) /\ nth_error (snd t) k = Some (snd r).
Proof.
  intros Hk eps Hd Hg.
  assert (G : forall gss gs hs h, Forall (fun l => map fst l = dims) gss ->
    Forall2 (fun l g => nth_error l k = Some (n, g)) gss gs -> length hs = length dims -> nth_error hs k = Some h ->
    Forall2 (fun us u => nth_error us k = Some u) (fst (newton_run_tree hs gss)) (fst (newton_run n h gs)) /\
    nth_error (snd (newton_run_tree hs gss)) k = Some (snd (newton_run n h gs))).
  { clear gss gs Hd Hg. intros gss gs hs h Hd Hg. revert hs h. induction Hg as [|l g gss gs H1 Hg IH]; intros hs h Hl Hh.
    - cbn. split; [constructor|auto].
    - cbn [newton_run_tree newton_run].
      pose proof (Forall_inv Hd) as D1. cbn beta in D1.
      assert (Ll : length l = length hs) by (rewrite Hl, <- D1, map_length; auto).
      pose proof (newton_tree_leaf l hs k Ll) as E. rewrite H1, Hh in E. cbn [fst snd] in E.
      set (uh := newton_update_tree l hs) in *. destruct (newton_update n g h) as [u h'] eqn:Eu.
      assert (Lu : length (map snd uh) = length dims).
      { rewrite map_length. unfold uh, newton_update_tree. rewrite <- Hl. clear -Ll. revert hs Ll.
        induction l as [|a l IH]; intros [|b hs] L; cbn in *; auto; try discriminate; try (f_equal; apply IH; lia). }
      destruct (IH (Forall_inv_tail Hd) (map snd uh) h' Lu) as (A & B).
      { rewrite nth_error_map, E. reflexivity. }
      destruct (newton_run_tree (map snd uh) gss) as [us hF]. destruct (newton_run n h' gs) as [us' hF'].
      cbn [fst snd] in *. split; auto. constructor; auto. rewrite nth_error_map, E. reflexivity. }
  apply G; auto.
  - unfold newton_init_tree. apply map_length.
  - unfold newton_init_tree. rewrite nth_error_map, Hk. reflexivity.
Qed.
