(** EWMCov(assume_centered=True), and the parameters com / alpha. *)
From Coq Require Import List ZArith Lia Reals Lra.
From Verif Require Import Model.Tree Model.Unroll Model.Float Model.Modules Model.Ewm Spec.EwmSpec Spec.CovSpec
  Proofs.ListFacts Proofs.RunFacts Proofs.EwmcovProofs.
Import ListNotations.
Local Open Scope R_scope.

Definition cinv0 (fm : R) (cfg : ewma_cfg) (p q : nat) (pre : list (list fl * list fl)) (s : ewmcov_state) : Prop :=
  forall i j, (i < p)%nat -> (j < q)%nat ->
     nth2 (cov_xy s) i j = Some (steps (ewout fm cfg) (ewma_init cfg) (map (comp_xy i j) pre)).
Lemma cinv0_step fm cfg p q pre s xy : shaped p q xy -> cinv0 fm cfg p q pre s ->
  cinv0 fm cfg p q (pre ++ [xy]) (snd (ewmcov_step fm cfg true s xy)) /\
  forall i j, (i < p)%nat -> (j < q)%nat ->
    nth2 (fst (ewmcov_step fm cfg true s xy)) i j =
    Some (fst (ewout fm cfg (steps (ewout fm cfg) (ewma_init cfg) (map (comp_xy i j) pre)) (comp_xy i j xy))).
Proof.
  intros Hs Hxy. destruct (shaped_nth _ _ _ Hs) as [Ex Ey]. destruct xy as [x y]. cbn [fst snd] in *.
  unfold ewmcov_step.
  pose proof (fun i j => ewma_mat_nth fm cfg (cov_xy s) (outer fmul x y) i j) as Hm.
  destruct (ewma_mat fm cfg (cov_xy s) (outer fmul x y)) as [mxy sxy]. cbn [fst snd] in *. split.
  - intros i j Hi Hj. cbn [cov_xy]. rewrite (proj2 (Hm i j)), (Hxy i j Hi Hj), nth2_outer, Ex, Ey by auto.
    rewrite map_app, steps_app. reflexivity.
  - intros i j Hi Hj. rewrite (proj1 (Hm i j)), (Hxy i j Hi Hj), nth2_outer, Ex, Ey by auto. reflexivity.
Qed.
Lemma cov_centered fm cfg p q xs ys sF :
  Forall (shaped p q) xs -> run (EWMCov fm cfg true) xs = Some (ys, sF) ->
  length ys = length xs /\
  forall i j, (i < p)%nat -> (j < q)%nat ->
  forall exy s1, run (EWMA fm cfg) (map (comp_xy i j) xs) = Some (exy, s1) ->
  forall t, (t < length xs)%nat ->
  exists M a, nth_error ys t = Some M /\ nth_error exy t = Some a /\ nth2 M i j = Some a.
Proof.
  intros Hs Hr. destruct (run_nonempty _ _ _ _ Hr) as (x0 & r & ->).
  destruct (run_nth _ _ _ _ _ _ Hr) as (Hl & _ & Hn). split; auto.
  intros i j Hi Hj exy s1 H1 t Ht. set (xs := x0 :: r) in *.
  assert (G : forall t, (t <= length xs)%nat ->
    cinv0 fm cfg p q (firstn t xs) (steps (ewmcov_step fm cfg true) (ewmcov_init cfg (fst x0) (snd x0)) (firstn t xs))).
  { intros u0; induction u0 as [|u IH]; intros Hu.
    - cbn [firstn steps]. exact (proj1 (cinv_init fm cfg p q x0 (Forall_inv Hs))).
    - destruct (nth_error xs u) as [v|] eqn:Ev; [|apply nth_error_None in Ev; lia].
      rewrite (firstn_snoc _ _ _ Ev), steps_app. cbn [steps]. apply cinv0_step; [|apply IH; lia].
      rewrite Forall_forall in Hs. apply Hs. eapply nth_error_In; eauto. }
  destruct (nth_error xs t) as [v|] eqn:Ev; [|apply nth_error_None in Ev; lia].
  rewrite (Hn t v Ev).
  assert (Hv : shaped p q v) by (rewrite Forall_forall in Hs; apply Hs; eapply nth_error_In; eauto).
  destruct (cinv0_step fm cfg p q (firstn t xs) _ v Hv (G t (Nat.lt_le_incl _ _ Ht))) as [_ Hout].
  rewrite (ewma_scalar_nth _ _ _ _ _ _ _ _ H1 Ev).
  do 2 eexists. split; [reflexivity|]. split; [reflexivity|]. now apply Hout.
Qed.

Lemma com_of_spec c alpha :
  match c, alpha with
  | Some com_, None => com_of c alpha = Some com_
  | None, Some a => 0 < a <= 1 -> exists com_, com_of c alpha = Some com_ /\ 0 <= com_ /\ 1 / (1 + com_) = a
  | _, _ => com_of c alpha = None
  end.
Proof.
  destruct c as [c|], alpha as [a|]; try reflexivity. intros [H0 H1]. exists (1 / a - 1). split; [reflexivity|].
  split; [|field; lra].
  assert (1 <= 1 / a); [|lra]. apply Rmult_le_reg_r with a; [exact H0|]. unfold Rdiv. rewrite Rmult_assoc, Rinv_l by lra. lra.
Qed.
