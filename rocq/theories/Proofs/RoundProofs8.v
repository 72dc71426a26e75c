(** EWMCov in rounded arithmetic, entry by entry, for every rounding function. *)
From Coq Require Import List ZArith Reals Lra Lia Bool.
From Verif Require Import Model.Unroll Model.Float Model.Modules Model.Ewm Model.Rounded
  Spec.EwmSpec Spec.SeriesSpec Spec.CovSpec Spec.RoundSpec Proofs.FloatFacts Proofs.ListFacts Proofs.RunFacts
  Proofs.EwmFacts Proofs.EwmProofs Proofs.EwmExtra Proofs.EwmcovProofs.
Import ListNotations.
Local Open Scope R_scope.

Section Entries.
  Variable rnd : fl -> fl.
  Variables (fm : R) (cfg : ewma_cfg).

  Definition eo (s : ewma_state) (x : fl) : fl * ewma_state :=
    let '((r, _), s') := ewma_step_r rnd fm cfg s x in (r, s').
  Definition pxy (i j : nat) (xy : list fl * list fl) : fl := rnd (comp_xy i j xy).

  Lemma vec_nth ss x i :
    nth_error (fst (ewma_vec_r rnd fm cfg ss x)) i =
      match nth_error ss i, nth_error x i with Some s, Some v => Some (fst (eo s v)) | _, _ => None end /\
    nth_error (snd (ewma_vec_r rnd fm cfg ss x)) i =
      match nth_error ss i, nth_error x i with Some s, Some v => Some (snd (eo s v)) | _, _ => None end.
  Proof.
    unfold ewma_vec_r, eo. cbn [fst snd]. rewrite !nth_error_map, nth_error_map2.
    destruct (nth_error ss i) as [s|], (nth_error x i) as [v|]; cbn [option_map]; auto.
    destruct (ewma_step_r rnd fm cfg s v) as [[r p] s']; auto.
  Qed.

  Lemma mat_nth ss x i j :
    nth2 (fst (ewma_mat_r rnd fm cfg ss x)) i j =
      match nth2 ss i j, nth2 x i j with Some s, Some v => Some (fst (eo s v)) | _, _ => None end /\
    nth2 (snd (ewma_mat_r rnd fm cfg ss x)) i j =
      match nth2 ss i j, nth2 x i j with Some s, Some v => Some (snd (eo s v)) | _, _ => None end.
  Proof.
    unfold ewma_mat_r, nth2. cbn [fst snd]. rewrite !nth_error_map, nth_error_map2.
    destruct (nth_error ss i) as [s|], (nth_error x i) as [v|]; cbn [option_map]; auto.
    - apply vec_nth.
    - destruct (nth_error s j); auto.
  Qed.

  Definition rinv (ac : bool) (p q : nat) (pre : list (list fl * list fl)) (s : ewmcov_state) : Prop :=
    (forall i j, (i < p)%nat -> (j < q)%nat ->
       nth2 (cov_xy s) i j = Some (steps eo (ewma_init cfg) (map (pxy i j) pre))) /\
    (ac = false ->
     (forall i, (i < p)%nat -> nth_error (cov_x s) i = Some (steps eo (ewma_init cfg) (map (comp_x i) pre))) /\
     (forall j, (j < q)%nat -> nth_error (cov_y s) j = Some (steps eo (ewma_init cfg) (map (comp_y j) pre)))).

  Lemma rinv_init ac p q xy : shaped p q xy -> rinv ac p q [] (ewmcov_init cfg (fst xy) (snd xy)).
  Proof.
    intros Hs. destruct (shaped_nth _ _ _ Hs) as [Hx Hy]. unfold rinv, ewmcov_init; cbn [cov_xy cov_x cov_y map steps].
    split; [|intros _; split]; intros.
    - rewrite nth2_outer, Hx, Hy; auto.
    - rewrite nth_error_map, Hx; auto.
    - rewrite nth_error_map, Hy; auto.
  Qed.

  Lemma rinv_step ac p q pre s xy : shaped p q xy -> rinv ac p q pre s ->
    rinv ac p q (pre ++ [xy]) (snd (ewmcov_step_r rnd fm cfg ac s xy)) /\
    forall i j, (i < p)%nat -> (j < q)%nat ->
      let st f := steps eo (ewma_init cfg) (map f pre) in
      let a := fst (eo (st (pxy i j)) (pxy i j xy)) in
      nth2 (fst (ewmcov_step_r rnd fm cfg ac s xy)) i j =
      Some (if ac then a else
              rnd (fsub a (rnd (fmul (fst (eo (st (comp_x i)) (comp_x i xy)))
                                     (fst (eo (st (comp_y j)) (comp_y j xy))))))).
  Proof.
    intros Hs (Hxy & Hxy'). destruct (shaped_nth _ _ _ Hs) as [Ex Ey]. destruct xy as [x y]. cbn [fst snd] in *.
    unfold ewmcov_step_r.
    pose proof (fun i j => mat_nth (cov_xy s) (outer (fun a b => rnd (fmul a b)) x y) i j) as Hm.
    pose proof (fun i => vec_nth (cov_x s) x i) as Hvx.
    pose proof (fun i => vec_nth (cov_y s) y i) as Hvy.
    destruct (ewma_mat_r rnd fm cfg (cov_xy s) (outer (fun a b => rnd (fmul a b)) x y)) as [mxy sxy].
    destruct (ewma_vec_r rnd fm cfg (cov_x s) x) as [mx sx]. destruct (ewma_vec_r rnd fm cfg (cov_y s) y) as [my sy].
    cbn [fst snd] in *.
    assert (A : forall i j, (i < p)%nat -> (j < q)%nat ->
      nth2 sxy i j = Some (steps eo (ewma_init cfg) (map (pxy i j) (pre ++ [(x, y)])))).
    { intros i j Hi Hj. rewrite (proj2 (Hm i j)), Hxy, nth2_outer, Ex, Ey by auto.
      rewrite map_app, steps_app. reflexivity. }
    destruct ac; cbn [fst snd].
    - split.
      + split; [exact A|discriminate].
      + intros i j Hi Hj. rewrite (proj1 (Hm i j)), Hxy, nth2_outer, Ex, Ey by auto. reflexivity.
    - destruct (Hxy' eq_refl) as (Hx & Hy). split.
      + split; [exact A|intros _; cbn [cov_x cov_y]; split].
        * intros i Hi. rewrite (proj2 (Hvx i)), Hx, Ex by auto. rewrite map_app, steps_app. reflexivity.
        * intros i Hi. rewrite (proj2 (Hvy i)), Hy, Ey by auto. rewrite map_app, steps_app. reflexivity.
      + intros i j Hi Hj. unfold nth2 at 1. rewrite nth_error_map2.
        pose proof (proj1 (Hm i j)) as E1. rewrite Hxy, nth2_outer, Ex, Ey in E1 by auto. unfold nth2 in E1.
        destruct (nth_error mxy i) as [row|] eqn:Er; [|discriminate].
        unfold outer. rewrite nth_error_map, (proj1 (Hvx i)), Hx, Ex by auto. cbn [option_map].
        rewrite nth_error_map2, E1, nth_error_map, (proj1 (Hvy j)), Hy, Ey by auto. reflexivity.
  Qed.

  Lemma scalar_nth {A} (f : A -> fl) (xs : list A) ys sF t x :
    run (EWMA_r rnd fm cfg) (map f xs) = Some (ys, sF) -> nth_error xs t = Some x ->
    nth_error ys t = Some (fst (eo (steps eo (ewma_init cfg) (map f (firstn t xs))) (f x))).
  Proof.
    destruct xs as [|x0 r]; [intros _; destruct t; discriminate|]. cbn [map]. intros Hr Hx.
    destruct (run_nth _ _ _ _ _ _ Hr) as (_ & _ & Hn).
    change (f x0 :: map f r) with (map f (x0 :: r)) in Hn. rewrite (Hn t (f x)) by (apply map_nth_error; auto).
    rewrite firstn_map. reflexivity.
  Qed.

  Lemma cov_r_run ac p q xs ys sF :
    Forall (shaped p q) xs -> run (EWMCov_r rnd fm cfg ac) xs = Some (ys, sF) ->
    length ys = length xs /\
    forall i j, (i < p)%nat -> (j < q)%nat ->
    forall exy ex ey s1 s2 s3,
    run (EWMA_r rnd fm cfg) (map (fun xy => rnd (comp_xy i j xy)) xs) = Some (exy, s1) ->
    run (EWMA_r rnd fm cfg) (map (comp_x i) xs) = Some (ex, s2) ->
    run (EWMA_r rnd fm cfg) (map (comp_y j) xs) = Some (ey, s3) ->
    forall t, (t < length xs)%nat ->
    exists M a b c, nth_error ys t = Some M /\ nth_error exy t = Some a /\ nth_error ex t = Some b /\
      nth_error ey t = Some c /\
      nth2 M i j = Some (if ac then a else rnd (fsub a (rnd (fmul b c)))).
  Proof.
    intros Hs Hr. destruct (run_nonempty _ _ _ _ Hr) as (x0 & r & ->).
    destruct (run_nth _ _ _ _ _ _ Hr) as (Hl & _ & Hn). split; auto.
    intros i j Hi Hj exy ex ey s1 s2 s3 H1 H2 H3 t Ht. set (xs := x0 :: r) in *.
    assert (G : forall t, (t <= length xs)%nat ->
      rinv ac p q (firstn t xs) (steps (ewmcov_step_r rnd fm cfg ac) (ewmcov_init cfg (fst x0) (snd x0)) (firstn t xs))).
    { intros u0; induction u0 as [|u IH]; intros Hu.
      - cbn [firstn steps]. apply rinv_init. inversion Hs; auto.
      - destruct (nth_error xs u) as [v|] eqn:Ev; [|apply nth_error_None in Ev; lia].
        rewrite (firstn_snoc _ _ _ Ev), steps_app. cbn [steps]. apply rinv_step; [|apply IH; lia].
        rewrite Forall_forall in Hs. apply Hs. eapply nth_error_In; eauto. }
    destruct (nth_error xs t) as [v|] eqn:Ev; [|apply nth_error_None in Ev; lia].
    rewrite (Hn t v Ev).
    assert (Hv : shaped p q v) by (rewrite Forall_forall in Hs; apply Hs; eapply nth_error_In; eauto).
    destruct (rinv_step ac p q (firstn t xs) _ v Hv (G t (Nat.lt_le_incl _ _ Ht))) as [_ Hout].
    rewrite (scalar_nth _ _ _ _ _ _ H1 Ev), (scalar_nth _ _ _ _ _ _ H2 Ev), (scalar_nth _ _ _ _ _ _ H3 Ev).
    do 4 eexists. do 4 (split; [reflexivity|]). rewrite (Hout i j Hi Hj). reflexivity.
  Qed.

  Lemma ewma_r_total {A} (f : A -> fl) x0 (r : list A) :
    exists e s, run (EWMA_r rnd fm cfg) (map f (x0 :: r)) = Some (e, s).
  Proof. cbn [map]. apply run_total. Qed.

  (** exchanging x and y transposes the result, whatever the rounding *)
  Lemma cov_r_transpose ac p q xs ys sF ys' sF' :
    Forall (shaped p q) xs -> run (EWMCov_r rnd fm cfg ac) xs = Some (ys, sF) ->
    run (EWMCov_r rnd fm cfg ac) (map (fun xy => (snd xy, fst xy)) xs) = Some (ys', sF') ->
    forall t M M', nth_error ys t = Some M -> nth_error ys' t = Some M' ->
    forall i j, (i < p)%nat -> (j < q)%nat ->
    exists v, nth2 M i j = Some v /\ nth2 M' j i = Some v.
  Proof.
    intros Hs Hr Hr' t M M' HM HM' i j Hi Hj. set (sw := fun xy : list fl * list fl => (snd xy, fst xy)) in *.
    assert (Hs' : Forall (shaped q p) (map sw xs)).
    { apply Forall_map. eapply Forall_impl; [|exact Hs]. intros [a b] [Ha Hb]. split; auto. }
    destruct (cov_r_run ac p q xs ys sF Hs Hr) as [Hl H].
    destruct (cov_r_run ac q p (map sw xs) ys' sF' Hs' Hr') as [Hl' H'].
    destruct (run_nonempty _ _ _ _ Hr) as (x0 & r & Er).
    destruct (ewma_r_total (fun xy => rnd (comp_xy i j xy)) x0 r) as (e1 & s1 & R1).
    destruct (ewma_r_total (comp_x i) x0 r) as (e2 & s2 & R2).
    destruct (ewma_r_total (comp_y j) x0 r) as (e3 & s3 & R3).
    rewrite <- Er in R1, R2, R3.
    assert (Ht : (t < length xs)%nat) by (rewrite <- Hl; apply nth_error_Some; congruence).
    destruct (H i j Hi Hj _ _ _ _ _ _ R1 R2 R3 t Ht) as (M0 & a & b & c & E1 & Ea & Eb & Ec & E5).
    assert (Q1 : map (fun xy => rnd (comp_xy j i xy)) (map sw xs) = map (fun xy => rnd (comp_xy i j xy)) xs).
    { rewrite map_map. apply map_ext. intros [x y]. unfold comp_xy, comp_x, comp_y, sw. cbn [fst snd]. now rewrite fmul_comm. }
    assert (Q2 : map (comp_x j) (map sw xs) = map (comp_y j) xs) by (rewrite map_map; reflexivity).
    assert (Q3 : map (comp_y i) (map sw xs) = map (comp_x i) xs) by (rewrite map_map; reflexivity).
    destruct (H' j i Hj Hi e1 e3 e2 s1 s3 s2) with (t := t) as (M0' & a' & b' & c' & E1' & Ea' & Eb' & Ec' & E5');
      [rewrite Q1; exact R1|rewrite Q2; exact R3|rewrite Q3; exact R2|rewrite map_length; exact Ht|].
    rewrite Ea in Ea'. rewrite Ec in Eb'. rewrite Eb in Ec'. rewrite HM in E1. rewrite HM' in E1'.
    injection Ea' as <-. injection Eb' as <-. injection Ec' as <-. injection E1 as <-. injection E1' as <-.
    rewrite E5, E5'. eexists. split; [reflexivity|]. now rewrite (fmul_comm c b).
  Qed.
End Entries.

Lemma ewmcov_exact fm cfg ac : EWMCov_r (fun v => v) fm cfg ac = EWMCov fm cfg ac.
Proof. reflexivity. Qed.
