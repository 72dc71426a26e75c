From Coq Require Import List ZArith Reals Lra Lia Bool.
From Verif Require Import Model.Unroll Model.Float Model.Modules Model.Ewm Spec.EwmSpec
  Spec.SeriesSpec Spec.CovSpec Proofs.FloatFacts Proofs.ListFacts Proofs.RunFacts Proofs.EwmFacts Proofs.EwmProofs
  Proofs.EwmExtra.
Import ListNotations.
Local Open Scope R_scope.

Lemma nth_error_map2 {A B C} (f : A -> B -> C) x : forall y k,
  nth_error (map2 f x y) k =
  match nth_error x k, nth_error y k with Some a, Some b => Some (f a b) | _, _ => None end.
Proof.
  induction x as [|a x IH]; intros [|b y] [|k]; simpl; auto.
  destruct (nth_error x k); auto.
Qed.
Lemma length_map2 {A B C} (f : A -> B -> C) x : forall y,
  length (map2 f x y) = Nat.min (length x) (length y).
Proof. induction x as [|a x IH]; intros [|b y]; simpl; auto. Qed.


Lemma nth2_outer {A B C} (f : A -> B -> C) x y i j :
  nth2 (outer f x y) i j =
  match nth_error x i, nth_error y j with Some a, Some b => Some (f a b) | _, _ => None end.
Proof.
  unfold nth2, outer. rewrite nth_error_map. destruct (nth_error x i); simpl; auto.
  rewrite nth_error_map. destruct (nth_error y j); auto.
Qed.

Lemma nth2_map {A B} (f : A -> B) m i j : nth2 (map (map f) m) i j = option_map f (nth2 m i j).
Proof. unfold nth2. rewrite nth_error_map. destruct (nth_error m i); simpl; auto. apply nth_error_map. Qed.

Definition ewout (fm : R) (cfg : ewma_cfg) (s : ewma_state) (x : fl) : fl * ewma_state :=
  let '((r, _), s') := ewma_step fm cfg s x in (r, s').

Lemma ewma_vec_nth fm cfg ss x i :
  nth_error (fst (ewma_vec fm cfg ss x)) i =
    match nth_error ss i, nth_error x i with Some s, Some v => Some (fst (ewout fm cfg s v)) | _, _ => None end /\
  nth_error (snd (ewma_vec fm cfg ss x)) i =
    match nth_error ss i, nth_error x i with Some s, Some v => Some (snd (ewout fm cfg s v)) | _, _ => None end.
Proof.
  unfold ewma_vec, ewout. cbn [fst snd]. rewrite !nth_error_map, nth_error_map2.
  destruct (nth_error ss i) as [s|], (nth_error x i) as [v|]; simpl; auto.
  destruct (ewma_step fm cfg s v) as [[r p] s']; auto.
Qed.

Lemma ewma_mat_nth fm cfg ss x i j :
  nth2 (fst (ewma_mat fm cfg ss x)) i j =
    match nth2 ss i j, nth2 x i j with Some s, Some v => Some (fst (ewout fm cfg s v)) | _, _ => None end /\
  nth2 (snd (ewma_mat fm cfg ss x)) i j =
    match nth2 ss i j, nth2 x i j with Some s, Some v => Some (snd (ewout fm cfg s v)) | _, _ => None end.
Proof.
  unfold ewma_mat, nth2. cbn [fst snd]. rewrite !nth_error_map, nth_error_map2.
  destruct (nth_error ss i) as [s|], (nth_error x i) as [v|]; cbn [option_map]; auto.
  - apply ewma_vec_nth.
  - destruct (nth_error s j); auto.
Qed.

(** the series of products / components *)


Definition cinv (fm : R) (cfg : ewma_cfg) (p q : nat) (pre : list (list fl * list fl)) (s : ewmcov_state) : Prop :=
  (forall i j, (i < p)%nat -> (j < q)%nat ->
     nth2 (cov_xy s) i j = Some (steps (ewout fm cfg) (ewma_init cfg) (map (comp_xy i j) pre))) /\
  (forall i, (i < p)%nat -> nth_error (cov_x s) i = Some (steps (ewout fm cfg) (ewma_init cfg) (map (comp_x i) pre))) /\
  (forall j, (j < q)%nat -> nth_error (cov_y s) j = Some (steps (ewout fm cfg) (ewma_init cfg) (map (comp_y j) pre))).

Lemma nth_error_nth_lt {A} (l : list A) i d : (i < length l)%nat -> nth_error l i = Some (nth i l d).
Proof. intros H. apply nth_error_nth'. auto. Qed.

Lemma shaped_nth p q xy : shaped p q xy ->
  (forall i, (i < p)%nat -> nth_error (fst xy) i = Some (comp_x i xy)) /\
  (forall j, (j < q)%nat -> nth_error (snd xy) j = Some (comp_y j xy)).
Proof. intros [<- <-]. split; intros; apply nth_error_nth_lt; auto. Qed.

Lemma cinv_init fm cfg p q xy : shaped p q xy -> cinv fm cfg p q [] (ewmcov_init cfg (fst xy) (snd xy)).
Proof.
  intros Hs. destruct (shaped_nth _ _ _ Hs) as [Hx Hy]. unfold cinv, ewmcov_init; cbn [cov_xy cov_x cov_y map steps].
  repeat split; intros.
  - rewrite nth2_outer, Hx, Hy; auto.
  - rewrite nth_error_map, Hx; auto.
  - rewrite nth_error_map, Hy; auto.
Qed.

Lemma cinv_step fm cfg p q pre s xy : shaped p q xy -> cinv fm cfg p q pre s ->
  cinv fm cfg p q (pre ++ [xy]) (snd (ewmcov_step fm cfg false s xy)) /\
  forall i j, (i < p)%nat -> (j < q)%nat ->
    let st f := steps (ewout fm cfg) (ewma_init cfg) (map f pre) in
    nth2 (fst (ewmcov_step fm cfg false s xy)) i j =
    Some (fsub (fst (ewout fm cfg (st (comp_xy i j)) (comp_xy i j xy)))
           (fmul (fst (ewout fm cfg (st (comp_x i)) (comp_x i xy)))
                 (fst (ewout fm cfg (st (comp_y j)) (comp_y j xy))))).
Proof.
  intros Hs (Hxy & Hx & Hy). destruct (shaped_nth _ _ _ Hs) as [Ex Ey]. destruct xy as [x y]. cbn [fst snd] in *.
  unfold ewmcov_step.
  pose proof (fun i j => ewma_mat_nth fm cfg (cov_xy s) (outer fmul x y) i j) as Hm.
  pose proof (fun i => ewma_vec_nth fm cfg (cov_x s) x i) as Hvx.
  pose proof (fun i => ewma_vec_nth fm cfg (cov_y s) y i) as Hvy.
  destruct (ewma_mat fm cfg (cov_xy s) (outer fmul x y)) as [mxy sxy].
  destruct (ewma_vec fm cfg (cov_x s) x) as [mx sx]. destruct (ewma_vec fm cfg (cov_y s) y) as [my sy].
  cbn [fst snd] in *.
  split.
  - unfold cinv; cbn [cov_xy cov_x cov_y]. split; [|split].
    + intros i j Hi Hj. rewrite (proj2 (Hm i j)), Hxy, nth2_outer, Ex, Ey by auto.
      rewrite map_app, steps_app. reflexivity.
    + intros i Hi. rewrite (proj2 (Hvx i)), Hx, Ex by auto. rewrite map_app, steps_app. reflexivity.
    + intros i Hi. rewrite (proj2 (Hvy i)), Hy, Ey by auto. rewrite map_app, steps_app. reflexivity.
  - intros i j Hi Hj. unfold nth2 at 1. rewrite nth_error_map2.
    pose proof (proj1 (Hm i j)) as E1. rewrite Hxy, nth2_outer, Ex, Ey in E1 by auto. unfold nth2 in E1.
    destruct (nth_error mxy i) as [row|] eqn:Er; [|discriminate].
    unfold outer. rewrite nth_error_map, (proj1 (Hvx i)), Hx, Ex by auto. cbn [option_map].
    rewrite nth_error_map2, E1, nth_error_map, (proj1 (Hvy j)), Hy, Ey by auto. reflexivity.
Qed.

Lemma run_outs fm cfg x0 xs : exists sF,
  run (EWMA fm cfg) (x0 :: xs) =
  Some (snd (lax_scan (stepf (ewout fm cfg)) (ewma_init cfg) (x0 :: xs)), sF).
Proof. eexists. unfold EWMA. rewrite run_eq. reflexivity. Qed.

Lemma ewma_scalar_nth fm cfg {A} (f : A -> fl) (xs : list A) ys sF t x :
  run (EWMA fm cfg) (map f xs) = Some (ys, sF) -> nth_error xs t = Some x ->
  nth_error ys t = Some (fst (ewout fm cfg (steps (ewout fm cfg) (ewma_init cfg) (map f (firstn t xs))) (f x))).
Proof.
  destruct xs as [|x0 r]; [intros _; destruct t; discriminate|]. cbn [map]. intros Hr Hx.
  destruct (run_nth _ _ _ _ _ _ Hr) as (_ & _ & Hn).
  change (f x0 :: map f r) with (map f (x0 :: r)) in Hn. rewrite (Hn t (f x)) by (apply map_nth_error; auto).
  rewrite firstn_map. reflexivity.
Qed.

Lemma cov_run fm cfg p q xs ys sF :
  Forall (shaped p q) xs -> run (EWMCov fm cfg false) xs = Some (ys, sF) ->
  length ys = length xs /\
  forall i j, (i < p)%nat -> (j < q)%nat ->
  forall exy ex ey s1 s2 s3,
  run (EWMA fm cfg) (map (comp_xy i j) xs) = Some (exy, s1) ->
  run (EWMA fm cfg) (map (comp_x i) xs) = Some (ex, s2) ->
  run (EWMA fm cfg) (map (comp_y j) xs) = Some (ey, s3) ->
  forall t, (t < length xs)%nat ->
  exists M a b c, nth_error ys t = Some M /\ nth_error exy t = Some a /\ nth_error ex t = Some b /\
    nth_error ey t = Some c /\ nth2 M i j = Some (fsub a (fmul b c)).
Proof.
  intros Hs Hr. destruct (run_nonempty _ _ _ _ Hr) as (x0 & r & ->).
  destruct (run_nth _ _ _ _ _ _ Hr) as (Hl & _ & Hn). split; auto.
  intros i j Hi Hj exy ex ey s1 s2 s3 H1 H2 H3 t Ht. set (xs := x0 :: r) in *.
  assert (G : forall t, (t <= length xs)%nat ->
    cinv fm cfg p q (firstn t xs) (steps (ewmcov_step fm cfg false) (ewmcov_init cfg (fst x0) (snd x0)) (firstn t xs))).
  { intros u0; induction u0 as [|u IH]; intros Hu.
    - cbn [firstn steps]. apply cinv_init. inversion Hs; auto.
    - destruct (nth_error xs u) as [v|] eqn:Ev; [|apply nth_error_None in Ev; lia].
      rewrite (firstn_snoc _ _ _ Ev), steps_app. cbn [steps]. apply cinv_step; [|apply IH; lia].
      rewrite Forall_forall in Hs. apply Hs. eapply nth_error_In; eauto. }
  destruct (nth_error xs t) as [v|] eqn:Ev; [|apply nth_error_None in Ev; lia].
  rewrite (Hn t v Ev).
  assert (Hv : shaped p q v) by (rewrite Forall_forall in Hs; apply Hs; eapply nth_error_In; eauto).
  destruct (cinv_step fm cfg p q (firstn t xs) _ v Hv (G t (Nat.lt_le_incl _ _ Ht))) as [_ Hout].
  rewrite (ewma_scalar_nth _ _ _ _ _ _ _ _ H1 Ev), (ewma_scalar_nth _ _ _ _ _ _ _ _ H2 Ev),
    (ewma_scalar_nth _ _ _ _ _ _ _ _ H3 Ev).
  do 4 eexists. repeat split; eauto.
Qed.

Lemma fmul_comm a b : fmul a b = fmul b a.
Proof. destruct a, b; simpl; auto. f_equal; ring. Qed.

Lemma ewma_total fm cfg {A} (f : A -> fl) x0 (r : list A) :
  exists e s, run (EWMA fm cfg) (map f (x0 :: r)) = Some (e, s).
Proof. cbn [map]. apply run_total. Qed.

Lemma cov_transpose fm cfg p q xs ys sF ys' sF' :
  Forall (shaped p q) xs -> run (EWMCov fm cfg false) xs = Some (ys, sF) ->
  run (EWMCov fm cfg false) (map (fun xy => (snd xy, fst xy)) xs) = Some (ys', sF') ->
  forall t M M', nth_error ys t = Some M -> nth_error ys' t = Some M' ->
  forall i j, (i < p)%nat -> (j < q)%nat ->
  exists v, nth2 M i j = Some v /\ nth2 M' j i = Some v.
Proof.
  intros Hs Hr Hr' t M M' HM HM' i j Hi Hj. set (sw := fun xy : list fl * list fl => (snd xy, fst xy)) in *.
  assert (Hs' : Forall (shaped q p) (map sw xs)).
  { rewrite Forall_forall in *. intros v Hv. apply in_map_iff in Hv. destruct Hv as (u & <- & Hu).
    destruct (Hs u Hu). split; auto. }
  destruct (cov_run fm cfg p q xs ys sF Hs Hr) as [Hl H].
  destruct (cov_run fm cfg q p (map sw xs) ys' sF' Hs' Hr') as [Hl' H'].
  destruct (run_nonempty _ _ _ _ Hr) as (x0 & r & Exs). subst xs.
  destruct (ewma_total fm cfg (comp_xy i j) x0 r) as (exy & s1 & E1).
  destruct (ewma_total fm cfg (comp_x i) x0 r) as (ex & s2 & E2).
  destruct (ewma_total fm cfg (comp_y j) x0 r) as (ey & s3 & E3).
  assert (Ht : (t < length (x0 :: r))%nat) by (rewrite <- Hl; eapply nth_lt; eauto).
  destruct (H i j Hi Hj exy ex ey s1 s2 s3 E1 E2 E3 t Ht) as (M0 & a & b & c & HM0 & Ha & Hb & Hc & Hv).
  assert (M0 = M) by congruence. subst M0. exists (fsub a (fmul b c)). split; auto.
  assert (Q1 : map (comp_xy j i) (map sw (x0 :: r)) = map (comp_xy i j) (x0 :: r)).
  { rewrite map_map. apply map_ext. intros u. unfold comp_xy, sw, comp_x, comp_y; cbn [fst snd]. apply fmul_comm. }
  assert (Q2 : map (comp_x j) (map sw (x0 :: r)) = map (comp_y j) (x0 :: r)) by (rewrite map_map; reflexivity).
  assert (Q3 : map (comp_y i) (map sw (x0 :: r)) = map (comp_x i) (x0 :: r)) by (rewrite map_map; reflexivity).
  rewrite <- Q1 in E1. rewrite <- Q3 in E2. rewrite <- Q2 in E3.
  destruct (H' j i Hj Hi _ _ _ _ _ _ E1 E3 E2 t ltac:(rewrite map_length; auto))
    as (M0 & a' & b' & c' & HM0' & Ha' & Hb' & Hc' & Hv').
  assert (M0 = M') by congruence. subst M0. rewrite Hv'. f_equal.
  assert (a' = a) by congruence. assert (b' = c) by congruence. assert (c' = b) by congruence. subst.
  f_equal. apply fmul_comm.
Qed.

(** *** positivity: the weights do not depend on the values *)
Lemma rstate_weight cfg i i' os os' :
  isobs i = isobs i' -> map isobs os = map isobs os' ->
  snd (rstate cfg i os) = snd (rstate cfg i' os') /\
  isobs (fst (rstate cfg i os)) = isobs (fst (rstate cfg i' os')).
Proof.
  intros Hi. revert os'; induction os as [|o os IH] using rev_ind; intros os' H.
  - destruct os'; [|discriminate]. auto.
  - destruct (snoc_cases os') as [->|(l & o' & ->)]; [rewrite map_app in H; destruct os; discriminate|].
    rewrite !map_app in H. apply app_inj_tail in H. destruct H as [H Ho].
    destruct (IH l H) as [E1 E2]. rewrite !rstate_snoc. unfold rstep. cbn [fst snd].
    destruct (rstate cfg i os) as [m w], (rstate cfg i' l) as [m' w']. cbn [fst snd] in *. subst w'.
    unfold r_wt, r_mean, w_old. destruct o, o', m, m'; try discriminate; auto.
Qed.

(** finite sums *)
Lemma sum_n_ext n f g : (forall k, (k < n)%nat -> f k = g k) -> sum_n n f = sum_n n g.
Proof. induction n as [|n IH]; simpl; intros H; auto. rewrite IH, H; auto. Qed.
Lemma sum_n_plus n f g : sum_n n (fun k => f k + g k) = sum_n n f + sum_n n g.
Proof. induction n as [|n IH]; simpl; [lra|]. rewrite IH; lra. Qed.
Lemma sum_n_scal n c f : sum_n n (fun k => c * f k) = c * sum_n n f.
Proof. induction n as [|n IH]; simpl; [lra|]. rewrite IH; lra. Qed.
Lemma sum_n_zero n f : (forall k, (k < n)%nat -> f k = 0) -> sum_n n f = 0.
Proof. induction n as [|n IH]; simpl; intros H; auto. rewrite IH, H; auto; lra. Qed.
Lemma sum_n_swap n m f : sum_n n (fun i => sum_n m (fun j => f i j)) = sum_n m (fun j => sum_n n (fun i => f i j)).
Proof.
  induction n as [|n IH]; simpl.
  - symmetry. induction m as [|m IH]; simpl; [auto|rewrite IH; lra].
  - rewrite IH, <- sum_n_plus. reflexivity.
Qed.
Lemma sum_n_nonneg n f : (forall k, (k < n)%nat -> 0 <= f k) -> 0 <= sum_n n f.
Proof.
  induction n as [|n IH]; simpl; intros H; [lra|].
  assert (0 <= sum_n n f) by (apply IH; intros; apply H; lia). specialize (H n ltac:(lia)). lra.
Qed.

(** a weighted average of squares dominates the square of the average *)
Lemma jensen n (w z : nat -> R) : (forall k, 0 <= w k) -> sum_n n w = 1 ->
  0 <= sum_n n (fun k => w k * (z k * z k)) - sum_n n (fun k => w k * z k) * sum_n n (fun k => w k * z k).
Proof.
  intros Hw Hs. set (m := sum_n n (fun k => w k * z k)).
  assert (E : sum_n n (fun k => w k * ((z k - m) * (z k - m))) =
    sum_n n (fun k => w k * (z k * z k)) - m * m).
  { replace (sum_n n (fun k => w k * ((z k - m) * (z k - m)))) with
      (sum_n n (fun k => w k * (z k * z k) + ((- 2 * m) * (w k * z k) + (m * m) * w k)))
      by (apply sum_n_ext; intros; ring).
    rewrite sum_n_plus, sum_n_plus, !sum_n_scal. fold m. rewrite Hs. ring. }
  rewrite <- E. apply sum_n_nonneg. intros k _. apply Rmult_le_pos; auto.
  apply Rle_0_sqr.
Qed.

(** EWMA is a weighted average whose weights only depend on which inputs are missing *)
Lemma rstate_functional cfg os0 :
  0 <= com cfg -> count_obs os0 <> 0%nat ->
  exists w : nat -> R, (forall k, 0 <= w k) /\ sum_n (length os0) w = 1 /\
    (forall k, nth k os0 None = None -> w k = 0) /\
    forall os, map isobs os = map isobs os0 ->
      fst (rstate cfg None os) = Some (sum_n (length os0) (fun k => w k * dfl (nth k os None))).
Proof.
  intros Hc. induction os0 as [|o os0 IH] using rev_ind; intros Hn; [simpl in Hn; congruence|].
  rewrite app_length. cbn [length]. rewrite Nat.add_1_r. cbn [sum_n].
  assert (Hsplit : forall os, map isobs os = map isobs (os0 ++ [o]) ->
     exists l o', os = l ++ [o'] /\ map isobs l = map isobs os0 /\ isobs o' = isobs o /\ length l = length os0).
  { intros os H. destruct (snoc_cases os) as [->|(l & o' & ->)]; [rewrite map_app in H; destruct os0; discriminate|].
    rewrite !map_app in H. apply app_inj_tail in H. destruct H as [H1 H2].
    exists l, o'. repeat split; auto. rewrite <- (map_length isobs l), H1, map_length; auto. }
  pose proof (rstate_nonneg cfg None os0 Hc) as Hw0.
  destruct (Nat.eq_dec (count_obs os0) 0) as [E0|E0].
  - (* first observation *)
    rewrite count_obs_snoc, E0 in Hn. destruct o as [x|]; [|simpl in Hn; congruence].
    assert (Hnone : forall l, map isobs l = map isobs os0 -> fst (rstate cfg None l) = None /\ count_obs l = 0%nat).
    { clear -E0. induction os0 as [|o os IH] using rev_ind; intros l Hl.
      - destruct l; [|discriminate]. auto.
      - destruct (snoc_cases l) as [->|(l' & o' & ->)]; [rewrite map_app in Hl; destruct os; discriminate|].
        rewrite !map_app in Hl. apply app_inj_tail in Hl. destruct Hl as [H1 H2].
        rewrite count_obs_snoc in E0. destruct o; [simpl in E0; lia|]. destruct o'; [discriminate|].
        destruct (IH ltac:(simpl in E0; lia) l' H1) as [Ha Hb].
        rewrite rstate_snoc, count_obs_snoc. unfold rstep, r_mean. cbn [fst]. rewrite Hb. auto. }
    exists (fun k => if (k =? length os0)%nat then 1 else 0). split; [|split; [|split]].
    + intros k. destruct (k =? length os0)%nat; lra.
    + rewrite Nat.eqb_refl. assert (Z : sum_n (length os0) (fun k => if (k =? length os0)%nat then 1 else 0) = 0).
      { apply sum_n_zero. intros k Hk. destruct (Nat.eqb_spec k (length os0)); [lia|lra]. } rewrite Z; lra.
    + intros k Hk. destruct (Nat.eqb_spec k (length os0)) as [->|]; auto.
      rewrite app_nth2, Nat.sub_diag in Hk by lia. discriminate.
    + intros os Hos. destruct (Hsplit os Hos) as (l & o' & -> & H1 & H2 & H3).
      destruct o' as [x'|]; [|discriminate].
      rewrite rstate_snoc. unfold rstep, r_mean. cbn [fst]. rewrite (proj1 (Hnone l H1)). cbn [w_old dfl].
      assert (Z : sum_n (length os0) (fun k => (if (k =? length os0)%nat then 1 else 0) * dfl (nth k (l ++ [Some x']) None)) = 0).
      { apply sum_n_zero. intros k Hk. destruct (Nat.eqb_spec k (length os0)); [lia|lra]. }
      rewrite Z, Nat.eqb_refl. rewrite <- H3, app_nth2, Nat.sub_diag by lia. cbn [nth dfl].
      pose proof (nwt_pos cfg Hc). f_equal. field. lra.
  - destruct (IH E0) as (w & Hw & Hs & Hz & Hf). clear IH.
    destruct o as [x|].
    + pose proof (Hf os0 eq_refl) as Em.
      set (p := rstate cfg None os0) in *.
      set (w1 := w_old cfg true (fst p) (snd p)).
      pose proof (w_old_nonneg cfg true (fst p) (snd p) Hc Hw0) as Hw1. fold w1 in Hw1.
      pose proof (nwt_pos cfg Hc) as Hnw.
      set (th := nwt cfg / (w1 + nwt cfg)).
      assert (Hth : 0 <= th <= 1).
      { unfold th. split; [apply Rmult_le_pos; [lra|left; apply Rinv_0_lt_compat; lra]|].
        apply Rmult_le_reg_r with (w1 + nwt cfg); [lra|]. unfold Rdiv. rewrite Rmult_assoc, Rinv_l; lra. }
      exists (fun k => if (k =? length os0)%nat then th else (1 - th) * w k). split; [|split; [|split]].
      * intros k. destruct (k =? length os0)%nat; [lra|]. apply Rmult_le_pos; auto; lra.
      * rewrite Nat.eqb_refl. rewrite (sum_n_ext _ _ (fun k => (1 - th) * w k)).
        2:{ intros k Hk. destruct (Nat.eqb_spec k (length os0)); [lia|auto]. }
        rewrite sum_n_scal, Hs. lra.
      * intros k Hk. destruct (Nat.eqb_spec k (length os0)) as [->|Hne].
        { rewrite app_nth2, Nat.sub_diag in Hk by lia. discriminate. }
        destruct (Nat.lt_ge_cases k (length os0)) as [Hlt|Hge].
        { rewrite app_nth1 in Hk by auto. rewrite Hz; auto; lra. }
        { rewrite Hz; [lra|]. apply nth_overflow; auto. }
      * intros os Hos. destruct (Hsplit os Hos) as (l & o' & -> & H1 & H2 & H3).
        destruct o' as [x'|]; [|discriminate].
        rewrite rstate_snoc. unfold rstep, r_mean. cbn [fst].
        assert (Hwt : snd (rstate cfg None l) = snd p /\ isobs (fst (rstate cfg None l)) = isobs (fst p))
          by (apply rstate_weight; auto).
        rewrite (proj1 Hwt), (Hf l H1).
        assert (Ew : w_old cfg true (Some (sum_n (length os0) (fun k => w k * dfl (nth k l None)))) (snd p) = w1).
        { unfold w1. rewrite Em. reflexivity. }
        rewrite Ew. cbn [dfl]. rewrite Nat.eqb_refl.
        assert (Elast : forall v : option R, nth (length os0) (l ++ [v]) None = v)
          by (intros v; rewrite <- H3, app_nth2, Nat.sub_diag by lia; reflexivity).
        rewrite Elast. cbn [dfl].
        rewrite (sum_n_ext (length os0) (fun k => (if (k =? length os0)%nat then th else (1 - th) * w k) * _)
           (fun k => (1 - th) * (w k * dfl (nth k l None)))).
        2:{ intros k Hk. destruct (Nat.eqb_spec k (length os0)); [lia|]. rewrite app_nth1 by lia. ring. }
        rewrite sum_n_scal. f_equal. unfold th. field. lra.
    + exists w. split; [|split; [|split]]; auto.
      * rewrite (Hz (length os0)) by (apply nth_overflow; auto). lra.
      * intros k Hk. apply Hz. destruct (Nat.lt_ge_cases k (length os0)) as [Hlt|Hge].
        { rewrite app_nth1 in Hk by auto; auto. } { apply nth_overflow; auto. }
      * intros os Hos. destruct (Hsplit os Hos) as (l & o' & -> & H1 & H2 & H3).
        destruct o' as [x'|]; [discriminate|].
        rewrite rstate_snoc. unfold rstep, r_mean. cbn [fst]. rewrite (Hf l H1). f_equal.
        assert (Elast : forall v : option R, nth (length os0) (l ++ [v]) None = v)
          by (intros v; rewrite <- H3, app_nth2, Nat.sub_diag by lia; reflexivity).
        rewrite Elast. cbn [dfl].
        rewrite (sum_n_ext (length os0) (fun k => w k * dfl (nth k (l ++ [None]) None)) (fun k => w k * dfl (nth k l None))).
        2:{ intros k Hk. rewrite app_nth1 by lia; auto. } lra.
Qed.

(** one EWMA value through the functional *)
Lemma nth_map_obs_firstn fm xs n k : nth k (firstn n (map (observation fm) xs)) None =
  if (k <? n)%nat then match nth_error xs k with Some x => observation fm x | None => None end else None.
Proof.
  destruct (Nat.ltb_spec k n).
  - rewrite <- (nth_error_firstn xs n) by auto. rewrite firstn_map.
    revert n k H; induction xs as [|x xs IH]; intros [|n] [|k] H; simpl; auto; try lia. 
    apply IH. lia.
  - apply nth_overflow. rewrite firstn_length. lia.
Qed.



Lemma nth_row_of p o i : (i < p)%nat -> nth i (row_of p o) NaN = match o with Some v => Fin (v i) | None => NaN end.
Proof.
  intros Hi. destruct o as [v|]; simpl.
  - rewrite (nth_indep _ NaN (Fin (v 0%nat))) by (rewrite map_length, seq_length; auto).
    rewrite (map_nth (fun i => Fin (v i))), seq_nth; auto.
  - apply nth_repeat.
Qed.
Lemma length_row_of p o : length (row_of p o) = p.
Proof. destruct o; simpl; [rewrite map_length, seq_length; auto|apply repeat_length]. Qed.

Lemma cov_psd fm cfg p (vs : list (option (nat -> R))) ys sF :
  0 <= com cfg -> initial_value cfg = NaN ->
  run (EWMCov fm cfg false) (map (fun o => (row_of p o, row_of p o)) vs) = Some (ys, sF) ->
  forall t M c C, nth_error ys t = Some M ->
    (forall i j, (i < p)%nat -> (j < p)%nat -> nth2 M i j = Some (Fin (C i j))) ->
    0 <= quad p c C.
Proof.
  intros Hc Hi Hr t M c C HM HC.
  set (xs := map (fun o => (row_of p o, row_of p o)) vs) in *.
  assert (Hs : Forall (shaped p p) xs).
  { apply Forall_forall. intros v Hv. apply in_map_iff in Hv. destruct Hv as (o & <- & _).
    split; apply length_row_of. }
  destruct (cov_run fm cfg p p xs ys sF Hs Hr) as [Hl H].
  assert (Ht : (t < length xs)%nat) by (rewrite <- Hl; eapply nth_lt; eauto).
  destruct (Nat.eq_dec p 0) as [->|Hp]; [unfold quad; simpl; lra|].
  destruct vs as [|v0 vr]; [simpl in Ht; lia|]. set (vs := v0 :: vr) in *.
  set (pat := map (fun o : option (nat -> R) => match o with Some _ => Some 0 | None => None end) (firstn (t + 1) vs)).
  (* scalar series *)
  assert (Hser : forall f : (list fl * list fl) -> fl,
     (forall u, isobs (observation fm (f (row_of p u, row_of p u))) = match u with Some _ => true | None => false end) ->
     forall e s, run (EWMA fm cfg) (map f xs) = Some (e, s) ->
     nth_error e t = Some (when_enough (min_periods cfg) (map (observation fm) (map f (map (fun o => (row_of p o, row_of p o)) (firstn (t + 1) vs))))
        (fst (rstate cfg None (map (observation fm) (map f (map (fun o => (row_of p o, row_of p o)) (firstn (t + 1) vs))))))) /\
    map isobs (map (observation fm) (map f (map (fun o => (row_of p o, row_of p o)) (firstn (t + 1) vs)))) = map isobs pat).
  { intros f Hf e s He. destruct (ewma_run fm cfg _ _ _ Hc He) as [_ He'].
    split.
    - rewrite (He' t) by (rewrite map_length; auto). rewrite Hi. cbn [observation]. unfold xs.
      rewrite !firstn_map. reflexivity.
    - unfold pat. rewrite !map_map. apply map_ext. intros u. rewrite Hf. destruct u; reflexivity. }
  destruct (ewma_total fm cfg (comp_x 0) (row_of p v0, row_of p v0) (map (fun o => (row_of p o, row_of p o)) vr)) as (e0 & s0 & E0).
  assert (Hxobs : forall i, (i < p)%nat -> forall u, observation fm (comp_x i (row_of p u, row_of p u)) = option_map (fun v => v i) u).
  { intros i Hip u. unfold comp_x; cbn [fst]. rewrite nth_row_of by auto. destruct u; reflexivity. }
  assert (Hyobs : forall i, (i < p)%nat -> forall u, observation fm (comp_y i (row_of p u, row_of p u)) = option_map (fun v => v i) u).
  { intros i Hip u. unfold comp_y; cbn [snd]. rewrite nth_row_of by auto. destruct u; reflexivity. }
  assert (Hxyobs : forall i j, (i < p)%nat -> (j < p)%nat -> forall u, observation fm (comp_xy i j (row_of p u, row_of p u)) = option_map (fun v => v i * v j) u).
  { intros i j Hip Hjp u. unfold comp_xy, comp_x, comp_y; cbn [fst snd]. rewrite !nth_row_of by auto. destruct u; reflexivity. }
  destruct (Nat.eq_dec (count_obs pat) 0) as [Ez|Ez].
  - (* no observation: the outputs are NaN, contradiction *)
    exfalso.
    destruct (ewma_total fm cfg (comp_xy 0 0) (row_of p v0, row_of p v0) (map (fun o => (row_of p o, row_of p o)) vr)) as (e1 & s1 & E1).
    destruct (ewma_total fm cfg (comp_y 0) (row_of p v0, row_of p v0) (map (fun o => (row_of p o, row_of p o)) vr)) as (e2 & s2 & E2).
    destruct (H 0%nat 0%nat ltac:(lia) ltac:(lia) _ _ _ _ _ _ E1 E0 E2 t Ht) as (M' & a & b & c' & HM' & Ha & Hb & Hc' & Hv).
    assert (M' = M) by congruence. subst M'. rewrite (HC 0%nat 0%nat) in Hv by lia.
    destruct (Hser (comp_xy 0 0) ltac:(intros u; rewrite Hxyobs by lia; destruct u; reflexivity) _ _ E1) as [Ea Ep].
    rewrite Ha in Ea. injection Ea as Ea.
    assert (Hnone : forall l : list (option R), map isobs l = map isobs pat -> fst (rstate cfg None l) = None).
    { revert Ez. clear. generalize pat. clear. intros pat.
      induction pat as [|o os IH] using rev_ind; intros E l Hl.
      - destruct l; [|discriminate]. auto.
      - destruct (snoc_cases l) as [->|(l' & o' & ->)]; [rewrite map_app in Hl; destruct os; discriminate|].
        rewrite !map_app in Hl. apply app_inj_tail in Hl. destruct Hl as [H1 H2].
        rewrite count_obs_snoc in E. destruct o; [simpl in E; lia|]. destruct o'; [discriminate|].
        rewrite rstate_snoc. unfold rstep, r_mean. cbn [fst]. apply IH; auto. simpl in E; lia. }
    rewrite (Hnone _ Ep) in Ea. cbn [when_enough] in Ea. rewrite Ea in Hv. discriminate.
  - destruct (rstate_functional cfg pat Hc Ez) as (w & Hw & Hs1 & _ & Hf).
    set (n := length pat) in *.
    assert (Hn : n = length (firstn (t + 1) vs)) by (unfold n, pat; apply map_length).
    set (z := fun k i => match nth k (firstn (t + 1) vs) None with Some v => v i | None => 0 end).
    assert (Hval : forall (f : (list fl * list fl) -> fl) (g : (nat -> R) -> R),
      (forall u, observation fm (f (row_of p u, row_of p u)) = option_map g u) ->
      forall e s, run (EWMA fm cfg) (map f xs) = Some (e, s) ->
      nth_error e t = Some NaN \/
      nth_error e t = Some (Fin (sum_n n (fun k => w k * match nth k (firstn (t + 1) vs) None with Some v => g v | None => 0 end)))).
    { intros f g Hfg e s He.
      destruct (Hser f ltac:(intros u; rewrite Hfg; destruct u; reflexivity) _ _ He) as [Ea Ep].
      rewrite Ea, (Hf _ Ep). cbn [when_enough]. destruct (_ <? _)%Z; [left; auto|right]. do 2 f_equal.
      apply sum_n_ext. intros k Hk. f_equal. rewrite !map_map.
      rewrite (nth_indep _ None (observation fm (f (row_of p None, row_of p None)))) by (rewrite map_length; lia).
      rewrite (map_nth (fun x => observation fm (f (row_of p x, row_of p x)))), Hfg.
      destruct (nth k (firstn (t + 1) vs) None); reflexivity. }
    assert (HCij : forall i j, (i < p)%nat -> (j < p)%nat ->
      C i j = sum_n n (fun k => w k * (z k i * z k j)) - sum_n n (fun k => w k * z k i) * sum_n n (fun k => w k * z k j)).
    { intros i j Hip Hjp.
      destruct (ewma_total fm cfg (comp_xy i j) (row_of p v0, row_of p v0) (map (fun o => (row_of p o, row_of p o)) vr)) as (e1 & s1 & E1).
      destruct (ewma_total fm cfg (comp_x i) (row_of p v0, row_of p v0) (map (fun o => (row_of p o, row_of p o)) vr)) as (e2 & s2 & E2).
      destruct (ewma_total fm cfg (comp_y j) (row_of p v0, row_of p v0) (map (fun o => (row_of p o, row_of p o)) vr)) as (e3 & s3 & E3).
      destruct (H i j Hip Hjp _ _ _ _ _ _ E1 E2 E3 t Ht) as (M' & a & b & c' & HM' & Ha & Hb & Hc' & Hv).
      assert (M' = M) by congruence. subst M'. rewrite (HC i j Hip Hjp) in Hv. injection Hv as Hv.
      pose proof (Hval _ _ (Hxyobs i j Hip Hjp) _ _ E1) as V1. rewrite Ha in V1.
      pose proof (Hval _ _ (Hxobs i Hip) _ _ E2) as V2. rewrite Hb in V2.
      pose proof (Hval _ _ (Hyobs j Hjp) _ _ E3) as V3. rewrite Hc' in V3.
      destruct V1 as [V1|V1]; injection V1 as ->; [discriminate|].
      destruct V2 as [V2|V2]; injection V2 as ->; [discriminate|].
      destruct V3 as [V3|V3]; injection V3 as ->; [discriminate|].
      cbn [fmul fsub fneg fadd] in Hv. injection Hv as ->.
      unfold Rminus. f_equal. apply sum_n_ext. intros k _. unfold z.
      destruct (nth k _ None); [reflexivity|ring]. }
    set (zz := fun k => sum_n p (fun i => c i * z k i)).
    assert (E : quad p c C = sum_n n (fun k => w k * (zz k * zz k)) - sum_n n (fun k => w k * zz k) * sum_n n (fun k => w k * zz k)).
    { unfold quad.
      rewrite (sum_n_ext p _ (fun i => sum_n p (fun j => c i * c j * sum_n n (fun k => w k * (z k i * z k j))
          + (-1) * ((c i * sum_n n (fun k => w k * z k i)) * (c j * sum_n n (fun k => w k * z k j)))))).
      2:{ intros i Hip. apply sum_n_ext. intros j Hjp. rewrite HCij by auto. ring. }
      assert (Ez1 : sum_n n (fun k => w k * zz k) = sum_n p (fun i => c i * sum_n n (fun k => w k * z k i))).
      { rewrite (sum_n_ext p _ (fun i => sum_n n (fun k => c i * (w k * z k i)))) by (intros; symmetry; apply sum_n_scal).
        rewrite sum_n_swap. apply sum_n_ext. intros k _. unfold zz. rewrite <- sum_n_scal. apply sum_n_ext. intros; ring. }
      rewrite (sum_n_ext p _ (fun i => sum_n n (fun k => w k * (c i * z k i) * zz k) +
          (-1 * (c i * sum_n n (fun k => w k * z k i))) * sum_n n (fun k => w k * zz k))).
      2:{ intros i _. rewrite sum_n_plus. f_equal.
          - rewrite (sum_n_ext p _ (fun j => sum_n n (fun k => c i * c j * (w k * (z k i * z k j))))) by (intros; symmetry; apply sum_n_scal).
            rewrite sum_n_swap. apply sum_n_ext. intros k _. unfold zz. rewrite <- sum_n_scal. apply sum_n_ext. intros; ring.
          - rewrite Ez1. set (B := sum_n n (fun k => w k * z k i)).
            rewrite <- (sum_n_scal p (-1 * (c i * B))). apply sum_n_ext. intros; ring. }
      rewrite sum_n_plus. unfold Rminus. f_equal.
      - rewrite sum_n_swap. apply sum_n_ext. intros k _.
        transitivity (w k * zz k * sum_n p (fun i => c i * z k i)); [|unfold zz; ring].
        rewrite <- sum_n_scal. apply sum_n_ext. intros; ring.
      - set (T := sum_n n (fun k => w k * zz k)) in *.
        rewrite (sum_n_ext p _ (fun i => (- T) * (c i * sum_n n (fun k => w k * z k i)))) by (intros; ring).
        rewrite sum_n_scal, <- Ez1. ring. }
    rewrite E. apply jensen; auto.
Qed.

(** diagonal, any missing pattern *)
Lemma cov_diag fm cfg p (xs : list (list (option R))) ys sF :
  0 <= com cfg -> initial_value cfg = NaN ->
  Forall (fun x => length x = p) xs ->
  run (EWMCov fm cfg false) (map (fun x => (map of_option x, map of_option x)) xs) = Some (ys, sF) ->
  forall t M i, nth_error ys t = Some M -> (i < p)%nat ->
    exists v, nth2 M i i = Some v /\ (v = NaN \/ exists r, v = Fin r /\ 0 <= r).
Proof.
  intros Hc Hi Hlen Hr t M i HM Hip.
  set (zs := map (fun x => (map of_option x, map of_option x)) xs) in *.
  assert (Hs : Forall (shaped p p) zs).
  { apply Forall_forall. intros v Hv. apply in_map_iff in Hv. destruct Hv as (o & <- & Ho).
    rewrite Forall_forall in Hlen. split; cbn [fst snd]; rewrite map_length; auto. }
  destruct (cov_run fm cfg p p zs ys sF Hs Hr) as [Hl H].
  assert (Ht : (t < length zs)%nat) by (rewrite <- Hl; eapply nth_lt; eauto).
  destruct xs as [|x0 xr]; [simpl in Ht; lia|].
  set (g := fun x : list (option R) => (map of_option x, map of_option x)) in *.
  destruct (ewma_total fm cfg (comp_xy i i) (g x0) (map g xr)) as (e1 & s1 & E1).
  destruct (ewma_total fm cfg (comp_x i) (g x0) (map g xr)) as (e2 & s2 & E2).
  destruct (ewma_total fm cfg (comp_y i) (g x0) (map g xr)) as (e3 & s3 & E3).
  destruct (H i i Hip Hip _ _ _ _ _ _ E1 E2 E3 t Ht) as (M' & a & b & c' & HM' & Ha & Hb & Hc' & Hv).
  assert (M' = M) by congruence. subst M'. rewrite Hv. eexists; split; [reflexivity|].
  change (g x0 :: map g xr) with (map g (x0 :: xr)) in *. set (xs := x0 :: xr) in *.
  assert (E32 : map (comp_y i) (map g xs) = map (comp_x i) (map g xs)) by (rewrite !map_map; reflexivity).
  rewrite E32, E2 in E3. injection E3 as <- <-.
  assert (c' = b) by congruence. subst c'.
  destruct (ewma_run fm cfg _ _ _ Hc E1) as [_ F1]. destruct (ewma_run fm cfg _ _ _ Hc E2) as [_ F2].
  rewrite map_length in F1, F2.
  rewrite (F1 t Ht) in Ha. rewrite (F2 t Ht) in Hb. rewrite Hi in Ha, Hb. cbn [observation] in Ha, Hb.
  assert (Ob : forall x : list (option R), observation fm (comp_x i (g x)) = nth i x None).
  { intros x. unfold comp_x, g; cbn [fst]. change NaN with (of_option None). rewrite map_nth, obs_of_option. auto. }
  assert (Ox : map (observation fm) (map (comp_x i) (map g xs)) = map (fun x => nth i x None) xs)
    by (rewrite !map_map; apply map_ext; apply Ob).
  assert (Oxy : map (observation fm) (map (comp_xy i i) (map g xs)) = map (fun x => option_map (fun r => r * r) (nth i x None)) xs).
  { rewrite !map_map; apply map_ext. intros x. unfold comp_xy, comp_x, comp_y, g; cbn [fst snd].
    change NaN with (of_option None). rewrite map_nth. destruct (nth i x None); reflexivity. }
  rewrite Ox in Hb. rewrite Oxy in Ha.
  set (os := firstn (t + 1) (map (fun x => nth i x None) xs)) in *.
  assert (Eos2 : firstn (t + 1) (map (fun x => option_map (fun r => r * r) (nth i x None)) xs) = map (option_map (fun r => r * r)) os).
  { unfold os. rewrite !firstn_map, map_map. reflexivity. }
  rewrite Eos2 in Ha. set (os2 := map (option_map (fun r => r * r)) os) in *.
  assert (Epat : map isobs os2 = map isobs os).
  { unfold os2. rewrite map_map. apply map_ext. intros [x|]; reflexivity. }
  destruct (Nat.eq_dec (count_obs os) 0) as [Ez|Ez].
  - assert (Hnone : fst (rstate cfg None os) = None).
    { revert Ez. generalize os. clear. intros os. induction os as [|o os IH] using rev_ind; intros E; auto.
      rewrite count_obs_snoc in E. destruct o; [simpl in E; lia|].
      rewrite rstate_snoc. unfold rstep, r_mean. cbn [fst]. apply IH. simpl in E; lia. }
    rewrite Hnone in Hb. cbn [when_enough] in Hb. injection Hb as <-. left.
    destruct a; reflexivity.
  - destruct (rstate_functional cfg os Hc Ez) as (w & Hw & Hs1 & _ & Hf).
    rewrite (Hf os eq_refl) in Hb. rewrite (Hf os2 Epat) in Ha. cbn [when_enough] in Ha, Hb.
    injection Ha as <-. injection Hb as <-.
    assert (Nn : forall u, fsub u NaN = NaN) by (intros []; reflexivity).
    destruct (Z.of_nat (count_obs os) <? min_periods cfg)%Z; [left; apply Nn|].
    destruct (Z.of_nat (count_obs os2) <? min_periods cfg)%Z; [left; reflexivity|]. right.
    cbn [fmul fsub fneg fadd]. eexists; split; [reflexivity|].
    pose proof (jensen (length os) w (fun k => dfl (nth k os None)) Hw Hs1) as J. cbv beta in J.
    match goal with |- 0 <= ?A + - _ => replace A with
      (sum_n (length os) (fun k => w k * (dfl (nth k os None) * dfl (nth k os None)))) end.
    { unfold Rminus in J. exact J. }
    apply sum_n_ext. intros k Hk. f_equal. unfold os2.
    change (@None R) with (option_map (fun r : R => r * r) None) at 3. rewrite map_nth.
    destruct (nth k os None); simpl; ring.
Qed.

(** the functional form for outputs *)
Lemma ewma_functional fm cfg (pat : list bool) t :
  0 <= com cfg -> initial_value cfg = NaN -> (t < length pat)%nat ->
  exists w : nat -> R, (forall k, 0 <= w k) /\ (forall k, nth k pat false = false -> w k = 0) /\
    (existsb (fun b => b) (firstn (t + 1) pat) = true -> sum_n (t + 1) w = 1) /\
    forall os ys sF, map isobs os = pat -> run (EWMA fm cfg) (map of_option os) = Some (ys, sF) ->
      nth_error ys t = Some (when_enough (min_periods cfg) (firstn (t + 1) os)
        (if existsb (fun b => b) (firstn (t + 1) pat)
         then Some (sum_n (t + 1) (fun k => w k * match nth k os None with Some x => x | None => 0 end))
         else None)).
Proof.
  intros Hc Hi Ht. set (os0 := map (fun b : bool => if b then Some 0 else None) (firstn (t + 1) pat)).
  assert (E0 : map isobs os0 = firstn (t + 1) pat).
  { unfold os0. rewrite map_map. rewrite <- map_id. apply map_ext. intros []; auto. }
  assert (El : length os0 = (t + 1)%nat).
  { unfold os0. rewrite map_length, firstn_length. lia. }
  assert (Hcnt : forall os, existsb (fun b => b) (map isobs os) = negb (count_obs os =? 0)%nat).
  { induction os as [|[x|] os IH]; simpl; auto. }
  assert (Hout : forall os ys sF, map isobs os = pat -> run (EWMA fm cfg) (map of_option os) = Some (ys, sF) ->
     nth_error ys t = Some (when_enough (min_periods cfg) (firstn (t + 1) os) (fst (rstate cfg None (firstn (t + 1) os)))) /\
     map isobs (firstn (t + 1) os) = map isobs os0).
  { intros os ys sF Hp Hr. destruct (ewma_run fm cfg _ _ _ Hc Hr) as [_ H].
    assert (Eo : map (observation fm) (map of_option os) = os).
    { rewrite map_map. rewrite <- (map_id os) at 2. apply map_ext. intros; apply obs_of_option. }
    rewrite Eo, Hi in H. split; [apply H|rewrite <- firstn_map, Hp, E0; auto].
    rewrite map_length, <- (map_length isobs), Hp. auto. }
  destruct (Nat.eq_dec (count_obs os0) 0) as [Ez|Ez].
  - assert (Ef : existsb (fun b => b) (firstn (t + 1) pat) = false) by (rewrite <- E0, Hcnt, Ez; auto).
    exists (fun _ => 0). rewrite Ef. split; [intros; lra|split; [auto|split; [discriminate|]]].
    intros os ys sF Hp Hr. destruct (Hout os ys sF Hp Hr) as [H Hpat]. rewrite H. do 2 f_equal.
    assert (E : count_obs (firstn (t + 1) os) = 0%nat).
    { apply Nat.eqb_eq. apply negb_false_iff. rewrite <- Hcnt, Hpat, Hcnt, Ez. auto. }
    revert E. generalize (firstn (t + 1) os). clear. intros l. induction l as [|o l IH] using rev_ind; auto.
    rewrite count_obs_snoc, rstate_snoc. destruct o; simpl; intros E; [lia|]. unfold rstep, r_mean; cbn [fst].
    apply IH; lia.
  - assert (Ef : existsb (fun b => b) (firstn (t + 1) pat) = true).
    { rewrite <- E0, Hcnt. apply negb_true_iff, Nat.eqb_neq; auto. }
    destruct (rstate_functional cfg os0 Hc Ez) as (w & Hw & Hs & Hz & Hf). rewrite El in *.
    exists w. rewrite Ef. split; [auto|split; [|split; [auto|]]].
    + intros k Hk. apply Hz. unfold os0. destruct (Nat.lt_ge_cases k (t + 1)) as [Hlt|Hge].
      * transitivity (if nth k (firstn (t + 1) pat) false then Some 0 else None).
        { exact (map_nth (fun b : bool => if b then Some 0 else None) _ false k). }
        rewrite <- (firstn_skipn (t + 1) pat) in Hk.
        rewrite app_nth1 in Hk by (rewrite firstn_length; lia). rewrite Hk. auto.
      * apply nth_overflow. rewrite map_length, firstn_length. lia.
    + intros os ys sF Hp Hr. destruct (Hout os ys sF Hp Hr) as [H Hpat]. rewrite H, (Hf _ Hpat). do 3 f_equal.
      apply sum_n_ext. intros k Hk. f_equal.
      rewrite <- (firstn_skipn (t + 1) os) at 2. rewrite app_nth1; [reflexivity|].
      rewrite <- (map_length isobs), Hpat, map_length. lia.
Qed.
