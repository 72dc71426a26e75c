From Coq Require Import List ZArith Reals Lra Lia Bool.
From Verif Require Import Model.Unroll Model.Float Model.Modules Model.Ewm Spec.EwmSpec
  Spec.SeriesSpec Proofs.FloatFacts Proofs.ListFacts Proofs.RunFacts Proofs.EwmFacts.
Import ListNotations.
Local Open Scope R_scope.

Definition rstep (cfg : ewma_cfg) (p : option R * R) (o : option R) : option R * R :=
  (r_mean cfg (fst p) (snd p) o, r_wt cfg (fst p) (snd p) o).
Definition rstate (cfg : ewma_cfg) (i : option R) (os : list (option R)) : option R * R :=
  fold_left (rstep cfg) os (i, 1).

Lemma rstate_snoc cfg i os o : rstate cfg i (os ++ [o]) = rstep cfg (rstate cfg i os) o.
Proof. unfold rstate. apply fold_left_app. Qed.

Lemma count_obs_snoc os o : count_obs (os ++ [o]) = (count_obs os + (if isobs o then 1 else 0))%nat.
Proof.
  induction os as [|[x|] os IH]; simpl; [destruct o; reflexivity| |]; rewrite ?IH; reflexivity.
Qed.

Definition inv (fm : R) (cfg : ewma_cfg) (pre : list fl) (s : ewma_state) : Prop :=
  let os := map (observation fm) pre in
  observation fm (ew_mean s) = fst (rstate cfg (observation fm (initial_value cfg)) os) /\
  old_wt s = Fin (snd (rstate cfg (observation fm (initial_value cfg)) os)) /\
  0 <= snd (rstate cfg (observation fm (initial_value cfg)) os) /\
  nobs s = Z.of_nat (count_obs os).

Lemma obs_of_option fm o : observation fm (of_option o) = o.
Proof. destruct o; reflexivity. Qed.

Lemma inv_init fm cfg : inv fm cfg [] (ewma_init cfg).
Proof. unfold inv; simpl. repeat split; auto; lra. Qed.

Lemma inv_step fm cfg pre s x : 0 <= com cfg -> inv fm cfg pre s ->
  inv fm cfg (pre ++ [x]) (snd (ewma_step fm cfg s x)).
Proof.
  intros Hc (Hm & Hw & Hw0 & Hn).
  rewrite (ewma_step_eq fm cfg s x _ _ Hc Hw Hw0 Hm). cbn [snd].
  unfold inv. cbn [ew_mean old_wt nobs]. rewrite map_app; cbn [map]. rewrite rstate_snoc, count_obs_snoc.
  rewrite obs_of_option. unfold rstep at 1 2 3. cbn [fst snd].
  repeat split; auto. { apply r_wt_nonneg; auto. }
  rewrite Hn. destruct (isobs _); lia.
Qed.

Lemma geb_ltb mp n (y : fl) :
  (if Z.eqb mp 0 then y else if Z.geb (Z.of_nat n) mp then y else NaN) =
  if (Z.of_nat n <? mp)%Z then NaN else y.
Proof.
  destruct (Z.eqb_spec mp 0), (Z.geb_spec (Z.of_nat n) mp), (Z.ltb_spec (Z.of_nat n) mp); auto; lia.
Qed.

Lemma nth_error_map_obs fm xs t x : nth_error xs t = Some x ->
  nth_error (map (observation fm) xs) t = Some (observation fm x).
Proof. intros H. apply map_nth_error; auto. Qed.

(** outputs with information *)
Lemma ewma_info_run fm cfg xs ys sF :
  0 <= com cfg -> run (EWMA_info fm cfg) xs = Some (ys, sF) ->
  let os := map (observation fm) xs in
  let i := observation fm (initial_value cfg) in
  length ys = length xs /\
  forall t x, nth_error xs t = Some x ->
    let p := rstate cfg i (firstn t os) in
    nth_error ys t = Some
     (when_enough (min_periods cfg) (firstn (t + 1) os) (fst (rstate cfg i (firstn (t + 1) os))),
      (Fin (w_old cfg (isobs (observation fm x)) (fst p) (snd p) / nwt cfg),
       Z.of_nat (count_obs (firstn (t + 1) os)))).
Proof.
  intros Hc Hr os i. destruct (run_nonempty _ _ _ _ Hr) as (x0 & r & ->).
  destruct (run_inv _ _ (inv fm cfg) x0 r ys sF (inv_init fm cfg)
              (fun pre s x => inv_step fm cfg pre s x Hc) Hr) as (Hl & _ & Ht).
  split; auto. intros t x Hx p. destruct (Ht t x Hx) as (s & (Hm & Hw & Hw0 & Hn) & _ & Hy).
  rewrite Hy. f_equal. rewrite (ewma_step_eq fm cfg s x _ _ Hc Hw Hw0 Hm). cbn [fst].
  subst p os. rewrite Nat.add_1_r, (firstn_snoc _ _ _ (nth_error_map_obs fm _ _ _ Hx)).
  rewrite rstate_snoc, count_obs_snoc. rewrite firstn_map.
  set (q := rstate cfg _ _).
  assert (En : (if isobs (observation fm x) then (nobs s + 1)%Z else nobs s) =
     Z.of_nat (count_obs (map (observation fm) (firstn t (x0 :: r))) +
       (if isobs (observation fm x) then 1 else 0))).
  { rewrite Hn. destruct (isobs _); lia. }
  rewrite En, geb_ltb. f_equal.
  - unfold when_enough. rewrite count_obs_snoc. unfold rstep. cbn [fst].
    fold i. fold q. destruct (r_mean _ _ _ _); cbn [of_option]; destruct (_ <? _)%Z; reflexivity.
Qed.

Lemma ewma_run fm cfg xs ys sF :
  0 <= com cfg -> run (EWMA fm cfg) xs = Some (ys, sF) ->
  let os := map (observation fm) xs in
  let i := observation fm (initial_value cfg) in
  length ys = length xs /\
  forall t, (t < length xs)%nat -> nth_error ys t = Some
    (when_enough (min_periods cfg) (firstn (t + 1) os) (fst (rstate cfg i (firstn (t + 1) os)))).
Proof.
  intros Hc Hr os i. destruct (run_nonempty _ _ _ _ Hr) as (x0 & r & ->).
  assert (Hs : forall pre s x, inv fm cfg pre s -> inv fm cfg (pre ++ [x])
            (snd (let '((r, _), s') := ewma_step fm cfg s x in (r, s')))).
  { intros pre s x Hi. pose proof (inv_step fm cfg pre s x Hc Hi) as H.
    destruct (ewma_step fm cfg s x) as [[? ?] ?]; exact H. }
  destruct (run_inv _ _ (inv fm cfg) x0 r ys sF (inv_init fm cfg) Hs Hr) as (Hl & _ & Ht).
  split; auto. intros t Hlt. destruct (nth_error (x0 :: r) t) as [x|] eqn:Hx;
    [|apply nth_error_None in Hx; lia].
  destruct (Ht t x Hx) as (s & (Hm & Hw & Hw0 & Hn) & _ & Hy).
  rewrite Hy. f_equal. rewrite (ewma_step_eq fm cfg s x _ _ Hc Hw Hw0 Hm). cbn [fst].
  subst os. rewrite Nat.add_1_r, (firstn_snoc _ _ _ (nth_error_map_obs fm _ _ _ Hx)).
  rewrite rstate_snoc. rewrite firstn_map. set (q := rstate cfg _ _).
  assert (En : (if isobs (observation fm x) then (nobs s + 1)%Z else nobs s) =
     Z.of_nat (count_obs (map (observation fm) (firstn t (x0 :: r))) +
       (if isobs (observation fm x) then 1 else 0))).
  { rewrite Hn. destruct (isobs _); lia. }
  rewrite En, geb_ltb. unfold when_enough. rewrite count_obs_snoc. unfold rstep. cbn [fst].
  fold i. fold q. destruct (r_mean _ _ _ _); cbn [of_option]; destruct (_ <? _)%Z; reflexivity.
Qed.

(** *** adjust=True *)
Lemma sum_over_app {A} (f : A -> R) l l' : sum_over f (l ++ l') = sum_over f l + sum_over f l'.
Proof. induction l as [|x l IH]; simpl; [lra|]. unfold sum_over in *. rewrite IH. lra. Qed.
Lemma sum_over_map {A B} (g : A -> B) (f : B -> R) l : sum_over f (map g l) = sum_over (fun x => f (g x)) l.
Proof. induction l as [|x l IH]; simpl; auto. unfold sum_over in *. rewrite IH. reflexivity. Qed.
Lemma sum_over_scal {A} (f : A -> R) c l : sum_over (fun x => c * f x) l = c * sum_over f l.
Proof. induction l as [|x l IH]; simpl; [lra|]. unfold sum_over in *. rewrite IH. lra. Qed.
Lemma sum_over_ext {A} (f g : A -> R) l : (forall x, f x = g x) -> sum_over f l = sum_over g l.
Proof. intros H. induction l as [|x l IH]; simpl; auto. unfold sum_over in *. rewrite IH, H. reflexivity. Qed.

Definition older (d : nat) (p : nat * R) : nat * R := ((d + fst p)%nat, snd p).

Lemma aged_snoc ig os o :
  aged ig (os ++ [o]) =
  map (older (if ig then (if isobs o then 1 else 0) else 1)) (aged ig os) ++
  match o with Some x => [(0%nat, x)] | None => [] end.
Proof.
  induction os as [|[y|] os IH]; simpl.
  - destruct o; simpl; auto. destruct ig; reflexivity.
  - rewrite IH. f_equal. unfold older; cbn [fst snd]. f_equal.
    rewrite count_obs_snoc, app_length. cbn [length]. destruct ig, (isobs o); lia.
  - exact IH.
Qed.

Lemma aged_nil ig os : aged ig os = [] <-> count_obs os = 0%nat.
Proof. induction os as [|[x|] os IH]; simpl; split; auto; try discriminate; apply IH. Qed.

Definition S0 (a : R) l := sum_over (fun p : nat * R => (1 - a) ^ fst p) l.
Definition S1 (a : R) l := sum_over (fun p : nat * R => (1 - a) ^ fst p * snd p) l.

Lemma S0_older a d l : S0 a (map (older d) l) = (1 - a) ^ d * S0 a l.
Proof.
  unfold S0. rewrite sum_over_map, <- sum_over_scal. apply sum_over_ext. intros [k x].
  unfold older; cbn [fst snd]. apply pow_add.
Qed.
Lemma S1_older a d l : S1 a (map (older d) l) = (1 - a) ^ d * S1 a l.
Proof.
  unfold S1. rewrite sum_over_map, <- sum_over_scal. apply sum_over_ext. intros [k x].
  unfold older; cbn [fst snd]. rewrite pow_add. ring.
Qed.

Lemma S0_pos a l : 0 < 1 - a -> l <> [] -> 0 < S0 a l.
Proof.
  intros Ha Hl. assert (G : forall m, 0 <= S0 a m).
  { intros m; induction m as [|[k x] m IH]; unfold S0 in *; simpl; [lra|].
    pose proof (pow_lt (1 - a) k Ha). lra. }
  destruct l as [|[k x] l]; [congruence|]. specialize (G l). unfold S0 in *; simpl.
  pose proof (pow_lt (1 - a) k Ha). lra.
Qed.

Lemma exp_average_S ig a os : exp_average ig a os =
  if (count_obs os =? 0)%nat then None else Some (S1 a (aged ig os) / S0 a (aged ig os)).
Proof.
  unfold exp_average. destruct (Nat.eqb_spec (count_obs os) 0) as [E|E].
  - apply (aged_nil ig) in E. rewrite E; reflexivity.
  - destruct (aged ig os) eqn:El; [apply (aged_nil ig) in El; congruence|]. reflexivity.
Qed.

Lemma al_lt1 cfg : 0 < com cfg -> 0 < 1 - al cfg.
Proof.
  intros H. unfold al. apply Rlt_Rminus. apply Rmult_lt_reg_r with (1 + com cfg); [lra|].
  unfold Rdiv. rewrite Rmult_assoc, Rinv_l; lra.
Qed.

Lemma adjust_true_state cfg i os :
  0 < com cfg -> adjust cfg = AdjTrue ->
  let l := aged (ignore_na cfg) (i :: os) in
  let p := rstate cfg i os in
  match fst p with
  | None => l = []
  | Some y => l <> [] /\ y = S1 (al cfg) l / S0 (al cfg) l /\ snd p = S0 (al cfg) l
  end.
Proof.
  intros Hc Ha. pose proof (al_lt1 cfg Hc) as Hal. induction os as [|o os IH] using rev_ind.
  - unfold rstate; cbn [fold_left fst snd]. destruct i as [v|]; [|reflexivity].
    cbn [aged count_obs length]. split; [discriminate|].
    unfold S1, S0, sum_over; simpl. replace (if ignore_na cfg then 0%nat else 0%nat) with 0%nat by (destruct (ignore_na cfg); auto).
    simpl. split; lra.
  - cbv zeta in *. rewrite rstate_snoc.
    change (i :: os ++ [o]) with ((i :: os) ++ [o]). rewrite aged_snoc.
    set (l := aged (ignore_na cfg) (i :: os)) in *.
    destruct (rstate cfg i os) as [m w] eqn:Ep. cbn [fst snd] in IH.
    unfold rstep. cbn [fst snd]. unfold r_mean, r_wt, w_old, nwt. rewrite Ha. cbn [truthy].
    destruct o as [x|]; cbn [isobs].
    + replace (if ignore_na cfg then 1%nat else 1%nat) with 1%nat by (destruct (ignore_na cfg); auto).
      destruct m as [y|].
      * destruct IH as (Hl & Hy & Hw). pose proof (S0_pos (al cfg) l Hal Hl) as Hp.
        split; [intros E; apply app_eq_nil in E; destruct E; discriminate|].
        assert (E0 : forall z, S0 (al cfg) (map (older 1) l ++ [(0%nat, z)]) = w * (1 - al cfg) + 1).
        { intros z. unfold S0 at 1. rewrite sum_over_app. fold (S0 (al cfg) (map (older 1) l)).
          rewrite S0_older, <- Hw. unfold sum_over; simpl. lra. }
        assert (E1 : S1 (al cfg) (map (older 1) l ++ [(0%nat, x)]) = w * (1 - al cfg) * y + x).
        { unfold S1 at 1. rewrite sum_over_app. fold (S1 (al cfg) (map (older 1) l)).
          rewrite S1_older. replace (S1 (al cfg) l) with (w * y).
          2:{ rewrite Hy, Hw. field. lra. } unfold sum_over; simpl. lra. }
        rewrite E0, E1. cbn [dfl]. split; [|reflexivity]. f_equal. lra.
      * rewrite IH. cbn [map app dfl]. split; [discriminate|].
        unfold S1, S0, sum_over; simpl. split; field.
    + rewrite app_nil_r. destruct m as [y|].
      * destruct IH as (Hl & Hy & Hw). pose proof (S0_pos (al cfg) l Hal Hl) as Hp.
        assert (Hl' : forall d, map (older d) l <> []).
        { intros d E. apply map_eq_nil in E. auto. }
        split; auto. rewrite S1_older, S0_older.
        destruct (ignore_na cfg); simpl; (split; [rewrite Hy; field; lra|rewrite Hw; lra]).
      * rewrite IH. reflexivity.
Qed.

Lemma ewma_adjust_true fm cfg xs ys sF :
  0 < com cfg -> adjust cfg = AdjTrue -> run (EWMA fm cfg) xs = Some (ys, sF) ->
  let os := map (observation fm) xs in
  length ys = length xs /\
  forall t, (t < length xs)%nat -> nth_error ys t = Some
    (when_enough (min_periods cfg) (firstn (t + 1) os)
      (exp_average (ignore_na cfg) (1 / (1 + com cfg))
        (observation fm (initial_value cfg) :: firstn (t + 1) os))).
Proof.
  intros Hc Ha Hr os. destruct (ewma_run fm cfg xs ys sF (Rlt_le _ _ Hc) Hr) as [Hl Ht].
  split; auto. intros t Hlt. rewrite (Ht t Hlt). do 2 f_equal.
  pose proof (adjust_true_state cfg (observation fm (initial_value cfg)) (firstn (t + 1) os) Hc Ha) as H.
  cbv zeta in H. fold os. fold (al cfg). unfold exp_average.
  destruct (fst (rstate _ _ _)) as [y|].
  - destruct H as (Hne & Hy & _). rewrite Hy.
    destruct (aged _ (_ :: _)) eqn:E; [congruence|]. reflexivity.
  - rewrite H. reflexivity.
Qed.

(** *** adjust=False *)
Lemma adjust_false_state cfg i os :
  0 <= com cfg -> adjust cfg = AdjFalse ->
  let e := fold_left (exp_recursion_step (ignore_na cfg) (al cfg)) (i :: os) None in
  let p := rstate cfg i os in
  fst p = option_map fst e /\
  match e with
  | None => True
  | Some (_, g) => snd p = (1 - al cfg) ^ (if ignore_na cfg then 0 else g)
  end.
Proof.
  intros Hc Ha. induction os as [|o os IH] using rev_ind.
  - unfold rstate; simpl. destruct i; simpl; split; auto. destruct (ignore_na cfg); auto.
  - cbv zeta in *. rewrite rstate_snoc. change (i :: os ++ [o]) with ((i :: os) ++ [o]).
    rewrite fold_left_app. set (e := fold_left _ (i :: os) None) in *.
    destruct (rstate cfg i os) as [m w]. cbn [fst snd] in IH. destruct IH as [Em Ew]. subst m.
    cbn [fold_left]. unfold rstep, r_mean, r_wt, w_old, nwt. rewrite Ha. cbn [truthy fst snd].
    destruct e as [[y g]|]; cbn [option_map fst]; destruct o as [x|];
      cbn [exp_recursion_step option_map fst isobs dfl]; split; auto.
    + subst w. do 2 f_equal.
      * f_equal. f_equal. destruct (ignore_na cfg); simpl; lra.
      * f_equal. destruct (ignore_na cfg); simpl; lra.
    + destruct (ignore_na cfg); reflexivity.
    + subst w. destruct (ignore_na cfg); simpl; lra.
    + f_equal. pose proof (al_pos cfg Hc). field. lra.
    + destruct (ignore_na cfg); reflexivity.
Qed.

Lemma ewma_adjust_false fm cfg xs ys sF :
  0 <= com cfg -> adjust cfg = AdjFalse -> run (EWMA fm cfg) xs = Some (ys, sF) ->
  let os := map (observation fm) xs in
  length ys = length xs /\
  forall t, (t < length xs)%nat -> nth_error ys t = Some
    (when_enough (min_periods cfg) (firstn (t + 1) os)
      (exp_recursion (ignore_na cfg) (1 / (1 + com cfg))
        (observation fm (initial_value cfg) :: firstn (t + 1) os))).
Proof.
  intros Hc Ha Hr os. destruct (ewma_run fm cfg xs ys sF Hc Hr) as [Hl Ht].
  split; auto. intros t Hlt. rewrite (Ht t Hlt). do 2 f_equal.
  apply (proj1 (adjust_false_state cfg _ _ Hc Ha)).
Qed.

(** closed form on complete data *)
Fixpoint sum_upto (n : nat) (f : nat -> R) : R :=
  match n with O => 0 | S n => sum_upto n f + f n end.

Lemma exp_recursion_complete ig a x0 r :
  exp_recursion ig a (map Some (x0 :: r)) =
  Some ((1 - a) ^ length r * x0 + a * sum_over (fun p => (1 - a) ^ fst p * snd p) (aged false (map Some r))).
Proof.
  unfold exp_recursion.
  assert (G : fold_left (exp_recursion_step ig a) (map Some (x0 :: r)) None =
    Some ((1 - a) ^ length r * x0 + a * S1 a (aged false (map Some r)), 0%nat)).
  { induction r as [|x r IH] using rev_ind.
    - simpl. unfold S1, sum_over; simpl. do 2 f_equal. lra.
    - change (x0 :: r ++ [x]) with ((x0 :: r) ++ [x]). rewrite map_app, fold_left_app, IH.
      cbn [map fold_left exp_recursion_step]. rewrite map_app. cbn [map]. rewrite aged_snoc.
      cbn [isobs]. unfold S1 at 2. rewrite sum_over_app. fold (S1 a (map (older 1) (aged false (map Some r)))).
      rewrite S1_older, app_length. cbn [length]. rewrite Nat.add_1_r.
      replace (if ig then 1%nat else 1%nat) with 1%nat by (destruct ig; auto).
      replace ((1 - a) ^ 1 + a) with 1 by ring.
      do 2 f_equal. unfold sum_over; simpl. field. }
  rewrite G. reflexivity.
Qed.

Lemma exp_recursion_complete_next ig a os x y :
  exp_recursion ig a (map Some os) = Some y ->
  exp_recursion ig a (map Some (os ++ [x])) = Some ((1 - a) * y + a * x).
Proof.
  destruct os as [|x0 r]; [discriminate|]. rewrite exp_recursion_complete.
  intros H; injection H as <-. change ((x0 :: r) ++ [x]) with (x0 :: r ++ [x]).
  rewrite exp_recursion_complete. rewrite map_app; cbn [map]. rewrite aged_snoc; cbn [isobs].
  fold (S1 a (map (older 1) (aged false (map Some r)) ++ [(0%nat, x)])).
  fold (S1 a (aged false (map Some r))).
  unfold S1 at 1. rewrite sum_over_app. fold (S1 a (map (older 1) (aged false (map Some r)))).
  rewrite S1_older, app_length. cbn [length]. rewrite Nat.add_1_r. unfold sum_over; simpl.
  f_equal. ring.
Qed.
