(** Corollaries on runs, and concrete cases for Props/PAnalysis.v. *)
From Coq Require Import String List ZArith Reals Lra Lia Bool.
From Verif Require Import Model.Unroll Model.Batch Model.Float Model.Modules Model.Ewm Model.Dynamics Model.Newton Model.Optim
  Spec.EwmSpec Spec.CovSpec Spec.SeriesSpec Spec.DynSpec Spec.NewtonSpec Spec.OptimSpec Spec.AnalysisSpec
  Proofs.FloatFacts Proofs.ListFacts Proofs.RunFacts Proofs.EwmFacts Proofs.EwmProofs Proofs.EwmExtra Proofs.EwmExamples
  Proofs.DynProofs Proofs.DynProofs2 Proofs.NewtonProofs
  Proofs.AnalysisProofs Proofs.AnalysisProofs2 Proofs.AnalysisProofs3 Proofs.AnalysisProofs4 Proofs.AnalysisProofs5.
Import ListNotations.
Local Open Scope list_scope.
Local Open Scope R_scope.

Lemma pct_compounds' m meth x0 (os : list (option R)) ys sF zs sG :
  PctChange 1 meth true = Some m -> x0 <> 0 -> Forall (fun o => o <> Some 0) os ->
  run m (Fin x0 :: map of_option os) = Some (ys, sF) ->
  run Ffill (Fin x0 :: map of_option os) = Some (zs, sG) ->
  exists ps, ys = NaN :: map Fin ps /\ length ps = length os /\
    forall t, (t <= length os)%nat -> nth_error zs t = Some (Fin (x0 * rprod (map (Rplus 1) (firstn t ps)))).
Proof.
  intros Hm Hx Hf. apply (pct_compounds m meth); auto. eapply Forall_impl; [|exact Hf].
  intros [y|]; simpl; auto. intros H E; apply H; congruence.
Qed.

Lemma arma_run_stable alpha beta eps outs sF E :
  abs_sum alpha < 1 -> 0 <= E -> Forall (fun e => Rabs e <= E) eps ->
  run (ARMA (map Fin alpha) (map Fin beta)) (map Fin eps) = Some (outs, sF) ->
  forall t y, nth_error outs t = Some y ->
  exists r, y = Fin r /\ Rabs r <= (1 + abs_sum beta) * E / (1 - abs_sum alpha).
Proof.
  intros HA HE Hf Hr t y Hy. destruct (arma_run alpha beta eps outs sF Hr) as (ys & -> & Hrec).
  rewrite nth_error_map in Hy. destruct (nth_error ys t) as [r|] eqn:Er; [|discriminate].
  injection Hy as <-. exists r. split; auto.
  assert (Ht : (t < length eps)%nat). { destruct Hrec as [L _]. rewrite <- L. apply nth_error_Some. congruence. }
  pose proof (arma_stable alpha beta eps ys E HA HE Hrec) as H.
  rewrite (nth_error_nth _ _ 0 Er) in H || idtac.
  specialize (H (fun k Hk => proj1 (Forall_forall _ _) Hf _ (nth_In _ 0 Hk)) t Ht).
  rewrite (nth_error_nth _ _ 0 Er) in H. exact H.
Qed.

Lemma arma_run_forgets alpha beta e1 e2 o1 s1 o2 s2 s D :
  abs_sum alpha < 1 -> 0 <= D -> length e1 = length e2 ->
  run (ARMA (map Fin alpha) (map Fin beta)) (map Fin e1) = Some (o1, s1) ->
  run (ARMA (map Fin alpha) (map Fin beta)) (map Fin e2) = Some (o2, s2) ->
  (forall k, (k <= s)%nat -> Rabs (nth k e1 0 - nth k e2 0) <= D) ->
  (forall k, (s < k)%nat -> nth_error e1 k = nth_error e2 k) ->
  forall n t, (t < length e1)%nat -> (s + length beta + n * length alpha < t)%nat ->
  exists a b, nth_error o1 t = Some (Fin a) /\ nth_error o2 t = Some (Fin b) /\
    Rabs (a - b) <= abs_sum alpha ^ n * ((1 + abs_sum beta) * D / (1 - abs_sum alpha)).
Proof.
  intros HA HD Hl Hr1 Hr2 Hc Hq n t Ht Hn.
  destruct (arma_run alpha beta e1 o1 s1 Hr1) as (y1 & -> & R1).
  destruct (arma_run alpha beta e2 o2 s2 Hr2) as (y2 & -> & R2).
  exists (nth t y1 0), (nth t y2 0).
  split; [apply map_nth_error, nth_error_nth'; destruct R1; lia|].
  split; [apply map_nth_error, nth_error_nth'; destruct R2; lia|].
  apply (arma_forgets alpha beta e1 e2 y1 y2 s); auto.
  intros k Hk. specialize (Hq k Hk). destruct (nth_error e1 k) as [a|] eqn:E1; symmetry in Hq.
  - rewrite (nth_error_nth _ _ 0 E1), (nth_error_nth _ _ 0 Hq). reflexivity.
  - rewrite !nth_overflow; auto; apply nth_error_None; auto.
Qed.

(** *** cases *)
Lemma forget_case1 : exists sF, run (EWMA 1000 (EwmaCfg 1 0 AdjTrue true NaN)) [Fin 3; NaN; Fin 6] = Some ([Fin 3; Fin 3; Fin 5], sF).
Proof. exact ewma_example_true. Qed.
Lemma forget_case2 : exists sF, run (EWMA 1000 (EwmaCfg 1 0 AdjTrue true NaN)) [Fin 9; NaN; Fin 6] = Some ([Fin 9; Fin 9; Fin 7], sF).
Proof. ewma_ex. Qed.

Lemma newton_case : exists us H, newton_run 1 (newton_init 1 1) [(fun _ => 2); (fun _ => 1)] = (us, H) /\
  map (fun u => u 0%nat) us = [2 / 5; 1 / 6].
Proof.
  destruct (newton_run 1 (newton_init 1 1) [(fun _ => 2); (fun _ => 1)]) as [us H] eqn:E.
  exists us, H. split; auto. cbn in E. injection E as <- <-. cbn. unfold newton_init, sherman_morrison, matmul, vecmat, matvec, vdot, outer, eye; cbn.
  f_equal; [field|f_equal; field].
Qed.

(** a linear loss x * w, with its exact gradient *)
Definition wkey : pkey := ("m"%string, "w"%string).
Definition lin_model : transformed unit (pmap array) unit R (fl * unit) :=
  @Transformed unit (pmap array) unit R (fl * unit) (fun _ _ => ([(wkey, [Fin 0])], tt))
    (fun p s _ x => ((fmul (Fin x) (match get wkey p with Some [w] => w | _ => NaN end), tt), s)).
Definition lin_grad (f : pmap array -> fl) (_ : pmap array) : pmap array :=
  [(wkey, [fsub (f [(wkey, [Fin 1])]) (f [(wkey, [Fin 0])])])].
Definition sgd (lr : R) : gradient_transformation unit array :=
  GradTrans (fun _ => tt) (fun g os => (map (fun kv : pkey * array => (fst kv, map (fmul (Fin (- lr))) (snd kv))) g, os)).

Lemma lin_point p v : at_point [(wkey, [Fin 0])] p v -> exists r, p = [(wkey, [Fin r])] /\ v = [r].
Proof.
  intros [S E]. unfold same_shape in S. destruct p as [|[k a] [|]]; try discriminate. cbn in S. injection S as -> L.
  destruct a as [|x [|]]; try discriminate. unfold entries in E. cbn in E.
  destruct v as [|r [|]]; try discriminate. injection E as ->. exists r. auto.
Qed.

Lemma ogd_case : exists outs sF,
  unroll (fun k : unit => (k, k)) (OnlineOptimizer (fun k => (k, k)) 1000 lin_model (sgd (1/2)) None None (fun _ _ => true) true lin_grad)
    false (Some tt) None None [1; Ropp 1; 1] = Some (outs, sF) /\
  exists ls, map loss outs = map Fin ls /\
    sum_n (length ls) (fun t => nth t ls 0 - nth t [1; Ropp 1; 1] 0 * (Ropp 1)) <= 1 / (2 * (1 / 2)) + 1 / 2 * 1 / 2 * 3.
Proof.
  destruct (@ogd_regret unit unit R unit unit (fun k => (k, k)) 1000 lin_model (sgd (1/2)) None None (fun _ _ => true) true lin_grad
    (1/2) 1 tt 1 [Ropp 1; 1] [(wkey, [Fin 0])] tt [0] [Ropp 1] [(wkey, [Fin (Ropp 1)])])
    as (outs & sF & ls & cs & ms & Hr & Hl & Lc & _ & Hc & Hb).
  - lra.
  - intros g os. reflexivity.
  - reflexivity.
  - cbn. constructor; [intros []|constructor].
  - split; reflexivity.
  - split; reflexivity.
  - intros s x p v Hx Hp. cbn [partition fst snd filter negb] in *. destruct (lin_point p v Hp) as (r & -> & ->).
    exists [x * 1 + - (x * 0)], (x * r), (x * Ropp 1). split; [split; reflexivity|].
    split; [|split; [reflexivity|split; [reflexivity|]]].
    + unfold sq_norm; cbn. destruct Hx as [<-|[<-|[<-|[]]]]; lra.
    + unfold inner_diff; cbn. lra.
  - intros proj p v H. discriminate.
  - exists outs, sF. split; [exact Hr|]. exists ls. split; [exact Hl|].
    assert (E3 : length ls = 3%nat).
    { rewrite <- (map_length Fin), <- Hl, map_length. pose proof (f_equal (option_map fst) Hr) as Hr'. cbn in Hr'. injection Hr' as <-. reflexivity. }
    rewrite E3 in *. pose proof (Hc 0%nat 1 eq_refl) as H0. pose proof (Hc 1%nat (Ropp 1) eq_refl) as H1. pose proof (Hc 2%nat 1 eq_refl) as H2.
    cbn in H0, H1, H2. destruct cs as [|c0 [|c1 [|c2 [|]]]]; try discriminate.
    cbn in H0, H1, H2. injection H0 as ->. injection H1 as ->. injection H2 as ->.
    cbn [sum_n nth] in *. unfold sq_dist in Hb. cbn [sum_n nth length INR] in Hb. lra.
Qed.

Lemma ewmvar_case : exists sV, run (EWMVar 1 AdjFalse) [Fin 1; Fin 3] = Some ([Fin 0; Fin 1], sV).
Proof. eexists. unfold EWMVar. rewrite run_eq. unfold stepf, ewmvar_step. fl_eval. fin_eq. Qed.

Lemma arma_case : abs_sum [1/2] < 1 /\
  exists sF, run (ARMA [Fin (1/2)] [Fin (1/4)]) [Fin 1; Fin (Ropp 1); Fin 1] = Some ([Fin 1; Fin (Ropp (1/4)); Fin (5/8)], sF).
Proof.
  split; [unfold abs_sum; simpl; rewrite Rabs_pos_eq; lra|].
  destruct (run (ARMA [Fin (1/2)] [Fin (1/4)]) [Fin 1; Fin (Ropp 1); Fin 1]) as [[outs sF]|] eqn:E; [|discriminate].
  exists sF. do 2 f_equal.
  destruct (arma_run [1/2] [1/4] [1; Ropp 1; 1] outs sF E) as (ys & -> & L & H).
  destruct ys as [|a [|b [|c [|d ys]]]]; try discriminate.
  pose proof (H 0%nat ltac:(cbn; auto)) as H0. pose proof (H 1%nat ltac:(cbn; auto)) as H1.
  pose proof (H 2%nat ltac:(cbn; auto)) as H2.
  unfold arma_value, lagged in *. cbn in *. repeat f_equal; lra.
Qed.
