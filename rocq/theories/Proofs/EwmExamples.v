(** Concrete cases for Props/PEwm.v, and the aliasing lemma. *)
From Coq Require Import List ZArith Reals Lra Lia Bool.
From Verif Require Import Model.Unroll Model.Float Model.Modules Model.Ewm Spec.EwmSpec
  Proofs.FloatFacts Proofs.ListFacts Proofs.RunFacts Proofs.EwmFacts Proofs.EwmProofs Proofs.EwmExtra
  Proofs.NumbaProofs.
Import ListNotations.
Local Open Scope R_scope.

Ltac fin_eq := repeat (f_equal; try lra); try (field; lra).

Lemma outs_nth fm cfg xs ys sF out :
  0 <= com cfg -> run (EWMA fm cfg) xs = Some (ys, sF) -> length out = length xs ->
  (forall t, (t < length xs)%nat -> nth_error out t = Some (when_enough (min_periods cfg) (firstn (t + 1) (map (observation fm) xs))
     (fst (rstate cfg (observation fm (initial_value cfg)) (firstn (t + 1) (map (observation fm) xs)))))) -> ys = out.
Proof.
  intros Hc Hr Hl H. destruct (ewma_run fm cfg xs ys sF Hc Hr) as [Hl' H'].
  apply nth_error_ext. intros t. destruct (Nat.lt_ge_cases t (length xs)) as [Hlt|Hge].
  - rewrite H, H' by auto. auto.
  - transitivity (@None fl); [|symmetry]; apply nth_error_None; lia.
Qed.

Ltac ewma_ex :=
  match goal with |- exists sF, run (EWMA ?fm ?cfg) ?xs = Some (?out, sF) =>
    destruct (run_total (fun _ : fl => ewma_init cfg)
      (fun s x => let '((r, _), s') := ewma_step fm cfg s x in (r, s')) (hd NaN xs) (tl xs)) as (ys & sF & H);
    exists sF; change (run (EWMA fm cfg) xs = Some (ys, sF)) in H; rewrite H; do 2 f_equal;
    apply (outs_nth fm cfg xs ys sF out); [simpl; lra|exact H|reflexivity|];
    intros t Ht; simpl in Ht;
    repeat (destruct t as [|t]; [unfold rstate, rstep, r_mean, r_wt, w_old, nwt, al, when_enough, Rmin; cbn;
      repeat match goal with |- context [Rle_dec ?a ?b] => destruct (Rle_dec a b); try (exfalso; lra) end;
      do 2 f_equal; lra|]); lia
  end.

Lemma ewma_example_true : exists sF, run (EWMA 1000 (EwmaCfg 1 0 AdjTrue true NaN)) [Fin 3; NaN; Fin 6] =
    Some ([Fin 3; Fin 3; Fin 5], sF).
Proof. ewma_ex. Qed.
Lemma ewma_example_false : exists sF, run (EWMA 1000 (EwmaCfg 1 0 AdjFalse false NaN)) [Fin 3; NaN; Fin 6] =
    Some ([Fin 3; Fin 3; Fin 5], sF).
Proof. ewma_ex. Qed.
Lemma ewma_example_linear : exists sF, run (EWMA 1000 (EwmaCfg 3 0 AdjLinear false NaN)) [Fin 3; Fin 5; Fin 10] =
    Some ([Fin 3; Fin 4; Fin 6], sF).
Proof. ewma_ex. Qed.

(** evaluation of float expressions on literals *)
Ltac fl_decide :=
  match goal with
  | |- context [Req_b ?a ?b] =>
      first [rewrite (Req_b_neq a b) by lra | replace (Req_b a b) with true by (symmetry; replace a with b by lra; apply Req_b_refl)]
  | |- context [Rlt_b ?a ?b] =>
      first [rewrite (Rlt_b_true a b) by lra | rewrite (Rlt_b_false a b) by lra]
  | |- context [Rle_b ?a ?b] =>
      first [rewrite (Rle_b_true a b) by lra | rewrite (Rle_b_false a b) by lra]
  end.
Ltac fl_eval := cbn; repeat (fl_decide; cbn).

Lemma ewmvar_example :
  exists sF, run (EWMVar 1 AdjFalse) [NaN; Fin 1; Fin 3] = Some ([Fin 0; Fin 0; Fin 1], sF).
Proof.
  eexists. unfold EWMVar. rewrite run_eq. unfold stepf, ewmvar_step. fl_eval. fin_eq.
Qed.

Lemma ewmcov_example :
  exists sF, run (EWMCov 1000 (EwmaCfg 1 0 AdjFalse false NaN) false)
    [([Fin 1; Fin 2], [Fin 1; Fin 2]); ([Fin 3; Fin 2], [Fin 3; Fin 2])] =
    Some ([ [[Fin 0; Fin 0]; [Fin 0; Fin 0]]; [[Fin 1; Fin 0]; [Fin 0; Fin 0]] ], sF).
Proof.
  eexists. unfold EWMCov. rewrite run_eq. unfold stepf, ewmcov_step, ewma_mat, ewma_vec, ewma_step.
  fl_eval.
  match goal with |- Some (?a, ?b) = Some (?c, _) => replace a with c; [reflexivity|] end. fin_eq.
Qed.

Lemma numba_example :
  exists sF, numba_ewma (EwmaCfg 1 0 AdjTrue true NaN) [[Fin 3; NaN]; [NaN; Fin 1]; [Fin 6; Fin 1]] None =
    Some ([[Fin 3; NaN]; [Fin 3; Fin 1]; [Fin 5; Fin 1]], sF).
Proof.
  eexists. unfold numba_ewma, numba_rows, numba_row, numba_cell, fne. fl_eval. fin_eq.
Qed.

Lemma numba_resume_example :
  exists s1 s2,
    numba_ewma (EwmaCfg 1 0 AdjTrue true NaN) [[Fin 3]; [NaN]] None = Some ([[Fin 3]; [Fin 3]], s1) /\
    numba_ewma (EwmaCfg 1 0 AdjTrue true NaN) [[Fin 6]] (Some s1) = Some ([[Fin 5]], s2).
Proof.
  do 2 eexists. unfold numba_ewma, numba_rows, numba_row, numba_cell, fne. fl_eval. split; [reflexivity|].
  fl_eval. fin_eq.
Qed.

Lemma nth_error_update {A} (l : list A) k x j : (k < length l)%nat ->
  nth_error (firstn k l ++ x :: skipn (S k) l) j = if (j =? k)%nat then Some x else nth_error l j.
Proof.
  intros Hk. assert (Hf : length (firstn k l) = k) by (rewrite firstn_length; lia).
  destruct (Nat.eqb_spec j k) as [->|Hne].
  - rewrite nth_error_app2, Hf, Nat.sub_diag by lia. reflexivity.
  - destruct (Nat.lt_ge_cases j k).
    + rewrite nth_error_app1 by lia. apply nth_error_firstn; auto.
    + rewrite nth_error_app2, Hf by lia. destruct (j - k)%nat as [|d] eqn:E; [lia|].
      cbn [nth_error]. rewrite nth_error_skipn. f_equal. lia.
Qed.

Lemma numba_aliasing cfg objs ref v1 v2 r1 objs1 ref1 r2 objs2 ref2 ss :
  nth_error objs ref = Some ss ->
  numba_call cfg objs v1 ref = Some (r1, objs1, ref1) ->
  numba_call cfg objs1 v2 ref = Some (r2, objs2, ref2) ->
  ref1 = ref /\ (forall k, k <> ref -> nth_error objs1 k = nth_error objs k) /\
  exists sF, numba_ewma cfg (v1 ++ v2) (Some ss) = Some (r1 ++ r2, sF) /\ nth_error objs2 ref = Some sF.
Proof.
  intros Hs H1 H2. assert (Hlt : (ref < length objs)%nat) by (eapply nth_lt; eauto).
  unfold numba_call in H1. rewrite Hs in H1.
  destruct (numba_ewma cfg v1 (Some ss)) as [[a1 s1]|] eqn:E1; [|discriminate].
  assert (objs1 = firstn ref objs ++ s1 :: skipn (S ref) objs) by congruence.
  assert (r1 = a1) by congruence. assert (ref1 = ref) by congruence. subst. clear H1.
  unfold numba_call in H2. rewrite nth_error_update, Nat.eqb_refl in H2 by auto.
  destruct (numba_ewma cfg v2 (Some s1)) as [[a2 s2]|] eqn:E2; [|discriminate].
  set (objs1 := firstn ref objs ++ s1 :: skipn (S ref) objs) in *.
  assert (objs2 = firstn ref objs1 ++ s2 :: skipn (S ref) objs1) by congruence.
  assert (r2 = a2) by congruence. assert (ref2 = ref) by congruence. subst objs2 r2 ref2. clear H2.
  split; auto. split.
  - intros k Hk. unfold objs1. rewrite nth_error_update by auto. destruct (Nat.eqb_spec k ref); congruence.
  - exists s2. split; [eapply numba_resume; eauto|].
    rewrite nth_error_update, Nat.eqb_refl; auto.
    unfold objs1. rewrite app_length, firstn_length. cbn [length]. rewrite skipn_length. lia.
Qed.

Lemma numba_replay_refuted :
  exists cfg objs v r1 objs1 r2 objs2,
  numba_call cfg objs v 0 = Some (r1, objs1, 0%nat) /\
  numba_call cfg objs1 v 0 = Some (r2, objs2, 0%nat) /\ r1 <> r2.
Proof.
  exists (EwmaCfg 1 0 AdjFalse false NaN), [[EwmaState (Fin 0) (Fin 1) 0]], [[Fin 1]].
  do 4 eexists. unfold numba_call, numba_ewma, numba_rows, numba_row, numba_cell, fne.
  split; [|split].
  - fl_eval. reflexivity.
  - fl_eval. reflexivity.
  - intros H. injection H. clear H. intros E.
    match type of E with context [Req_b ?a ?b] =>
      replace a with (1 / 2) in E by (field; lra); rewrite (Req_b_neq (1 / 2) b) in E by lra end.
    cbn [negb] in E. injection E. clear E. intros E.
    match type of E with ?a = ?b =>
      try (replace a with (1 / 2) in E by (field; lra)); replace b with (3 / 4) in E by (field; lra) end.
    lra.
Qed.

(** A run with a missing first input, then two observations, min_periods = 2. *)
Lemma ewma_info_example : exists sF,
  run (EWMA_info 1000 (EwmaCfg 1 2 AdjTrue true NaN)) [NaN; Fin 3; Fin 6] =
  Some ([(NaN, (Fin 0, 0%Z)); (NaN, (Fin 0, 1%Z)); (Fin 5, (Fin (1/2), 2%Z))], sF).
Proof.
  set (cfg := EwmaCfg 1 2 AdjTrue true NaN).
  destruct (run_total (fun _ : fl => ewma_init cfg) (ewma_step 1000 cfg) NaN [Fin 3; Fin 6]) as (ys & sF & H).
  change (run (EWMA_info 1000 cfg) [NaN; Fin 3; Fin 6] = Some (ys, sF)) in H. exists sF. rewrite H. do 2 f_equal.
  destruct (ewma_info_run 1000 cfg _ ys sF ltac:(simpl; lra) H) as [Hl Ht].
  apply nth_error_ext. intros t. destruct (Nat.lt_ge_cases t 3) as [Hlt|Hge].
  - pose proof (Ht 0%nat _ eq_refl) as H0. pose proof (Ht 1%nat _ eq_refl) as H1. pose proof (Ht 2%nat _ eq_refl) as H2. cbv zeta in H0, H1, H2.
    do 3 (destruct t as [|t]; [match goal with H : nth_error ys ?k = _ |- nth_error ys ?k = _ => rewrite H end;
      unfold rstate, rstep, r_mean, r_wt, w_old, nwt, al, when_enough; cbn;
      apply f_equal; apply (f_equal2 pair); [try reflexivity; apply f_equal|apply (f_equal2 pair); [apply f_equal|reflexivity]];
      try lra; field; lra|]); lia.
  - transitivity (@None (fl * (fl * Z))); [|symmetry]; apply nth_error_None; [rewrite Hl|]; simpl; lia.
Qed.
