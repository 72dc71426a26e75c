(** The compiled exponential average with rounding: columns, constant series. *)
From Coq Require Import List ZArith Reals Lra Lia Bool.
From Verif Require Import Model.Unroll Model.Float Model.Modules Model.Ewm Model.Rounded Model.RoundedNumba Spec.EwmSpec
  Spec.RoundSpec Proofs.FloatFacts Proofs.ListFacts Proofs.RunFacts Proofs.EwmFacts Proofs.EwmProofs Proofs.EwmExtra Proofs.EwmcovProofs.
Import ListNotations.
Local Open Scope R_scope.

(** tie with the exact model *)
Lemma numba_exact cfg values state : numba_ewma_r (fun v => v) cfg values state = numba_ewma cfg values state.
Proof. reflexivity. Qed.

(** one column as a module *)
Definition numba_mod (rnd : fl -> fl) (cfg : ewma_cfg) :=
  hk_module (fun _ : fl => ewma_init cfg) (numba_cell_r rnd cfg).

Lemma rows_col rnd cfg values : forall ss j s,
  nth_error ss j = Some s -> Forall (fun row => length row = length ss) values ->
  map (fun row => nth j row NaN) (fst (numba_rows_r rnd cfg ss values)) =
    snd (lax_scan (stepf (numba_cell_r rnd cfg)) s (map (fun row => nth j row NaN) values)).
Proof.
  induction values as [|row values IH]; intros ss j s Hs Hv; [reflexivity|].
  cbn [numba_rows_r map lax_scan].
  pose proof (Forall_inv Hv) as Hr. pose proof (Forall_inv_tail Hv) as Hv'. cbn beta in Hr. unfold numba_row_r.
  set (r := map2 (numba_cell_r rnd cfg) ss row).
  assert (Hlen : length r = length ss) by (unfold r; rewrite length_map2, Hr; lia).
  assert (Hj : (j < length ss)%nat) by (eapply nth_lt; eauto).
  assert (Hrj : nth_error r j = Some (numba_cell_r rnd cfg s (nth j row NaN))).
  { unfold r. rewrite nth_error_map2, Hs. rewrite (nth_error_nth' row NaN) by lia. auto. }
  specialize (IH (map snd r) j (snd (numba_cell_r rnd cfg s (nth j row NaN)))).
  rewrite nth_error_map, Hrj in IH. specialize (IH eq_refl). rewrite map_length, Hlen in IH.
  specialize (IH Hv'). unfold stepf at 1.
  destruct (numba_cell_r rnd cfg s (nth j row NaN)) as [y s'] eqn:Ec. cbn [fst snd] in *.
  destruct (numba_rows_r rnd cfg (map snd r) values) as [rs sF].
  destruct (lax_scan _ s' _) as [sC ys]. cbn [fst snd map] in *.
  f_equal; [|exact IH]. apply nth_error_nth. rewrite nth_error_map, Hrj. reflexivity.
Qed.

Lemma rows_shape rnd cfg values : forall ss p, length ss = p -> Forall (fun row => length row = p) values ->
  length (fst (numba_rows_r rnd cfg ss values)) = length values /\
  Forall (fun row => length row = p) (fst (numba_rows_r rnd cfg ss values)).
Proof.
  induction values as [|row values IH]; intros ss p Hs Hv; cbn [numba_rows_r]; [auto|].
  pose proof (Forall_inv Hv) as Hr. cbn beta in Hr. unfold numba_row_r.
  assert (Hlen : length (map2 (numba_cell_r rnd cfg) ss row) = p) by (rewrite length_map2; lia).
  destruct (IH (map snd (map2 (numba_cell_r rnd cfg) ss row)) p) as (A & B).
  { rewrite map_length; auto. } { exact (Forall_inv_tail Hv). }
  destruct (numba_rows_r _ _ _ values) as [rs sF]. cbn [fst length] in *.
  split; [auto|]. constructor; auto. rewrite map_length; auto.
Qed.

Lemma numba_columns rnd cfg (table : list (list fl)) p res sF :
  Forall (fun row => length row = p) table ->
  numba_ewma_r rnd cfg table None = Some (res, sF) ->
  0 < com cfg /\ length res = length table /\ Forall (fun row => length row = p) res /\
  forall j, (j < p)%nat -> exists s,
    run (numba_mod rnd cfg) (map (fun row => nth j row NaN) table) = Some (map (fun row => nth j row NaN) res, s).
Proof.
  intros Hlen Hn. unfold numba_ewma_r in Hn. destruct (Rlt_b_spec 0 (com cfg)) as [Hc|]; [|discriminate].
  destruct table as [|row0 table']; [discriminate|].
  set (ss := map (fun _ => ewma_init cfg) row0) in *.
  assert (Hss : length ss = p) by (unfold ss; rewrite map_length; exact (Forall_inv Hlen)).
  assert (Hn' : numba_rows_r rnd cfg ss (row0 :: table') = (res, sF)) by congruence.
  destruct (rows_shape rnd cfg (row0 :: table') ss p Hss Hlen) as (A & B). rewrite Hn' in A, B. cbn [fst] in A, B.
  split; [exact Hc|split; [exact A|split; [exact B|]]]. intros j Hj.
  assert (Hs : nth_error ss j = Some (ewma_init cfg)).
  { unfold ss. rewrite nth_error_map. destruct (nth_error row0 j) eqn:E; auto. apply nth_error_None in E.
    unfold ss in Hss. rewrite map_length in Hss. lia. }
  assert (H := rows_col rnd cfg (row0 :: table') ss j (ewma_init cfg) Hs). rewrite Hss, Hn' in H. cbn [fst] in H.
  rewrite (H Hlen). eexists. unfold numba_mod. cbn [map].
  rewrite (run_eq (fun _ : fl => ewma_init cfg) (numba_cell_r rnd cfg)). reflexivity.
Qed.

(** *** constant series *)
Lemma fne_refl c : fne (Fin c) (Fin c) = false.
Proof. unfold fne, feq. rewrite Req_b_refl. reflexivity. Qed.

Lemma numba_constant_run rnd cfg c xs ys s :
  initial_value cfg = NaN \/ initial_value cfg = Fin c ->
  Forall (fun x => x = NaN \/ x = Fin c) xs ->
  run (numba_mod rnd cfg) xs = Some (ys, s) ->
  length ys = length xs /\
  forall t y, nth_error ys t = Some y ->
    let os := map (observation 0) (firstn (t + 1) xs) in
    y = when_enough (min_periods cfg) os
          match valid_obs (observation 0 (initial_value cfg) :: os) with [] => None | _ => Some c end.
Proof.
  intros Hi Hxs Hr. destruct (run_nonempty _ _ _ _ Hr) as (x0 & r & ->).
  set (i := observation 0 (initial_value cfg)).
  pose (Inv := fun (pre : list fl) (s : ewma_state) => Forall (fun x => x = NaN \/ x = Fin c) pre ->
     ew_mean s = of_option match valid_obs (i :: map (observation 0) pre) with [] => None | _ => Some c end /\
     nobs s = Z.of_nat (count_obs (map (observation 0) pre))).
  assert (I0 : Inv [] (ewma_init cfg)).
  { intros _. split; [|reflexivity]. unfold i. destruct Hi as [E|E]; cbn [ewma_init ew_mean]; rewrite E; reflexivity. }
  assert (V : forall pre x, Forall (fun x => x = NaN \/ x = Fin c) pre -> x = NaN \/ x = Fin c ->
     match valid_obs (i :: map (observation 0) (pre ++ [x])) with [] => None | _ => Some c end =
     if isnan x then match valid_obs (i :: map (observation 0) pre) with [] => None | _ => Some c end else Some c).
  { intros pre x _ Hx. rewrite map_app. cbn [map].
    assert (G : forall l, valid_obs (l ++ [observation 0 x]) = valid_obs l ++ valid_obs [observation 0 x]).
    { induction l as [|[v|] l IH]; cbn [app valid_obs]; auto. rewrite IH. reflexivity. }
    rewrite app_comm_cons, G. set (V0 := valid_obs (i :: map (observation 0) pre)). destruct Hx as [->| ->]; cbn [observation valid_obs isnan].
    - rewrite app_nil_r. reflexivity.
    - destruct V0; reflexivity. }
  assert (St : forall pre s x, Inv pre s -> Forall (fun x => x = NaN \/ x = Fin c) pre -> x = NaN \/ x = Fin c ->
     let rr := numba_cell_r rnd cfg s x in
     ew_mean (snd rr) = of_option match valid_obs (i :: map (observation 0) (pre ++ [x])) with [] => None | _ => Some c end /\
     nobs (snd rr) = Z.of_nat (count_obs (map (observation 0) (pre ++ [x]))) /\
     fst rr = if Z.geb (nobs (snd rr)) (min_periods cfg) then ew_mean (snd rr) else NaN).
  { intros pre st x HI Hpre Hx. destruct (HI Hpre) as (Hm & Hn). cbv zeta. rewrite (V pre x Hpre Hx).
    rewrite map_app. cbn [map]. rewrite count_obs_snoc. unfold numba_cell_r. rewrite Hm.
    set (m := match valid_obs (i :: map (observation 0) pre) with [] => None | _ => Some c end) in *.
    assert (Mc : m = None \/ m = Some c) by (unfold m; destruct (valid_obs _); auto). clearbody m.
    destruct Hx as [->| ->]; destruct Mc as [->| ->]; cbn [of_option isnan negb orb observation isobs];
      rewrite ?fne_refl;
      destruct (adjust cfg), (ignore_na cfg); cbn [orb negb fst snd ew_mean nobs]; rewrite ?Hn;
      (split; [reflexivity|split; [lia|reflexivity]]). }
  assert (Hs2 : forall pre s x, Inv pre s -> Inv (pre ++ [x]) (snd (numba_cell_r rnd cfg s x))).
  { intros pre st x HI Hpre. apply Forall_app in Hpre. destruct Hpre as [Hpre Hx].
    destruct (St pre st x HI Hpre (Forall_inv Hx)) as (A & B & _). split; assumption. }
  destruct (run_inv (fun _ : fl => ewma_init cfg) (numba_cell_r rnd cfg) Inv x0 r ys s I0 Hs2 Hr) as (Hl & _ & Hn).
  split; auto. intros t y Hy.
  destruct (nth_error (x0 :: r) t) as [x|] eqn:Hx.
  2:{ apply nth_error_None in Hx. rewrite <- Hl in Hx. apply nth_error_None in Hx. congruence. }
  destruct (Hn t x Hx) as (st & HI & _ & Ey). rewrite Hy in Ey.
  apply (f_equal (fun o => match o with Some v => v | None => NaN end)) in Ey. cbn beta iota in Ey.
  assert (Hpre : Forall (fun x => x = NaN \/ x = Fin c) (firstn t (x0 :: r))).
  { apply Forall_forall. intros v Hv. rewrite Forall_forall in Hxs. apply Hxs. rewrite <- (firstn_skipn t). apply in_or_app. left. exact Hv. }
  assert (Hcx : x = NaN \/ x = Fin c). { rewrite Forall_forall in Hxs. apply Hxs. apply nth_error_In with t; auto. }
  destruct (St _ st x HI Hpre Hcx) as (Nm & Nn & Nr). cbv zeta in *.
  rewrite Nat.add_1_r, (firstn_snoc _ _ _ Hx). fold i. rewrite Ey, Nr, Nm, Nn.
  set (q := match valid_obs _ with [] => None | _ => Some c end). unfold when_enough.
  destruct (Z.geb_spec (Z.of_nat (count_obs (map (observation 0) (firstn t (x0 :: r) ++ [x])))) (min_periods cfg)),
    (Z.ltb_spec (Z.of_nat (count_obs (map (observation 0) (firstn t (x0 :: r) ++ [x])))) (min_periods cfg)); try lia;
  destruct q; reflexivity.
Qed.
