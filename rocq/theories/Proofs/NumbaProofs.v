From Coq Require Import List ZArith Reals Lra Lia Bool.
From Verif Require Import Model.Unroll Model.Float Model.Modules Model.Ewm Spec.EwmSpec
  Proofs.FloatFacts Proofs.ListFacts Proofs.RunFacts Proofs.EwmFacts Proofs.EwmProofs Proofs.EwmExtra
  Proofs.EwmcovProofs.
Import ListNotations.
Local Open Scope R_scope.

(** the state of the numba loop in terms of the mean and weight of the jax module *)
Definition nb_rel (m : option R) (w : R) (n : nat) (s : ewma_state) : Prop :=
  ew_mean s = of_option m /\ old_wt s = Fin (match m with None => 1 | Some _ => w end) /\ nobs s = Z.of_nat n.

Lemma numba_zf w : 0 <= w ->
  (if flt (Fin 0) (Fin w) then fmax (Fin 0) (fdiv (fsub (Fin w) (Fin 1)) (Fin w)) else Fin 0) = Fin (zf w).
Proof.
  intros Hw. cbn [flt]. destruct (Rlt_b_spec 0 w); [apply zf_fl; auto|].
  assert (w = 0) by lra. subst. unfold zf. rewrite Req_b_refl. auto.
Qed.

Lemma numba_cell_eq cfg m w n s o :
  0 <= com cfg -> 0 <= w -> nb_rel m w n s ->
  let n' := (n + if isobs o then 1 else 0)%nat in
  let m' := r_mean cfg m w o in
  fst (numba_cell cfg s (of_option o)) = (if (Z.of_nat n' <? min_periods cfg)%Z then NaN else of_option m') /\
  nb_rel m' (r_wt cfg m w o) n' (snd (numba_cell cfg s (of_option o))).
Proof.
  intros Hc Hw (Hm & Ho & Hn) n' m'. unfold numba_cell. rewrite Hm, Ho, Hn, (alpha_fl cfg Hc).
  pose proof (nwt_pos cfg Hc) as Hnw. pose proof (w_old_nonneg cfg true m w Hc Hw) as Hw1.
  set (nw := if truthy (adjust cfg) then Fin 1 else Fin (al cfg)).
  assert (Enw : nw = Fin (nwt cfg)) by (unfold nw, nwt; destruct (truthy _); auto).
  rewrite Enw. clear nw Enw.
  assert (Eo : negb (isnan (of_option o)) = isobs o) by (destruct o; auto). rewrite Eo.
  assert (En : (Z.of_nat n + (if isobs o then 1 else 0))%Z = Z.of_nat n')
    by (unfold n'; destruct (isobs o); lia).
  rewrite En.
  assert (Eg : forall y : fl, (if Z.geb (Z.of_nat n') (min_periods cfg) then y else NaN) =
      if (Z.of_nat n' <? min_periods cfg)%Z then NaN else y).
  { intros y. destruct (Z.geb_spec (Z.of_nat n') (min_periods cfg)), (Z.ltb_spec (Z.of_nat n') (min_periods cfg)); auto; lia. }
  match goal with |- context [let '(_, _) := ?q in _] => set (pr := q) end.
  assert (Epr : pr = (of_option m', Fin (match m' with None => 1 | Some _ => r_wt cfg m w o end))).
  { unfold pr, m'. clear pr En Eg. destruct m as [y|]; cbn [of_option isnan negb].
    2:{ destruct o as [x|]; cbn [isobs of_option]; cbn [r_mean r_wt w_old dfl of_option]; [|reflexivity].
        f_equal; [f_equal; field; lra|]. destruct (truthy _); f_equal; lra. }
    assert (Efac : match adjust cfg with
        | AdjLinear => (if isobs o then Fin 1 else if flt (Fin 0) (Fin w) then fmax (Fin 0) (fdiv (fsub (Fin w) (Fin 1)) (Fin w)) else Fin 0, fmin (Fin w) (Fin (com cfg)))
        | _ => (fsub (Fin 1) (Fin (al cfg)), Fin w) end =
        match adjust cfg with
        | AdjLinear => (Fin (if isobs o then 1 else zf w), Fin (Rmin w (com cfg)))
        | _ => (Fin (1 - al cfg), Fin w) end).
    { rewrite numba_zf by auto. rewrite fmin_Fin. destruct (adjust cfg), (isobs o); reflexivity. }
    rewrite Efac. clear Efac.
    destruct o as [x|]; cbn [isobs orb of_option] in *.
    - assert (G : forall w1, 0 <= w1 -> 
        (if fne (Fin y) (Fin x) then fdiv (fadd (fmul (Fin w1) (Fin y)) (fmul (Fin (nwt cfg)) (Fin x))) (fadd (Fin w1) (Fin (nwt cfg))) else Fin y)
        = Fin ((w1 * y + nwt cfg * x) / (w1 + nwt cfg))).
      { intros w1 H1. unfold fne, feq. cbn [fmul fadd]. rewrite fdiv_Fin by lra.
        destruct (Req_b_spec y x) as [->|]; cbn [negb]; auto. f_equal. field. lra. }
      unfold r_mean, r_wt, w_old. cbn [isobs dfl].
      pose proof (al_pos cfg Hc).
      destruct (adjust cfg) eqn:Ea; cbn [truthy].
      + change (fmul (Fin w) (Fin (1 - al cfg))) with (Fin (w * (1 - al cfg))).
        rewrite G by (apply Rmult_le_pos; lra). unfold nwt; rewrite Ea; reflexivity.
      + change (fmul (Fin w) (Fin (1 - al cfg))) with (Fin (w * (1 - al cfg))).
        rewrite G by (apply Rmult_le_pos; lra). reflexivity.
      + change (fmul (Fin (Rmin w (com cfg))) (Fin 1)) with (Fin (Rmin w (com cfg) * 1)).
        rewrite Rmult_1_r, G by (apply Rmin_glb; lra). unfold nwt; rewrite Ea; reflexivity.
    - unfold r_mean, r_wt, w_old. destruct (adjust cfg), (ignore_na cfg); reflexivity. }
  clearbody pr. subst pr. cbn [fst snd]. rewrite Eg. split; [reflexivity|].
  unfold nb_rel; cbn [ew_mean old_wt nobs]. auto.
Qed.

(** a single column *)
Fixpoint numba_col (cfg : ewma_cfg) (s : ewma_state) (xs : list fl) : list fl * ewma_state :=
  match xs with
  | [] => ([], s)
  | x :: r => let '(y, s') := numba_cell cfg s x in let '(ys, sF) := numba_col cfg s' r in (y :: ys, sF)
  end.

Lemma numba_rows_col cfg values : forall ss j s,
  nth_error ss j = Some s -> Forall (fun row => length row = length ss) values ->
  map (fun row => nth j row NaN) (fst (numba_rows cfg ss values)) =
    fst (numba_col cfg s (map (fun row => nth j row NaN) values)) /\
  nth_error (snd (numba_rows cfg ss values)) j =
    Some (snd (numba_col cfg s (map (fun row => nth j row NaN) values))) /\
  length (snd (numba_rows cfg ss values)) = length ss /\
  Forall (fun row => length row = length ss) (fst (numba_rows cfg ss values)).
Proof.
  induction values as [|row values IH]; intros ss j s Hs Hv; cbn [numba_rows map numba_col fst snd]; auto.
  inversion Hv as [|? ? Hr Hv']; subst. unfold numba_row.
  set (r := map2 (numba_cell cfg) ss row).
  assert (Hlen : length r = length ss) by (unfold r; rewrite length_map2, Hr; lia).
  assert (Hj : (j < length ss)%nat) by (eapply nth_lt; eauto).
  assert (Hrj : nth_error r j = Some (numba_cell cfg s (nth j row NaN))).
  { unfold r. rewrite nth_error_map2, Hs. rewrite (nth_error_nth' row NaN) by lia. auto. }
  specialize (IH (map snd r) j (snd (numba_cell cfg s (nth j row NaN)))).
  rewrite nth_error_map, Hrj in IH. specialize (IH eq_refl). rewrite map_length, Hlen in IH.
  specialize (IH Hv').
  destruct (numba_cell cfg s (nth j row NaN)) as [y s'] eqn:Ec. cbn [snd] in IH.
  destruct (numba_rows cfg (map snd r) values) as [rs sF].
  destruct (numba_col cfg s' (map (fun row => nth j row NaN) values)) as [ys sC]. cbn [fst snd map] in *.
  destruct IH as (I1 & I2 & I3 & I4).
  split; [f_equal; auto|split; [auto|split; auto]].
  - apply nth_error_nth. rewrite nth_error_map, Hrj. reflexivity.
  - constructor; auto. rewrite map_length; auto.
Qed.

Lemma numba_col_nth cfg os : forall i w n s pre,
  0 <= com cfg -> w = snd (rstate cfg i pre) -> 
  nb_rel (fst (rstate cfg i pre)) w n s -> n = count_obs pre ->
  forall t, (t < length os)%nat ->
  nth_error (fst (numba_col cfg s (map of_option os))) t =
    Some (when_enough (min_periods cfg) (pre ++ firstn (t + 1) os) (fst (rstate cfg i (pre ++ firstn (t + 1) os)))).
Proof.
  induction os as [|o os IH]; intros i w n s pre Hc Hw Hrel Hn t Ht; [simpl in Ht; lia|].
  cbn [map numba_col].
  assert (Hw0 : 0 <= w) by (subst w; apply rstate_nonneg; auto).
  destruct (numba_cell_eq cfg _ w n s o Hc Hw0 Hrel) as [Hout Hrel'].
  destruct (numba_cell cfg s (of_option o)) as [y s']. cbn [fst snd] in *.
  destruct (numba_col cfg s' (map of_option os)) as [ys sF] eqn:Ecol. cbn [fst].
  destruct t as [|t].
  - cbn [nth_error Nat.add firstn]. f_equal. rewrite Hout, rstate_snoc. unfold when_enough.
    rewrite count_obs_snoc, <- Hn. unfold rstep; cbn [fst]. rewrite <- Hw.
    destruct (r_mean _ _ _ _); cbn [of_option]; destruct (_ <? _)%Z; reflexivity.
  - cbn [nth_error Nat.add firstn].
    specialize (IH i (r_wt cfg (fst (rstate cfg i pre)) w o) (n + if isobs o then 1 else 0)%nat s' (pre ++ [o]) Hc).
    rewrite rstate_snoc in IH. unfold rstep in IH; cbn [fst snd] in IH. rewrite <- Hw in IH.
    rewrite count_obs_snoc, <- Hn in IH.
    specialize (IH eq_refl Hrel' eq_refl t ltac:(simpl in Ht; lia)).
    rewrite Ecol in IH. cbn [fst] in IH. rewrite IH.
    rewrite <- app_assoc. reflexivity.
Qed.

Lemma numba_col_length cfg xs : forall s, length (fst (numba_col cfg s xs)) = length xs.
Proof.
  induction xs as [|x xs IH]; intros s; cbn [numba_col]; auto.
  destruct (numba_cell cfg s x) as [y s']. specialize (IH s').
  destruct (numba_col cfg s' xs). simpl in *. auto.
Qed.

Lemma numba_agrees fm cfg (table : list (list (option R))) p i0 res sF :
  initial_value cfg = of_option i0 ->
  Forall (fun row => length row = p) table ->
  numba_ewma cfg (map (map of_option) table) None = Some (res, sF) ->
  length res = length table /\ Forall (fun row => length row = p) res /\
  forall j, (j < p)%nat ->
  forall ys s, run (EWMA fm cfg) (map (fun row => of_option (nth j row None)) table) = Some (ys, s) ->
  map (fun row => nth j row NaN) res = ys.
Proof.
  intros Hi Hlen Hn. unfold numba_ewma in Hn. destruct (Rlt_b_spec 0 (com cfg)) as [Hc|]; [|discriminate].
  destruct table as [|row0 table']; [discriminate|]. cbn [map] in Hn.
  set (table := row0 :: table') in *.
  change (map of_option row0 :: map (map of_option) table') with (map (map of_option) table) in Hn.
  set (ss := map (fun _ => ewma_init cfg) (map of_option row0)) in *.
  assert (Hss : length ss = p) by (unfold ss; rewrite !map_length; inversion Hlen; auto).
  assert (Hrect : Forall (fun row => length row = length ss) (map (map of_option) table)).
  { rewrite Hss. apply Forall_forall. intros r Hr. apply in_map_iff in Hr. destruct Hr as (r' & <- & Hr).
    rewrite map_length. rewrite Forall_forall in Hlen. auto. }
  assert (Hn' : numba_rows cfg ss (map (map of_option) table) = (res, sF)) by congruence.
  clear Hn; rename Hn' into Hn.
  assert (Hj : forall j, (j < p)%nat -> nth_error ss j = Some (ewma_init cfg)).
  { intros j Hjp. unfold ss. rewrite map_map, nth_error_map.
    destruct (nth_error row0 j) eqn:E; auto. apply nth_error_None in E.
    unfold ss in Hss. rewrite !map_length in Hss. lia. }
  assert (Hlr : length res = length table).
  { assert (G : forall v s0, length (fst (numba_rows cfg s0 v)) = length v).
    { induction v as [|r v IH]; intros s0; cbn [numba_rows]; auto.
      destruct (numba_row cfg s0 r) as [a b]. specialize (IH b). destruct (numba_rows cfg b v). simpl in *; auto. }
    specialize (G (map (map of_option) table) ss). rewrite Hn in G. cbn [fst] in G. rewrite G, map_length. auto. }
  split; auto. destruct (Nat.eq_dec p 0) as [Ep|Ep].
  { split.
    - assert (G : forall v s0, length s0 = 0%nat -> Forall (fun r => length r = 0%nat) (fst (numba_rows cfg s0 v))).
      { induction v as [|r v IH]; intros s0 H0; cbn [numba_rows]; [constructor|].
        unfold numba_row. destruct s0; [|discriminate]. simpl. specialize (IH [] eq_refl).
        destruct (numba_rows cfg [] v); simpl in *. constructor; auto. }
      specialize (G (map (map of_option) table) ss). rewrite Hn, Hss in G. rewrite Ep in *. apply G; auto.
    - intros j Hjp; lia. }
  split.
  { destruct (numba_rows_col cfg (map (map of_option) table) ss 0 _ (Hj 0%nat ltac:(lia)) Hrect) as (_ & _ & _ & H).
    rewrite Hn, Hss in H. auto. }
  intros j Hjp ys s Hr.
  destruct (numba_rows_col cfg (map (map of_option) table) ss j _ (Hj j Hjp) Hrect) as (H & _).
  rewrite Hn in H. cbn [fst] in H. rewrite H.
  assert (Ecol : map (fun row => nth j row NaN) (map (map of_option) table) =
                 map of_option (map (fun row => nth j row None) table)).
  { rewrite !map_map. apply map_ext. intros row. change NaN with (of_option None). apply map_nth. }
  rewrite Ecol. rewrite <- (map_map (fun row => nth j row None) of_option) in Hr.
  set (os := map (fun row => nth j row None) table) in *.
  destruct (ewma_run fm cfg _ _ _ (Rlt_le _ _ Hc) Hr) as [Hl Ht].
  rewrite map_length in Hl, Ht.
  assert (Eo : map (observation fm) (map of_option os) = os).
  { rewrite map_map. rewrite <- (map_id os) at 2. apply map_ext. intros; apply obs_of_option. }
  rewrite Eo, Hi, obs_of_option in Ht.
  apply nth_error_ext. intros t. destruct (Nat.lt_ge_cases t (length os)) as [Hlt|Hge].
  - rewrite (Ht t Hlt).
    apply (numba_col_nth cfg os i0 1 0 (ewma_init cfg) []); auto; [lra|].
    unfold nb_rel, ewma_init, rstate; cbn. rewrite Hi. destruct i0; auto.
  - transitivity (@None fl); [|symmetry]; apply nth_error_None.
    + rewrite numba_col_length, map_length; auto.
    + lia.
Qed.

(** resuming *)
Lemma numba_rows_app cfg v1 : forall v2 ss,
  numba_rows cfg ss (v1 ++ v2) =
  let '(r1, s1) := numba_rows cfg ss v1 in
  let '(r2, s2) := numba_rows cfg s1 v2 in (r1 ++ r2, s2).
Proof.
  induction v1 as [|row v1 IH]; intros v2 ss; cbn [app numba_rows].
  - destruct (numba_rows cfg ss v2); reflexivity.
  - destruct (numba_row cfg ss row) as [r ss']. rewrite IH.
    destruct (numba_rows cfg ss' v1) as [r1 s1]. destruct (numba_rows cfg s1 v2) as [r2 s2]. reflexivity.
Qed.

Lemma numba_resume cfg v1 v2 st r1 s1 r2 s2 :
  numba_ewma cfg v1 st = Some (r1, s1) -> numba_ewma cfg v2 (Some s1) = Some (r2, s2) ->
  numba_ewma cfg (v1 ++ v2) st = Some (r1 ++ r2, s2).
Proof.
  unfold numba_ewma. destruct (Rlt_b 0 (com cfg)); [|discriminate].
  intros H1 H2. injection H2 as H2. destruct st as [ss|].
  - injection H1 as H1. rewrite numba_rows_app, H1, H2. reflexivity.
  - destruct v1 as [|row v1]; [discriminate|].
    assert (H1' : numba_rows cfg (map (fun _ => ewma_init cfg) row) (row :: v1) = (r1, s1)) by congruence.
    clear H1; rename H1' into H1.
    cbn [app]. change (row :: v1 ++ v2) with ((row :: v1) ++ v2). rewrite numba_rows_app, H1, H2. reflexivity.
Qed.
