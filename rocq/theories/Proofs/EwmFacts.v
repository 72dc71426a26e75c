(** The EWMA step on real observations. *)
From Coq Require Import List ZArith Reals Lra Lia Bool.
From Verif Require Import Model.Unroll Model.Float Model.Modules Model.Ewm Spec.EwmSpec
  Proofs.FloatFacts Proofs.ListFacts Proofs.RunFacts.
Import ListNotations.
Local Open Scope R_scope.

Definition al (cfg : ewma_cfg) : R := 1 / (1 + com cfg).
Definition nwt (cfg : ewma_cfg) : R := if truthy (adjust cfg) then 1 else al cfg.
Definition zf (w : R) : R := if Req_b w 0 then 0 else Rmax 0 ((w - 1) / w).

(** weight of the old mean at a step *)
Definition w_old (cfg : ewma_cfg) (is_obs : bool) (m : option R) (w : R) : R :=
  match m with
  | None => 0
  | Some _ =>
      match adjust cfg with
      | AdjLinear => if is_obs then Rmin w (com cfg)
                     else if ignore_na cfg then Rmin w (com cfg) else Rmin w (com cfg) * zf w
      | _ => if is_obs then w * (1 - al cfg)
             else if ignore_na cfg then w else w * (1 - al cfg)
      end
  end.
Definition dfl (m : option R) : R := match m with Some r => r | None => 0 end.

Definition r_mean (cfg : ewma_cfg) (m : option R) (w : R) (o : option R) : option R :=
  match o with
  | Some x => let w1 := w_old cfg true m w in
      Some ((w1 * dfl m + nwt cfg * x) / (w1 + nwt cfg))
  | None => m
  end.
Definition r_wt (cfg : ewma_cfg) (m : option R) (w : R) (o : option R) : R :=
  match o with
  | Some _ => if truthy (adjust cfg) then w_old cfg true m w + 1 else 1
  | None => w_old cfg false m w
  end.
Definition isobs (o : option R) : bool := match o with Some _ => true | None => false end.

Lemma fmin_Fin a b : fmin (Fin a) (Fin b) = Fin (Rmin a b).
Proof.
  unfold fmin; simpl. unfold Rmin. destruct (Rlt_b_spec b a), (Rle_dec a b); auto; try lra; f_equal; lra.
Qed.
Lemma fmax_Fin a b : fmax (Fin a) (Fin b) = Fin (Rmax a b).
Proof.
  unfold fmax; simpl. unfold Rmax. destruct (Rlt_b_spec a b), (Rle_dec a b); auto; try lra; f_equal; lra.
Qed.

Lemma zf_fl w : 0 <= w -> fmax (Fin 0) (fdiv (fsub (Fin w) (Fin 1)) (Fin w)) = Fin (zf w).
Proof.
  intros Hw. unfold zf. simpl. destruct (Req_b_spec w 0) as [->|].
  - unfold signed_inf. rewrite Req_b_neq by lra. rewrite Rlt_b_false by lra. reflexivity.
  - rewrite fmax_Fin. reflexivity.
Qed.

Lemma zf_nonneg w : 0 <= zf w.
Proof. unfold zf; destruct (Req_b w 0); [lra|apply Rmax_l]. Qed.

Lemma al_pos cfg : 0 <= com cfg -> 0 < al cfg <= 1.
Proof.
  intros H. unfold al. split.
  - apply Rdiv_lt_0_compat; lra.
  - apply Rmult_le_reg_r with (1 + com cfg); [lra|]. unfold Rdiv. rewrite Rmult_assoc, Rinv_l; lra.
Qed.
Lemma nwt_pos cfg : 0 <= com cfg -> 0 < nwt cfg.
Proof. intros H. unfold nwt. destruct (truthy _); [lra|]. apply al_pos; auto. Qed.

Lemma w_old_nonneg cfg b m w : 0 <= com cfg -> 0 <= w -> 0 <= w_old cfg b m w.
Proof.
  intros Hc Hw. unfold w_old. destruct m; [|lra].
  assert (0 <= Rmin w (com cfg)) by (apply Rmin_glb; lra).
  pose proof (al_pos cfg Hc). pose proof (zf_nonneg w).
  assert (0 <= w * (1 - al cfg)) by (apply Rmult_le_pos; lra).
  assert (0 <= Rmin w (com cfg) * zf w) by (apply Rmult_le_pos; lra).
  destruct (adjust cfg), b, (ignore_na cfg); auto.
Qed.

Lemma r_wt_nonneg cfg m w o : 0 <= com cfg -> 0 <= w -> 0 <= r_wt cfg m w o.
Proof.
  intros Hc Hw. unfold r_wt. pose proof (w_old_nonneg cfg true m w Hc Hw).
  pose proof (w_old_nonneg cfg false m w Hc Hw).
  destruct o, (truthy (adjust cfg)); lra.
Qed.

Lemma alpha_fl cfg : 0 <= com cfg -> fdiv (Fin 1) (fadd (Fin 1) (Fin (com cfg))) = Fin (al cfg).
Proof. intros H. cbn [fadd]. rewrite fdiv_Fin by lra. reflexivity. Qed.

Lemma isnan_obs fm x : isnan x = negb (isobs (observation fm x)).
Proof. destruct x; reflexivity. Qed.
Lemma n2n_obs fm x : nan_to_num (Fin 0) (Fin fm) (Fin (- fm)) x = Fin (dfl (observation fm x)).
Proof. destruct x; reflexivity. Qed.

(** The step on real observations. *)
Lemma ewma_step_eq fm cfg st x w m :
  0 <= com cfg -> old_wt st = Fin w -> 0 <= w -> observation fm (ew_mean st) = m ->
  let o := observation fm x in
  let n' := if isobs o then (nobs st + 1)%Z else nobs st in
  let m' := of_option (r_mean cfg m w o) in
  ewma_step fm cfg st x =
    ((if Z.eqb (min_periods cfg) 0 then m' else if Z.geb n' (min_periods cfg) then m' else NaN,
      (Fin (w_old cfg (isobs o) m w / nwt cfg), n')),
     EwmaState m' (Fin (r_wt cfg m w o)) n').
Proof.
  intros Hc Hw Hw0 Hm o n' m'. unfold ewma_step.
  rewrite (isnan_obs fm x), (isnan_obs fm (ew_mean st)), Hm, !n2n_obs, Hm, negb_involutive.
  fold o. rewrite Hw, (alpha_fl cfg Hc).
  pose proof (nwt_pos cfg Hc) as Hnw.
  set (nw := if truthy (adjust cfg) then Fin 1 else Fin (al cfg)).
  assert (Enw : nw = Fin (nwt cfg)) by (unfold nw, nwt; destruct (truthy _); auto).
  clearbody nw; subst nw.
  set (pr := match adjust cfg with AdjLinear => _ | _ => _ end).
  assert (Epr : pr = match adjust cfg with
                | AdjLinear => (Fin (if isobs o then 1 else zf w), Fin (Rmin w (com cfg)))
                | _ => (Fin (1 - al cfg), Fin w) end).
  { unfold pr. destruct (adjust cfg); auto. rewrite fmin_Fin.
    destruct (isobs o); [reflexivity|]. rewrite zf_fl; auto. }
  clearbody pr; subst pr.
  set (old3 := match (match adjust cfg with AdjLinear => _ | _ => _ end) with pair _ _ => _ end).
  assert (Eold : forall (F : fl -> (fl * (fl * Z)) * ewma_state),
    (let '(f, o1) := match adjust cfg with
       | AdjLinear => (Fin (if isobs o then 1 else zf w), Fin (Rmin w (com cfg)))
       | _ => (Fin (1 - al cfg), Fin w) end in
     F (if negb (isobs m) then Fin 0
        else if ignore_na cfg then (if isobs o then fmul o1 f else o1) else fmul o1 f)) =
    F (Fin (w_old cfg (isobs o) m w))).
  { intros F. unfold w_old. destruct (adjust cfg), m as [mr|], (isobs o), (ignore_na cfg);
      simpl; try reflexivity; rewrite ?Rmult_1_r; reflexivity. }
  subst old3.
  match goal with |- (let '(f, o1) := _ in _) = _ => idtac end.
  pose (F := fun old3 : fl =>
    let mean1 := if isobs o then fdiv (fadd (fmul old3 (Fin (dfl m))) (fmul (Fin (nwt cfg)) (Fin (dfl o))))
        (fadd old3 (Fin (nwt cfg))) else Fin (dfl m) in
    let com_eff := fdiv old3 (Fin (nwt cfg)) in
    let old4 := if truthy (adjust cfg) then if isobs o then fadd old3 (Fin (nwt cfg)) else old3
                else if isobs o then Fin 1 else old3 in
    let mean2 := if andb (negb (isobs o)) (negb (isobs m)) then NaN else mean1 in
    let nobs' := if isobs o then (nobs st + 1)%Z else nobs st in
    let result := if Z.eqb (min_periods cfg) 0 then mean2
                  else if Z.geb nobs' (min_periods cfg) then mean2 else NaN in
    ((result, (com_eff, nobs')), EwmaState mean2 old4 nobs')).
  specialize (Eold F). transitivity (F (Fin (w_old cfg (isobs o) m w))).
  { rewrite <- Eold. unfold F. destruct (adjust cfg); reflexivity. }
  clear Eold. unfold F. cbn zeta. rewrite (fdiv_Fin _ _ (Rgt_not_eq _ _ Hnw)).
  pose proof (w_old_nonneg cfg (isobs o) m w Hc Hw0) as Hw1.
  fold n'. 
  assert (Em : (if andb (negb (isobs o)) (negb (isobs m)) then NaN else
     if isobs o then fdiv (fadd (fmul (Fin (w_old cfg (isobs o) m w)) (Fin (dfl m)))
         (fmul (Fin (nwt cfg)) (Fin (dfl o)))) (fadd (Fin (w_old cfg (isobs o) m w)) (Fin (nwt cfg)))
     else Fin (dfl m)) = m').
  { unfold m', r_mean. cbn [fmul fadd]. rewrite fdiv_Fin by lra.
    clear -Hw1. destruct o, m; reflexivity. }
  rewrite Em. f_equal. f_equal. unfold r_wt, nwt. destruct (truthy (adjust cfg)), o; reflexivity.
Qed.
