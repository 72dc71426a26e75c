(** Rounded arithmetic: the modules of Model/Modules.v and Model/Ewm.v with the result of every
    floating point operation rounded ([rnd]), in the order of the code.
    Simplifications: one rounding per operation (no fused multiply-add, no reordering by the XLA
    compiler), a single zero; sums over an axis are rounded from left to right. *)
From Coq Require Import List ZArith Reals.
From Verif Require Import Model.Unroll Model.Float Model.Modules Model.Ewm.
Import ListNotations.
Local Open Scope R_scope.

(** Result of a floating point operation of exact value [x]: the real value is rounded by [rd] and
    replaced by an infinity beyond the largest finite float [fmax_]. *)
Definition round_to (rd : R -> R) (fmax_ : R) (x : fl) : fl :=
  match x with
  | Fin r => let v := rd r in
             if Rlt_b fmax_ v then PInf else if Rlt_b v (- fmax_) then NInf else Fin v
  | _ => x
  end.

(** modules/ewmvar.py lines 82-99 *)
Record ewmvar_state_r := EwmvarStateR { er_mean : fl; er_var : fl; er_nobs : fl }.

Section Rounded.
  Variable rnd : fl -> fl.

  (** modules/ewma.py lines 105-207, one element.  [com cfg] is the value of exp(logcom) (line 124).
      With [rnd] the identity this is [ewma_step] of Model/Ewm.v. *)
  Definition ewma_step_r (fmax_ : R) (cfg : ewma_cfg) (st : ewma_state) (x : fl)
    : (fl * (fl * Z)) * ewma_state :=
    let is_observation := negb (isnan x) in                                      (* 134 *)
    let isnan_mean := isnan (ew_mean st) in                                      (* 135 *)
    let x := nan_to_num (Fin 0) (Fin fmax_) (Fin (- fmax_)) x in                 (* 138 *)
    let mean := nan_to_num (Fin 0) (Fin fmax_) (Fin (- fmax_)) (ew_mean st) in   (* 139 *)
    let alpha := rnd (fdiv (Fin 1) (rnd (fadd (Fin 1) (Fin (com cfg))))) in      (* 141 *)
    let new_wt := if truthy (adjust cfg) then Fin 1 else alpha in                (* 143-146 *)
    let old0 := old_wt st in                                                     (* 148 *)
    let '(old_wt_factor, old1) :=                                                (* 155-163 *)
      match adjust cfg with
      | AdjLinear =>
          (if is_observation then Fin 1
           else fmax (Fin 0) (rnd (fdiv (rnd (fsub old0 (Fin 1))) old0)),
           fmin old0 (Fin (com cfg)))
      | _ => (rnd (fsub (Fin 1) alpha), old0)
      end in
    let old2 :=                                                                  (* 165-168 *)
      if ignore_na cfg then (if is_observation then rnd (fmul old1 old_wt_factor) else old1)
      else rnd (fmul old1 old_wt_factor) in
    let old3 := if isnan_mean then Fin 0 else old2 in                            (* 170 *)
    let mean1 :=                                                                 (* 172 *)
      if is_observation
      then rnd (fdiv (rnd (fadd (rnd (fmul old3 mean)) (rnd (fmul new_wt x))))
                     (rnd (fadd old3 new_wt)))
      else mean in
    let com_eff := rnd (fdiv old3 new_wt) in                                     (* 175 *)
    let old4 :=                                                                  (* 177-180 *)
      if truthy (adjust cfg) then (if is_observation then rnd (fadd old3 new_wt) else old3)
      else (if is_observation then Fin 1 else old3) in
    let mean2 := if andb (negb is_observation) isnan_mean then NaN else mean1 in (* 183 *)
    let nobs' := if is_observation then (nobs st + 1)%Z else nobs st in          (* 194 *)
    let result :=                                                                (* 199-202 *)
      if Z.eqb (min_periods cfg) 0 then mean2
      else if Z.geb nobs' (min_periods cfg) then mean2 else NaN in
    ((result, (com_eff, nobs')), EwmaState mean2 old4 nobs').
  Definition EWMA_r (fmax_ : R) (cfg : ewma_cfg) :=
    hk_module (fun _ : fl => ewma_init cfg)
      (fun s x => let '((r, _), s') := ewma_step_r fmax_ cfg s x in (r, s')).

  (** modules/ewmvar.py lines 64-128, one element; here the count is a float, as in the code (line 96).
      [pw] is the power function of line 115 ((1 - alpha) ** nobs, not a correctly rounded
      operation). *)
  Definition ewmvar_step_r (pw : R -> R -> R) (com_ : R) (adj : adjust_mode) (st : ewmvar_state_r)
    (x : fl) : fl * ewmvar_state_r :=
    let alpha := rnd (fdiv (Fin 1) (rnd (fadd (Fin 1) (Fin com_)))) in           (* 80 *)
    let mean := if isnan (er_mean st) then x else er_mean st in                  (* 102 *)
    let variance := if isnan (er_var st) then Fin 0 else er_var st in            (* 103 *)
    let mask := negb (isnan x) in                                                (* 105 *)
    let n := if mask then rnd (fadd (er_nobs st) (Fin 1)) else er_nobs st in     (* 106 *)
    let alpha :=                                                                 (* 109-115 *)
      match adj with
      | AdjLinear =>
          let tscale := rnd (fdiv (Fin 1) alpha) in
          let tscale := if flt n tscale then n else tscale in
          if flt (Fin 0) tscale then rnd (fdiv (Fin 1) tscale) else NaN
      | AdjTrue =>
          match rnd (fsub (Fin 1) alpha), n with
          | Fin b, Fin k => rnd (fdiv alpha (rnd (fsub (Fin 1) (Fin (pw b k)))))
          | _, _ => NaN
          end
      | AdjFalse => alpha
      end in
    let diff := rnd (fsub x mean) in                                             (* 117 *)
    let incr := rnd (fmul alpha diff) in                                         (* 118 *)
    let mean' := if mask then rnd (fadd mean incr) else mean in                  (* 121 *)
    let variance' :=                                                             (* 122 *)
      if mask then rnd (fmul (rnd (fsub (Fin 1) alpha))
                             (rnd (fadd variance (rnd (fmul diff incr))))) else variance in
    (variance', EwmvarStateR mean' variance' n).
  Definition EWMVar_r (pw : R -> R -> R) (com_ : R) (adj : adjust_mode) :=
    hk_module (fun _ : fl => EwmvarStateR NaN NaN (Fin 0)) (ewmvar_step_r pw com_ adj).

  (** modules/ewmcov.py lines 112-152 on scalars, x = y = the input: the diagonal entry of the
      covariance. *)
  Definition ewmcov_diag_step_r (fmax_ : R) (cfg : ewma_cfg) (st : ewma_state * ewma_state) (x : fl)
    : fl * (ewma_state * ewma_state) :=
    let '((mean_xx, _), sxx) := ewma_step_r fmax_ cfg (fst st) (rnd (fmul x x)) in
    let '((mean_x, _), sx) := ewma_step_r fmax_ cfg (snd st) x in
    (rnd (fsub mean_xx (rnd (fmul mean_x mean_x))), (sxx, sx)).
  Definition EWMCov_diag_r (fmax_ : R) (cfg : ewma_cfg) :=
    hk_module (fun _ : fl => (ewma_init cfg, ewma_init cfg)) (ewmcov_diag_step_r fmax_ cfg).

  (** modules/ewmcov.py lines 112-152 on vectors, every operation rounded; each EWMA is applied element
      by element. *)
  Definition ewma_vec_r (fmax_ : R) (cfg : ewma_cfg) (ss : list ewma_state) (x : list fl)
    : list fl * list ewma_state :=
    let r := map2 (ewma_step_r fmax_ cfg) ss x in (map (fun p => fst (fst p)) r, map snd r).
  Definition ewma_mat_r (fmax_ : R) (cfg : ewma_cfg) (ss : list (list ewma_state)) (x : list (list fl))
    : list (list fl) * list (list ewma_state) :=
    let r := map2 (ewma_vec_r fmax_ cfg) ss x in (map fst r, map snd r).
  Definition ewmcov_step_r (fmax_ : R) (cfg : ewma_cfg) (assume_centered : bool)
    (st : ewmcov_state) (xy : list fl * list fl) : list (list fl) * ewmcov_state :=
    let '(x, y) := xy in
    let '(mean_xy, sxy) := ewma_mat_r fmax_ cfg (cov_xy st) (outer (fun a b => rnd (fmul a b)) x y) in (* 136 *)
    if assume_centered then (mean_xy, EwmcovState sxy (cov_x st) (cov_y st)) (* 132-133 *)
    else
      let '(mean_x, sx) := ewma_vec_r fmax_ cfg (cov_x st) x in (* 135-142 *)
      let '(mean_y, sy) := ewma_vec_r fmax_ cfg (cov_y st) y in (* 143-150 *)
      (map2 (map2 (fun a b => rnd (fsub a b))) mean_xy (outer (fun a b => rnd (fmul a b)) mean_x mean_y),
       EwmcovState sxy sx sy). (* 151 *)
  Definition EWMCov_r (fmax_ : R) (cfg : ewma_cfg) (assume_centered : bool) :=
    hk_module (fun xy => ewmcov_init cfg (fst xy) (snd xy)) (ewmcov_step_r fmax_ cfg assume_centered).

  (** modules/diff.py lines 24-42, periods = 1 *)
  Definition diff_step_r (st : buffer_state fl) (x : fl) : fl * buffer_state fl :=
    let '(b, s') := buffer_apply 2 st x in (rnd (fsub (last b NaN) (hd NaN b)), s').
  Definition Diff_r := hk_module (fun _ : fl => buffer_init 2 NaN) diff_step_r.

  (** modules/pct_change.py lines 38-61, periods = 1, fill_method pad or ffill *)
  Definition pct_change_step_r (fillna_zero : bool) (st : pct_state) (x : fl) : fl * pct_state :=
    let '(v, ff) := ffill_step (pct_ffill st) x in
    let '(b, lg) := buffer_apply 2 (pct_lag st) v in
    let previous_x := hd NaN b in
    let pct := rnd (fsub (rnd (fdiv x previous_x)) (Fin 1)) in
    let out := if fillna_zero then
                 (if andb (isnan x) (negb (isnan previous_x)) then Fin 0 else pct)
               else pct in
    (out, PctState ff lg).
  Definition PctChange_r (fillna_zero : bool) :=
    hk_module (fun _ : fl => PctState NaN (buffer_init 2 NaN)) (pct_change_step_r fillna_zero).

  (** modules/rolling_mean.py lines 37-42, one element *)
  Definition rsum (l : list fl) : fl := fold_left (fun s v => rnd (fadd s v)) l (Fin 0).
  Definition rolling_mean_of_r (min_periods : Z) (b : list fl) : fl :=
    let sum := rsum (map (fun v => if negb (isnan v) then v else Fin 0) b) in
    let count := length (filter (fun v => negb (isnan v)) b) in
    if Z.geb (Z.of_nat count) min_periods then rnd (fdiv sum (Fin (INR count))) else NaN.
  Definition rolling_mean_step_r (horizon : nat) (min_periods : Z) (st : buffer_state fl) (x : fl)
    : fl * buffer_state fl :=
    let '(b, s') := buffer_apply horizon st x in (rolling_mean_of_r min_periods b, s').
  Definition RollingMean_r (horizon : nat) (min_periods : Z) :=
    hk_module (fun _ => buffer_init horizon NaN) (rolling_mean_step_r horizon min_periods).
End Rounded.
