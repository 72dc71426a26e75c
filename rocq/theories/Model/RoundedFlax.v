(** Rounded arithmetic for the flax modules of Model/FlaxModules.v: the result of every floating point operation is
    rounded ([rnd]), in the order of the code.
    Simplifications: those of Model/Rounded.v. *)
From Coq Require Import List ZArith Reals.
From Verif Require Import Model.Unroll Model.Float Model.Modules Model.Ewm Model.Rounded Model.FlaxModules.
Import ListNotations.
Local Open Scope R_scope.

(** flax/modules/ewmcov.py lines 49-52, then flax/modules/ewma.py line 53 for each average: [com] or [alpha] is turned
    into alpha, from which com is computed again, in Python floats. *)
Definition fewmcov_com_r (rd : R -> R) (c alpha : option R) : option R :=
  let again (a : R) := rd (rd (1 / a) - 1) in
  match c, alpha with
  | Some c, None => Some (again (rd (1 / rd (1 + c))))
  | None, Some a => Some (again a)
  | _, _ => None
  end.

Section Rounded.
  Variable rnd : fl -> fl.

  (** modules/ewma.py lines 105-207 with return_info=True, one element. *)
  Definition EWMA_info_r (fmax_ : R) (cfg : ewma_cfg) :=
    hk_module (fun _ : fl => ewma_init cfg) (ewma_step_r rnd fmax_ cfg).

  (** flax/modules/ewma.py lines 57-163, one element; [com cfg] is the value of exp(logcom) (line 74). *)
  Definition fewma_call_r (fmax_ : R) (cfg : ewma_cfg) (st : ewma_state) (x : fl)
    : (fl * (fl * Z)) * ewma_state :=
    let current_mean := ew_mean st in
    let is_observation := negb (isnan x) in                                      (* 91 *)
    let isnan_mean := isnan current_mean in                                      (* 92 *)
    let x_filled := nan_to_num (Fin 0) (Fin fmax_) (Fin (- fmax_)) x in          (* 95 *)
    let mean_filled := nan_to_num (Fin 0) (Fin fmax_) (Fin (- fmax_)) current_mean in (* 96 *)
    let alpha := rnd (fdiv (Fin 1) (rnd (fadd (Fin 1) (Fin (com cfg))))) in      (* 98 *)
    let new_wt := if truthy (adjust cfg) then Fin 1 else alpha in                (* 100-103 *)
    let current_old_wt := old_wt st in
    let '(old_wt_factor, old1) :=                                                (* 105-113 *)
      match adjust cfg with
      | AdjLinear =>
          (if is_observation then Fin 1
           else fmax (Fin 0) (rnd (fdiv (rnd (fsub current_old_wt (Fin 1))) current_old_wt)),
           fmin current_old_wt (Fin (com cfg)))
      | _ => (rnd (fsub (Fin 1) alpha), current_old_wt)
      end in
    let old2 :=                                                                  (* 115-120 *)
      if ignore_na cfg then (if is_observation then rnd (fmul old1 old_wt_factor) else old1)
      else rnd (fmul old1 old_wt_factor) in
    let old3 := if isnan_mean then Fin 0 else old2 in                            (* 122 *)
    let updated_mean :=                                                          (* 125-129 *)
      if is_observation
      then rnd (fdiv (rnd (fadd (rnd (fmul old3 mean_filled)) (rnd (fmul new_wt x_filled))))
                     (rnd (fadd old3 new_wt)))
      else current_mean in
    let com_eff := rnd (fdiv old3 new_wt) in                                     (* 132 *)
    let old4 :=                                                                  (* 135-138 *)
      if truthy (adjust cfg) then (if is_observation then rnd (fadd old3 new_wt) else old3)
      else (if is_observation then Fin 1 else old3) in
    let final_mean := if andb (negb is_observation) isnan_mean then NaN else updated_mean in (* 141 *)
    let nobs' := if is_observation then (nobs st + 1)%Z else nobs st in          (* 144 *)
    let result :=                                                                (* 155-158 *)
      if Z.eqb (min_periods cfg) 0 then final_mean
      else if Z.geb nobs' (min_periods cfg) then final_mean else NaN in
    ((result, (com_eff, nobs')), EwmaState final_mean old4 nobs').
  Definition FEWMA_r (fmax_ : R) (cfg : ewma_cfg) : flax_module ewma_state fl (fl * (fl * Z)) :=
    FlaxModule (fun _ => ewma_init cfg) (fewma_call_r fmax_ cfg).

  (** flax/modules/ewmvar.py lines 53-114, one element; [pw] is the power function of the alpha adjustment scheme. *)
  Definition fewmvar_call_r (pw : R -> R -> R) (com_ : R) (adj : adjust_mode) (st : ewmvar_state_r) (x : fl)
    : fl * ewmvar_state_r :=
    let alpha := rnd (fdiv (Fin 1) (rnd (fadd (Fin 1) (Fin com_)))) in
    let updated_mean := if isnan (er_mean st) then x else er_mean st in
    let updated_variance := if isnan (er_var st) then Fin 0 else er_var st in
    let mask := negb (isnan x) in
    let updated_nobs := if mask then rnd (fadd (er_nobs st) (Fin 1)) else er_nobs st in
    let alpha :=
      match adj with
      | AdjLinear =>
          let tscale := rnd (fdiv (Fin 1) alpha) in
          let tscale := if flt updated_nobs tscale then updated_nobs else tscale in
          if flt (Fin 0) tscale then rnd (fdiv (Fin 1) tscale) else NaN
      | AdjTrue =>
          match rnd (fsub (Fin 1) alpha), updated_nobs with
          | Fin b, Fin k => rnd (fdiv alpha (rnd (fsub (Fin 1) (Fin (pw b k)))))
          | _, _ => NaN
          end
      | AdjFalse => alpha
      end in
    let diff := rnd (fsub x updated_mean) in
    let incr := rnd (fmul alpha diff) in
    let final_mean := if mask then rnd (fadd updated_mean incr) else updated_mean in
    let final_variance :=
      if mask then rnd (fmul (rnd (fsub (Fin 1) alpha)) (rnd (fadd updated_variance (rnd (fmul diff incr)))))
      else updated_variance in
    (final_variance, EwmvarStateR final_mean final_variance updated_nobs).
  Definition FEWMVar_r (pw : R -> R -> R) (com_ : R) (adj : adjust_mode) : flax_module ewmvar_state_r fl fl :=
    FlaxModule (fun _ => EwmvarStateR NaN NaN (Fin 0)) (fewmvar_call_r pw com_ adj).

  (** flax/modules/ewmcov.py lines 70-117 on vectors; each EWMA is applied element by element. *)
  Definition fewma_vec_r (fmax_ : R) (cfg : ewma_cfg) (ss : list ewma_state) (x : list fl)
    : list fl * list ewma_state :=
    let r := map2 (fewma_call_r fmax_ cfg) ss x in (map (fun p => fst (fst p)) r, map snd r).
  Definition fewma_mat_r (fmax_ : R) (cfg : ewma_cfg) (ss : list (list ewma_state)) (x : list (list fl))
    : list (list fl) * list (list ewma_state) :=
    let r := map2 (fewma_vec_r fmax_ cfg) ss x in (map fst r, map snd r).
  Definition fewmcov_call_r (fmax_ : R) (cfg : ewma_cfg) (assume_centered : bool)
    (st : ewmcov_state) (xy : list fl * list fl) : list (list fl) * ewmcov_state :=
    let '(x, y) := xy in
    let '(mean_xy, sxy) := fewma_mat_r fmax_ cfg (cov_xy st) (outer (fun a b => rnd (fmul a b)) x y) in
    if assume_centered then (mean_xy, EwmcovState sxy (cov_x st) (cov_y st))
    else
      let '(mean_x, sx) := fewma_vec_r fmax_ cfg (cov_x st) x in
      let '(mean_y, sy) := fewma_vec_r fmax_ cfg (cov_y st) y in
      (map2 (map2 (fun a b => rnd (fsub a b))) mean_xy (outer (fun a b => rnd (fmul a b)) mean_x mean_y),
       EwmcovState sxy sx sy).
  Definition FEWMCov_r (fmax_ : R) (cfg : ewma_cfg) (assume_centered : bool)
    : flax_module ewmcov_state (list fl * list fl) (list (list fl)) :=
    FlaxModule (fun xy => ewmcov_init cfg (fst xy) (snd xy)) (fewmcov_call_r fmax_ cfg assume_centered).

  (** flax/modules/diff.py lines 33-57, periods = 1 *)
  Definition fdiff_call_r (st : ring_state fl) (x : fl) : fl * ring_state fl :=
    let '(b, s) := ring_call 2 st x in (rnd (fsub (last b NaN) (hd NaN b)), s).
  Definition FDiff_r : flax_module (ring_state fl) fl fl := FlaxModule (fun _ => ring_init 2 NaN) fdiff_call_r.

  (** flax/modules/pct_change.py lines 35-69, periods = 1, fill_method "ffill" or "pad" *)
  Definition fpct_call_r (fillna_zero : bool) (st : fpct_state) (x : fl) : fl * fpct_state :=
    let '(x_filled, ff) := fffill_call (fpct_ffill st) x in
    let '(b, lg) := ring_call 2 (fpct_lag st) x_filled in
    let previous_x := hd NaN b in
    let pct := rnd (fsub (rnd (fdiv x previous_x)) (Fin 1)) in
    let out := if fillna_zero then
                 (if andb (isnan x) (negb (isnan previous_x)) then Fin 0 else pct) else pct in
    (out, FPctState ff lg).
  Definition FPctChange_r (fillna_zero : bool) : flax_module fpct_state fl fl :=
    FlaxModule (fun _ => FPctState NaN (ring_init 2 NaN)) (fpct_call_r fillna_zero).

  (** flax/modules/rolling_mean.py lines 33-60; the sum is rounded in the order of the buffer. *)
  Definition frolling_call_r (horizon : nat) (min_periods : Z) (st : ring_state fl) (x : fl)
    : fl * ring_state fl :=
    let '(b, s) := ring_call horizon st x in
    let sum := rsum rnd (map (fun v => if negb (isnan v) then v else Fin 0) b) in
    let count := length (filter (fun v => negb (isnan v)) b) in
    (if Z.geb (Z.of_nat count) min_periods then rnd (fdiv sum (Fin (INR count))) else NaN, s).
  Definition FRollingMean_r (horizon : nat) (min_periods : Z) : flax_module (ring_state fl) fl fl :=
    FlaxModule (fun _ => ring_init horizon NaN) (frolling_call_r horizon min_periods).
End Rounded.
