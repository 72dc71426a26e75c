(** Models of /repo/src/wax/modules/ewma.py, ewmvar.py, ewmcov.py (one array element, then vectors
    for the covariance) and of /repo/src/wax/numba/ewma_numba.py. *)
From Coq Require Import List ZArith Reals.
From Verif Require Import Model.Unroll Model.Float Model.Modules.
Import ListNotations.
Local Open Scope R_scope.

(** The values of [adjust]: True, False or "linear" (which is truthy). *)
Inductive adjust_mode := AdjTrue | AdjFalse | AdjLinear.
Definition truthy (a : adjust_mode) : bool := match a with AdjFalse => false | _ => true end.

(** modules/ewma.py lines 25-36.  [com] already computed (lines 91-98, see [com_of]). *)
Record ewma_cfg := EwmaCfg {
  com : R; min_periods : Z; adjust : adjust_mode; ignore_na : bool; initial_value : fl }.

(** modules/ewma.py lines 91-98: exactly one of com and alpha; AssertionError otherwise. *)
Definition com_of (c alpha : option R) : option R :=
  match c, alpha with
  | Some c, None => Some c
  | None, Some a => Some (1 / a - 1)
  | _, _ => None
  end.

(** modules/ewma.py lines 126-131, 148-153, 188-193 *)
Record ewma_state := EwmaState { ew_mean : fl; old_wt : fl; nobs : Z }.
Definition ewma_init (cfg : ewma_cfg) : ewma_state := EwmaState (initial_value cfg) (Fin 1) 0.

(** modules/ewma.py lines 105-207, one element.  [fmax] is the largest float of the dtype, used by
    jnp.nan_to_num for infinities.  exp(log(com)) (lines 118-124) is taken as com.  The output is
    (result, (com_eff, nobs)): the second part is the [info] of return_info=True. *)
Definition ewma_step (fmax_ : R) (cfg : ewma_cfg) (st : ewma_state) (x : fl)
  : (fl * (fl * Z)) * ewma_state :=
  let is_observation := negb (isnan x) in                                      (* 134 *)
  let isnan_mean := isnan (ew_mean st) in                                      (* 135 *)
  let x := nan_to_num (Fin 0) (Fin fmax_) (Fin (- fmax_)) x in                 (* 138 *)
  let mean := nan_to_num (Fin 0) (Fin fmax_) (Fin (- fmax_)) (ew_mean st) in   (* 139 *)
  let alpha := fdiv (Fin 1) (fadd (Fin 1) (Fin (com cfg))) in                  (* 141 *)
  let new_wt := if truthy (adjust cfg) then Fin 1 else alpha in                (* 143-146 *)
  let old0 := old_wt st in                                                     (* 148 *)
  let '(old_wt_factor, old1) :=                                                (* 155-163 *)
    match adjust cfg with
    | AdjLinear =>
        (if is_observation then Fin 1
         else fmax (Fin 0) (fdiv (fsub old0 (Fin 1)) old0),
         fmin old0 (Fin (com cfg)))
    | _ => (fsub (Fin 1) alpha, old0)
    end in
  let old2 :=                                                                  (* 165-168 *)
    if ignore_na cfg then (if is_observation then fmul old1 old_wt_factor else old1)
    else fmul old1 old_wt_factor in
  let old3 := if isnan_mean then Fin 0 else old2 in                            (* 170 *)
  let mean1 :=                                                                 (* 172 *)
    if is_observation
    then fdiv (fadd (fmul old3 mean) (fmul new_wt x)) (fadd old3 new_wt) else mean in
  let com_eff := fdiv old3 new_wt in                                           (* 175 *)
  let old4 :=                                                                  (* 177-180 *)
    if truthy (adjust cfg) then (if is_observation then fadd old3 new_wt else old3)
    else (if is_observation then Fin 1 else old3) in
  let mean2 := if andb (negb is_observation) isnan_mean then NaN else mean1 in (* 183 *)
  let nobs' := if is_observation then (nobs st + 1)%Z else nobs st in          (* 194 *)
  let result :=                                                                (* 199-202 *)
    if Z.eqb (min_periods cfg) 0 then mean2
    else if Z.geb nobs' (min_periods cfg) then mean2 else NaN in
  ((result, (com_eff, nobs')), EwmaState mean2 old4 nobs').

(** EWMA with return_info=False. *)
Definition EWMA (fmax_ : R) (cfg : ewma_cfg) :=
  hk_module (fun _ : fl => ewma_init cfg)
    (fun s x => let '((r, _), s') := ewma_step fmax_ cfg s x in (r, s')).
(** EWMA with return_info=True. *)
Definition EWMA_info (fmax_ : R) (cfg : ewma_cfg) :=
  hk_module (fun _ : fl => ewma_init cfg) (ewma_step fmax_ cfg).

(** *** EWMVar: modules/ewmvar.py lines 64-128, one element.
    [nobs] is a whole number kept as [nat] (the code keeps it as a float); [**] is [pow]. *)
Record ewmvar_state := EwmvarState { ev_mean : fl; ev_var : fl; ev_nobs : nat }.
Definition ewmvar_init : ewmvar_state := EwmvarState NaN NaN 0.
Definition ewmvar_step (com_ : R) (adj : adjust_mode) (st : ewmvar_state) (x : fl)
  : fl * ewmvar_state :=
  let alpha := fdiv (Fin 1) (fadd (Fin 1) (Fin com_)) in                       (* 80 *)
  let mean := if isnan (ev_mean st) then x else ev_mean st in                  (* 102 *)
  let variance := if isnan (ev_var st) then Fin 0 else ev_var st in            (* 103 *)
  let mask := negb (isnan x) in                                                (* 105 *)
  let n := if mask then S (ev_nobs st) else ev_nobs st in                      (* 106 *)
  let alpha :=                                                                 (* 109-115 *)
    match adj with
    | AdjLinear =>
        let tscale := fdiv (Fin 1) alpha in
        let tscale := if flt (Fin (INR n)) tscale then Fin (INR n) else tscale in
        if flt (Fin 0) tscale then fdiv (Fin 1) tscale else NaN
    | AdjTrue =>
        match alpha with
        | Fin a => fdiv alpha (fsub (Fin 1) (Fin ((1 - a) ^ n)))
        | _ => NaN
        end
    | AdjFalse => alpha
    end in
  let diff := fsub x mean in                                                   (* 117 *)
  let incr := fmul alpha diff in                                               (* 118 *)
  let mean' := if mask then fadd mean incr else mean in                        (* 121 *)
  let variance' :=                                                             (* 122 *)
    if mask then fmul (fsub (Fin 1) alpha) (fadd variance (fmul diff incr)) else variance in
  (variance', EwmvarState mean' variance' n).
Definition EWMVar (com_ : R) (adj : adjust_mode) :=
  hk_module (fun _ : fl => ewmvar_init) (ewmvar_step com_ adj).

(** *** EWMCov: modules/ewmcov.py lines 112-152 on vectors. *)
Definition outer {A B C : Type} (f : A -> B -> C) (x : list A) (y : list B) : list (list C) :=
  map (fun a => map (f a) y) x.

Fixpoint map2 {A B C : Type} (f : A -> B -> C) (x : list A) (y : list B) : list C :=
  match x, y with a :: x', b :: y' => f a b :: map2 f x' y' | _, _ => [] end.

(** element-wise EWMA on a vector / a matrix *)
Definition ewma_vec (fmax_ : R) (cfg : ewma_cfg) (ss : list ewma_state) (x : list fl)
  : list fl * list ewma_state :=
  let r := map2 (ewma_step fmax_ cfg) ss x in (map (fun p => fst (fst p)) r, map snd r).
Definition ewma_mat (fmax_ : R) (cfg : ewma_cfg) (ss : list (list ewma_state)) (x : list (list fl))
  : list (list fl) * list (list ewma_state) :=
  let r := map2 (ewma_vec fmax_ cfg) ss x in (map fst r, map snd r).

Record ewmcov_state := EwmcovState {
  cov_xy : list (list ewma_state); cov_x : list ewma_state; cov_y : list ewma_state }.

Definition ewmcov_init (cfg : ewma_cfg) (x y : list fl) : ewmcov_state :=
  EwmcovState (outer (fun _ _ => ewma_init cfg) x y)
    (map (fun _ => ewma_init cfg) x) (map (fun _ => ewma_init cfg) y).

Definition ewmcov_step (fmax_ : R) (cfg : ewma_cfg) (assume_centered : bool)
  (st : ewmcov_state) (xy : list fl * list fl) : list (list fl) * ewmcov_state :=
  let '(x, y) := xy in
  let '(mean_xy, sxy) := ewma_mat fmax_ cfg (cov_xy st) (outer fmul x y) in
  if assume_centered then (mean_xy, EwmcovState sxy (cov_x st) (cov_y st))
  else
    let '(mean_x, sx) := ewma_vec fmax_ cfg (cov_x st) x in
    let '(mean_y, sy) := ewma_vec fmax_ cfg (cov_y st) y in
    (map2 (map2 fsub) mean_xy (outer fmul mean_x mean_y), EwmcovState sxy sx sy).

Definition EWMCov (fmax_ : R) (cfg : ewma_cfg) (assume_centered : bool) :=
  hk_module (fun xy => ewmcov_init cfg (fst xy) (snd xy)) (ewmcov_step fmax_ cfg assume_centered).

(** *** numba EWMA: numba/ewma_numba.py lines 129-185.  Per-column state; the code requires com > 0
    (line 94). *)
Definition numba_cell (cfg : ewma_cfg) (st : ewma_state) (cur : fl) : fl * ewma_state :=
  let alpha := fdiv (Fin 1) (fadd (Fin 1) (Fin (com cfg))) in                  (* 95 *)
  let new_wt := if truthy (adjust cfg) then Fin 1 else alpha in                (* 139-142 *)
  let is_obs := negb (isnan cur) in                                            (* 150 *)
  let nobs' := (nobs st + (if is_obs then 1 else 0))%Z in                      (* 151 *)
  let avg := ew_mean st in
  let '(avg', old') :=
    if negb (isnan avg) then                                                   (* 153 *)
      let '(factor, old1) :=
        match adjust cfg with
        | AdjLinear =>                                                         (* 154-162 *)
            (if is_obs then Fin 1
             else if flt (Fin 0) (old_wt st)
                  then fmax (Fin 0) (fdiv (fsub (old_wt st) (Fin 1)) (old_wt st))
                  else Fin 0,
             fmin (old_wt st) (Fin (com cfg)))
        | _ => (fsub (Fin 1) alpha, old_wt st)                                 (* 164 *)
        end in
      if orb is_obs (negb (ignore_na cfg)) then                                (* 166 *)
        let old2 := fmul old1 factor in                                        (* 169 *)
        if is_obs then                                                         (* 170-179 *)
          let avg' := if fne avg cur
                      then fdiv (fadd (fmul old2 avg) (fmul new_wt cur)) (fadd old2 new_wt)
                      else avg in
          (avg', if truthy (adjust cfg) then fadd old2 new_wt else Fin 1)
        else (avg, old2)
      else (avg, old1)
    else if is_obs then (cur, old_wt st)                                       (* 180-181 *)
    else (avg, old_wt st) in
  let result := if Z.geb nobs' (min_periods cfg) then avg' else NaN in         (* 183 *)
  (result, EwmaState avg' old' nobs').

(** one row of the table: columns are processed independently (line 152) *)
Definition numba_row (cfg : ewma_cfg) (ss : list ewma_state) (cur : list fl)
  : list fl * list ewma_state :=
  let r := map2 (numba_cell cfg) ss cur in (map fst r, map snd r).

Fixpoint numba_rows (cfg : ewma_cfg) (ss : list ewma_state) (values : list (list fl))
  : list (list fl) * list ewma_state :=
  match values with
  | [] => ([], ss)
  | cur :: rest =>
      let '(r, ss') := numba_row cfg ss cur in
      let '(rs, sF) := numba_rows cfg ss' rest in (r :: rs, sF)
  end.

(** numba/ewma_numba.py lines 97-127: apply; [None]: AssertionError (com <= 0) or empty values. *)
Definition numba_ewma (cfg : ewma_cfg) (values : list (list fl)) (state : option (list ewma_state))
  : option (list (list fl) * list ewma_state) :=
  if Rlt_b 0 (com cfg) then
    match state with
    | Some ss => Some (numba_rows cfg ss values)
    | None =>
        match values with
        | [] => None
        | row0 :: _ => Some (numba_rows cfg (map (fun _ => ewma_init cfg) row0) values)
        end
    end
  else None.

(** numba/ewma_numba.py lines 111-127 with object identity: the arrays of the given state are read
    (lines 119-121) and written in place by the compiled loop (lines 146, 151, 162, 169-181:
    [weighted_avg] is [mean] itself), and the returned EWMAState wraps the same arrays.  [objs] are
    the array triples in memory; the result is the rows, the memory after the call and the index of
    the returned state. *)
Definition numba_call (cfg : ewma_cfg) (objs : list (list ewma_state)) (values : list (list fl))
  (ref : nat) : option (list (list fl) * list (list ewma_state) * nat) :=
  match nth_error objs ref with
  | Some ss =>
      match numba_ewma cfg values (Some ss) with
      | Some (res, sF) => Some (res, firstn ref objs ++ sF :: skipn (S ref) objs, ref)
      | None => None
      end
  | None => None
  end.
