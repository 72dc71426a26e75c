(** Models of /repo/src/wax/flax/core/transform.py, core/unroll.py and of the modules of
    /repo/src/wax/flax/modules which have a haiku counterpart (one array element where the haiku models do so).

    A flax module is given by the initial values of its variables (the lambdas of self.variable, functions of the
    first input) and by the effect of a call on its state variables.  *)
From Coq Require Import List ZArith Reals.
From Verif Require Import Model.Tree Model.Unroll Model.Float Model.Modules Model.Ewm.
Import ListNotations.

(** *** core/transform.py lines 35-95: flax_transform_with_state.  flax Module.init creates the parameters and the
    variables, runs the module on the input, and returns the variables as that call leaves them (the module is run
    with every collection mutable).  The use of rng streams is not modelled: [call] gets the key as it is. *)
Definition flax_transform_with_state {K P S X Y : Type}
  (params0 : option K -> X -> P) (state0 : X -> S) (call : P -> S -> option K -> X -> Y * S)
  : transformed K P S X Y :=
  Transformed (fun k x => let p := params0 k x in (p, snd (call p (state0 x) k x))) call.

(** *** core/unroll.py lines 46-119: flax_unroll_transform, and lines 122-172: flax_unroll with
    return_final_state=True.  init (lines 75-80) indexes the first element; it is skipped when both params and
    state are given (lines 157-162).  The scan (lines 87-117) is the same as in unroll.py. *)
Definition flax_unroll {K P S X Y : Type} (split : K -> K * K) (tf : transformed K P S X Y)
  (skip_first : bool) (rng : option K) (params : option P) (state : option S) (xs : list X)
  : option (list Y * S) :=
  match params, state with
  | Some p, Some s => Some (unroll_apply split tf skip_first p s rng xs)
  | _, _ =>
      match unroll_init tf rng xs with
      | None => None
      | Some (p0, s0) =>
          let p := match params with None => p0 | Some p => p end in
          let s := match state with None => s0 | Some s => s end in
          Some (unroll_apply split tf skip_first p s rng xs)
      end
  end.

(** A parameter-free module. *)
Record flax_module (S X Y : Type) := FlaxModule { fx_vars : X -> S; fx_call : S -> X -> Y * S }.
Arguments FlaxModule {S X Y}.
Arguments fx_vars {S X Y}.
Arguments fx_call {S X Y}.
Definition flax_tf {S X Y : Type} (m : flax_module S X Y) : transformed unit unit S X Y :=
  flax_transform_with_state (fun _ _ => tt) (fx_vars m) (fun _ s _ x => fx_call m s x).

(** The outputs of successive module.apply(variables, x, mutable=...), state variables being threaded. *)
Fixpoint flax_calls {S X Y : Type} (m : flax_module S X Y) (s : S) (xs : list X) : list Y * S :=
  match xs with
  | [] => ([], s)
  | x :: r => let '(y, s1) := fx_call m s x in
              let '(ys, s2) := flax_calls m s1 r in (y :: ys, s2)
  end.
(** ... from the initial values of the variables. *)
Definition flax_from_scratch {S X Y : Type} (m : flax_module S X Y) (xs : list X) : list Y :=
  match xs with [] => [] | x0 :: _ => fst (flax_calls m (fx_vars m x0) xs) end.

(** int32 arithmetic. *)
Definition wrap32 (z : Z) : Z := ((z + 2 ^ 31) mod 2 ^ 32 - 2 ^ 31)%Z.

(** *** flax/modules/buffer.py lines 48-99 *)
Section Ring.
  Context {A : Type}.
  Record ring_state := RingState { ring : list A; ring_len : nat; write_idx : Z }.
  (** lines 59-71 *)
  Definition ring_init (maxlen : nat) (full : A) : ring_state := RingState (repeat full maxlen) 0 0.
  (** buffer.at[i].set(x) *)
  Definition set_at (l : list A) (i : nat) (x : A) : list A := firstn i l ++ x :: skipn (S i) l.
  (** lines 73-99; the output is [ordered]. *)
  Definition ring_call (maxlen : nat) (st : ring_state) (x : A) : list A * ring_state :=
    let m := Z.of_nat maxlen in
    let write_pos := Z.to_nat (write_idx st mod m) in                          (* 78 *)
    let updated := set_at (ring st) write_pos x in                             (* 79 *)
    let len := Nat.min (ring_len st + 1) maxlen in                             (* 81 *)
    let new_write_idx := wrap32 (write_idx st + 1) in                          (* 82 *)
    let start := Z.to_nat (new_write_idx mod m) in                             (* 91 *)
    let ordered := map (fun i => nth ((i + start) mod maxlen) updated x) (seq 0 maxlen) in (* 92-93 *)
    (ordered, RingState updated len new_write_idx).
  Definition FBuffer (maxlen : nat) (full_like : A -> A) : flax_module ring_state A (list A) :=
    FlaxModule (fun x0 => ring_init maxlen (full_like x0)) (ring_call maxlen).

  (** flax/modules/lag.py lines 36-62 *)
  Definition flag_call (lag : nat) (st : ring_state) (x : A) : option A * ring_state :=
    let '(b, s) := ring_call (lag + 1) st x in (hd_error b, s).
  Definition FLag (lag : nat) (full_like : A -> A) : flax_module ring_state A (option A) :=
    FlaxModule (fun x0 => ring_init (lag + 1) (full_like x0)) (flag_call lag).
End Ring.
Arguments ring_state : clear implicits.

(** flax/modules/ffill.py lines 29-52 *)
Definition fffill_call (valid x : fl) : fl * fl :=
  let updated := if isnan x then valid else x in (updated, updated).
Definition FFfill : flax_module fl fl fl := FlaxModule (fun _ => NaN) fffill_call.

(** flax/modules/diff.py lines 33-57, periods = 1 *)
Definition fdiff_call (st : ring_state fl) (x : fl) : fl * ring_state fl :=
  let '(b, s) := ring_call 2 st x in (fsub (last b NaN) (hd NaN b), s).
Definition FDiff (periods : nat) : option (flax_module (ring_state fl) fl fl) :=
  if Nat.eqb periods 1 then Some (FlaxModule (fun _ => ring_init (periods + 1) NaN) fdiff_call) else None.

(** flax/modules/pct_change.py lines 35-69, periods = 1; [fill] is "fill_method is ffill or pad". *)
Record fpct_state := FPctState { fpct_ffill : fl; fpct_lag : ring_state fl }.
Definition fpct_call (fill fillna_zero : bool) (st : fpct_state) (x : fl) : fl * fpct_state :=
  let '(x_filled, ff) := if fill then fffill_call (fpct_ffill st) x else (x, fpct_ffill st) in
  let '(b, lg) := ring_call 2 (fpct_lag st) x_filled in
  let previous_x := hd NaN b in
  let pct := fsub (fdiv x previous_x) (Fin 1) in
  let out := if fillna_zero then
               (if andb (isnan x) (negb (isnan previous_x)) then Fin 0 else pct) else pct in
  (out, FPctState ff lg).
Definition FPctChange (periods : nat) (fill fillna_zero : bool) : option (flax_module fpct_state fl fl) :=
  if Nat.eqb periods 1
  then Some (FlaxModule (fun _ => FPctState NaN (ring_init (periods + 1) NaN)) (fpct_call fill fillna_zero))
  else None.

(** flax/modules/rolling_mean.py lines 33-60 *)
Definition frolling_call (horizon : nat) (min_periods : Z) (st : ring_state fl) (x : fl)
  : fl * ring_state fl :=
  let '(b, s) := ring_call horizon st x in
  let sum := fsum (map (fun v => if negb (isnan v) then v else Fin 0) b) in
  let count := length (filter (fun v => negb (isnan v)) b) in
  (if Z.geb (Z.of_nat count) min_periods then fdiv sum (Fin (INR count)) else NaN, s).
Definition FRollingMean (horizon : nat) (min_periods : Z) : flax_module (ring_state fl) fl fl :=
  FlaxModule (fun _ => ring_init horizon NaN) (frolling_call horizon min_periods).

(** flax/modules/has_changed.py lines 27-50 *)
Definition FHasChanged {A : Type} (neq : A -> A -> bool) (dflt : A) : flax_module (list A) (list A) bool :=
  FlaxModule (fun x0 => map (fun _ => dflt) x0) (fun prev input => (any_neq neq input prev, input)).

(** flax/modules/counter.py lines 24-36 *)
Definition FCounter : flax_module Z unit Z :=
  FlaxModule (fun _ => 0%Z) (fun count _ => let c := ((count + 1) mod 2 ^ 32)%Z in (c, c)).

(** *** flax/modules/ewma.py lines 38-163, one element. *)
Local Open Scope R_scope.
Definition fewma_call (fmax_ : R) (cfg : ewma_cfg) (st : ewma_state) (x : fl)
  : (fl * (fl * Z)) * ewma_state :=
  let current_mean := ew_mean st in
  let is_observation := negb (isnan x) in                                      (* 91 *)
  let isnan_mean := isnan current_mean in                                      (* 92 *)
  let x_filled := nan_to_num (Fin 0) (Fin fmax_) (Fin (- fmax_)) x in          (* 95 *)
  let mean_filled := nan_to_num (Fin 0) (Fin fmax_) (Fin (- fmax_)) current_mean in (* 95 *)
  let alpha := fdiv (Fin 1) (fadd (Fin 1) (Fin (com cfg))) in                  (* 98 *)
  let new_wt := if truthy (adjust cfg) then Fin 1 else alpha in                (* 100-103 *)
  let '(old_wt_factor, old1) :=                                                (* 105-113 *)
    match adjust cfg with
    | AdjLinear =>
        (if is_observation then Fin 1
         else fmax (Fin 0) (fdiv (fsub (old_wt st) (Fin 1)) (old_wt st)),
         fmin (old_wt st) (Fin (com cfg)))
    | _ => (fsub (Fin 1) alpha, old_wt st)
    end in
  let old2 :=                                                                  (* 115-120 *)
    if ignore_na cfg then (if is_observation then fmul old1 old_wt_factor else old1)
    else fmul old1 old_wt_factor in
  let old3 := if isnan_mean then Fin 0 else old2 in                            (* 122 *)
  let updated_mean :=                                                          (* 125-129 *)
    if is_observation
    then fdiv (fadd (fmul old3 mean_filled) (fmul new_wt x_filled)) (fadd old3 new_wt)
    else current_mean in
  let com_eff := fdiv old3 new_wt in                                           (* 132 *)
  let old4 :=                                                                  (* 135-138 *)
    if truthy (adjust cfg) then (if is_observation then fadd old3 new_wt else old3)
    else (if is_observation then Fin 1 else old3) in
  let final_mean := if andb (negb is_observation) isnan_mean then NaN else updated_mean in (* 141 *)
  let nobs' := if is_observation then (nobs st + 1)%Z else nobs st in          (* 144 *)
  let result :=                                                                (* 155-158 *)
    if Z.eqb (min_periods cfg) 0 then final_mean
    else if Z.geb nobs' (min_periods cfg) then final_mean else NaN in
  ((result, (com_eff, nobs')), EwmaState final_mean old4 nobs').
Definition FEWMA (fmax_ : R) (cfg : ewma_cfg) : flax_module ewma_state fl (fl * (fl * Z)) :=
  FlaxModule (fun _ => ewma_init cfg) (fewma_call fmax_ cfg).

(** *** flax/modules/ewmvar.py lines 53-114, one element. *)
Definition fewmvar_call (com_ : R) (adj : adjust_mode) (st : ewmvar_state) (x : fl) : fl * ewmvar_state :=
  let alpha := fdiv (Fin 1) (fadd (Fin 1) (Fin com_)) in
  let updated_mean := if isnan (ev_mean st) then x else ev_mean st in
  let updated_variance := if isnan (ev_var st) then Fin 0 else ev_var st in
  let mask := negb (isnan x) in
  let n := if mask then S (ev_nobs st) else ev_nobs st in
  let alpha :=
    match adj with
    | AdjLinear =>
        let tscale := fdiv (Fin 1) alpha in
        let tscale := if flt (Fin (INR n)) tscale then Fin (INR n) else tscale in
        if flt (Fin 0) tscale then fdiv (Fin 1) tscale else NaN
    | AdjTrue =>
        match alpha with
        | Fin a => fdiv alpha (fsub (Fin 1) (Fin ((1 - a) ^ n)))
        | _ => NaN
        end
    | AdjFalse => alpha
    end in
  let diff := fsub x updated_mean in
  let incr := fmul alpha diff in
  let final_mean := if mask then fadd updated_mean incr else updated_mean in
  let final_variance :=
    if mask then fmul (fsub (Fin 1) alpha) (fadd updated_variance (fmul diff incr)) else updated_variance in
  (final_variance, EwmvarState final_mean final_variance n).
Definition FEWMVar (com_ : R) (adj : adjust_mode) : flax_module ewmvar_state fl fl :=
  FlaxModule (fun _ => ewmvar_init) (fewmvar_call com_ adj).

(** *** flax/modules/ewmcov.py lines 40-117 on vectors.  [com] or [alpha] is turned into alpha (lines 49-52) from
    which each EWMA recomputes its com. *)
Definition fewmcov_com (c alpha : option R) : option R :=
  match c, alpha with
  | Some c, None => com_of None (Some (1 / (1 + c)))
  | None, Some a => com_of None (Some a)
  | _, _ => None
  end.
Definition fewma_vec (fmax_ : R) (cfg : ewma_cfg) (ss : list ewma_state) (x : list fl)
  : list fl * list ewma_state :=
  let r := map2 (fewma_call fmax_ cfg) ss x in (map (fun p => fst (fst p)) r, map snd r).
Definition fewma_mat (fmax_ : R) (cfg : ewma_cfg) (ss : list (list ewma_state)) (x : list (list fl))
  : list (list fl) * list (list ewma_state) :=
  let r := map2 (fewma_vec fmax_ cfg) ss x in (map fst r, map snd r).
Definition fewmcov_call (fmax_ : R) (cfg : ewma_cfg) (assume_centered : bool)
  (st : ewmcov_state) (xy : list fl * list fl) : list (list fl) * ewmcov_state :=
  let '(x, y) := xy in
  let '(mean_xy, sxy) := fewma_mat fmax_ cfg (cov_xy st) (outer fmul x y) in
  if assume_centered then (mean_xy, EwmcovState sxy (cov_x st) (cov_y st))
  else
    let '(mean_x, sx) := fewma_vec fmax_ cfg (cov_x st) x in
    let '(mean_y, sy) := fewma_vec fmax_ cfg (cov_y st) y in
    (map2 (map2 fsub) mean_xy (outer fmul mean_x mean_y), EwmcovState sxy sx sy).
Definition FEWMCov (fmax_ : R) (cfg : ewma_cfg) (assume_centered : bool)
  : flax_module ewmcov_state (list fl * list fl) (list (list fl)) :=
  FlaxModule (fun xy => ewmcov_init cfg (fst xy) (snd xy)) (fewmcov_call fmax_ cfg assume_centered).
