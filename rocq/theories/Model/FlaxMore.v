(** Models of /repo/src/wax/flax/modules/ohlc.py, arma.py, snarimax.py, apply_mask.py, mask_mean.py, mask_std.py,
    mask_normalize.py, gym_feedback.py and vmap.py. *)
From Coq Require Import List Bool ZArith Reals.
From Verif Require Import Model.Tree Model.Unroll Model.Float Model.Modules Model.Ewm Model.Masks Model.Dynamics
  Model.FlaxModules.
Import ListNotations.

(** *** flax/modules/ohlc.py lines 44-102, one element; the input is (value, reset_on).  The submodule HasChanged of
    setup is not used. *)
Definition fohlc_call (st : ohlc) (inp : fl * bool) : ohlc * ohlc :=
  let '(input, reset_on) := inp in
  let is_first_or_reset := reset_on || isnan (o_open st) in                              (* 81 *)
  let new_open := if is_first_or_reset then input else o_open st in                      (* 84 *)
  let new_high := if is_first_or_reset then input else fmax (o_high st) input in         (* 87 *)
  let new_low := if is_first_or_reset then input else fmin (o_low st) input in           (* 90 *)
  let new_close := input in                                                              (* 93 *)
  let r := Ohlc new_open new_high new_low new_close in (r, r).
Definition FOHLC : flax_module ohlc (fl * bool) ohlc := FlaxModule (fun _ => ohlc_nan) fohlc_call.

(** *** flax/modules/arma.py lines 43-105 on scalars.  [dot alpha h] is jnp.sum(alpha * h).  A buffer that setup does
    not create (no coefficients) is a ring of length 0 that is not called. *)
Record farma_state := FArmaState { fa_ar : ring_state fl; fa_ma : ring_state fl }.
Definition farma_call (alpha beta : list fl) (st : farma_state) (eps : fl) : fl * farma_state :=
  let output := eps in                                                                   (* 76 *)
  let '(output, ar) :=                                                                   (* 79-87 *)
    match alpha with
    | [] => (output, fa_ar st)
    | _ => let '(ar_history, ar) := ring_call (length alpha) (fa_ar st) (Fin 0) in
           (fadd output (dot alpha ar_history), ar)
    end in
  let '(output, ma) :=                                                                   (* 90-96 *)
    match beta with
    | [] => (output, fa_ma st)
    | _ => let '(ma_history, ma) := ring_call (length beta) (fa_ma st) eps in
           (fadd output (dot beta ma_history), ma)
    end in
  let ar := match alpha with [] => ar | _ => snd (ring_call (length alpha) ar output) end in (* 99-100 *)
  (nan_to_num (Fin 0) (Fin 0) (Fin 0) output, FArmaState ar ma).                         (* 103 *)
Definition FARMA (alpha beta : list fl) : flax_module farma_state fl fl :=
  FlaxModule (fun _ => FArmaState (ring_init (length alpha) (Fin 0)) (ring_init (length beta) (Fin 0)))
    (farma_call alpha beta).

(** *** flax/modules/snarimax.py lines 39-119 on a scalar x with an optional target; [regressor] is the regression of
    the feature vector (a matrix with one row in the code), its parameters fixed. *)
Record fsn_state := FSnState { fsn_x : ring_state fl; fsn_y : ring_state fl }.
Definition fsn_call (lags_x lags_y : nat) (regressor : list fl -> fl) (st : fsn_state)
  (xy : fl * option fl) : fl * fsn_state :=
  let '(x, y) := xy in
  let '(f1, bx) :=                                                                       (* 76-80 *)
    match lags_x with
    | 0 => ([], fsn_x st)
    | _ => ring_call lags_x (fsn_x st) x
    end in
  let '(f2, by_) :=                                                                      (* 83-89 *)
    match lags_y, y with
    | S _, Some y => ring_call lags_y (fsn_y st) (fsub y x)
    | _, _ => ([], fsn_y st)
    end in
  let features := f1 ++ f2 ++ [x] in                                                     (* 92-103 *)
  (nan_to_num (Fin 0) (Fin 0) (Fin 0) (regressor features), FSnState bx by_).            (* 110-117 *)
Definition FSNARIMAX (lags_x lags_y : nat) (regressor : list fl -> fl)
  : flax_module fsn_state (fl * option fl) fl :=
  FlaxModule (fun _ => FSnState (ring_init lags_x (Fin 0)) (ring_init lags_y (Fin 0)))
    (fsn_call lags_x lags_y regressor).

(** *** flax/modules/apply_mask.py lines 45-74, one leaf.  The broadcasting of jnp.where is modelled for masks of the
    shape of x, for one mask entry per row (axis=0) and one per column (axis=1) of a matrix; other shapes (where numpy may
    broadcast further) are [None].  axis > 1 raises ValueError. *)
Definition fbroadcast_mask (axis : option nat) (mask : arr bool) (xshape : list nat) : option (list bool) :=
  match axis with
  | Some (S (S _)) => None
  | _ =>
      if list_eq_dec Nat.eq_dec (shape mask) xshape then Some (data mask)
      else
        match axis, shape mask, xshape with
        | Some 0, [n], [r; c] => if Nat.eqb n r then Some (flat_map (fun b => repeat b c) (data mask)) else None
        | Some 1, [n], [r; c] => if Nat.eqb n c then Some (concat (repeat (data mask) r)) else None
        | _, _, _ => None
        end
  end.
Definition fapply_mask (axis : option nat) (mask_value : fl) (mask : arr bool) (x : arr fl) : option (arr fl) :=
  match fbroadcast_mask axis mask (shape x) with
  | None => None
  | Some m => Some (Arr (shape x) (map2 (fun (b : bool) v => if b then v else mask_value) m (data x)))
  end.

(** mask.sum(axis) as floats: see [count_axis]; an axis that the mask does not have raises.  The two jnp.where on
    count == 0 (mask_mean.py lines 59 and 65, mask_std.py lines 64 and 89). *)
Definition at_least_one (count : arr fl) : arr fl := arr_map (fun c => if feq c (Fin 0) then Fin 1 else c) count.
Definition nan_where_zero (count v : list fl) : list fl :=
  map2 (fun c m => if feq c (Fin 0) then NaN else m) count v.

(** shape of the quotient of x.sum(axis) by count: equal shapes, or a scalar count *)
Definition div_count (s count : arr fl) : option (arr fl) :=
  match shape count with
  | [] => Some (Arr (shape s) (map (fun v => fdiv v (nth 0 (data count) NaN)) (data s)))
  | _ => if list_eq_dec Nat.eq_dec (shape s) (shape count)
         then Some (Arr (shape s) (map2 fdiv (data s) (data count))) else None
  end.
Definition where_count (count v : arr fl) : option (arr fl) :=
  match shape count with
  | [] => Some (Arr (shape v) (map (fun m => if feq (nth 0 (data count) NaN) (Fin 0) then NaN else m) (data v)))
  | _ => if list_eq_dec Nat.eq_dec (shape v) (shape count)
         then Some (Arr (shape v) (nan_where_zero (data count) (data v))) else None
  end.

(** flax/modules/mask_mean.py lines 48-67 *)
Definition fmask_mean (fm : R) (axis : option nat) (mask : arr bool) (x : arr fl) : option (arr fl) :=
  bind (fapply_mask axis (Fin 0) mask x) (fun x_masked =>
  let x_masked := fill_nans fm x_masked in
  bind (count_axis axis mask) (fun count =>
  bind (sum_axis axis x_masked) (fun s =>
  bind (div_count s (at_least_one count)) (fun mean => where_count count mean)))).

(** mean[None, ...] and mean[..., None] (mask_std.py lines 72-76) then x - mean: the mean of the column (axis=0), of the
    row (axis=1), or of all. *)
Definition fsub_mean (axis : option nat) (x mean : arr fl) : option (arr fl) :=
  match axis, shape x with
  | Some 0, [r; c] => Some (Arr [r; c] (map (fun i => fsub (nth i (data x) NaN) (nth (i mod c) (data mean) NaN)) (seq 0 (r * c))))
  | Some 1, [r; c] => Some (Arr [r; c] (map (fun i => fsub (nth i (data x) NaN) (nth (i / c) (data mean) NaN)) (seq 0 (r * c))))
  | _, s => match shape mean with
            | [] => Some (Arr s (map (fun v => fsub v (nth 0 (data mean) NaN)) (data x)))
            | _ => None
            end
  end.

(** flax/modules/mask_std.py lines 50-91; [eps] is finfo(dtype).eps.  Without assume_centered the mean is subtracted from x
    itself, missing values included (line 77). *)
Definition fmask_std (fm eps : R) (axis : option nat) (assume_centered : bool) (mask : arr bool) (x : arr fl)
  : option (arr fl) :=
  bind (fapply_mask axis (Fin 0) mask x) (fun x_masked =>
  let x_masked := fill_nans fm x_masked in
  bind (count_axis axis mask) (fun count =>
  let count1 := at_least_one count in
  bind (if assume_centered then Some x_masked
        else bind (sum_axis axis x_masked) (fun s =>
             bind (div_count s count1) (fun mean =>
             bind (fsub_mean axis x mean) (fun diff => fapply_mask axis (Fin 0) mask diff)))) (fun diff =>
  bind (sum_axis axis (arr_map (fun v => fmul v v) diff)) (fun ss =>
  bind (div_count ss count1) (fun var =>
  where_count count
    (arr_map (fun v => if flt (Fin 0) v then fsqrt (fadd (Fin eps) v) else Fin 0) var)))))).

(** flax/modules/mask_normalize.py lines 52-62: x / x_std by numpy's broadcasting *)
Definition fmask_normalize (fm eps : R) (axis : option nat) (assume_centered : bool) (mask : arr bool) (x : arr fl)
  : option (arr fl) :=
  bind (fmask_std fm eps axis assume_centered mask x) (fun x_std =>
  bind (broadcast2 fdiv x x_std) (fun q =>
  Some (arr_map (nan_to_num (Fin 0) (Fin 0) (Fin 0)) q))).

(** *** flax/modules/gym_feedback.py lines 31-75: the agent is a stateful function of the observation and the optional
    reward; [zeros_like] gives the initial action.  (An agent which does not accept the reward ignores it.) *)
Definition fgym_call {O Rw A S : Type} (agent : S -> O * option Rw -> A * S) (st : A * S) (inp : O * option Rw)
  : A * (A * S) :=
  let '(action, s') := agent (snd st) inp in (action, (action, s')).
Definition FGymFeedback {O Rw A S : Type} (zeros_like : O -> A) (agent0 : O * option Rw -> S)
  (agent : S -> O * option Rw -> A * S) : flax_module (A * S) (O * option Rw) A :=
  FlaxModule (fun x0 => (zeros_like (fst x0), agent0 x0)) (fgym_call agent).
(** lines 78-104 *)
Definition fgym_loop_call {O Rw A S : Type} (zero : Rw) (agent : S -> O * option Rw -> A * S) (st : A * S)
  (inp : O * option Rw) : (O * A * Rw) * (A * S) :=
  let '(action, st') := fgym_call agent st inp in
  ((fst inp, action, match snd inp with Some r => r | None => zero end), st').

(** *** flax/modules/vmap.py lines 59-89 on scalar results: the function on each lane, then the mean if asked.  The mean of
    an empty batch is NaN. *)
Definition fvmap {X : Type} (take_mean : bool) (fun_ : X -> fl) (xs : list X) : list fl + fl :=
  let result := map fun_ xs in
  if take_mean then inr (fdiv (fsum result) (Fin (INR (length result)))) else inl result.
