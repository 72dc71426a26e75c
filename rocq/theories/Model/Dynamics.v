(** Models of /repo/src/wax/modules/ohlc.py, update_on_event.py, arma.py, snarimax.py and
    gym_feedback.py. *)
From Coq Require Import List Reals.
From Verif Require Import Model.Unroll Model.Float Model.Modules Model.Ewm.
Import ListNotations.

(** *** OHLC: ohlc.py lines 35-104, one element; the input is (value, reset_on). *)
Record ohlc := Ohlc { o_open : fl; o_high : fl; o_low : fl; o_close : fl }.
Definition ohlc_nan : ohlc := Ohlc NaN NaN NaN NaN.
Definition ohlc_step (st : ohlc) (inp : fl * bool) : ohlc * ohlc :=
  let '(input, reset_on) := inp in
  let st := if reset_on then ohlc_nan else st in                               (* 56-63 *)
  let close := if negb (isnan input) then input else o_close st in             (* 66 *)
  let open := if isnan (o_open st) then close else o_open st in                (* 69-73 *)
  let high := if isnan (o_high st) then close else o_high st in                (* 75-79 *)
  let low := if isnan (o_low st) then close else o_low st in                   (* 81-85 *)
  let high := if flt high close then close else high in                        (* 88-92 *)
  let low := if flt close low then close else low in                           (* 93-97 *)
  let r := Ohlc open high low close in (r, r).
Definition OHLC := hk_module (fun _ : fl * bool => ohlc_nan) ohlc_step.

(** *** UpdateOnEvent: update_on_event.py lines 82-121.  The wrapped module is any transformed
    function; the state is (prev_output, state of the wrapped module); [full_like y] is
    tree_map(jnp.full(x.shape, initial_output_value, x.dtype)).  The wrapped module runs at each
    step (line 87) and its new state is dropped when there is no event (106-118). *)
Definition update_on_event {K P S X Y : Type} (full_like : Y -> Y) (tf : transformed K P S X Y)
  : transformed K P (Y * S) (bool * X) Y :=
  @Transformed K P (Y * S) (bool * X) Y
    (fun k ex => let '(p, s) := t_init tf k (snd ex) in
                 (p, (full_like (fst (t_apply tf p s k (snd ex))), s)))
    (fun p st k ex =>
       let '(prev_output, s) := st in
       let '(output, s') := t_apply tf p s k (snd ex) in
       if fst ex then (output, (output, s')) else (prev_output, (prev_output, s))).

(** *** ARMA: arma.py lines 31-51 on scalars.  [a @ b] is the dot product. *)
Definition dot (a b : list fl) : fl := fsum (map2 fmul a b).
Record arma_state := ArmaState {
  arma_eps : buffer_state fl;     (* submodule eps_buffer *)
  arma_y : list fl;               (* state "y_buffer" of the module *)
  arma_ybuf : buffer_state fl }.  (* submodule y_buffer *)
Definition arma_init (alpha beta : list fl) : arma_state :=
  ArmaState (buffer_init (length beta + 1) (Fin 0)) (repeat (Fin 0) (length alpha))
    (buffer_init (length alpha) (Fin 0)).
Definition arma_step (alpha beta : list fl) (st : arma_state) (eps : fl) : fl * arma_state :=
  let '(b, se) := buffer_apply (length beta + 1) (arma_eps st) eps in          (* 32 *)
  let eps_buffer := removelast b in
  let y := fadd (fadd (dot alpha (arma_y st)) (dot beta eps_buffer)) eps in    (* 41 *)
  let y := nan_to_num (Fin 0) (Fin 0) (Fin 0) y in                             (* 43 *)
  let '(yb, sy) := buffer_apply (length alpha) (arma_ybuf st) y in             (* 48 *)
  (y, ArmaState se yb sy).                                                     (* 50 *)
Definition ARMA (alpha beta : list fl) :=
  hk_module (fun _ : fl => arma_init alpha beta) (arma_step alpha beta).

(** *** SNARIMAX: snarimax.py lines 88-110 on a scalar target with optional exogenous features
    ([] when X is None).  [regressor] is the regression model (parameters fixed). *)
Record snarimax_state := SnState {
  sn_y : buffer_state fl; sn_errp : list fl; sn_err : buffer_state fl }.
Definition snarimax_step (p q : nat) (regressor : list fl -> fl) (st : snarimax_state)
  (yX : fl * list fl) : fl * snarimax_state :=
  let '(y, X) := yX in
  let '(b, sy) := buffer_apply (p + 1) (sn_y st) y in
  let yp := tl b in                                                            (* 93 *)
  let X := X ++ sn_errp st ++ yp in                                            (* 101-103 *)
  let X := map (nan_to_num (Fin 0) (Fin 0) (Fin 0)) X in                       (* 104 *)
  let y_pred := regressor X in                                                 (* 106 *)
  let err := fsub y y_pred in                                                  (* 107 *)
  let '(eb, se) := buffer_apply (q + 1) (sn_err st) err in                     (* 108 *)
  (y_pred, SnState sy (tl eb) se).                                             (* 109-110 *)
(** [None]: NotImplementedError (lines 89-90). *)
Definition SNARIMAX (p d q sp sd sq : nat) (regressor : list fl -> fl)
  : option (transformed unit unit snarimax_state (fl * list fl) fl) :=
  match d, sp, sd, sq with
  | 0, 0, 0, 0 =>
      Some (hk_module
        (fun _ => SnState (buffer_init (p + 1) NaN) (tl (repeat (Fin 0) (q + 1)))
                    (buffer_init (q + 1) NaN))
        (snarimax_step p q regressor))
  | _, _, _, _ => None
  end.

(** *** GymFeedback: gym_feedback.py lines 91-118.  The agent and the environment are stateful
    functions; [as_obs] is the use of the first raw observation as an observation (line 107).
    Simplification: initial states of the agent and the environment do not depend on the values of
    the first input. *)
Section Gym.
  Context {X O Act Rw IE IA SA SE : Type}.
  Variables (agent : SA -> O -> (Act * IA) * SA) (env : SE -> Act * X -> (Rw * O * IE) * SE)
    (sa0 : SA) (se0 : SE) (as_obs : X -> O).
  Record gym_state := GymSt { g_action : Act; g_agent : SA; g_env : SE }.
  (** gym_feedback.py lines 24-50: GymOutput.format *)
  Record gym_output := GymOut { g_reward : Rw; g_obs : option O; g_act : option Act }.
  Definition gym_format (return_obs return_action : bool) (rw : Rw) (obs : O) (a : Act)
    : gym_output :=
    GymOut rw (if return_obs then Some obs else None) (if return_action then Some a else None).
  Definition gym_init (init_action : option Act) (raw0 : X) : gym_state :=
    GymSt (match init_action with Some a => a | None => fst (fst (agent sa0 (as_obs raw0))) end)
      sa0 se0.
  Definition gym_step (return_obs return_action : bool) (st : gym_state) (raw_obs : X)
    : (gym_output * (IE * IA)) * gym_state :=
    let '((rw, obs, info_env), se) := env (g_env st) (g_action st, raw_obs) in (* 111 *)
    let '((action, info_agent), sa) := agent (g_agent st) obs in               (* 112 *)
    ((gym_format return_obs return_action rw obs action, (info_env, info_agent)),
     GymSt action sa se).
  Definition GymFeedback (return_obs return_action : bool) (init_action : option Act) :=
    hk_module (gym_init init_action) (gym_step return_obs return_action).
End Gym.
