(** The online predictors of /repo/src/wax/flax/examples/transform_compositions.py lines 213-267, built with
    streaming_optimizer (flax/core/streaming_transforms.py lines 715-838).  Unlike Model/FlaxCore.v the scale and the
    optimizer are in floats, so that a missing target is seen by them. *)
From Coq Require Import List Reals.
From Verif Require Import Model.Unroll Model.Float Model.Ewm Model.FlaxModules Model.FlaxCore Model.Compositions.
Import ListNotations.
Local Open Scope R_scope.

(** An optax transformation of one float: init(params) and update(grads, state, params). *)
Record optax_scalar (O : Type) := Optax { ox_init : fl -> O; ox_update : fl -> O -> fl -> fl * O }.
Arguments Optax {O}. Arguments ox_init {O}. Arguments ox_update {O}.
(** optax.sgd(lr) (no momentum): updates = -lr * g. *)
Definition optax_sgd (lr : R) : optax_scalar unit :=
  Optax (fun _ => tt) (fun g s _ => (fmul (Fin (- lr)) g, s)).
(** optax.adam(lr) with its defaults b1=0.9, b2=0.999, eps=1e-8, eps_root=0: the state is (count, mu, nu). *)
Definition adam_b1 : R := 9 / 10.
Definition adam_b2 : R := 999 / 1000.
Definition adam_eps : R := 1 / 10 ^ 8.
Definition optax_adam (lr : R) : optax_scalar (nat * fl * fl) :=
  Optax (fun _ => (0%nat, Fin 0, Fin 0))
    (fun g s _ =>
       let '(count, mu, nu) := s in
       let mu := fadd (fmul (Fin (1 - adam_b1)) g) (fmul (Fin adam_b1) mu) in
       let nu := fadd (fmul (Fin (1 - adam_b2)) (fmul g g)) (fmul (Fin adam_b2) nu) in
       let count := (count + 1)%nat in
       let mu_hat := fdiv mu (Fin (1 - adam_b1 ^ count)) in
       let nu_hat := fdiv nu (Fin (1 - adam_b2 ^ count)) in
       (fmul (Fin (- lr)) (fdiv mu_hat (fadd (fsqrt nu_hat) (Fin adam_eps))), (count, mu, nu))).

(** lines 218-220: prediction_loss = jnp.mean((prediction - target) ** 2) of one number, and
    jax.value_and_grad of scale -> prediction_loss(model_output * scale, target)
    (streaming_transforms.py lines 760-766). *)
Definition scale_loss (model_output target scale : fl) : fl :=
  let d := fsub (fmul model_output scale) target in fmul d d.
Definition scale_grad (model_output target scale : fl) : fl :=
  fmul (fmul (Fin 2) (fsub (fmul model_output scale) target)) model_output.

(** streaming_transforms.py lines 731-787 and 821-834 (has_aux=True; without aux, [A] is unit): [args] lists the
    positional arguments, never empty here (line 752 would raise); the target is the second one. *)
Section Opt.
  Context {S X A O : Type}.
  Variable model : flax_module S X (fl * A).
  Variable args : X -> list fl.
  Variable optimizer : optax_scalar O.
  Definition second_argument (l : list fl) : fl :=                               (* 752 *)
    match l with _ :: t :: _ => t | [t] => t | [] => NaN end.
  Definition learn_call (st : S * (fl * O)) (x : X) : (fl * fl * A) * (S * (fl * O)) :=
    let '(s, (scale, opt_state)) := st in
    let '((model_output, aux), s') := fx_call model s x in                       (* 745-749 *)
    let target := second_argument (args x) in
    let loss_val := scale_loss model_output target scale in                      (* 766 *)
    let grads := scale_grad model_output target scale in
    let '(updates, opt_state') := ox_update optimizer grads opt_state scale in   (* 772 *)
    let new_scale := fadd scale updates in                                       (* 773 *)
    ((loss_val, model_output, aux), (s', (new_scale, opt_state'))).              (* 776-784 *)
  Definition learner : flax_module (S * (fl * O)) X (fl * fl * A) :=
    FlaxModule (fun x0 => (fx_vars model x0, (Fin 1, ox_init optimizer (Fin 1)))) learn_call.  (* 757, 769 *)
End Opt.

(** transform_compositions.py lines 223-238: adaptive_price_predictor(features, target) *)
Definition adaptive_model (fmax_ : R) : flax_module ewma_state (fl * fl) (fl * unit) :=
  FlaxModule (fun _ => ema_vars)
    (fun st x => let '(processed, st) := ema_call fmax_ (com_of_alpha (1 / 10)) st (fst x) in  (* 233 *)
                 ((fmul processed (Fin (11 / 10)), tt), st)).                    (* 236 *)
Definition adaptive_price_predictor (fmax_ : R) :=
  flax_tf (learner (adaptive_model fmax_) (fun x => [fst x; snd x]) (optax_adam (1 / 1000))).

(** lines 241-267: ensemble_predictor(price, volume, target), with its four diagnostics *)
Record ensemble_aux := EnsembleAux { ea_price_component : fl; ea_volume_component : fl; ea_price_signal : fl; ea_volume_signal : fl }.
Definition ensemble_model (fmax_ : R) : flax_module (ewma_state * ewma_state) (fl * fl * fl) (fl * ensemble_aux) :=
  FlaxModule (fun _ => (ema_vars, ema_vars))
    (fun st x =>
       let '(price, volume, _) := x in
       let '(ps, sp) := ema_call fmax_ (com_of_alpha (2 / 10)) (fst st) price in      (* 251 *)
       let '(vs, sv) := ema_call fmax_ (com_of_alpha (15 / 100)) (snd st) volume in   (* 252 *)
       let price_pred := fmul ps (Fin (105 / 100)) in                                 (* 255 *)
       let volume_pred := fmul vs (Fin (1 / 1000)) in                                 (* 256 *)
       let ensemble_pred := fdiv (fadd price_pred volume_pred) (Fin 2) in             (* 257 *)
       ((ensemble_pred, EnsembleAux price_pred volume_pred ps vs), (sp, sv))).
Definition ensemble_predictor (fmax_ : R) :=
  flax_tf (learner (ensemble_model fmax_) (fun x => let '(p, v, t) := x in [p; v; t]) (optax_sgd (1 / 100))).
