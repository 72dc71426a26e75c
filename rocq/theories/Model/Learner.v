(** Model of /repo/src/wax/modules/online_supervised_learner.py (haiku). *)
From Coq Require Import String List Bool Reals.
From Verif Require Import Model.Unroll Model.Batch Model.Float Model.Optim.
Import ListNotations.
Local Open Scope list_scope.

(** predicate.py lines 16-18: pass_all_predicate *)
Definition pass_all {V : Type} (k : pkey) (v : V) : bool := true.

Section Learner.
  Context {K S X T Yp OS : Type} (split : K -> K * K).
  Variables (has_state : S -> bool) (model : transformed K (pmap array) S X Yp) (loss : T -> Yp -> fl)
    (opt : OS -> pmap array -> pmap array -> pmap array * OS) (opt0 : pmap array -> OS)
    (grads_fill_nan_inf : bool) (grad : (pmap array -> fl) -> pmap array -> pmap array).

  (** online_supervised_learner.py lines 74-76: _loss(x, y), as a transformed function.  Simplification:
      the loss function creates no haiku parameter or state of its own. *)
  Definition osl_loss : transformed K (pmap array) S (X * T) (fl * Yp) :=
    @Transformed K (pmap array) S (X * T) (fl * Yp)
      (fun rng xy => t_init model rng (fst xy))
      (fun p s rng xy =>
         let '(y_pred, s') := t_apply model p s rng (fst xy) in
         ((loss (snd xy) y_pred, y_pred), s')).

  (** lines 27-29 *)
  Record osl_info := OslInfo { osl_loss_val : fl; osl_params : pmap array }.

  (** line 78, during init: FuncOptimizer with the default params_predicate *)
  Definition osl_init (rng : option K) (xy : X * T) : option (@fo_state S OS) :=
    fo_init split has_state osl_loss opt0 pass_all rng xy.

  (** lines 78-82 *)
  Definition osl_step (st : @fo_state S OS) (xy : X * T) : (Yp * osl_info) * @fo_state S OS :=
    let '((loss_val, y_pred, params), st') :=
      fo_step split osl_loss opt pass_all grads_fill_nan_inf grad st xy in
    ((y_pred, OslInfo loss_val params), st').

  (** unroll.py lines 65-93 and 128-138 on this module, whose init may raise ([None]); [state] is the
      optional override of the initial state. *)
  Definition osl_unroll (rng : option K) (state : option (@fo_state S OS)) (xys : list (X * T))
    : option (list (Yp * osl_info) * @fo_state S OS) :=
    match xys with
    | [] => None
    | xy :: _ =>
        match osl_init rng xy with
        | None => None
        | Some s0 =>
            let s := match state with Some s => s | None => s0 end in
            let '(sF, ys) := lax_scan (fun st xy => let '(y, st') := osl_step st xy in (st', y)) s xys in
            Some (ys, sF)
        end
    end.
End Learner.

(** The optimiser when [opt] is an optax transformation: line 62, OptaxOptimizer *)
Definition optax_opt {OS : Type} (o : gradient_transformation OS array)
  : OS -> pmap array -> pmap array -> pmap array * OS := optax_optimizer o.

(** optax.sgd(learning_rate) without momentum: updates = -learning_rate * gradients; no state *)
Definition sgd (lr : R) : gradient_transformation unit array :=
  GradTrans (fun _ => tt) (fun g s => (map (fun kv => (fst kv, map (fmul (Fin (- lr)%R)) (snd kv))) g, s)).
