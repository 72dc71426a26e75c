(** Property theorems C92: the online supervised learner (haiku). *)
From Coq Require Import String List Arith Lia Bool Reals Lra.
From Verif Require Import Model.Unroll Model.Batch Model.Float Model.Optim Model.Learner Spec.OptimSpec Spec.LearnerSpec
  Proofs.LearnerProofs.
Import ListNotations.
Local Open Scope list_scope.

(** C92: a run: at each step the prediction is that of the model at the current parameters, the loss compares it
    with the target, the optimiser receives the gradient of this loss at the current parameters (without NaN or
    infinities when asked for), and the parameters it returns are reported and used from the next step on.  The
    first parameters are those of the initialisation of the model, or those of a given state. *)
Theorem C92_learner_run :
  forall (K S X T Yp OS : Type) (split : K -> K * K) (has_state : S -> bool) (model : transformed K (pmap array) S X Yp)
    (loss : T -> Yp -> fl) (opt : OS -> pmap array -> pmap array -> pmap array * OS) (opt0 : pmap array -> OS)
    (fillg : bool) (grad : (pmap array -> fl) -> pmap array -> pmap array) k x0 y0 xys p0 s0 ms0 given,
  t_init model (Some (snd (split k))) x0 = (p0, s0) -> has_state s0 = false ->
  snd (t_init model (Some (snd (split (fst (split k))))) x0) = ms0 ->
  let start := match given with Some st => st | None => FOState p0 ([], ms0) (opt0 p0) end in
  fst (fo_update start) = [] -> proper (fo_trainable start) -> keeps_proper opt -> on_dictionaries grad ->
  exists ys sF, osl_unroll split has_state model loss opt opt0 fillg grad (Some k) given ((x0, y0) :: xys) = Some (ys, sF) /\
  length ys = Datatypes.S (length xys) /\
  exists (params : nat -> pmap array) (ms : nat -> S) (os : nat -> OS),
    params 0 = fo_trainable start /\ ms 0 = snd (fo_update start) /\ os 0 = fo_opt start /\
    sF = FOState (params (length ys)) ([], ms (length ys)) (os (length ys)) /\
    forall t x y, nth_error ((x0, y0) :: xys) t = Some (x, y) ->
      exists y_pred, t_apply model (params t) (ms t) None x = (y_pred, ms (1 + t)) /\
        nth_error ys t = Some (y_pred, OslInfo (loss y y_pred) (params (1 + t))) /\
        let g := grad (fun q => loss y (fst (t_apply model q (ms t) None x))) (params t) in
        opt (os t) (params t) (if fillg then each_entry zeroed g else g) = (params (1 + t), os (1 + t)).
Proof. exact @osl_run. Qed.
Print Assumptions C92_learner_run.

(** C92: a model with state is refused. *)
Theorem C92_stateful_refused :
  forall (K S X T Yp OS : Type) (split : K -> K * K) (has_state : S -> bool) (model : transformed K (pmap array) S X Yp)
    (loss : T -> Yp -> fl) (opt : OS -> pmap array -> pmap array -> pmap array * OS) (opt0 : pmap array -> OS)
    (fillg : bool) (grad : (pmap array -> fl) -> pmap array -> pmap array) k st x y xys,
  has_state (snd (t_init model (Some (snd (split k))) x)) = true ->
  osl_unroll split has_state model loss opt opt0 fillg grad (Some k) st ((x, y) :: xys) = None.
Proof. exact @osl_stateful. Qed.
Print Assumptions C92_stateful_refused.

(** C92: predictions are made before learning: those of the steps 0..t do not depend on the targets from step t
    on, nor on anything after step t. *)
Theorem C92_predicts_before_learning :
  forall (K S X T Yp OS : Type) (split : K -> K * K) (has_state : S -> bool) (model : transformed K (pmap array) S X Yp)
    (loss : T -> Yp -> fl) (opt : OS -> pmap array -> pmap array -> pmap array * OS) (opt0 : pmap array -> OS)
    (fillg : bool) (grad : (pmap array -> fl) -> pmap array -> pmap array) rng state (xys xys' : list (X * T)) t ys sF ys' sF',
  firstn t xys = firstn t xys' -> firstn (t + 1) (map fst xys) = firstn (t + 1) (map fst xys') ->
  osl_unroll split has_state model loss opt opt0 fillg grad rng state xys = Some (ys, sF) ->
  osl_unroll split has_state model loss opt opt0 fillg grad rng state xys' = Some (ys', sF') ->
  firstn (t + 1) (map fst ys) = firstn (t + 1) (map fst ys').
Proof. exact @osl_causal. Qed.
Print Assumptions C92_predicts_before_learning.

(** C92: the hypothesis on the optimiser holds for every optax transformation. *)
Theorem C92_optax_keeps_dictionaries :
  forall (OS : Type) (o : gradient_transformation OS array), keeps_proper (optax_opt o).
Proof. exact @optax_keeps. Qed.
Print Assumptions C92_optax_keeps_dictionaries.

(** C92: with optax.sgd(lr) each parameter moves by -lr times its derivative, and not at all where the derivative
    is NaN or infinite ... *)
Theorem C92_sgd_step :
  forall lr os p g p' os',
  optax_opt (sgd lr) os p (each_entry zeroed g) = (p', os') ->
  map fst p' = map fst p /\
  forall key v d, get key p = Some v -> get key g = Some d -> length d = length v ->
    exists w, get key p' = Some w /\ length w = length v /\
    forall i a b, nth_error v i = Some a -> nth_error d i = Some b ->
      nth_error w i = Some (match b with Fin r => fsub a (Fin (lr * r)) | _ => a end).
Proof. exact @sgd_step. Qed.
Print Assumptions C92_sgd_step.
(** ... so that an observation without any finite derivative (a missing target) changes nothing. *)
Theorem C92_sgd_missing_observation :
  forall lr os p g p' os',
  proper p -> (forall key d b, get key g = Some d -> In b d -> isfinite b = false) ->
  (forall key v, get key p = Some v -> exists d, get key g = Some d /\ length d = length v) ->
  optax_opt (sgd lr) os p (each_entry zeroed g) = (p', os') -> p' = p.
Proof. exact @sgd_missing. Qed.
Print Assumptions C92_sgd_missing_observation.

(** y = w * x, square loss, central differences (exact here), lr = 1/4; the second target is missing *)
Module DemoL.
  Local Open Scope string_scope.
  Definition model : transformed unit (pmap array) unit fl fl :=
    @Transformed unit (pmap array) unit fl fl (fun _ _ => ([(("lin", "w"), [Fin 0%R])], tt))
      (fun p s _ x => (match get ("lin", "w") p with Some [w] => fmul w x | _ => NaN end, s)).
  Definition square (y yp : fl) : fl := fmul (fsub y yp) (fsub y yp).
  Definition grad (f : pmap array -> fl) (p : pmap array) : pmap array :=
    match p with
    | [(k, [w])] => [(k, [fmul (Fin (1 / 2)%R) (fsub (f [(k, [fadd w (Fin 1%R)])]) (f [(k, [fsub w (Fin 1%R)])]))])]
    | _ => []
    end.
End DemoL.
Example C92_example :
  on_dictionaries DemoL.grad /\ proper [(("lin", "w")%string, [Fin 0%R])] /\
  exists w1 w2 w3 : R, (w1 = 1 /\ w2 = 1 /\ w3 = 3 / 2)%R /\
  let params w := [(("lin", "w")%string, [Fin w])] in
  option_map fst (osl_unroll (fun k : unit => (k, k)) (fun _ => false) DemoL.model DemoL.square (optax_opt (sgd (1 / 4)))
     (fun _ => tt) true DemoL.grad (Some tt) None [(Fin 1%R, Fin 2%R); (Fin 1%R, NaN); (Fin 1%R, Fin 2%R)]) =
  Some [(Fin (0 * 1), OslInfo (Fin ((2 + - (0 * 1)) * (2 + - (0 * 1)))) (params w1));
        (Fin (w1 * 1), OslInfo NaN (params w2));
        (Fin (w2 * 1), OslInfo (Fin ((2 + - (w2 * 1)) * (2 + - (w2 * 1)))) (params w3))]%R.
Proof.
  split; [|split].
  - intros f f' p H. unfold DemoL.grad. destruct p as [|[k [|w [|w' r]]] [|kv q]]; try reflexivity.
    rewrite !H; [reflexivity| |]; constructor; cbn; try tauto; constructor.
  - constructor; [cbn; tauto|constructor].
  - do 3 eexists. split; [|cbn; reflexivity]. cbn. repeat split; field.
Qed.
