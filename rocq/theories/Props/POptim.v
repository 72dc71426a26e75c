(** Property theorems C34-C35: online optimisation. *)
From Coq Require Import String List Arith Lia Reals Lra Bool.
From Verif Require Import Model.Unroll Model.Batch Model.Float Model.Optim Model.Newton
  Spec.NewtonSpec Spec.OptimSpec Proofs.OptimProofs Proofs.NewtonProofs.
Import ListNotations.
Local Open Scope list_scope.

(** C34: partition splits the parameters in two parts according to the predicate, merge gives them back. *)
Theorem C34_partition_merge :
  forall (V : Type) (pred : pkey -> V -> bool) (m : pmap V),
  NoDup (map fst m) ->
  let '(a, b) := partition pred m in
  (forall k, get k (merge a b) = get k m) /\
  forall k v, get k m = Some v ->
    (pred k v = true /\ get k a = Some v /\ get k b = None) \/
    (pred k v = false /\ get k a = None /\ get k b = Some v).
Proof. exact @partition_disjoint_union. Qed.
Print Assumptions C34_partition_merge.

(** C34: UpdateParams runs func with the given trainable parameters, the other parameters and the state
    being kept from its initialisation; it never modifies the non-trainable ones. *)
Theorem C34_update_params :
  forall (K S X Y V : Type) (split : K -> K * K) (pred : pkey -> V -> bool)
  (func : transformed K (pmap V) S X Y) k x0 xs p0 s0 tp0 tps,
  t_init func (Some (snd (split k))) x0 = (p0, s0) -> length tps = length xs ->
  exists ys sF,
  unroll split (update_params split pred func) false (Some k) None None
    (combine (tp0 :: tps) (x0 :: xs)) = Some (ys, sF) /\
  length ys = length (x0 :: xs) /\
  exists st : nat -> S, st 0 = s0 /\ sF = (snd (partition pred p0), st (length (x0 :: xs))) /\
    forall t tp x, nth_error (tp0 :: tps) t = Some tp -> nth_error (x0 :: xs) t = Some x ->
      exists y, nth_error ys t = Some y /\
        t_apply func (merge tp (snd (partition pred p0))) (st t) None x = (y, st (1 + t)).
Proof. exact @update_params_run. Qed.
Print Assumptions C34_update_params.

(** C34: OnlineOptimizer: at each step the loss and the info are those of the model at the parameters
    before the update ([tp t] is replaced by [tp (1 + t)], returned by step t), regularisation
    included; the non-trainable parameters are those of the initialisation; the state of the model
    is threaded through the steps.  The optimiser receives the gradient of the regularised loss at these
    parameters, made finite, and its own state; the new parameters are the old ones plus its updates,
    projected. *)
Theorem C34_online_optimizer :
  forall (K S X Info OS : Type) (split : K -> K * K) (fm : R)
    (model : transformed K (pmap array) S X (fl * Info)) (opt : gradient_transformation OS array)
    (project_params : option (pmap array -> pmap array)) (regularize_loss : option (pmap array -> fl))
    (pred : pkey -> array -> bool) (return_params : bool)
    (grad : (pmap array -> fl) -> pmap array -> pmap array)
    k x0 xs p0 s0,
  t_init model (Some (snd (split k))) x0 = (p0, s0) ->
    exists outs sF, unroll split (OnlineOptimizer split fm model opt project_params regularize_loss pred return_params grad) false (Some k) None None (x0 :: xs) = Some (outs, sF) /\
    length outs = length (x0 :: xs) /\ oo_step sF = length (x0 :: xs) /\
    exists (tp : nat -> pmap array) (ms : nat -> S) (os : nat -> OS),
      tp 0 = fst (partition pred p0) /\ ms 0 = s0 /\ os 0 = opt_init opt (tp 0) /\
      non_trainable_params sF = snd (partition pred p0) /\
      trainable_params sF = tp (length (x0 :: xs)) /\ model_state sF = ms (length (x0 :: xs)) /\
      opt_state sF = os (length (x0 :: xs)) /\
      forall t x, nth_error (x0 :: xs) t = Some x -> exists l info,
        t_apply model (merge (tp t) (snd (partition pred p0))) (ms t) None x = ((l, info), ms (1 + t)) /\
        nth_error outs t = Some (OptInfo
          (match regularize_loss with Some reg => fadd l (reg (tp t)) | None => l end) info
          (if return_params then Some (merge (tp (1 + t)) (snd (partition pred p0))) else None)) /\
        let total_loss := fun q : pmap array =>
          let lq := fst (fst (t_apply model (merge q (snd (partition pred p0))) (ms t) None x)) in
          match regularize_loss with Some reg => fadd lq (reg q) | None => lq end in
        exists u q, opt_update opt (each_entry (made_finite fm) (grad total_loss (tp t))) (os t) = (u, os (1 + t)) /\
          moved (tp t) u q /\
          tp (1 + t) = match project_params with Some proj => proj q | None => q end.
Proof. exact @oo_run. Qed.
Print Assumptions C34_online_optimizer.

(** C34: a parameter rejected by the predicate has its initial value in every output, whatever the
    gradients, the optimiser and the projection do. *)
Theorem C34_non_trainable_unchanged :
  forall (K S X Info OS : Type) (split : K -> K * K) (fm : R)
    (model : transformed K (pmap array) S X (fl * Info)) (opt : gradient_transformation OS array)
    (project_params : option (pmap array -> pmap array)) (regularize_loss : option (pmap array -> fl))
    (pred : pkey -> array -> bool) (return_params : bool)
    (grad : (pmap array -> fl) -> pmap array -> pmap array)
    k x0 xs p0 s0 outs sF,
  t_init model (Some (snd (split k))) x0 = (p0, s0) -> NoDup (map fst p0) ->
    unroll split (OnlineOptimizer split fm model opt project_params regularize_loss pred return_params grad) false (Some k) None None (x0 :: xs) = Some (outs, sF) ->
    forall t o q key v, nth_error outs t = Some o -> out_params o = Some q ->
      get key p0 = Some v -> pred key v = false -> get key q = Some v.
Proof. exact @oo_non_trainable. Qed.
Print Assumptions C34_non_trainable_unchanged.

(** C34: the optimiser only ever receives finite gradients: its behaviour on others is irrelevant. *)
Theorem C34_only_finite_gradients :
  forall {K S X Info OS : Type} (split : K -> K * K) (fm : R)
    (model : transformed K (pmap array) S X (fl * Info)) (opt opt' : gradient_transformation OS array)
    project_params regularize_loss (pred : pkey -> array -> bool) (return_params : bool) grad rng params state xs,
  (forall p, opt_init opt p = opt_init opt' p) ->
  (forall g os, Forall (fun kv => Forall (fun v => isfinite v = true) (snd kv)) g ->
     opt_update opt g os = opt_update opt' g os) ->
  unroll split (OnlineOptimizer split fm model opt project_params regularize_loss pred return_params grad)
    false rng params state xs =
  unroll split (OnlineOptimizer split fm model opt' project_params regularize_loss pred return_params grad)
    false rng params state xs.
Proof. exact @oo_finite_grads. Qed.
Print Assumptions C34_only_finite_gradients.

(** C34: FuncOptimizer: trainable and non-trainable parameters come from two different keys, so from two
    different initialisations of func; functions with state are rejected. *)
Theorem C34_func_optimizer_init :
  forall (K S X Aux OS : Type) (split : K -> K * K) (has_state : S -> bool)
    (func : transformed K (pmap array) S X (fl * Aux)) (opt0 : pmap array -> OS)
    (pred : pkey -> array -> bool)
    k x p1 s1 p2 s2,
  t_init func (Some (snd (split k))) x = (p1, s1) ->
    t_init func (Some (snd (split (fst (split k))))) x = (p2, s2) ->
    fo_init split has_state func opt0 pred (Some k) x =
    if has_state s1 then None else
    Some (FOState (fst (partition pred p1)) (snd (partition pred p2), s2) (opt0 (fst (partition pred p1)))).
Proof. exact @fo_init_spec. Qed.
Print Assumptions C34_func_optimizer_init.

(** C34: FuncOptimizer: the result is that of func at the parameters before the update, the updated
    trainable parameters are returned and used by the next step, the others are constant; the optimiser
    receives the gradient of the value of func at the parameters before the update, with zeros in place of
    NaN and infinities when asked for. *)
Theorem C34_func_optimizer_step :
  forall (K S X Aux OS : Type) (split : K -> K * K)
    (func : transformed K (pmap array) S X (fl * Aux))
    (opt : OS -> pmap array -> pmap array -> pmap array * OS)
    (pred : pkey -> array -> bool) (fillg : bool)
    (grad : (pmap array -> fl) -> pmap array -> pmap array)
    st x res aux tp st',
  fo_step split func opt pred fillg grad st x = ((res, aux, tp), st') ->
    (exists s', t_apply func (merge (fo_trainable st) (fst (fo_update st))) (snd (fo_update st)) None x = ((res, aux), s')
       /\ fo_update st' = (fst (fo_update st), s')) /\
    fo_trainable st' = tp /\
    let value := fun q : pmap array => fst (fst (t_apply func (merge q (fst (fo_update st))) (snd (fo_update st)) None x)) in
    let g := grad value (fo_trainable st) in
    opt (fo_opt st) (fo_trainable st) (if fillg then each_entry zeroed g else g) = (tp, fo_opt st').
Proof. exact @fo_step_spec. Qed.
Print Assumptions C34_func_optimizer_step.

Example C34_example :
  let model := @Transformed unit (pmap array) unit fl (fl * unit)
    (fun _ _ => ([(("m", "w"), [Fin 1]); (("m", "b"), [Fin 5])], tt))%string
    (fun p s _ x => ((match get ("m", "w")%string p with Some [w] => fsub w x | _ => NaN end, tt), s)) in
  let sgd := @GradTrans unit array (fun _ => tt) (fun g s => (map (fun kv => (fst kv, map fneg (snd kv))) g, s)) in
  let pred := fun (k : pkey) (_ : array) => String.eqb (snd k) "w"%string in
  let grad := fun (_ : pmap array -> fl) (_ : pmap array) => [(("m", "w")%string, [Fin 2])] in
  exists o1 o2 sF,
  unroll (fun k => (k, k)) (OnlineOptimizer (fun k => (k, k)) 1000 model sgd None None pred true grad)
    false (Some tt) None None [Fin 0; Fin 3] = Some ([o1; o2], sF) /\
  option_map (get ("m", "b")%string) (out_params o2) = Some (Some [Fin 5]) /\
  option_map (get ("m", "w")%string) (out_params o2) = Some (Some [Fin (1 + - (2) + - (2))]).
Proof. do 3 eexists. split; [reflexivity|]. split; reflexivity. Qed.

Local Open Scope R_scope.

(** C35: the rank-one update of the inverse is exact on symmetric matrices ... *)
Theorem C35_sherman_morrison :
  forall n A H u v,
  inverse_of n A H -> symmetric n H -> 1 + vdot n (vecmat n u H) v <> 0 ->
  inverse_of n (mat_plus A (outer u v)) (sherman_morrison n H u v).
Proof. exact @sherman_morrison_inverse. Qed.
Print Assumptions C35_sherman_morrison.

(** ... and not in general: the denominator is 1 + u^T A^-1 v instead of 1 + v^T A^-1 u.  The optimiser
    only uses it with u = v. *)
Theorem C35_sherman_morrison_nonsymmetric_refuted :
   exists (A H : mat) (u v : vec), inverse_of 2 A H /\ 1 + vdot 2 (vecmat 2 u H) v <> 0 /\
    ~ inverse_of 2 (mat_plus A (outer u v)) (sherman_morrison 2 H u v).
Proof. exact @sherman_morrison_nonsym. Qed.
Print Assumptions C35_sherman_morrison_nonsymmetric_refuted.

(** C35: after any gradients the state is the inverse of eps I + sum of g g^T. *)
Theorem C35_newton_tracks_inverse :
  forall n eps gs us H,
  0 < eps ->
  newton_run n (newton_init eps n) gs = (us, H) ->
  inverse_of n (hessian eps (rev gs)) H /\ symmetric n H.
Proof. exact @newton_tracks_inverse. Qed.
Print Assumptions C35_newton_tracks_inverse.

(** C35: the denominator of the next step is at least 1. *)
Theorem C35_newton_denominator :
  forall n eps gs us H g,
  0 < eps ->
  newton_run n (newton_init eps n) gs = (us, H) ->
  1 <= 1 + vdot n (vecmat n g H) g.
Proof. exact @newton_denominator. Qed.
Print Assumptions C35_newton_denominator.

(** C35: the update u_t solves (eps I + sum_{s<=t} g_s g_s^T) u_t = g_t; it is never an ascent direction ... *)
Theorem C35_newton_step :
  forall n eps gs us H,
  0 < eps ->
  newton_run n (newton_init eps n) gs = (us, H) ->
  length us = length gs /\
  forall t g, nth_error gs t = Some g -> exists u, nth_error us t = Some u /\
    vec_eq n (matvec n (hessian eps (rev (firstn (t + 1) gs))) u) g /\
    eps * vdot n u u <= vdot n g u /\ 0 <= vdot n g u.
Proof. exact @newton_step_solves. Qed.
Print Assumptions C35_newton_step.

(** ... and a strict descent direction when the gradient is not null. *)
Theorem C35_newton_strict_descent :
  forall n eps gs us H t g u,
  0 < eps ->
  newton_run n (newton_init eps n) gs = (us, H) ->
  nth_error gs t = Some g -> nth_error us t = Some u ->
  (exists i, (i < n)%nat /\ g i <> 0) -> 0 < vdot n g u.
Proof. exact @newton_strict_descent. Qed.
Print Assumptions C35_newton_strict_descent.

(** C35: the final update is -learning_rate times that one. *)
Theorem C35_newton_learning_rate :
  forall lr n g h, 0 < lr ->
  (forall i, fst (newton_chain lr n g h) i = - (lr * fst (newton_update n g h) i)) /\
  snd (newton_chain lr n g h) = snd (newton_update n g h).
Proof. intros. unfold newton_chain. destruct (newton_update n g h). cbn. split; auto. intros; ring. Qed.
Print Assumptions C35_newton_learning_rate.

(** C35: each leaf of the parameter tree is handled alone. *)
Theorem C35_newton_leaves :
  forall gs hs k,
  length gs = length hs ->
  nth_error (newton_update_tree gs hs) k =
  match nth_error gs k, nth_error hs k with
  | Some g, Some h => Some (newton_update (fst g) (snd g) h)
  | _, _ => None
  end.
Proof. exact @newton_tree_leaf. Qed.
Print Assumptions C35_newton_leaves.

(** C35: a run on the whole tree is, leaf by leaf, the run of the leaf alone. *)
Theorem C35_newton_tree :
  forall dims gss k n gs, nth_error dims k = Some n -> forall eps,
  Forall (fun l => map fst l = dims) gss ->
  Forall2 (fun l g => nth_error l k = Some (n, g)) gss gs ->
  let t := newton_run_tree (newton_init_tree eps dims) gss in
  let r := newton_run n (newton_init eps n) gs in
  Forall2 (fun us u => nth_error us k = Some u) (fst t) (fst r) /\ nth_error (snd t) k = Some (snd r).
Proof. exact @newton_tree_run. Qed.
Print Assumptions C35_newton_tree.

Example C35_tree_example :
  let g : vec := fun _ => 1 in
  Forall (fun l => map fst l = [1; 2]%nat) [[(1, g); (2, g)]; [(1, g); (2, g)]]%nat /\
  Forall2 (fun (l : list (nat * vec)) g => nth_error l 1 = Some (2, g)%nat) [[(1, g); (2, g)]; [(1, g); (2, g)]]%nat [g; g].
Proof. split; repeat constructor. Qed.

Example C35_example :
  exists us H, newton_run 1 (newton_init 2 1) [fun _ => 1; fun _ => 3] = (us, H) /\ H 0%nat 0%nat = 1 / 12 /\
    map (fun u => u 0%nat) us = [1/3; 1/4].
Proof.
  do 2 eexists. split; [reflexivity|]. split.
  - unfold sherman_morrison, newton_init, eye, matmul, outer, vdot, vecmat. cbn. field; lra.
  - cbn. unfold matvec, sherman_morrison, newton_init, eye, matmul, outer, vdot, vecmat. cbn.
    f_equal; [field; lra|]. f_equal. field; lra.
Qed.
