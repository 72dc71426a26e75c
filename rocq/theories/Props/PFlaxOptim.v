(** Property theorems C77-C81: flax UpdateParams, OnlineOptimizer, FuncOptimizer, OnlineSupervisedLearner,
    apply_with_state and VMap.  [leaf_at p t]: the parameter at the path [p] of the nested dictionary [t]. *)
From Coq Require Import String Ascii List Reals Lra Bool.
From Verif Require Import Model.Float Model.Optim Model.FlaxModules Model.FlaxMore Model.FlaxOptim Spec.FlaxOptimSpec
  Proofs.FloatFacts Proofs.FlaxOptimProofs Proofs.FlaxOptimProofs2 Proofs.FlaxOptimProofs3.
Import ListNotations.
Local Open Scope list_scope.

(** Some parameters: a module with two arrays and one with a nested module. *)
Definition demo_params : list (string * ptree array) :=
  [("enc"%string, PDict [("w"%string, PLeaf [Fin 1]); ("b"%string, PLeaf [Fin 2])]);
   ("dec"%string, PDict [("sub"%string, PDict [("w"%string, PLeaf [Fin 3])])])].
Lemma no_slash_by_split s : split1 s = (s, []) -> no_slash s.
Proof.
  intros H a b E. subst s. change "/"%char with slash in H. revert H. induction a as [|c a IH]; cbn [String.append split1].
  - destruct (split1 b). discriminate.
  - destruct (split1 (String.append a (String slash b))) as [h r] eqn:E.
    destruct (Ascii.eqb c slash); [discriminate|]. intros H. injection H; intros -> ->. apply IH. reflexivity.
Qed.
Lemma demo_well_named : well_named (PDict demo_params).
Proof.
  repeat (constructor; cbn [map fst snd]); try (apply no_slash_by_split; reflexivity);
    cbn; intuition congruence.
Qed.

(** C77: each parameter is on exactly one side, according to the predicate on the first and the last name of its path. *)
Theorem C77_partition :
  forall (V : Type) predicate (kvs : list (string * ptree V)),
  well_named (PDict kvs) ->
    exists trainable non_trainable,
      partition_params predicate (PDict kvs) = Some (trainable, non_trainable) /\
      (forall p, leaf_at p trainable =
         match leaf_at p (PDict kvs) with
         | Some v => if chosen predicate p v then Some v else None | None => None end) /\
      (forall p, leaf_at p non_trainable =
         match leaf_at p (PDict kvs) with
         | Some v => if chosen predicate p v then None else Some v | None => None end).
Proof. exact @partition_leaves. Qed.
Print Assumptions C77_partition.

(** C77: a bare array is one parameter, with two empty names; all of it goes to one side, and the other side is empty. *)
Theorem C77_bare_array :
  forall (V : Type) (predicate : string -> string -> V -> bool) (v : V),
  (predicate ""%string ""%string v = true -> partition_params predicate (PLeaf v) = Some (PLeaf v, PDict [])) /\
  (predicate ""%string ""%string v = false -> partition_params predicate (PLeaf v) = Some (PDict [], PLeaf v)).
Proof. exact @partition_bare. Qed.
Print Assumptions C77_bare_array.

(** C77: merging back returns the chosen parameters and the others of the modules without any chosen parameter. *)
Theorem C77_merge :
  forall (V : Type) predicate (kvs : list (string * ptree V)) t n,
  well_named (PDict kvs) ->
    partition_params predicate (PDict kvs) = Some (t, n) ->
    forall p v, leaf_at p (merge_params t n) = Some v <->
      leaf_at p (PDict kvs) = Some v /\
      (chosen predicate p v = true \/ ~ trains predicate (PDict kvs) (hd ""%string p)).
Proof. exact @merge_leaves. Qed.
Print Assumptions C77_merge.

(** C77: nothing is lost when each top-level module is wholly trainable or wholly not ... *)
Theorem C77_roundtrip :
  forall (V : Type) predicate (kvs : list (string * ptree V)) t n,
  well_named (PDict kvs) ->
    (forall k p q v w, leaf_at (k :: p) (PDict kvs) = Some v -> leaf_at (k :: q) (PDict kvs) = Some w ->
       chosen predicate (k :: p) v = chosen predicate (k :: q) w) ->
    partition_params predicate (PDict kvs) = Some (t, n) ->
    same_params (merge_params t n) (PDict kvs).
Proof. exact @merge_roundtrip. Qed.
Print Assumptions C77_roundtrip.

(** ... and the other parameters of a module with a trainable one are lost. *)
Theorem C77_mixed_module_refuted :
  forall (V : Type) predicate (kvs : list (string * ptree V)) t n k p v,
  well_named (PDict kvs) ->
    partition_params predicate (PDict kvs) = Some (t, n) ->
    leaf_at (k :: p) (PDict kvs) = Some v -> chosen predicate (k :: p) v = false ->
    trains predicate (PDict kvs) k ->
    leaf_at (k :: p) (merge_params t n) = None.
Proof. exact @merge_lost. Qed.
Print Assumptions C77_mixed_module_refuted.

(** C77: a module name with a slash (as haiku makes them) is broken into nested names. *)
Theorem C77_slash_name_refuted :
  forall (V : Type) a b w (v : V),
  no_slash a -> no_slash b -> no_slash w ->
    partition_params (fun _ _ _ => true) (PDict [(join [a; b], PDict [(w, PLeaf v)])]) =
      Some (PDict [(a, PDict [(b, PDict [(w, PLeaf v)])])], PDict []).
Proof. exact @slash_split. Qed.
Print Assumptions C77_slash_name_refuted.

Example C77_example :
  well_named (PDict demo_params) /\
  partition_params (fun m _ _ => String.eqb m "dec") (PDict demo_params) =
    Some (PDict [("dec"%string, PDict [("sub"%string, PDict [("w"%string, PLeaf [Fin 3])])])],
          PDict [("enc"%string, PDict [("w"%string, PLeaf [Fin 1]); ("b"%string, PLeaf [Fin 2])])]) /\
  leaf_at ["enc"; "b"]%string (PDict demo_params) = Some [Fin 2] /\
  trains (fun _ n _ => String.eqb n "w") (PDict demo_params) "enc" /\
  chosen (fun _ n (_ : array) => String.eqb n "w") ["enc"; "b"]%string [Fin 2] = false.
Proof.
  split; [exact demo_well_named|]. split; [reflexivity|]. split; [reflexivity|]. split; [|reflexivity].
  exists ["w"%string], [Fin 1]. split; reflexivity.
Qed.

(** C78: one call: the loss and the gradients are those of the current parameters ([whole t]: the trainable modules [t] with the others; NaN and infinite gradients are made finite), the trainable modules are updated by the optimiser and projected, the other modules and collections are kept. *)
Theorem C78_step :
  forall (X Aux OS : Type) (fm : R) (model_init : X -> list (string * ptree array))
    (model_apply : ptree array -> list (string * ptree array) -> X -> fl * Aux) (opt : nested_optimizer OS)
    (project : option (ptree array -> ptree array)) (reg : option (fl -> ptree array -> Aux -> fl))
    (predicate : string -> string -> array -> bool) (sel : string -> bool) (grad : (ptree array -> fl) -> ptree array -> ptree array) (st : foo_state OS) x kvs,
  (forall k n v, predicate k n v = sel k) ->
    (forall f, project = Some f -> keeps_modules f) ->
    let current := match model_vars st with [] => model_init x | v => v end in
    sget "params" current = Some (PDict kvs) -> well_named (PDict kvs) ->
    exists y st' tp ntp (whole : ptree array -> ptree array) moved,
      foo_call fm model_init model_apply opt project reg predicate grad st x = Some (y, st') /\
      (forall p, leaf_at p tp = if sel (hd ""%string p) then leaf_at p (PDict kvs) else None) /\
      (forall p, leaf_at p ntp = if sel (hd ""%string p) then None else leaf_at p (PDict kvs)) /\
      (forall ts, NoDup (map fst ts) -> forall k p, leaf_at (k :: p) (whole (PDict ts)) =
         match sget k ts with Some m => leaf_at p m | None => leaf_at (k :: p) ntp end) /\
      same_params (whole tp) (PDict kvs) /\
      (foo_loss y, foo_aux y) = loss_of model_apply reg (whole tp) (other_collections current) x /\
      (forall p, leaf_at p (foo_grads y) = option_map (map (finite_value fm))
        (leaf_at p (grad (fun t => fst (loss_of model_apply reg (whole t) (other_collections current) x)) tp))) /\
      let upd := nopt_update opt (foo_grads y) (match foo_opt st with Some o => o | None => nopt_init opt tp end) tp in
      foo_opt st' = Some (snd upd) /\
      (forall p, leaf_at p moved =
         match leaf_at p tp with
         | Some v => Some (match leaf_at p (fst upd) with Some u => array_add v u | None => v end)
         | None => None end) /\
      (forall p, leaf_at p (foo_params y) =
         if sel (hd ""%string p) then leaf_at p (project_with project moved)
         else leaf_at p (PDict kvs)) /\
      model_vars st' = ("params"%string, foo_params y) :: other_collections current.
Proof. exact @online_step. Qed.
Print Assumptions C78_step.

(** C78: in a run, each loss is that of the parameters reported by the previous call (those of the initialisation first), the modules which are not selected keep their initial values, as the other collections do. *)
Theorem C78_run :
  forall (X Aux OS : Type) (fm : R) (model_init : X -> list (string * ptree array))
    (model_apply : ptree array -> list (string * ptree array) -> X -> fl * Aux) (opt : nested_optimizer OS)
    (project : option (ptree array -> ptree array)) (reg : option (fl -> ptree array -> Aux -> fl))
    (predicate : string -> string -> array -> bool) (sel : string -> bool) (grad : (ptree array -> fl) -> ptree array -> ptree array) x0 xs kvs,
  (forall k n v, predicate k n v = sel k) ->
    (forall f, project = Some f -> keeps_modules f) ->
    (forall others x, reads_params (fun P => loss_of model_apply reg P others x)) ->
    sget "params" (model_init x0) = Some (PDict kvs) -> well_named (PDict kvs) ->
    exists ys st, foo_calls fm model_init model_apply opt project reg predicate grad foo_start (x0 :: xs) = Some (ys, st) /\
      length ys = length (x0 :: xs) /\
      (forall t x y P, nth_error (x0 :: xs) t = Some x -> nth_error ys t = Some y ->
         nth_error (PDict kvs :: map foo_params ys) t = Some P ->
         (foo_loss y, foo_aux y) = loss_of model_apply reg P (other_collections (model_init x0)) x) /\
      (forall t y p, nth_error ys t = Some y -> sel (hd ""%string p) = false ->
         leaf_at p (foo_params y) = leaf_at p (PDict kvs)) /\
      other_collections (model_vars st) = other_collections (model_init x0).
Proof. exact @online_run. Qed.
Print Assumptions C78_run.

(** C78: with a memoryless optimiser each trainable array reported is the previous one plus the update of the reported gradient. *)
Theorem C78_sgd :
  forall {X Aux : Type} fm (model_init : X -> list (string * ptree array))
    (model_apply : ptree array -> list (string * ptree array) -> X -> fl * Aux) upd
    (reg : option (fl -> ptree array -> Aux -> fl)) predicate (sel : string -> bool) grad x0 xs kvs,
  (forall k n v, predicate k n v = sel k) ->
  sget "params" (model_init x0) = Some (PDict kvs) -> well_named (PDict kvs) ->
  exists ys st, foo_calls fm model_init model_apply (memoryless upd) None reg predicate grad foo_start (x0 :: xs)
                  = Some (ys, st) /\
    forall t y P p, nth_error ys t = Some y -> nth_error (PDict kvs :: map foo_params ys) t = Some P ->
      sel (hd ""%string p) = true ->
      leaf_at p (foo_params y) =
        match leaf_at p P with
        | Some v => Some (match leaf_at p (foo_grads y) with Some g => array_add v (upd g) | None => v end)
        | None => None
        end.
Proof. exact @online_sgd. Qed.
Print Assumptions C78_sgd.

(** C78: the gradients reported (and given to the optimiser) are finite. *)
Theorem C78_grads_finite :
  forall (X Aux OS : Type) (fm : R) (model_init : X -> list (string * ptree array))
    (model_apply : ptree array -> list (string * ptree array) -> X -> fl * Aux) (opt : nested_optimizer OS)
    (project : option (ptree array -> ptree array)) (reg : option (fl -> ptree array -> Aux -> fl))
    (predicate : string -> string -> array -> bool) (grad : (ptree array -> fl) -> ptree array -> ptree array) (st st' : foo_state OS) x y p a,
  foo_call fm model_init model_apply opt project reg predicate grad st x = Some (y, st') ->
    leaf_at p (foo_grads y) = Some a -> Forall (fun v => isfinite v = true) a.
Proof. exact @online_grads_finite. Qed.
Print Assumptions C78_grads_finite.

(** C78: with a predicate on parameter names, the frozen parameters of a module with a trainable one are missing from the first evaluation on. *)
Theorem C78_mixed_module_refuted :
  forall (X Aux OS : Type) (fm : R) (model_init : X -> list (string * ptree array))
    (model_apply : ptree array -> list (string * ptree array) -> X -> fl * Aux) (opt : nested_optimizer OS)
    (project : option (ptree array -> ptree array)) (reg : option (fl -> ptree array -> Aux -> fl))
    (predicate : string -> string -> array -> bool) (grad : (ptree array -> fl) -> ptree array -> ptree array) x0 kvs k p v,
  sget "params" (model_init x0) = Some (PDict kvs) -> well_named (PDict kvs) ->
    (forall f, project = Some f -> keeps_modules f) ->
    leaf_at (k :: p) (PDict kvs) = Some v -> chosen predicate (k :: p) v = false ->
    trains predicate (PDict kvs) k ->
    exists y st P,
      foo_call fm model_init model_apply opt project reg predicate grad foo_start x0 = Some (y, st) /\
      (foo_loss y, foo_aux y) = loss_of model_apply reg P (other_collections (model_init x0)) x0 /\
      leaf_at (k :: p) P = None /\
      (project = None -> leaf_at (k :: p) (foo_params y) = None).
Proof. exact @online_mixed_lost. Qed.
Print Assumptions C78_mixed_module_refuted.

(** C78: module names with a slash are not found by the model. *)
Theorem C78_slash_name_refuted :
  forall {X Aux OS : Type} fm (model_apply : ptree array -> list (string * ptree array) -> X -> fl * Aux)
    (opt : nested_optimizer OS) project reg grad a b w v x,
  no_slash a -> no_slash b -> no_slash w ->
  exists y st, foo_call fm (fun _ => [("params"%string, PDict [(join [a; b], PDict [(w, PLeaf v)])])])
                 model_apply opt project reg (fun _ _ _ => true) grad foo_start x = Some (y, st) /\
    (foo_loss y, foo_aux y) = loss_of model_apply reg (PDict [(a, PDict [(b, PDict [(w, PLeaf v)])])]) [] x.
Proof. exact @online_slash. Qed.
Print Assumptions C78_slash_name_refuted.

Definition demo_model (P : ptree array) (_ : list (string * ptree array)) (x : fl) : fl * unit :=
  (match leaf_at ["enc"; "w"]%string P, leaf_at ["dec"; "sub"; "w"]%string P with
   | Some [a], Some [b] => fmul x (fadd a b) | _, _ => NaN end, tt).
Example C78_example :
  (forall k (n : string) (v : array), (fun m (_ : string) (_ : array) => String.eqb m "enc") k n v = String.eqb k "enc") /\
  sget "params" [("params"%string, PDict demo_params)] = Some (PDict demo_params) /\
  keeps_modules (V := array) (fun t => t) /\
  (forall others x, reads_params (fun P => loss_of demo_model None P others x)) /\
  option_map (fun r => map (fun i => leaf_at ["enc"; "w"]%string (foo_params i)) (fst r))
    (foo_calls 1%R (fun _ => [("params"%string, PDict demo_params)]) demo_model (memoryless (fun g => map fneg g)) None None
      (fun m _ _ => String.eqb m "enc") (fun _ t => t) foo_start [Fin 5; Fin 6]) =
  Some [Some [fadd (Fin 1) (fneg (Fin 1))]; Some [fadd (fadd (Fin 1) (fneg (Fin 1))) (fneg (fadd (Fin 1) (fneg (Fin 1))))]].
Proof.
  split; [reflexivity|]. split; [reflexivity|]. split; [|split].
  - intros kvs W. exists kvs. auto.
  - intros others x a b E. unfold loss_of, demo_model. rewrite !E. reflexivity.
  - reflexivity.
Qed.

(** C79: with a plain function FuncOptimizer never learns: it evaluates the function, with empty gradients and no optimiser information. *)
Theorem C79_plain_function :
  forall {X Aux OS : Type} (f : X -> fl * Aux) (opt : nested_optimizer OS) predicate grad xs,
  ffo_calls (PlainFun f) opt predicate grad ffo_start xs =
    Some (map (fun x => FFOOut (fst (f x)) (snd (f x)) (PDict []) None) xs, ffo_start).
Proof. exact @func_plain. Qed.
Print Assumptions C79_plain_function.

(** C79: OnlineSupervisedLearner gives such a function: it never learns, whatever the model, the loss and the optimiser. *)
Theorem C79_learner_refuted :
  forall {I T Pd OS : Type} (model : I -> Pd) (loss_fn : Pd -> T -> fl)
  (opt : nested_optimizer OS) predicate grad xys,
  learner_calls model loss_fn opt predicate grad ffo_start xys =
    Some (map (fun xy => (model (fst xy), (loss_fn (model (fst xy)) (snd xy), PDict [], None))) xys).
Proof. exact @learner_never_learns. Qed.
Print Assumptions C79_learner_refuted.

(** C79: the predicate sees the names of the collections, not of the modules: one which selects none of them freezes everything. *)
Theorem C79_collection_filter :
  forall (X Aux OS : Type) (f_init : X -> list (string * ptree array)) (f_apply : ptree array -> X -> fl * Aux) (opt : nested_optimizer OS) (grad : (ptree array -> fl) -> ptree array -> ptree array) predicate (sel : string -> bool) x0 xs,
  (forall k n v, predicate k n v = sel k) ->
    (forall x, well_named (PDict (f_init x))) ->
    (forall x k, In k (map fst (f_init x)) -> sel k = false) ->
    (forall x, reads_params (fun P => f_apply P x)) ->
    exists st, ffo_calls (FlaxFun f_init f_apply) opt predicate grad ffo_start (x0 :: xs) =
      Some (map (fun x => FFOOut (fst (f_apply (PDict (f_init x0)) x)) (snd (f_apply (PDict (f_init x0)) x))
                                 (PDict []) None) (x0 :: xs), st).
Proof. exact @func_collection_filter. Qed.
Print Assumptions C79_collection_filter.

(** C79: the frozen parameters of a collection with a trainable one are missing from the evaluation. *)
Theorem C79_frozen_lost_refuted :
  forall (X Aux OS : Type) (f_init : X -> list (string * ptree array)) (f_apply : ptree array -> X -> fl * Aux) (opt : nested_optimizer OS) (grad : (ptree array -> fl) -> ptree array -> ptree array) predicate x0 k p v,
  well_named (PDict (f_init x0)) ->
    leaf_at (k :: p) (PDict (f_init x0)) = Some v -> chosen predicate (k :: p) v = false ->
    trains predicate (PDict (f_init x0)) k ->
    exists y st P, ffo_call (FlaxFun f_init f_apply) opt predicate grad ffo_start x0 = Some (y, st) /\
      (ffo_loss y, ffo_aux y) = f_apply P x0 /\ leaf_at (k :: p) P = None.
Proof. exact @func_frozen_lost. Qed.
Print Assumptions C79_frozen_lost_refuted.

(** C79: when everything is trainable each loss is that of the current variables, the gradients are those of the loss there, with zeros in place of NaN and infinities, and every array (of any collection) then moves by the update of the optimiser. *)
Theorem C79_all_trainable :
  forall (X Aux OS : Type) (f_init : X -> list (string * ptree array)) (f_apply : ptree array -> X -> fl * Aux) (grad : (ptree array -> fl) -> ptree array -> ptree array) (opt : nested_optimizer OS) x0 xs,
  well_named (PDict (f_init x0)) -> (exists p v, leaf_at p (PDict (f_init x0)) = Some v) ->
    exists ys st (variables : nat -> ptree array) (os : nat -> OS),
      ffo_calls (FlaxFun f_init f_apply) opt (fun _ _ _ => true) grad ffo_start (x0 :: xs) = Some (ys, st) /\
      length ys = length (x0 :: xs) /\
      same_params (variables 0) (PDict (f_init x0)) /\ os 0 = nopt_init opt (variables 0) /\
      forall t x y, nth_error (x0 :: xs) t = Some x -> nth_error ys t = Some y ->
        (ffo_loss y, ffo_aux y) = f_apply (variables t) x /\
        (exists value, (forall ts, value (PDict ts) = fst (f_apply (PDict ts) x)) /\
           forall p, leaf_at p (ffo_grads y) =
             option_map (map (fun v => if isfinite v then v else Fin 0%R)) (leaf_at p (grad value (variables t)))) /\
        ffo_info y = Some (os (S t)) /\
        exists u, nopt_update opt (ffo_grads y) (os t) (variables t) = (u, os (S t)) /\
          forall p, leaf_at p (variables (S t)) =
            match leaf_at p (variables t) with
            | Some v => Some (match leaf_at p u with Some d => array_add v d | None => v end)
            | None => None
            end.
Proof. exact @func_any_run. Qed.
Print Assumptions C79_all_trainable.

(** C79: with a memoryless optimiser every array moves by the update of its own gradient. *)
Theorem C79_sgd :
  forall (X Aux : Type) (f_init : X -> list (string * ptree array)) (f_apply : ptree array -> X -> fl * Aux) (grad : (ptree array -> fl) -> ptree array -> ptree array) upd x0 xs,
  well_named (PDict (f_init x0)) -> (exists p v, leaf_at p (PDict (f_init x0)) = Some v) ->
    exists ys st Ps,
      ffo_calls (FlaxFun f_init f_apply) (memoryless upd) (fun _ _ _ => true) grad ffo_start (x0 :: xs) = Some (ys, st) /\
      length ys = length (x0 :: xs) /\
      (forall P, nth_error Ps 0 = Some P -> same_params P (PDict (f_init x0))) /\
      (forall t x y, nth_error (x0 :: xs) t = Some x -> nth_error ys t = Some y ->
         exists P P', nth_error Ps t = Some P /\ nth_error Ps (S t) = Some P' /\
           (ffo_loss y, ffo_aux y) = f_apply P x /\
           (forall p, leaf_at p P' =
              match leaf_at p P with
              | Some v => Some (match leaf_at p (ffo_grads y) with Some g => array_add v (upd g) | None => v end)
              | None => None
              end)).
Proof. exact @func_all_run. Qed.
Print Assumptions C79_sgd.

(** C79: the gradients reported are finite. *)
Theorem C79_grads_finite :
  forall (X Aux OS : Type) (f_init : X -> list (string * ptree array)) (f_apply : ptree array -> X -> fl * Aux) (opt : nested_optimizer OS) (grad : (ptree array -> fl) -> ptree array -> ptree array) predicate (st st' : ffo_state OS) x y p a,
  ffo_call (FlaxFun f_init f_apply) opt predicate grad st x = Some (y, st') ->
    leaf_at p (ffo_grads y) = Some a -> Forall (fun v => isfinite v = true) a.
Proof. exact @func_grads_finite. Qed.
Print Assumptions C79_grads_finite.

Example C79_example :
  let f_init := fun _ : fl => [("params"%string, PDict demo_params)] in
  well_named (PDict (f_init NaN)) /\
  (exists p v, leaf_at p (PDict (f_init NaN)) = Some v) /\
  leaf_at ["params"; "enc"; "b"]%string (PDict (f_init NaN)) = Some [Fin 2] /\
  trains (fun _ n _ => String.eqb n "w") (PDict (f_init NaN)) "params" /\
  (forall k, In k (map fst (f_init NaN)) -> String.eqb k "enc" = false) /\
  learner_calls (fun x : fl => fmul x (Fin 2)) (fun p y => fsub p y) (memoryless (fun g => g)) (fun _ _ _ => true)
    (fun _ t => t) ffo_start [(Fin 1, Fin 5); (Fin 1, Fin 5)] =
  Some [(fmul (Fin 1) (Fin 2), (fsub (fmul (Fin 1) (Fin 2)) (Fin 5), PDict [], None));
        (fmul (Fin 1) (Fin 2), (fsub (fmul (Fin 1) (Fin 2)) (Fin 5), PDict [], None))].
Proof.
  cbv zeta. split; [|split; [|split; [|split; [|split]]]].
  - constructor; cbn [map fst].
    + constructor; [intros []|constructor].
    + constructor; [apply no_slash_by_split; reflexivity|constructor].
    + constructor; [exact demo_well_named|constructor].
  - exists ["params"; "enc"; "w"]%string, [Fin 1]. reflexivity.
  - reflexivity.
  - exists ["enc"; "w"]%string, [Fin 1]. split; reflexivity.
  - intros k [<-|[]]. reflexivity.
  - reflexivity.
Qed.

(** C80: for a parameter-free module, threading the variables returned gives the run of the module. *)
Theorem C80_parameter_free :
  forall {S X Y : Type} (m : flax_module S X Y) (same : list (string * S) -> list (string * S) -> bool) s xs,
  same [] [] = true ->
  apply_with_state_calls (state_only m) same [("state"%string, s)] xs =
    Some (fst (flax_calls m s xs), [("state"%string, snd (flax_calls m s xs))]).
Proof. exact @aws_state_only. Qed.
Print Assumptions C80_parameter_free.

(** C80: for a module with parameters and state, the variables returned have no parameters: the next call with them raises. *)
Theorem C80_params_lost_refuted :
  forall {C X Y : Type} (module_ : list (string * C) -> X -> option (Y * list (string * C)))
  (same : list (string * C) -> list (string * C) -> bool) v x y v',
  (forall v x, sget "params" v = None -> module_ v x = None) ->
  sget "state" v <> None \/ sget "cache" v <> None ->
  apply_with_state module_ same v x = Some (y, v') ->
  sget "params" v' = None /\ forall x', apply_with_state module_ same v' x' = None.
Proof. exact @aws_params_lost. Qed.
Print Assumptions C80_params_lost_refuted.

(** C80: without state nor cache the variables are returned as they are; a module which changes one raises. *)
Theorem C80_nothing_mutable :
  forall {C X Y : Type} (module_ : list (string * C) -> X -> option (Y * list (string * C)))
  (same : list (string * C) -> list (string * C) -> bool) v x,
  sget "state" v = None -> sget "cache" v = None ->
  apply_with_state module_ same v x =
    match module_ v x with Some (y, v') => if same v v' then Some (y, v) else None | None => None end.
Proof. exact @aws_nothing_mutable. Qed.
Print Assumptions C80_nothing_mutable.

Definition demo_bias (v : list (string * fl)) (x : fl) : option (fl * list (string * fl)) :=
  match sget "params" v, sget "state" v with
  | Some b, Some s => Some (fadd b s, sset "state" x v)
  | _, _ => None
  end.
Example C80_example :
  (forall v x, sget "params" v = None -> demo_bias v x = None) /\
  apply_with_state demo_bias (fun _ _ => true) [("params"%string, Fin 1); ("state"%string, Fin 2)] (Fin 7) =
    Some (fadd (Fin 1) (Fin 2), [("state"%string, Fin 7)]) /\
  apply_with_state_calls demo_bias (fun _ _ => true) [("params"%string, Fin 1); ("state"%string, Fin 2)] [Fin 7; Fin 8] = None.
Proof. split; [intros v x H; unfold demo_bias; rewrite H; reflexivity|]. split; reflexivity. Qed.

(** C81: with take_mean the result is the mean over the lanes ... *)
Theorem C81_mean :
  forall {X : Type} (f : X -> fl) (g : X -> R) x0 xs,
  (forall x, In x (x0 :: xs) -> f x = Fin (g x)) ->
  fvmap true f (x0 :: xs) = inr (Fin (fold_right Rplus 0%R (map g (x0 :: xs)) / INR (length (x0 :: xs)))%R).
Proof. exact @fvmap_mean. Qed.
Print Assumptions C81_mean.

(** ... one missing lane makes it missing ... *)
Theorem C81_nan :
  forall {X : Type} (f : X -> fl) xs x,
  In x xs -> f x = NaN -> fvmap true f xs = inr NaN.
Proof. exact @fvmap_nan. Qed.
Print Assumptions C81_nan.

(** ... as an empty batch does. *)
Theorem C81_empty :
  forall {X : Type} (f : X -> fl),
  fvmap true f [] = inr NaN.
Proof. exact @fvmap_empty. Qed.
Print Assumptions C81_empty.

Example C81_example : fvmap true (fun x => Fin (2 * x)%R) [1%R; 2%R] = inr (Fin 3).
Proof. rewrite (fvmap_mean _ (fun x => (2 * x)%R)) by reflexivity. cbn [map fold_right length INR]. do 2 f_equal. lra. Qed.
