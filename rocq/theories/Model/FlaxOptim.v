(** Models of /repo/src/wax/flax/modules/update_params.py, optax_optimizer.py, online_optimizer.py,
    func_optimizer.py, online_supervised_learner.py and of /repo/src/wax/flax/core/state_utils.py.

    Parameters are nested dictionaries with string keys; an array leaf is any value of type [V]. *)
From Coq Require Import String Ascii List Bool Reals.
From Verif Require Import Model.Float Model.Optim Model.FlaxModules.
Import ListNotations.
Local Open Scope list_scope.

(** A python dict with string keys: insertion order, distinct keys. *)
Fixpoint sget {A : Type} (k : string) (d : list (string * A)) : option A :=
  match d with
  | [] => None
  | (k', v) :: r => if String.eqb k k' then Some v else sget k r
  end.
(** d[k] = v *)
Fixpoint sset {A : Type} (k : string) (v : A) (d : list (string * A)) : list (string * A) :=
  match d with
  | [] => [(k, v)]
  | (k', v') :: r => if String.eqb k k' then (k', v) :: r else (k', v') :: sset k v r
  end.
(** d.update(e) *)
Definition dict_update {A : Type} (d e : list (string * A)) : list (string * A) :=
  fold_left (fun d kv => sset (fst kv) (snd kv) d) e d.

(** Nested dictionaries. *)
Inductive ptree (V : Type) := PLeaf (v : V) | PDict (kvs : list (string * ptree V)).
Arguments PLeaf {V}. Arguments PDict {V}.

(** sep.join(path) and key.split(sep), sep = "/" *)
Definition slash : ascii := "/"%char.
Fixpoint join (p : list string) : string :=
  match p with
  | [] => EmptyString
  | [a] => a
  | a :: r => String.append a (String slash (join r))
  end.
Fixpoint split1 (s : string) : string * list string :=
  match s with
  | EmptyString => (EmptyString, [])
  | String c s => let '(h, r) := split1 s in
                  if Ascii.eqb c slash then (EmptyString, h :: r) else (String c h, r)
  end.
Definition split (s : string) : list string := let '(h, r) := split1 s in h :: r.

Section Nested.
  Context {V : Type}.
  (** flax.traverse_util.flatten_dict (keep_empty_nodes=False): the leaves in order, empty dictionaries vanish *)
  Fixpoint leaves (prefix : list string) (t : ptree V) : list (list string * V) :=
    match t with
    | PLeaf v => [(prefix, v)]
    | PDict kvs => flat_map (fun kv => leaves (prefix ++ [fst kv]) (snd kv)) kvs
    end.
  (** ... with sep="/" *)
  Definition flatten_dict (kvs : list (string * ptree V)) : list (string * V) :=
    dict_update [] (map (fun pv => (join (fst pv), snd pv)) (leaves [] (PDict kvs))).
  (** one assignment of flax.traverse_util.unflatten_dict; [None]: an array is indexed by a string (an exception) *)
  Fixpoint pinsert (p : list string) (v : V) (t : ptree V) : option (ptree V) :=
    match p with
    | [] => Some (PLeaf v)
    | k :: r =>
        match t with
        | PLeaf _ => None
        | PDict kvs =>
            let cursor := match sget k kvs with Some c => c | None => PDict [] end in
            match pinsert r v cursor with
            | Some c => Some (PDict (sset k c kvs))
            | None => None
            end
        end
    end.
  Definition unflatten_dict (l : list (string * V)) : option (ptree V) :=
    fold_left (fun t kv => match t with Some t => pinsert (split (fst kv)) (snd kv) t | None => None end)
      l (Some (PDict [])).

  (** update_params.py lines 88-110 and online_optimizer.py lines 127-142, params a dictionary *)
  Definition fpartition (predicate : string -> string -> V -> bool) (kvs : list (string * ptree V))
    : option (ptree V * ptree V) :=
    let flat := flatten_dict kvs in
    let keep kv := let path := split (fst kv) in predicate (hd EmptyString path) (last path EmptyString) (snd kv) in
    match unflatten_dict (filter keep flat), unflatten_dict (filter (fun kv => negb (keep kv)) flat) with
    | Some t, Some n => Some (t, n)
    | _, _ => None
    end.

  (** update_params.py lines 72-110: partition_params, whatever params is *)
  Definition partition_params (predicate : string -> string -> V -> bool) (params : ptree V)
    : option (ptree V * ptree V) :=
    match params with
    | PLeaf v => Some (if predicate EmptyString EmptyString v then (params, PDict []) else (PDict [], params))
    | PDict kvs => fpartition predicate kvs
    end.

  (** {}.update(non_trainable); .update(trainable): update_params.py lines 132-136, online_optimizer.py
      lines 149-151 and 187-189.  Top-level keys only. *)
  Definition shallow_merge (trainable non_trainable : ptree V) : ptree V :=
    match trainable, non_trainable with
    | PDict a, PDict b => PDict (dict_update (dict_update [] b) a)
    | t, _ => t
    end.
  (** "not params" of a dictionary *)
  Definition is_empty (t : ptree V) : bool := match t with PDict [] => true | _ => false end.
  (** update_params.py lines 112-139 *)
  Definition merge_params (trainable non_trainable : ptree V) : ptree V :=
    if andb (is_empty trainable) (is_empty non_trainable) then PDict []
    else if is_empty trainable then non_trainable
    else if is_empty non_trainable then trainable
    else shallow_merge trainable non_trainable.

  (** jax.tree_util.tree_map *)
  Fixpoint ptree_map (f : list string -> V -> V) (prefix : list string) (t : ptree V) : ptree V :=
    match t with
    | PLeaf v => PLeaf (f prefix v)
    | PDict kvs => PDict (map (fun kv => (fst kv, ptree_map f (prefix ++ [fst kv]) (snd kv))) kvs)
    end.
  (** t[p0][p1]... *)
  Fixpoint leaf_at (p : list string) (t : ptree V) : option V :=
    match p, t with
    | [], PLeaf v => Some v
    | k :: r, PDict kvs => match sget k kvs with Some c => leaf_at r c | None => None end
    | _, _ => None
    end.
End Nested.

(** *** The optimisers; arrays are flattened ([Model/Optim.v]). *)
Section Online.
  Context {X Aux OS : Type}.
  Let tree := ptree array.
  (** optax.GradientTransformation on nested parameters *)
  Record nested_optimizer := NestedOpt {
    nopt_init : tree -> OS;
    nopt_update : tree -> OS -> tree -> tree * OS }.
  (** optax.apply_updates: p + u leaf by leaf.  Simplification: jax raises when the structures differ, the model
      leaves such a leaf unchanged. *)
  Definition nested_apply_updates (p u : tree) : tree :=
    ptree_map (fun path v => match leaf_at path u with
                             | Some uv => map (fun ab => fadd (fst ab) (snd ab)) (combine v uv)
                             | None => v
                             end) [] p.
  (** optax_optimizer.py lines 42-55: the optimiser state is created from the parameters of the first call
      ([None] before) *)
  Definition foptax_call (opt : nested_optimizer) (os : option OS) (params grads : tree) : tree * option OS :=
    let os := match os with Some os => os | None => nopt_init opt params end in
    let '(updates, os') := nopt_update opt grads os params in
    (nested_apply_updates params updates, Some os').

  (** The wrapped flax model: variables are collections by name.  [model_init x]: model.init(PRNGKey(0), x);
      [model_apply params state x]: model.apply({"params": params, **state}, x), a loss and auxiliary data (tuple
      handling, online_optimizer.py lines 156-165, is not modelled). *)
  Variables (fm : R) (model_init : X -> list (string * tree))
    (model_apply : tree -> list (string * tree) -> X -> fl * Aux)
    (opt : nested_optimizer)
    (project_params : option (tree -> tree)) (regularize_loss : option (fl -> tree -> Aux -> fl))
    (predicate : string -> string -> array -> bool)
    (** jax.grad *)
    (grad : (tree -> fl) -> tree -> tree).

  (** online_optimizer.py: the variables "model_vars" and the state of the optimiser *)
  Record foo_state := FOOState { model_vars : list (string * tree); foo_opt : option OS }.
  Record foo_info := FOOInfo { foo_loss : fl; foo_aux : Aux; foo_grads : tree; foo_params : tree }.
  (** jnp.nan_to_num on each leaf (line 177) *)
  Definition nested_nan_to_num (g : tree) : tree :=
    ptree_map (fun _ v => map (nan_to_num (Fin 0%R) (Fin fm) (Fin (- fm)%R)) v) [] g.

  (** online_optimizer.py lines 147-171: loss as a function of the trainable parameters *)
  Definition foo_loss_fn (non_trainable : tree) (state : list (string * tree)) (x : X) (tp : tree) : fl * Aux :=
    let merged := shallow_merge tp non_trainable in
    let '(loss, aux) := model_apply merged state x in
    (match regularize_loss with Some reg => reg loss merged aux | None => loss end, aux).

  (** online_optimizer.py lines 70-197.  [None]: an exception while partitioning. *)
  Definition foo_call (st : foo_state) (x : X) : option (foo_info * foo_state) :=
    let current := match model_vars st with [] => model_init x | v => v end in        (* 89-93 *)
    let '(params, state) :=                                                            (* 117-124 *)
      match sget "params" current with
      | Some p => (p, filter (fun kv => negb (String.eqb (fst kv) "params")) current)
      | None => (PDict current, [])
      end in
    match params with
    | PLeaf _ => None
    | PDict kvs =>
        match fpartition predicate kvs with                                            (* 144 *)
        | None => None
        | Some (tp, ntp) =>
            let f := foo_loss_fn ntp state x in
            let '(loss, aux) := f tp in                                                (* 174 *)
            let grads := nested_nan_to_num (grad (fun t => fst (f t)) tp) in
            let '(utp, os) := foptax_call opt (foo_opt st) tp grads in                 (* 180 *)
            let utp := match project_params with Some proj => proj utp | None => utp end in
            let updated := shallow_merge utp ntp in                                    (* 187-189 *)
            let vars := match sget "params" current with                               (* 192-195 *)
                        | Some _ => ("params"%string, updated) :: state
                        | None => match updated with PDict d => d | PLeaf _ => [] end
                        end in
            Some (FOOInfo loss aux grads updated, FOOState vars os)
        end
    end.
  (** Successive calls from the empty variables (line 84); [None] when one raises. *)
  Fixpoint foo_calls (st : foo_state) (xs : list X) : option (list foo_info * foo_state) :=
    match xs with
    | [] => Some ([], st)
    | x :: r => match foo_call st x with
                | None => None
                | Some (y, st1) => match foo_calls st1 r with
                                   | None => None
                                   | Some (ys, st2) => Some (y :: ys, st2)
                                   end
                end
    end.
  Definition foo_start : foo_state := FOOState [] None.
End Online.
Arguments NestedOpt {OS}. Arguments nopt_init {OS}. Arguments nopt_update {OS}.
Arguments foo_state : clear implicits. Arguments foo_info : clear implicits.
Arguments nested_optimizer : clear implicits.

(** *** func_optimizer.py *)
Section Func.
  Context {X Aux OS : Type}.
  Let tree := ptree array.
  (** fun: a flax module (init and apply on the whole dictionary of collections) or a plain function; the loss and
      the auxiliary data (has_aux=True; lines 113-124 only select the parts) *)
  Inductive opt_fun := FlaxFun (f_init : X -> list (string * tree)) (f_apply : tree -> X -> fl * Aux)
                     | PlainFun (f_call : X -> fl * Aux).
  Record ffo_state := FFOState { ffo_trainable : tree; ffo_non_trainable : option tree; ffo_opt : option OS }.
  Record ffo_out := FFOOut { ffo_loss : fl; ffo_aux : Aux; ffo_grads : tree; ffo_info : option OS }.
  Variables (func : opt_fun) (opt : nested_optimizer OS) (predicate : string -> string -> array -> bool)
    (grad : (tree -> fl) -> tree -> tree).
  (** fill_nan_inf.py (flax): NaN and infinities become 0 *)
  Definition nested_fill (g : tree) : tree :=
    ptree_map (fun _ v => map (nan_to_num (Fin 0%R) (Fin 0%R) (Fin 0%R)) v) [] g.
  (** func_optimizer.py lines 58-150.  An array parameter dictionary is never empty, so "not params" is [is_empty]. *)
  Definition ffo_call (st : ffo_state) (x : X) : option (ffo_out * ffo_state) :=
    let st1 :=                                                                         (* 74-92 *)
      if is_empty (ffo_trainable st) then
        match func with
        | FlaxFun f_init _ =>
            match fpartition predicate (f_init x) with
            | None => None
            | Some (t, n) => Some (FFOState t (match ffo_non_trainable st with Some n0 => Some n0 | None => Some n end)
                                            (ffo_opt st))
            end
        | PlainFun _ => Some (FFOState (PDict []) (ffo_non_trainable st) (ffo_opt st))
        end
      else Some st in
    match st1 with
    | None => None
    | Some st1 =>
        let loss_fn params :=                                                          (* 98-126 *)
          let merged := match ffo_non_trainable st1 with Some n => merge_params params n | None => params end in
          match func with FlaxFun _ f_apply => f_apply merged x | PlainFun f => f x end in
        if is_empty (ffo_trainable st1) then
          let '(loss, aux) := loss_fn (PDict []) in                                    (* 140-144 *)
          Some (FFOOut loss aux (PDict []) None, st1)
        else
          let '(loss, aux) := loss_fn (ffo_trainable st1) in                           (* 130 *)
          let grads := nested_fill (grad (fun t => fst (loss_fn t)) (ffo_trainable st1)) in
          let '(up, os) := foptax_call opt (ffo_opt st1) (ffo_trainable st1) grads in
          Some (FFOOut loss aux grads os, FFOState up (ffo_non_trainable st1) os)
    end.
  Fixpoint ffo_calls (st : ffo_state) (xs : list X) : option (list ffo_out * ffo_state) :=
    match xs with
    | [] => Some ([], st)
    | x :: r => match ffo_call st x with
                | None => None
                | Some (y, st1) => match ffo_calls st1 r with
                                   | None => None
                                   | Some (ys, st2) => Some (y :: ys, st2)
                                   end
                end
    end.
  Definition ffo_start : ffo_state := FFOState (PDict []) None None.
End Func.
Arguments opt_fun : clear implicits.
Arguments ffo_state : clear implicits. Arguments ffo_out : clear implicits.

(** online_supervised_learner.py lines 37-58 (the function given to FuncOptimizer: a closure, without init nor
    apply) and lines 60-81 *)
Definition learner_fun {I T Pd : Type} (model : I -> Pd) (loss_fn : Pd -> T -> fl) : opt_fun (I * T) Pd :=
  PlainFun (fun xy => let predictions := model (fst xy) in (loss_fn predictions (snd xy), predictions)).
Definition learner_call {I T Pd OS : Type} (model : I -> Pd) (loss_fn : Pd -> T -> fl) (opt : nested_optimizer OS)
  (predicate : string -> string -> array -> bool) (grad : (ptree array -> fl) -> ptree array -> ptree array)
  (st : ffo_state OS) (xy : I * T) : option ((Pd * (fl * ptree array * option OS)) * ffo_state OS) :=
  match ffo_call (learner_fun model loss_fn) opt predicate grad st xy with
  | None => None
  | Some (o, st') => Some ((ffo_aux o, (ffo_loss o, ffo_grads o, ffo_info o)), st')
  end.
Fixpoint learner_calls {I T Pd OS : Type} (model : I -> Pd) (loss_fn : Pd -> T -> fl) (opt : nested_optimizer OS)
  (predicate : string -> string -> array -> bool) (grad : (ptree array -> fl) -> ptree array -> ptree array)
  (st : ffo_state OS) (xys : list (I * T)) : option (list (Pd * (fl * ptree array * option OS))) :=
  match xys with
  | [] => Some []
  | xy :: r => match learner_call model loss_fn opt predicate grad st xy with
               | None => None
               | Some (o, st') => match learner_calls model loss_fn opt predicate grad st' r with
                                  | None => None
                                  | Some os => Some (o :: os)
                                  end
               end
  end.

(** *** core/state_utils.py lines 24-58.  [module]: the effect of a call on all the collections, [None] when it raises
    (a missing variable).  Module.apply with mutable collections returns these collections only, and raises when
    another collection is changed. *)
Section StateUtils.
  Context {C X Y : Type}.
  Let vars := list (string * C).
  Variable (module_ : vars -> X -> option (Y * vars)) (same : vars -> vars -> bool).
  Definition module_apply (mutable : list string) (v : vars) (x : X) : option (Y * vars) :=
    match module_ v x with
    | None => None
    | Some (y, v') =>
        let mut kv := existsb (String.eqb (fst kv)) mutable in
        if same (filter (fun kv => negb (mut kv)) v) (filter (fun kv => negb (mut kv)) v')
        then Some (y, filter mut v') else None
    end.
  Definition apply_with_state (v : vars) (x : X) : option (Y * vars) :=
    let mutable := (match sget "state" v with Some _ => ["state"%string] | None => [] end) ++
                   (match sget "cache" v with Some _ => ["cache"%string] | None => [] end) in
    match mutable with
    | [] => match module_apply [] v x with Some (y, _) => Some (y, v) | None => None end
    | _ => module_apply mutable v x
    end.
  (** successive calls, the returned variables being given to the next one *)
  Fixpoint apply_with_state_calls (v : vars) (xs : list X) : option (list Y * vars) :=
    match xs with
    | [] => Some ([], v)
    | x :: r => match apply_with_state v x with
                | None => None
                | Some (y, v1) => match apply_with_state_calls v1 r with
                                  | None => None
                                  | Some (ys, v2) => Some (y :: ys, v2)
                                  end
                end
    end.
End StateUtils.
