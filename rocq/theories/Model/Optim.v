(** Model of /repo/src/wax/modules/update_params.py, optax_optimizer.py, online_optimizer.py and
    func_optimizer.py.  Parameters are haiku dictionaries {module: {name: array}}: an association
    list from (module, name) to the flattened array. *)
From Coq Require Import String List Bool Reals.
From Verif Require Import Model.Unroll Model.Batch Model.Float.
Import ListNotations.
Local Open Scope list_scope.

Definition pkey : Type := (string * string)%type.
Definition pkey_eqb (a b : pkey) : bool := andb (String.eqb (fst a) (fst b)) (String.eqb (snd a) (snd b)).
Definition pmap (V : Type) : Type := list (pkey * V).

(** params[module][name] *)
Fixpoint get {V : Type} (k : pkey) (m : pmap V) : option V :=
  match m with
  | [] => None
  | (k', v) :: r => if pkey_eqb k k' then Some v else get k r
  end.
(** out[module][name] = v *)
Fixpoint set {V : Type} (k : pkey) (v : V) (m : pmap V) : pmap V :=
  match m with
  | [] => [(k, v)]
  | (k', v') :: r => if pkey_eqb k k' then (k, v) :: r else (k', v') :: set k v r
  end.

(** haiku.data_structures.partition, used by update_params.py lines 49 and 80 and
    online_optimizer.py line 112 *)
Definition partition {V : Type} (pred : pkey -> V -> bool) (m : pmap V) : pmap V * pmap V :=
  (filter (fun kv => pred (fst kv) (snd kv)) m, filter (fun kv => negb (pred (fst kv) (snd kv))) m).
(** haiku.data_structures.merge: entries are written in order *)
Definition merge {V : Type} (a b : pmap V) : pmap V :=
  fold_left (fun m kv => set (fst kv) (snd kv) m) (a ++ b) [].

Section Optim.
  Context {K S X Y V : Type} (split : K -> K * K).

  (** *** UpdateParams: update_params.py lines 41-66.  Input: (trainable_params, args).  The model has
      no parameter of its own; its state is (non_trainable_params, state).  Line 43: a key is drawn
      only while initialising, afterwards func runs without key. *)
  Definition update_params (pred : pkey -> V -> bool) (func : transformed K (pmap V) S X Y)
    : transformed K unit (pmap V * S) (pmap V * X) Y :=
    @Transformed K unit (pmap V * S) (pmap V * X) Y
      (fun rng tx =>
         let '(params, state) := t_init func (next_rng_key split rng) (snd tx) in
         (tt, (snd (partition pred params), state)))
      (fun _ st _ tx =>
         let '(non_trainable, state) := st in
         let params := merge (fst tx) non_trainable in
         let '(res, state') := t_apply func params state None (snd tx) in
         (res, (non_trainable, state'))).

  (** update_params.py lines 69-85 with a predicate: hk.transform raises ([None]) when func has
      state; [has_state s]: the state dictionary is not empty *)
  Definition get_init_params (has_state : S -> bool) (pred : pkey -> V -> bool)
    (func : transformed K (pmap V) S X Y) (init_rng : option K) (x : X) : option (pmap V) :=
    let '(params, state) := t_init func init_rng x in
    if has_state state then None else Some (fst (partition pred params)).
End Optim.

(** optax.GradientTransformation *)
Record gradient_transformation (OS V : Type) := GradTrans {
  opt_init : pmap V -> OS;
  opt_update : pmap V -> OS -> pmap V * OS }.
Arguments GradTrans {OS V}. Arguments opt_init {OS V}. Arguments opt_update {OS V}.

Section Online.
  Context {K S X Info OS : Type} (split : K -> K * K).
  Definition array := list fl.
  (** optax.apply_updates: p + u entry by entry.  Simplification: the code raises when the
      structures of params and updates differ, the model leaves such an entry unchanged. *)
  Definition apply_updates (p u : pmap array) : pmap array :=
    map (fun kv => (fst kv, match get (fst kv) u with
                            | Some uv => map (fun ab => fadd (fst ab) (snd ab)) (combine (snd kv) uv)
                            | None => snd kv
                            end)) p.

  (** optax_optimizer.py lines 30-35, one call with the current optimiser state *)
  Definition optax_optimizer (opt : gradient_transformation OS array) (os : OS)
    (params grads : pmap array) : pmap array * OS :=
    let '(updates, os') := opt_update opt grads os in
    (apply_updates params updates, os').

  (** online_optimizer.py lines 33-36, 120 and optax_optimizer.py line 31: the state *)
  Record oo_state := OOState {
    trainable_params : pmap array; non_trainable_params : pmap array; model_state : S;
    oo_step : nat; opt_state : OS }.
  (** online_optimizer.py lines 39-64 *)
  Record opt_info := OptInfo { loss : fl; model_info : Info; out_params : option (pmap array) }.

  Variables (fm : R) (model : transformed K (pmap array) S X (fl * Info))
    (opt : gradient_transformation OS array)
    (project_params : option (pmap array -> pmap array))
    (regularize_loss : option (pmap array -> fl))
    (pred : pkey -> array -> bool) (return_params : bool).
  (** jax.grad of a function of the trainable parameters *)
  Variable grad : (pmap array -> fl) -> pmap array -> pmap array.

  (** online_optimizer.py lines 108-119 and optax_optimizer.py line 31.  A key is required while
      initialising (line 110). *)
  Definition oo_init (rng : option K) (x : X) : oo_state :=
    let '(params, state) := t_init model (next_rng_key split rng) x in
    let '(tp, ntp) := partition pred params in
    OOState tp ntp state 0 (opt_init opt tp).

  (** online_optimizer.py lines 122-127 *)
  Definition oo_loss (ntp : pmap array) (state : S) (x : X) (tp : pmap array)
    : fl * (Info * pmap array * S) :=
    let params := merge tp ntp in
    let '((l, info), state') := t_apply model params state None x in
    let l := match regularize_loss with Some reg => fadd l (reg tp) | None => l end in
    (l, (info, params, state')).

  (** jnp.nan_to_num *)
  Definition fill (g : pmap array) : pmap array :=
    map (fun kv => (fst kv, map (nan_to_num (Fin 0%R) (Fin fm) (Fin (- fm)%R)) (snd kv))) g.

  (** online_optimizer.py lines 129-158 *)
  Definition oo_step_fn (st : oo_state) (x : X) : opt_info * oo_state :=
    let f := oo_loss (non_trainable_params st) (model_state st) x in
    let '(l, (info, _, state')) := f (trainable_params st) in
    let grads := grad (fun tp => fst (f tp)) (trainable_params st) in
    let filled_grads := fill grads in
    let '(tp, os) := optax_optimizer opt (opt_state st) (trainable_params st) filled_grads in
    let tp := match project_params with Some proj => proj tp | None => tp end in
    let updated_params := merge tp (non_trainable_params st) in
    (OptInfo l info (if return_params then Some updated_params else None),
     OOState tp (non_trainable_params st) state' (oo_step st + 1) os).

  Definition OnlineOptimizer : transformed K unit oo_state X opt_info :=
    @Transformed K unit oo_state X opt_info (fun rng x => (tt, oo_init rng x))
      (fun _ st _ x => oo_step_fn st x).
End Online.

Section Func.
  Context {K S X Aux OS : Type} (split : K -> K * K).
  Variables (has_state : S -> bool) (func : transformed K (pmap array) S X (fl * Aux))
    (opt : OS -> pmap array -> pmap array -> pmap array * OS) (opt0 : pmap array -> OS)
    (pred : pkey -> array -> bool) (grads_fill_nan_inf : bool)
    (grad : (pmap array -> fl) -> pmap array -> pmap array).

  Record fo_state := FOState {
    fo_trainable : pmap array; fo_update : pmap array * S; fo_opt : OS }.

  (** func_optimizer.py lines 58-66, during init: the trainable parameters come from a first key
      (get_init_params), the others from a second one (UpdateParams). *)
  Definition fo_init (rng : option K) (x : X) : option fo_state :=
    match get_init_params has_state pred func (next_rng_key split rng) x with
    | None => None
    | Some tp =>
        let rng2 := option_map (fun k => fst (split k)) rng in
        Some (FOState tp (snd (t_init (update_params split pred func) rng2 (tp, x))) (opt0 tp))
    end.

  (** func_optimizer.py lines 67-77 *)
  Definition fo_step (st : fo_state) (x : X) : (fl * Aux * pmap array) * fo_state :=
    let U := update_params split pred func in
    let '((res, aux), us) := t_apply U tt (fo_update st) None (fo_trainable st, x) in
    let grads := grad (fun tp => fst (fst (t_apply U tt (fo_update st) None (tp, x)))) (fo_trainable st) in
    let grads := if grads_fill_nan_inf
                 then map (fun kv => (fst kv, map (nan_to_num (Fin 0%R) (Fin 0%R) (Fin 0%R)) (snd kv))) grads
                 else grads in
    let '(tp, os) := opt (fo_opt st) (fo_trainable st) grads in
    ((res, aux, tp), FOState tp us os).
End Func.
